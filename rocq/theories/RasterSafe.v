(** Rasterization in any arithmetic: which spans it can insert, which errors it can
    return. *)
From Coq Require Import QArith.
From Verif Require Import Base ModelMath ModelHeightfield ModelTriMesh ModelRasterize FlowProofs.
Local Open Scope Z_scope.

Lemma safe_get {A C} (l : list A) i (k : A → outcome C) Q : (∀ a, l !! i = Some a → ends True (k a) Q) → ends True (obind (get l i) k) Q.
Proof. intros H. unfold get. destruct (l !! i) as [a|] eqn:E; cbn; [by apply H|done]. Qed.
Lemma safe_put {A C} (l : list A) i a (k : list A → outcome C) Q :
  (∀ l', length l' = length l → (i < length l)%nat → ends True (k l') Q) → ends True (obind (put l i a) k) Q.
Proof.
  intros H. destruct (decide (i < length l)%nat) as [Hi|Hi].
  - rewrite put_lt by done. cbn. apply H; [by rewrite insert_length|done].
  - unfold put. rewrite lookup_ge_None_2 by lia. done.
Qed.
Lemma safe_chk {C} lo hi v (k : Z → outcome C) Q : (lo <= v <= hi → ends True (k v) Q) → ends True (obind (chk lo hi v) k) Q.
Proof.
  intros H. destruct (decide (lo <= v <= hi)) as [Hi|Hi].
  - rewrite chk_in by done. by apply H.
  - unfold chk. destruct ((lo <=? v) && (v <=? hi)) eqn:E; [apply andb_true_iff in E; lia|]. done.
Qed.
Lemma safe_clamp {C} v lo hi (k : Z → outcome C) Q : (lo <= hi → ends True (k (sat lo hi v)) Q) → ends True (obind (clamp_Z v lo hi) k) Q.
Proof. intros H. unfold clamp_Z. destruct (hi <? lo) eqn:E; [done|]. cbn. apply H. lia. Qed.

Lemma foldE_safe {A U} (f : A → U → outcome (option U)) (J : U → Prop) l : ∀ u, J u →
  (∀ a u, a ∈ l → J u → ends True (f a u) (λ r, ∃ u', r = Some u' ∧ J u')) → ends True (foldE f l u) (λ r, ∃ u', r = Some u' ∧ J u').
Proof.
  induction l as [|a l IH]; intros u Hu Hf; cbn [foldE].
  - by exists u.
  - eapply ends_bind; [apply Hf; [left|done]|]. intros r (u' & -> & Hu'). apply IH; [done|]. intros b v Hb. apply Hf. by right.
Qed.
Lemma z_range_in a b k : k ∈ z_range a b → a <= k <= b.
Proof.
  unfold z_range. intros Hk. apply elem_of_list_fmap in Hk as (i & -> & Hi). apply elem_of_seq in Hi. lia.
Qed.

Section Safe.
Context {T : Type} (ar : arith T).
Local Notation poly := (list (pt T)).

Lemma divide_step_safe inv ds a (o1 o2 : poly) n1 n2 b : (n1 <= length o1)%nat → (n2 <= length o2)%nat →
  ends True (divide_step ar inv ds a ((o1, n1), (o2, n2), b)) (λ '((o1', n1'), (o2', n2'), _),
    length o1' = length o1 ∧ length o2' = length o2 ∧ (n1' <= length o1)%nat ∧ (n2' <= length o2)%nat).
Proof.
  intros H1 H2. unfold divide_step. apply safe_get. intros da _. apply safe_get. intros db _. apply safe_get. intros va _.
  destruct (negb _).
  - apply safe_get. intros vb _. apply safe_put. intros l1 L1 B1. apply safe_put. intros l2 L2 B2. destruct (n_lt ar _ da).
    + apply safe_put. intros l3 L3 B3. cbn. repeat split; lia.
    + destruct (n_lt ar da _).
      * apply safe_put. intros l3 L3 B3. cbn. repeat split; lia.
      * cbn. repeat split; lia.
  - destruct (n_le ar _ da).
    + apply safe_put. intros l1 L1 B1. destruct (negb _).
      * cbn. repeat split; lia.
      * apply safe_put. intros l2 L2 B2. cbn. repeat split; lia.
    + apply safe_put. intros l2 L2 B2. cbn. repeat split; lia.
Qed.

Lemma divide_safe inv n (o1 o2 : poly) n1 n2 off ax : (n <= 12)%nat → (n1 <= length o1)%nat → (n2 <= length o2)%nat →
  ends True (divide_poly ar inv n o1 n1 o2 n2 off ax) (λ r, ∃ o1' n1' o2' n2', r = Some ((o1', n1'), (o2', n2')) ∧
    length o1' = length o1 ∧ length o2' = length o2 ∧ (n1' <= length o1)%nat ∧ (n2' <= length o2)%nat).
Proof.
  intros Hn H1 H2. unfold divide_poly. destruct (12 <? n)%nat eqn:E; [apply Nat.ltb_lt in E; lia|]. destruct (n =? 0)%nat eqn:E0.
  { cbn. exists o1, n1, o2, n2. done. }
  eapply (ends_bind True _ _ (λ _, True)).
  { eapply ends_mono; [apply (ends_mapM True _ _ (λ _ _, True))|done]. intros i a _. apply safe_get. done. }
  intros ds _. eapply ends_bind.
  - apply (ends_keep True (λ '((o1', n1'), (o2', n2'), _), length o1' = length o1 ∧ length o2' = length o2 ∧ (n1' <= length o1)%nat ∧ (n2' <= length o2)%nat)).
    + repeat split; lia.
    + intros a [[[o1' n1'] [o2' n2']] b] _ (A & B & C & D). eapply ends_mono; [apply divide_step_safe; lia|].
      intros [[[o1'' n1''] [o2'' n2'']] b'] (A' & B' & C' & D'). rewrite A in *. rewrite B in *. done.
  - intros [[[o1' n1'] [o2' n2']] b] (A & B & C & D). cbn. by exists o1', n1', o2', n2'.
Qed.

Lemma extent_safe c (buf : poly) n : ends True (extent ar c buf n) (λ _, True).
Proof.
  unfold extent. apply safe_get. intros v _. apply (ends_keep True (λ _, True)); [done|]. intros i [lo hi] _ _. apply safe_get. done.
Qed.
Lemma heights_safe g (buf : poly) n : ends True (span_heights ar g buf n) (λ r, ∀ a b, r = Some (a, b) → 0 <= a < b ∧ b <= 65535).
Proof.
  unfold span_heights. eapply ends_bind; [apply extent_safe|]. intros [lo hi] _. destruct (_ || _); [done|].
  apply safe_clamp. intros _. apply safe_clamp. intros Hle. cbn. intros a b [= <- <-]. unfold sat in *. lia.
Qed.

Section Emit.
Context {S : Type} (emit : Z → Z → Z → Z → S → outcome (option S)) (I : S → Prop) (w h : Z).
Context (Hemit : ∀ x z a b s, 0 <= x < w → 0 <= z < h → 0 <= a < b → b <= 65535 → I s → ends True (emit x z a b s) (λ r, ∃ s', r = Some s' ∧ I s')).

Definition cell_safe (st : poly * nat * (poly * nat) * poly * S) : Prop :=
  let '((row, nv2), (p1, nv), p2, s) := st in
  length row = 7%nat ∧ length p1 = 7%nat ∧ length p2 = 7%nat ∧ (nv2 <= 7)%nat ∧ (nv <= 7)%nat ∧ I s.
Lemma cell_step_safe g z x st : 0 <= z < h → x < w → cell_safe st → ends True (cell_step ar emit g z x st) (λ r, ∃ st', r = Some st' ∧ cell_safe st').
Proof.
  destruct st as [[[[row nv2] [p1 nv]] p2] s]. intros Hz Hx (L1 & L2 & L3 & N1 & N2 & Hs). unfold cell_step.
  eapply ends_bind; [apply divide_safe; lia|]. intros r (o1 & n1 & o2 & n2 & -> & A & B & C & D).
  assert (∀ s', I s' → ∃ st', Some (o2, n2, (o1, n1), row, s') = Some st' ∧ cell_safe st') as Hend.
  { intros s' Hs'. eexists. split; [done|]. split; [lia|]. split; [lia|]. split; [lia|]. split; [lia|]. split; [lia|]. done. }
  destruct ((n1 <? 3)%nat || (x <? 0)) eqn:E; [by apply Hend|]. eapply ends_bind; [apply heights_safe|].
  intros [[a b]|] Hr; [|by apply Hend]. destruct (Hr a b eq_refl). eapply ends_bind; [apply Hemit; [lia|done|done|done|done]|].
  intros r (s' & -> & Hs'). by apply Hend.
Qed.

Definition row_safe (st : poly * nat * (poly * nat) * (poly * poly) * S) : Prop :=
  let '((tri, nvt), (row, nvr), (p1, p2), s) := st in
  length tri = 7%nat ∧ length row = 7%nat ∧ length p1 = 7%nat ∧ length p2 = 7%nat ∧ (nvt <= 7)%nat ∧ (nvr <= 7)%nat ∧ I s.
Lemma row_step_safe g z st : z < h → row_safe st → ends True (row_step ar emit g w z st) (λ r, ∃ st', r = Some st' ∧ row_safe st').
Proof.
  destruct st as [[[[tri nvt] [row nvr]] [p1 p2]] s]. intros Hz (L1 & L2 & L3 & L4 & N1 & N2 & Hs). unfold row_step.
  eapply ends_bind; [apply divide_safe; lia|]. intros r (o1 & n1 & o2 & n2 & -> & A & B & C & D).
  assert (∀ row' p1' p2' s', length row' = 7%nat → length p1' = 7%nat → length p2' = 7%nat → I s' →
    ∃ st', Some (o2, n2, (row', n1), (p1', p2'), s') = Some st' ∧ row_safe st') as Hend.
  { intros row' p1' p2' s' A1 A2 A3 Hs'. eexists. split; [done|]. split; [lia|]. split; [lia|]. split; [lia|]. split; [lia|]. split; [lia|]. split; [lia|]. done. }
  destruct ((n1 <? 3)%nat || (z <? 0)) eqn:E; [by apply Hend; lia || done|].
  eapply ends_bind; [apply extent_safe|]. intros [mnx mxx] _. destruct ((_ <? 0) || (w <=? _)); [by apply Hend; lia || done|].
  apply safe_chk. intros _. apply safe_clamp. intros _. apply safe_clamp. intros Hle. eapply ends_bind.
  - apply (foldE_safe _ cell_safe).
    + split; [lia|]. split; [lia|]. split; [lia|]. split; [lia|]. split; [lia|]. done.
    + intros x st Hx. apply cell_step_safe; [lia|]. apply z_range_in in Hx. unfold sat in Hx. lia.
  - intros r (st & -> & Hst). destruct st as [[[[row' nv2'] [p1' nv']] p2'] s']. destruct Hst as (A1 & A2 & A3 & A4 & A5 & Hs').
    by apply Hend.
Qed.
End Emit.

Lemma rasterize_safe {S} (emit : Z → Z → Z → Z → S → outcome (option S)) (I : S → Prop) width height g t s :
  (∀ x z a b s, 0 <= x < wrap_i16 width → 0 <= z < wrap_i16 height → 0 <= a < b → b <= 65535 → I s → ends True (emit x z a b s) (λ r, ∃ s', r = Some s' ∧ I s')) →
  I s → ends True (rasterize_tri ar emit width height g t s) (λ r, ∃ s', r = Some s' ∧ I s').
Proof.
  intros Hemit Hs. unfold rasterize_tri. destruct (negb _); [by exists s|].
  apply safe_chk. intros _. apply safe_clamp. intros _. apply safe_clamp. intros Hle. eapply ends_bind.
  - apply (foldE_safe _ (row_safe I)).
    + split; [done|]. split; [done|]. split; [done|]. split; [done|]. split; [lia|]. split; [lia|]. done.
    + intros z st Hz. apply (row_step_safe emit I _ (wrap_i16 height) Hemit). apply z_range_in in Hz. unfold sat in Hz. lia.
  - intros r ([[[[tri nvt] [row nvr]] [p1 p2]] s'] & -> & Hst). destruct Hst as (_ & _ & _ & _ & _ & _ & Hs'). cbn. by exists s'.
Qed.
End Safe.
