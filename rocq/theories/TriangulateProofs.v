(** Proofs about the triangulation: every run cuts ears, and cutting ears gives a
    triangulation in the sense of [SpecPoly]. *)
From Verif Require Import Base ModelMath ModelContours ModelPoly SpecPoly FlowProofs.
Local Open Scope Z_scope.

(** ** Closed polygons *)

Section paths.
Context {A : Type}.
Implicit Types (l p q : list A) (a b c : A).

Fixpoint path (a : A) (l : list A) : list (A * A) :=
  match l with [] => [] | b :: l' => (a, b) :: path b l' end.

Lemma cycle_path a l : cycle_edges (a :: l) = path a (l ++ [a]).
Proof.
  unfold cycle_edges.
  assert (∀ c l a, zip (a :: l) (l ++ [c]) = path a (l ++ [c])) as H.
  { intros c0 l0. induction l0 as [|x l0 IH]; intros a0; [done|]. cbn. f_equal. apply (IH x). }
  apply H.
Qed.

Lemma path_app a b p q : path a (p ++ b :: q) = path a (p ++ [b]) ++ path b q.
Proof. revert a. induction p as [|x p IH]; intros a; [done|]. cbn. f_equal. apply IH. Qed.

Lemma path_ends a l e : e ∈ path a l → e.1 ∈ a :: l ∧ e.2 ∈ l.
Proof.
  revert a. induction l as [|x l IH]; intros a He; [by apply elem_of_nil in He|].
  cbn in He. apply elem_of_cons in He as [-> | He].
  - cbn. split; [left|left].
  - apply IH in He as [H1 H2]. split; [by right|by right].
Qed.
(** The start of an edge is the start or an element that is not the last. *)
Lemma path_start a l b e : e ∈ path a (l ++ [b]) → e.1 ∈ a :: l.
Proof.
  revert a. induction l as [|x l IH]; intros a He.
  - cbn in He. apply elem_of_list_singleton in He as ->. left.
  - cbn in He. apply elem_of_cons in He as [-> | He]; [left|]. apply IH in He. by right.
Qed.

Lemma cycle_rotation l l' : rotation l l' → cycle_edges l ≡ₚ cycle_edges l'.
Proof.
  intros (p & q & -> & ->). destruct p as [|a p]; [by rewrite app_nil_r|].
  destruct q as [|b q]; [by rewrite app_nil_r|].
  cbn [app]. rewrite !cycle_path. rewrite <- !app_assoc. cbn [app].
  rewrite (path_app a b p (q ++ [a])), (path_app b a q (p ++ [b])). apply Permutation_app_comm.
Qed.
Lemma rotation_perm l l' : rotation l l' → l ≡ₚ l'.
Proof. intros (p & q & -> & ->). apply Permutation_app_comm. Qed.
Lemma rotation_refl l : rotation l l.
Proof. exists [], l. by rewrite app_nil_r. Qed.
Lemma rotation_sym l l' : rotation l l' → rotation l' l.
Proof. intros (p & q & -> & ->). by exists q, p. Qed.

Lemma cycle_ends l e : e ∈ cycle_edges l → e.1 ∈ l ∧ e.2 ∈ l.
Proof.
  destruct l as [|a l]; [intros H; by apply elem_of_nil in H|].
  rewrite cycle_path. intros He. pose proof (path_start _ _ _ _ He).
  apply path_ends in He as [_ H2]. split; [done|].
  apply elem_of_app in H2 as [H2|H2]; [by right|]. apply elem_of_list_singleton in H2 as ->. left.
Qed.

Lemma elem_of_concat {B} (x : B) (ls : list (list B)) : x ∈ concat ls ↔ ∃ l : list B, x ∈ l ∧ l ∈ ls.
Proof.
  rewrite elem_of_list_In, in_concat. split; intros (l & H1 & H2); exists l; [|split; by apply elem_of_list_In].
  by split; apply elem_of_list_In.
Qed.

(** Cutting ears. *)
Inductive cuts : list A → list (A * A * A) → Prop :=
| cuts_tri a b c : cuts [a; b; c] [(a, b, c)]
| cuts_ear l l' a b c q ts : q ≠ [] → rotation l (a :: b :: c :: q) → rotation l' (a :: c :: q) →
    cuts l' ts → cuts l ((a, b, c) :: ts).

Lemma flip_flip (e : A * A) : flip (flip e) = e.
Proof. by destruct e. Qed.
Lemma elem_of_flip (e : A * A) (ds : list (A * A)) : e ∈ flip <$> ds ↔ flip e ∈ ds.
Proof.
  rewrite elem_of_list_fmap. split.
  - intros (y & -> & ?). by rewrite flip_flip.
  - intros ?. exists (flip e). by rewrite flip_flip.
Qed.

Lemma not_back a c q : q ≠ [] → NoDup (a :: c :: q) → (c, a) ∉ cycle_edges (a :: c :: q).
Proof.
  intros Hq Hnd Hin. destruct q as [|x q]; [done|].
  apply NoDup_cons in Hnd as [Ha Hnd]. apply NoDup_cons in Hnd as [Hc _].
  rewrite cycle_path in Hin. cbn [app path] in Hin.
  apply elem_of_cons in Hin as [Hin|Hin]; [injection Hin as ->; apply Ha; left|].
  apply elem_of_cons in Hin as [Hin|Hin]; [injection Hin as ->; apply Ha; right; left|].
  apply (path_start x q a) in Hin. cbn in Hin. by apply Hc.
Qed.

(** ** Hanging together *)

Lemma edges_of_mem (ps : list (list A)) e : e ∈ edges_of ps ↔ ∃ p, p ∈ ps ∧ e ∈ cycle_edges p.
Proof.
  unfold edges_of. rewrite elem_of_concat. split.
  - intros (es & He & (p & -> & Hp)%elem_of_list_fmap). eauto.
  - intros (p & Hp & He). exists (cycle_edges p). split; [done|]. by apply elem_of_list_fmap_1.
Qed.
Lemma edges_of_perm (ps ps' : list (list A)) e : ps ≡ₚ ps' → e ∈ edges_of ps → e ∈ edges_of ps'.
Proof. intros P. rewrite !edges_of_mem. intros (p & Hp & He). exists p. by rewrite <-P. Qed.
Lemma connected_split (ps : list (list A)) t rest : ps ≡ₚ t :: rest →
  (∀ g1 g2, rest ≡ₚ g1 ++ g2 → g2 ≠ [] → ∃ e, e ∈ edges_of (t :: g1) ∧ flip e ∈ edges_of g2) → connected ps.
Proof.
  intros Hp H g1 g2 P N1 N2. assert (t ∈ g1 ++ g2) as Ht by (rewrite <-P, Hp; left). apply elem_of_app in Ht as [Ht|Ht].
  - apply elem_of_Permutation in Ht as [g1' P1].
    destruct (H g1' g2) as (e & He & Hf); [|done|].
    { apply (Permutation_cons_inv (a := t)). rewrite <-Hp, P, P1. done. }
    exists e. split; [|done]. by apply (edges_of_perm (t :: g1')).
  - apply elem_of_Permutation in Ht as [g2' P2].
    destruct (H g2' g1) as (e & He & Hf); [|done|].
    { apply (Permutation_cons_inv (a := t)). rewrite <-Hp, P, P2. rewrite Permutation_app_comm. done. }
    exists (flip e). split; [done|]. rewrite flip_flip. by apply (edges_of_perm (t :: g2')).
Qed.

Lemma cuts_triangulation l ts : cuts l ts → triangulation l ts.
Proof.
  induction 1 as [a b c|l l' a b c q ts Hq Hr Hr' Hc IH].
  - split; [done|..].
    + intros t x Ht Hx. apply elem_of_list_singleton in Ht as ->. done.
    + intros x Hx. exists (a, b, c). split; [left|done].
    + intros Hnd t Ht. apply elem_of_list_singleton in Ht as ->. done.
    + exists []. cbn. by rewrite ?app_nil_r.
    + intros Hnd. cbn. apply NoDup_cons in Hnd as [Ha Hnd]. apply NoDup_cons in Hnd as [Hb _].
      assert (a ≠ b ∧ a ≠ c ∧ b ≠ c) as (Hab & Hac & Hbc).
      { repeat split; intros ->; [apply Ha|apply Ha|apply Hb]; set_solver. }
      repeat (apply NoDup_cons; split); [set_solver..|apply NoDup_nil_2].
    + intros g1 g2 P N1 N2. apply Permutation_length in P. rewrite app_length in P. destruct g1, g2; cbn in P; try done; lia.
  - destruct IH as [Hn Hin Hcov Hdis [ds Hb] Honce Hco].
    pose proof (rotation_perm _ _ Hr) as Pl. pose proof (rotation_perm _ _ Hr') as Pl'.
    pose proof (cycle_rotation _ _ Hr) as Cl. pose proof (cycle_rotation _ _ Hr') as Cl'.
    assert (∀ x, x ∈ l ↔ x = b ∨ x ∈ l') as Hmem.
    { intros x. rewrite Pl, Pl'. rewrite !elem_of_cons. tauto. }
    assert (cycle_edges (a :: b :: c :: q) = (a, b) :: (b, c) :: path c (q ++ [a])) as E1 by by rewrite cycle_path.
    assert (cycle_edges (a :: c :: q) = (a, c) :: path c (q ++ [a])) as E2 by by rewrite cycle_path.
    split.
    + apply Permutation_length in Pl, Pl'. cbn in *. lia.
    + intros t x Ht Hx. apply Hmem. apply elem_of_cons in Ht as [-> | Ht].
      * unfold tri_list in Hx. cbn in Hx. rewrite !elem_of_cons in Hx.
        destruct Hx as [-> | [-> | [-> | Hx]]]; [right|by left|right|by apply elem_of_nil in Hx]; rewrite Pl'; set_solver.
      * right. by apply (Hin t).
    + intros x Hx. apply Hmem in Hx as [-> | Hx].
      * exists (a, b, c). split; [left|]. unfold tri_list. cbn. set_solver.
      * destruct (Hcov x Hx) as (t & Ht & Hxt). exists t. split; [by right|done].
    + intros Hnd t Ht. rewrite Pl in Hnd. apply elem_of_cons in Ht as [-> | Ht].
      * unfold tri_list. cbn. apply NoDup_cons in Hnd as [Ha Hnd]. apply NoDup_cons in Hnd as [Hbn _].
        repeat (apply NoDup_cons; split); [set_solver..|apply NoDup_nil_2].
      * apply Hdis; [|done]. rewrite Pl'. apply NoDup_cons in Hnd as [Ha Hnd]. apply NoDup_cons in Hnd as [Hbn Hnd].
        apply NoDup_cons; split; [set_solver|done].
    + exists ((c, a) :: ds). rewrite fmap_cons. cbn [concat]. rewrite Hb, Cl, Cl', E1, E2. cbn.
      do 2 apply Permutation_skip. set (P := path c (q ++ [a])).
      change (flip (c, a)) with (a, c). rewrite <- (Permutation_middle P). apply Permutation_skip.
      rewrite !(app_assoc P ds). apply Permutation_middle.
    + intros Hnd. rewrite Pl in Hnd. apply NoDup_cons in Hnd as [Ha Hnd]. apply NoDup_cons in Hnd as [Hbn Hnd].
      assert (NoDup (a :: c :: q)) as Hnd'' by (apply NoDup_cons; split; [set_solver|done]).
      assert (NoDup l') as Hnd' by by rewrite Pl'.
      specialize (Honce Hnd').
      set (E := concat ((λ t, cycle_edges (tri_list t)) <$> ts)) in *.
      assert (∀ e, e ∈ E → e.1 ∈ l' ∧ e.2 ∈ l') as Hends.
      { intros e He. unfold E in He. apply elem_of_concat in He as (es & He & Hes).
        apply elem_of_list_fmap in Hes as (t & -> & Ht). apply cycle_ends in He as [H1 H2].
        split; by apply (Hin t). }
      assert (b ∉ l') as Hbl by (rewrite Pl'; set_solver).
      assert ((c, a) ∉ E) as Hca.
      { pose proof Honce as Hnd2. rewrite Hb in Hnd2. rewrite Hb.
        apply NoDup_app in Hnd2 as (_ & Hx & _).
        assert ((a, c) ∈ cycle_edges l') as Hac by (rewrite Cl', E2; left).
        intros Hin2. apply elem_of_app in Hin2 as [Hin2|Hin2].
        - rewrite Cl' in Hin2. by apply (not_back a c q).
        - apply (Hx _ Hac). apply elem_of_app in Hin2 as [Hin2|Hin2].
          + apply elem_of_app. right. apply elem_of_flip. done.
          + apply elem_of_app. left. by apply elem_of_flip in Hin2. }
      cbn [fmap list_fmap concat]. fold E. cbn.
      repeat (apply NoDup_cons; split).
      * intros Hx. apply elem_of_cons in Hx as [Hx|Hx]; [injection Hx as Hx _; apply Ha; rewrite Hx; set_solver|].
        apply elem_of_cons in Hx as [Hx|Hx]; [injection Hx as Hx _; apply Ha; rewrite Hx; set_solver|]. by apply Hends in Hx as [_ ?].
      * intros Hx. apply elem_of_cons in Hx as [Hx|Hx]; [injection Hx as Hx _; apply Hbn; rewrite Hx; set_solver|]. by apply Hends in Hx as [? _].
      * done.
      * done.
    + apply (connected_split _ [a; b; c] (tri_list <$> ts)); [done|]. intros g1 g2 P N2. destruct g1 as [|p g1].
      * exists (c, a). split; [apply edges_of_mem; exists [a; b; c]; split; [left|right; right; left]|].
        apply (edges_of_perm (tri_list <$> ts)); [done|]. unfold edges_of. rewrite <-list_fmap_compose.
        change (cycle_edges ∘ tri_list) with (λ t : A * A * A, cycle_edges (tri_list t)). rewrite Hb, Cl', E2. left.
      * destruct (Hco (p :: g1) g2 P) as (e & He & Hf); [done|done|]. exists e. split; [|done].
        apply edges_of_mem in He as (r & Hrm & He). apply edges_of_mem. exists r. split; [by right|done].
Qed.

(** ** Area *)

Lemma sumZ_perm (l l' : list Z) : l ≡ₚ l' → sumZ l = sumZ l'.
Proof. unfold sumZ. induction 1; cbn [foldr]; lia. Qed.
Lemma sumZ_app (l l' : list Z) : sumZ (l ++ l') = sumZ l + sumZ l'.
Proof. unfold sumZ. induction l; cbn [foldr app]; lia. Qed.

(** Any quantity of directed edges that changes sign with the direction has the
    same sum over the triangles and over the polygon. *)
Lemma triangulation_sum (f : A * A → Z) l ts :
  (∀ e, f (flip e) = - f e) → triangulation l ts →
  sumZ ((λ t, sumZ (f <$> cycle_edges (tri_list t))) <$> ts) = sumZ (f <$> cycle_edges l).
Proof.
  intros Hf [_ _ _ _ [ds Hb] _ _].
  transitivity (sumZ (f <$> concat ((λ t, cycle_edges (tri_list t)) <$> ts))).
  - clear Hb. induction ts as [|t ts IH]; [done|].
    rewrite !fmap_cons. cbn [concat]. rewrite fmap_app, sumZ_app, <- IH. done.
  - rewrite (sumZ_perm _ _ (fmap_Permutation f _ _ Hb)). rewrite !fmap_app, !sumZ_app.
    assert (sumZ (f <$> (flip <$> ds)) = - sumZ (f <$> ds)) as Hds; [|lia].
    clear Hb. induction ds as [|e ds IH]; [done|]. rewrite !fmap_cons. unfold sumZ in *. cbn [foldr]. rewrite Hf. lia.
Qed.
End paths.

(** ** The predicates without overflow *)

Definition leftb (a b c : vtx) : bool := cross a b c <? 0.
Definition left_onb (a b c : vtx) : bool := cross a b c <=? 0.
Definition collb (a b c : vtx) : bool := cross a b c =? 0.
Definition inter_propb (a b c d : vtx) : bool :=
  negb (collb a b c || collb a b d || collb c d a || collb c d b) &&
  (xorb (leftb a b c) (leftb a b d) && xorb (leftb c d a) (leftb c d b)).
Definition betweenb (a b c : vtx) : bool :=
  collb a b c &&
  (if negb (vx a =? vx b) then
    ((vx a <=? vx c) && (vx c <=? vx b)) || ((vx c <=? vx a) && (vx b <=? vx c))
  else ((vz a <=? vz c) && (vz c <=? vz b)) || ((vz c <=? vz a) && (vz b <=? vz c))).
Definition interb (a b c d : vtx) : bool :=
  inter_propb a b c d || (betweenb a b c || (betweenb a b d || (betweenb c d a || betweenb c d b))).

Section pure.
Context (P : nat → vtx).
Definition in_coneb (i j n : nat) : bool :=
  if left_onb (P (pv i n)) (P i) (P (nx i n)) then
    leftb (P i) (P j) (P (pv i n)) && leftb (P j) (P i) (P (nx i n))
  else negb (left_onb (P i) (P j) (P (nx i n)) && left_onb (P j) (P i) (P (pv i n))).
Definition in_cone_looseb (i j n : nat) : bool :=
  if left_onb (P (pv i n)) (P i) (P (nx i n)) then
    left_onb (P i) (P j) (P (pv i n)) && left_onb (P j) (P i) (P (nx i n))
  else negb (left_onb (P i) (P j) (P (nx i n)) && left_onb (P j) (P i) (P (pv i n))).
Definition crossesb (cr : vtx → vtx → vtx → vtx → bool) (i j n k : nat) : bool :=
  negb ((k =? i)%nat || (nx k n =? i)%nat || (k =? j)%nat || (nx k n =? j)%nat) &&
  negb (vequal (P i) (P k) || vequal (P j) (P k) || vequal (P i) (P (nx k n)) || vequal (P j) (P (nx k n))) &&
  cr (P i) (P j) (P k) (P (nx k n)).
Definition diagb (i j n : nat) : bool :=
  in_coneb i j n && forallb (λ k, negb (crossesb interb i j n k)) (seq 0 n).
Definition diag_looseb (i j n : nat) : bool :=
  in_cone_looseb i j n && forallb (λ k, negb (crossesb inter_propb i j n k)) (seq 0 n).
End pure.

Lemma diagb_ext P Q i j n : (∀ k, P k = Q k) → diagb P i j n = diagb Q i j n.
Proof.
  intros H. unfold diagb, in_coneb. rewrite !H. f_equal.
  induction (seq 0 n) as [|k ks IH]; [done|]. cbn. rewrite IH. unfold crossesb. by rewrite !H.
Qed.

Lemma nx_lt i n : (0 < n)%nat → (nx i n < n)%nat.
Proof. intros. unfold nx. apply Nat.mod_upper_bound. lia. Qed.
Lemma pv_lt i n : (0 < n)%nat → (pv i n < n)%nat.
Proof. intros. unfold pv. apply Nat.mod_upper_bound. lia. Qed.
Lemma nx_small i n : (i + 1 < n)%nat → nx i n = (i + 1)%nat.
Proof. intros. unfold nx. by rewrite Nat.mod_small. Qed.
Lemma nx_last i n : (i + 1 = n)%nat → (0 < n)%nat → nx i n = 0%nat.
Proof. intros E ?. unfold nx. rewrite E. apply Nat.mod_same. lia. Qed.
Lemma pv_pos i n : (0 < i < n)%nat → pv i n = (i - 1)%nat.
Proof.
  intros ?. unfold pv. replace (i + n - 1)%nat with (i - 1 + 1 * n)%nat by lia.
  rewrite Nat.mod_add by lia. apply Nat.mod_small. lia.
Qed.
Lemma pv_0 n : (0 < n)%nat → pv 0 n = (n - 1)%nat.
Proof. intros. unfold pv. cbn. apply Nat.mod_small. lia. Qed.

Lemma cross_small a b c : small a → small b → small c →
  Z.abs ((vx b - vx a) * (vz c - vz a)) <= 1073676289 ∧ Z.abs ((vx c - vx a) * (vz b - vz a)) <= 1073676289.
Proof.
  intros [? ?] [? ?] [? ?].
  assert (∀ x y, Z.abs x <= 32767 → Z.abs y <= 32767 → Z.abs (x * y) <= 1073676289) as Hmul.
  { intros x y Hx Hy. rewrite Z.abs_mul. transitivity (32767 * 32767); [|lia].
    apply Z.mul_le_mono_nonneg; lia. }
  split; apply Hmul; lia.
Qed.

Section run.
Context (verts : list vtx) (B : Prop).
Local Notation sm v := (small v ∨ B).

Lemma area2_ends a b c : sm a → sm b → sm c → ends B (area2 a b c) (λ r, r = cross a b c).
Proof.
  intros Ha Hb Hc.
  destruct Ha as [Ha|HB]; [|unfold area2, chk_i32, chk; repeat (case_match; cbn; try done)].
  destruct Hb as [Hb|HB]; [|unfold area2, chk_i32, chk; repeat (case_match; cbn; try done)].
  destruct Hc as [Hc|HB]; [|unfold area2, chk_i32, chk; repeat (case_match; cbn; try done)].
  destruct (cross_small a b c Ha Hb Hc) as [H1 H2].
  unfold area2, chk_i32, I32_MIN, I32_MAX. rewrite chk_in by lia. cbn [obind].
  rewrite chk_in by lia. cbn [obind]. rewrite chk_in by lia. done.
Qed.

Lemma left_ends a b c : sm a → sm b → sm c → ends B (left a b c) (λ r, r = leftb a b c).
Proof. intros. unfold left. eapply ends_bind; [by apply area2_ends|]. by intros r ->. Qed.
Lemma left_on_ends a b c : sm a → sm b → sm c → ends B (left_on a b c) (λ r, r = left_onb a b c).
Proof. intros. unfold left_on. eapply ends_bind; [by apply area2_ends|]. by intros r ->. Qed.
Lemma coll_ends a b c : sm a → sm b → sm c → ends B (collinear a b c) (λ r, r = collb a b c).
Proof. intros. unfold collinear. eapply ends_bind; [by apply area2_ends|]. by intros r ->. Qed.

Lemma andO_ends m1 m2 b1 b2 : ends B m1 (λ r, r = b1) → ends B m2 (λ r, r = b2) → ends B (andO m1 m2) (λ r, r = b1 && b2).
Proof. intros H1 H2. unfold andO. eapply ends_bind; [done|]. intros x ->. by destruct b1. Qed.
Lemma orO_ends m1 m2 b1 b2 : ends B m1 (λ r, r = b1) → ends B m2 (λ r, r = b2) → ends B (orO m1 m2) (λ r, r = b1 || b2).
Proof. intros H1 H2. unfold orO. eapply ends_bind; [done|]. intros x ->. by destruct b1. Qed.

Lemma inter_prop_ends a b c d : sm a → sm b → sm c → sm d →
  ends B (intersect_prop a b c d) (λ r, r = inter_propb a b c d).
Proof.
  intros. unfold intersect_prop. eapply ends_bind.
  { apply orO_ends; [by apply coll_ends|]. apply orO_ends; [by apply coll_ends|].
    apply orO_ends; by apply coll_ends. }
  intros e ->. unfold inter_propb. rewrite !orb_assoc. destruct (_ || _); [done|]. cbn [negb andb].
  apply andO_ends.
  - eapply ends_bind; [by apply left_ends|]. intros ? ->. eapply ends_bind; [by apply left_ends|]. by intros ? ->.
  - eapply ends_bind; [by apply left_ends|]. intros ? ->. eapply ends_bind; [by apply left_ends|]. by intros ? ->.
Qed.
Lemma between_ends a b c : sm a → sm b → sm c → ends B (between a b c) (λ r, r = betweenb a b c).
Proof.
  intros. unfold between. eapply ends_bind; [by apply coll_ends|]. intros ? ->. unfold betweenb.
  destruct (collb a b c); [|done]. cbn [negb andb]. by destruct (negb _).
Qed.
Lemma inter_ends a b c d : sm a → sm b → sm c → sm d → ends B (intersect a b c d) (λ r, r = interb a b c d).
Proof.
  intros. unfold intersect. apply orO_ends; [by apply inter_prop_ends|].
  repeat (apply orO_ends; [by apply between_ends|]). by apply between_ends.
Qed.

(** The positions of the remaining polygon. *)
Definition npos (idx : list node) (k : nat) : vtx :=
  match idx !! k with Some e => at_pos verts e.1 | None => V 0 0 0 end.
Definition fine (idx : list node) : Prop :=
  ∀ e, e ∈ idx → (∃ v, verts !! e.1 = Some v ∧ small v) ∨ B.

Lemma node_pos_ends idx k : fine idx → (k < length idx)%nat →
  ends B (node_pos verts idx k) (λ v, v = npos idx k ∧ sm v).
Proof.
  intros Hf Hk. unfold node_pos. apply ends_get; [done|]. intros e He.
  assert (npos idx k = at_pos verts e.1) as -> by (unfold npos; by rewrite He).
  destruct (Hf e) as [(v & Hv & Hs)|HB]; [by eapply elem_of_list_lookup_2|..].
  - rewrite (get_some _ _ _ Hv). unfold at_pos. rewrite Hv. cbn. auto.
  - unfold get, at_pos. destruct (verts !! e.1); cbn; auto.
Qed.

Lemma len_ends a b : sm a → sm b → ends B (len_u16 a b) (λ r, 0 <= r).
Proof.
  intros [[? ?]|HB] [[? ?]|HB']; [|unfold len_u16, chk_i32, chk; repeat (case_match; cbn; try done); apply Z.mod_pos_bound; lia..].
  unfold len_u16, chk_i32, I32_MIN, I32_MAX.
  rewrite chk_in by nia. cbn [obind]. rewrite chk_in by nia. cbn [obind]. rewrite chk_in by nia. cbn.
  apply Z.mod_pos_bound. lia.
Qed.

Section idx.
Context (idx : list node) (n : nat).
Hypothesis (Hn : length idx = n) (Hf : fine idx) (Hp : (0 < n)%nat).

Lemma npos_ends k : (k < n)%nat → ends B (node_pos verts idx k) (λ v, v = npos idx k ∧ sm v).
Proof. intros. apply node_pos_ends; [done|lia]. Qed.

Lemma in_cone_ends i j : (i < n)%nat → (j < n)%nat →
  ends B (in_cone i j n verts idx) (λ r, r = in_coneb (npos idx) i j n).
Proof.
  intros Hi Hj. unfold in_cone, in_coneb.
  eapply ends_bind; [by apply npos_ends|]. intros pi [-> Si].
  eapply ends_bind; [by apply npos_ends|]. intros pj [-> Sj].
  eapply ends_bind; [apply npos_ends; by apply nx_lt|]. intros p1 [-> S1].
  eapply ends_bind; [apply npos_ends; by apply pv_lt|]. intros p2 [-> S2].
  eapply ends_bind; [by apply left_on_ends|]. intros ? ->.
  destruct (left_onb _ _ _).
  - by apply andO_ends; apply left_ends.
  - unfold notO. eapply ends_bind; [by apply andO_ends; apply left_on_ends|]. by intros ? ->.
Qed.
Lemma in_cone_loose_ends i j : (i < n)%nat → (j < n)%nat →
  ends B (in_cone_loose i j n verts idx) (λ r, r = in_cone_looseb (npos idx) i j n).
Proof.
  intros Hi Hj. unfold in_cone_loose, in_cone_looseb.
  eapply ends_bind; [by apply npos_ends|]. intros pi [-> Si].
  eapply ends_bind; [by apply npos_ends|]. intros pj [-> Sj].
  eapply ends_bind; [apply npos_ends; by apply nx_lt|]. intros p1 [-> S1].
  eapply ends_bind; [apply npos_ends; by apply pv_lt|]. intros p2 [-> S2].
  eapply ends_bind; [by apply left_on_ends|]. intros ? ->.
  destruct (left_onb _ _ _).
  - by apply andO_ends; apply left_on_ends.
  - unfold notO. eapply ends_bind; [by apply andO_ends; apply left_on_ends|]. by intros ? ->.
Qed.

Lemma clear_ends cr crb i j :
  (∀ a b c d, sm a → sm b → sm c → sm d → ends B (cr a b c d) (λ r, r = crb a b c d)) →
  (i < n)%nat → (j < n)%nat →
  ends B (clear_of_edges cr i j n verts idx) (λ r, r = forallb (λ k, negb (crossesb (npos idx) crb i j n k)) (seq 0 n)).
Proof.
  intros Hcr Hi Hj. unfold clear_of_edges.
  eapply ends_bind; [by apply npos_ends|]. intros pi [-> Si].
  eapply ends_bind; [by apply npos_ends|]. intros pj [-> Sj].
  assert (∀ k, k ∈ seq 0 n → (k < n)%nat) as Hks by (intros k ?%elem_of_seq; lia).
  induction (seq 0 n) as [|k ks IH]; [done|].
  cbn [no_crossing forallb]. assert (k < n)%nat as Hk by (apply Hks; left).
  assert (∀ k, k ∈ ks → (k < n)%nat) as Hks' by (intros; apply Hks; by right). specialize (IH Hks').
  unfold crossesb at 1.
  destruct ((k =? i)%nat || _ || _ || _); [done|]. cbn [negb andb].
  eapply ends_bind; [by apply npos_ends|]. intros p0 [-> S0].
  eapply ends_bind; [apply npos_ends; by apply nx_lt|]. intros p1 [-> S1].
  destruct (vequal _ _ || _ || _ || _); [done|]. cbn [negb andb].
  eapply ends_bind; [by apply Hcr|]. intros c ->. by destruct (crb _ _ _ _).
Qed.

Lemma is_diagonal_ends i j : (i < n)%nat → (j < n)%nat →
  ends B (is_diagonal i j n verts idx) (λ r, r = diagb (npos idx) i j n).
Proof.
  intros. unfold is_diagonal. apply andO_ends; [by apply in_cone_ends|].
  apply clear_ends; [|done|done]. apply inter_ends.
Qed.
Lemma is_diagonal_loose_ends i j : (i < n)%nat → (j < n)%nat →
  ends B (is_diagonal_loose i j n verts idx) (λ r, r = diag_looseb (npos idx) i j n).
Proof.
  intros. unfold is_diagonal_loose. apply andO_ends; [by apply in_cone_loose_ends|].
  apply clear_ends; [|done|done]. apply inter_prop_ends.
Qed.

End idx.

(** ** The loop *)

Lemma fmap_delete {C D} (f : C → D) (l : list C) i : f <$> delete i l = delete i (f <$> l).
Proof. revert i. induction l as [|x l IH]; intros [|i]; [done..|]. cbn. f_equal. apply IH. Qed.

Lemma elem_of_del {C} (l : list C) i x : x ∈ delete i l → x ∈ l.
Proof.
  revert i. induction l as [|y l IH]; intros [|i]; cbn; [done..|by right|].
  rewrite !elem_of_cons. intros [->|H]; [by left|right; by eapply IH].
Qed.

Lemma fine_same (idx idx' : list node) : idx'.*1 = idx.*1 → fine idx → fine idx'.
Proof.
  intros E Hf e He. assert (e.1 ∈ idx'.*1) as H by (apply elem_of_list_fmap; by exists e).
  rewrite E in H. apply elem_of_list_fmap in H as (e' & -> & He'). by apply Hf.
Qed.
Lemma same_length (idx idx' : list node) : idx'.*1 = idx.*1 → length idx' = length idx.
Proof. intros E. apply (f_equal length) in E. by rewrite !fmap_length in E. Qed.
Lemma npos_same (idx idx' : list node) k : idx'.*1 = idx.*1 → npos idx' k = npos idx k.
Proof.
  intros E. unfold npos. apply (f_equal (.!! k)) in E. rewrite !list_lookup_fmap in E.
  destruct (idx' !! k), (idx !! k); cbn in E; congruence.
Qed.

Lemma set_flag_ends idx k b : (k < length idx)%nat →
  ends B (set_flag idx k b) (λ idx', ∃ a, idx !! k = Some a ∧ idx' = <[k := (a.1, b)]> idx).
Proof. intros Hk. unfold set_flag. apply ends_get; [done|]. intros e He. rewrite put_lt by done. cbn. eauto. Qed.
Lemma set_flag_same (idx : list node) k b a : idx !! k = Some a → (<[k := (a.1, b)]> idx : list node).*1 = idx.*1.
Proof.
  intros H. rewrite list_fmap_insert. cbn. apply list_insert_id. rewrite list_lookup_fmap, H. done.
Qed.

Lemma mark_ears_ends n (idx : list node) : length idx = n → fine idx →
  ends B (mark_ears n verts idx) (λ idx', idx'.*1 = idx.*1 ∧
    ∀ i, (i < n)%nat → diagb (npos idx) i (nx (nx i n) n) n = true → ∃ a, idx' !! nx i n = Some (a, true)).
Proof.
  intros Hn Hf. unfold mark_ears.
  apply (ends_seq_inv B (λ k idx', idx'.*1 = idx.*1 ∧
    ∀ i, (i < k)%nat → diagb (npos idx) i (nx (nx i n) n) n = true → ∃ a, idx' !! nx i n = Some (a, true))).
  { split; [done|lia]. }
  intros i idx' Hi [E HI]. cbn in Hi.
  pose proof (same_length _ _ E) as Hl.
  eapply ends_bind; [apply is_diagonal_ends; [by rewrite Hl|by eapply fine_same|lia|lia|apply nx_lt; lia]|].
  intros d ->.
  assert (diagb (npos idx') i (nx (nx i n) n) n = diagb (npos idx) i (nx (nx i n) n) n) as Ed.
  { apply diagb_ext. intros. by apply npos_same. }
  destruct (diagb (npos idx') i _ n) eqn:Hd.
  - eapply ends_mono; [apply set_flag_ends; rewrite Hl, Hn; apply nx_lt; lia|].
    intros idx'' (a & Ha & ->). split; [by rewrite set_flag_same|].
    intros k Hk Hdk. destruct (decide (nx k n = nx i n)) as [-> | Hne].
    + exists a.1. apply list_lookup_insert. by eapply lookup_lt_Some.
    + rewrite list_lookup_insert_ne by done. apply HI; [|done]. destruct (decide (k = i)); [congruence|lia].
  - cbn. split; [done|]. intros k Hk Hdk. apply HI; [|done].
    destruct (decide (k = i)) as [->|]; [congruence|lia].
Qed.

Definition chosen (n : nat) (Q : nat → Prop) (r : option (Z * nat)) : Prop :=
  match r with Some (_, i) => (i < n)%nat ∧ Q i | None => ∀ i, (i < n)%nat → ¬ Q i end.

Lemma best_ear_ends n idx : length idx = n → fine idx →
  ends B (best_ear n verts idx) (chosen n (λ i, ∃ a, idx !! nx i n = Some (a, true))).
Proof.
  intros Hn Hf. unfold best_ear.
  eapply ends_mono; [apply (ends_seq_inv B (λ k, chosen k (λ i, ∃ a, idx !! nx i n = Some (a, true))))|].
  - intros i Hi. lia.
  - intros i r Hi HI. cbn in Hi.
    apply ends_get; [rewrite Hn; apply nx_lt; lia|]. intros [a f] Ha. cbn [snd]. destruct f.
    + eapply ends_bind; [apply (npos_ends idx n); [done|done|lia|lia]|]. intros p0 [-> S0].
      eapply ends_bind; [apply (npos_ends idx n); [done|done|lia|apply nx_lt; lia]|]. intros p2 [-> S2].
      eapply ends_bind; [by apply len_ends|]. intros len _. cbn. unfold better.
      destruct r as [[m j]|]; [|split; [lia|by exists a]].
      destruct HI as [Hj HQ]. case_match; split; try lia; [by exists a|done].
    + cbn. destruct r as [[m j]|]; [destruct HI; split; [lia|done]|].
      intros j Hj (b & Hb). destruct (decide (j = i)) as [->|]; [rewrite Ha in Hb; done|].
      apply (HI j); [lia|by exists b].
  - done.
Qed.
Lemma best_loose_ear_ends n idx : length idx = n → fine idx →
  ends B (best_loose_ear n verts idx) (chosen n (λ i, diag_looseb (npos idx) i (nx (nx i n) n) n = true)).
Proof.
  intros Hn Hf. unfold best_loose_ear.
  eapply ends_mono; [apply (ends_seq_inv B (λ k, chosen k (λ i, diag_looseb (npos idx) i (nx (nx i n) n) n = true)))|].
  - intros i Hi. lia.
  - intros i r Hi HI. cbn in Hi.
    eapply ends_bind; [apply is_diagonal_loose_ends; [done|done|lia|lia|apply nx_lt; lia]|]. intros d ->.
    destruct (diag_looseb _ _ _ _) eqn:Hd.
    + eapply ends_bind; [apply (npos_ends idx n); [done|done|lia|lia]|]. intros p0 [-> S0].
      eapply ends_bind; [apply (npos_ends idx n); [done|done|lia|apply nx_lt; lia]|]. intros p2 [-> S2].
      eapply ends_bind; [by apply len_ends|]. intros len _. cbn. unfold better.
      destruct r as [[m j]|]; [|split; [lia|done]].
      destruct HI as [Hj HQ]. case_match; split; try lia; done.
    + cbn. destruct r as [[m j]|]; [destruct HI; split; [lia|done]|].
      intros j Hj Hq. destruct (decide (j = i)) as [->|]; [congruence|]. apply (HI j); [lia|done].
  - done.
Qed.

Lemma ear_rotation {C} (l : list C) n i : length l = n → (3 < n)%nat → (i < n)%nat →
  ∃ a b c q, l !! i = Some a ∧ l !! nx i n = Some b ∧ l !! nx (nx i n) n = Some c ∧ q ≠ [] ∧
    rotation l (a :: b :: c :: q) ∧ rotation (delete (nx i n) l) (a :: c :: q).
Proof.
  intros Hn H3 Hi.
  destruct (decide (i + 2 < n)%nat) as [H2|H2]; [|destruct (decide (i + 2 = n)%nat) as [H2'|H2']].
  - rewrite !nx_small by (rewrite ?nx_small; lia).
    destruct (lookup_lt_is_Some_2 l i) as [a Ha]; [lia|].
    destruct (lookup_lt_is_Some_2 l (i + 1)) as [b Hb]; [lia|].
    destruct (lookup_lt_is_Some_2 l (i + 1 + 1)) as [c Hc]; [lia|].
    assert (l = take i l ++ a :: b :: c :: drop (i + 3) l) as El.
    { rewrite <- (take_drop i l) at 1. f_equal. rewrite (drop_S _ _ _ Ha). f_equal.
      replace (S i) with (i + 1)%nat by lia. rewrite (drop_S _ _ _ Hb). f_equal.
      replace (S (i + 1)) with (i + 1 + 1)%nat by lia. rewrite (drop_S _ _ _ Hc). f_equal. f_equal. lia. }
    exists a, b, c, (drop (i + 3) l ++ take i l). repeat split; try done.
    + intros E. apply (f_equal length) in E. rewrite app_length, drop_length, take_length in E. cbn in E. lia.
    + exists (take i l), (a :: b :: c :: drop (i + 3) l). done.
    + exists (take i l), (a :: c :: drop (i + 3) l). split; [|done].
      rewrite El at 1. assert (length (take i l) = i) as Ht by (rewrite take_length; lia).
      rewrite delete_take_drop. rewrite take_app_ge, drop_app_ge by lia. rewrite Ht.
      replace (i + 1 - i)%nat with 1%nat by lia. replace (S (i + 1) - i)%nat with 2%nat by lia. cbn.
      by rewrite <- app_assoc.
  - rewrite (nx_small i n) by lia. rewrite (nx_last (i + 1) n) by lia.
    destruct (lookup_lt_is_Some_2 l i) as [a Ha]; [lia|].
    destruct (lookup_lt_is_Some_2 l (i + 1)) as [b Hb]; [lia|].
    assert (l = take i l ++ [a; b]) as El.
    { rewrite <- (take_drop i l) at 1. f_equal. rewrite (drop_S _ _ _ Ha). f_equal.
      replace (S i) with (i + 1)%nat by lia. rewrite (drop_S _ _ _ Hb). f_equal. apply drop_ge. lia. }
    assert (length (take i l) = i) as Ht by (rewrite take_length; lia).
    assert (delete (i + 1)%nat l = take i l ++ [a]) as Ed.
    { rewrite El at 1. rewrite delete_take_drop. rewrite take_app_ge, drop_app_ge by lia. rewrite Ht.
      replace (i + 1 - i)%nat with 1%nat by lia. replace (S (i + 1) - i)%nat with 2%nat by lia. cbn.
      by rewrite <- app_assoc. }
    destruct (take i l) as [|c q] eqn:Et; [cbn in Ht; lia|].
    exists a, b, c, q. rewrite El. cbn in Ht. repeat split.
    + rewrite <- El. done.
    + rewrite <- El. done.
    + intros ->. cbn in Ht. lia.
    + exists (c :: q), [a; b]. done.
    + exists (c :: q), [a]. split; [|done].
      rewrite <- El. done.
  - rewrite (nx_last i n) by lia. rewrite nx_small by lia.
    destruct (lookup_lt_is_Some_2 l i) as [a Ha]; [lia|].
    assert (l = take i l ++ [a]) as El.
    { rewrite <- (take_drop i l) at 1. f_equal. rewrite (drop_S _ _ _ Ha). f_equal. apply drop_ge. lia. }
    assert (length (take i l) = i) as Ht by (rewrite take_length; lia).
    destruct (take i l) as [|b [|c q]] eqn:Et; [cbn in Ht; lia..|].
    exists a, b, c, q. rewrite El. cbn in Ht. repeat split.
    + rewrite <- El. done.
    + intros ->. cbn in Ht. lia.
    + exists (b :: c :: q), [a]. done.
    + exists (c :: q), [a]. done.
Qed.

Lemma cut_ear_ends n i1 (idx : list node) : length idx = n → (3 < n)%nat → (i1 < n)%nat → fine idx →
  ends B (cut_ear n i1 verts idx) (λ idx', idx'.*1 = delete i1 (idx.*1) ∧
    ∀ k e, (delete i1 idx) !! k = Some e → idx' !! k = Some e ∨
       ∃ i j, (i < n - 1)%nat ∧ (j < n - 1)%nat ∧ k = nx i (n - 1) ∧ j = nx k (n - 1) ∧
              idx' !! k = Some (e.1, diagb (npos (delete i1 idx)) i j (n - 1))).
Proof.
  intros Hn H3 Hi1 Hf. unfold cut_ear.
  assert (length (delete i1 idx) = n - 1)%nat as Hl.
  { rewrite length_delete by (apply lookup_lt_is_Some_2; lia). lia. }
  assert (fine (delete i1 idx)) as Hf'.
  { intros e He. apply Hf. by eapply elem_of_del. }
  set (n' := (n - 1)%nat) in *. set (idx0 := delete i1 idx) in *.
  set (j1 := if (n' <=? i1)%nat then 0%nat else i1).
  assert (j1 < n')%nat as Hj1 by (unfold j1; case_match; lia).
  set (i := pv j1 n'). assert (i < n')%nat as Hi by (apply pv_lt; lia).
  eapply ends_bind; [apply is_diagonal_ends; [done|done|lia|apply pv_lt; lia|done]|]. intros d ->.
  eapply ends_bind; [apply set_flag_ends; lia|]. intros idx1 (a & Ha & ->).
  pose proof (set_flag_same idx0 i (diagb (npos idx0) (pv i n') j1 n') a Ha) as E1.
  set (idx1 := <[i:=_]> idx0) in *.
  pose proof (same_length _ _ E1) as Hl1.
  eapply ends_bind; [apply is_diagonal_ends; [by rewrite Hl1|by eapply fine_same|lia|done|apply nx_lt; lia]|]. intros d ->.
  eapply ends_mono; [apply set_flag_ends; lia|]. intros idx2 (a2 & Ha2 & ->).
  split; [rewrite set_flag_same by done; rewrite E1; apply fmap_delete|].
  assert (nx i n' = j1) as Enx.
  { unfold i. destruct (decide (j1 = 0%nat)) as [->|].
    - rewrite pv_0 by lia. apply nx_last; lia.
    - rewrite pv_pos by lia. rewrite nx_small by lia. lia. }
  assert (nx (pv i n') n' = i) as Enx2.
  { destruct (decide (i = 0%nat)) as [->|].
    - rewrite pv_0 by lia. apply nx_last; lia.
    - rewrite pv_pos by lia. rewrite nx_small by lia. lia. }
  intros k e He.
  assert (diagb (npos idx1) i (nx j1 n') n' = diagb (npos idx0) i (nx j1 n') n') as Ed.
  { apply diagb_ext. intros. by apply npos_same. }
  destruct (decide (k = j1)) as [->|Hk1].
  - right. exists i, (nx j1 n'). repeat split; [done|apply nx_lt; lia|done|].
    rewrite list_lookup_insert by lia. rewrite Ed. do 2 f_equal.
    apply (f_equal (.!! j1)) in E1. rewrite !list_lookup_fmap, Ha2, He in E1. cbn in E1. congruence.
  - rewrite list_lookup_insert_ne by done. unfold idx1. destruct (decide (k = i)) as [->|Hki].
    + right. exists (pv i n'), j1. repeat split; [apply pv_lt; lia|done|done|done|].
      rewrite list_lookup_insert by lia. do 2 f_equal. congruence.
    + left. by rewrite list_lookup_insert_ne.
Qed.

Definition to_tri (t : nat * nat * nat) : tri :=
  Tri (wrap_u16 (Z.of_nat t.1.1)) (wrap_u16 (Z.of_nat t.1.2)) (wrap_u16 (Z.of_nat t.2)).

Lemma push_tri_ends cap tris (idx : list node) i j k a b c : ((length tris < cap)%nat ∨ B) →
  idx.*1 !! i = Some a → idx.*1 !! j = Some b → idx.*1 !! k = Some c →
  ends B (push_tri cap tris idx i j k) (λ tris', tris' = tris ++ [to_tri (a, b, c)]).
Proof.
  intros Hcap Ha Hb Hc. unfold push_tri. destruct (_ <? _)%nat eqn:E; [|cbn; destruct Hcap; [lia|done]].
  rewrite list_lookup_fmap in Ha, Hb, Hc.
  apply fmap_Some in Ha as (x & Hx & ->), Hb as (y & Hy & ->), Hc as (z & Hz & ->).
  rewrite (get_some _ _ _ Hx). cbn [obind]. rewrite (get_some _ _ _ Hy). cbn [obind]. rewrite (get_some _ _ _ Hz). done.
Qed.

Definition tri_result (l : list nat) (tris : list tri) (r : presult (list tri)) : Prop :=
  match r with Ok tris' => ∃ ts, tris' = tris ++ (to_tri <$> ts) ∧ cuts l ts | Err e => e = InvalidContour end.

Lemma ear_loop_ends fuel n cap (idx : list node) tris : length idx = n → ((3 <= n)%nat ∨ B) → fine idx → (n <= fuel)%nat →
  ((length tris + n <= cap + 2)%nat ∨ B) →
  ends B (ear_loop fuel n cap verts idx tris) (tri_result (idx.*1) tris).
Proof.
  revert n idx tris. induction fuel as [|fuel IH]; intros n idx tris Hn H3 Hf Hfu Hcap.
  { assert (n = 0)%nat as -> by lia. destruct H3 as [?|HB]; [lia|].
    cbn. unfold push_tri. case_match; cbn; [|done]. destruct idx; [|done]. done. }
  cbn [ear_loop]. destruct (3 <? n)%nat eqn:E3.
  - assert (3 < n)%nat as Hn3 by lia. clear E3.
    eapply ends_bind; [by apply best_ear_ends|]. intros b Hb.
    eapply (ends_bind B _ _ (λ b, match b with Some (_, i) => (i < n)%nat | None => True end)).
    { destruct b as [[m i]|]; [by destruct Hb|].
      eapply ends_mono; [by apply best_loose_ear_ends|]. intros [[m i]|] H; [by destruct H|done]. }
    clear b Hb. intros [[m i]|] Hi; [|done].
    destruct (ear_rotation (idx.*1) n i) as (a & b & c & q & Ha & Hb & Hc & Hq & R1 & R2);
      [by rewrite fmap_length|done|done|].
    eapply ends_bind; [eapply push_tri_ends; [|done..]; destruct Hcap; [left; lia|by right]|]. intros tris' ->.
    eapply ends_bind; [apply cut_ear_ends; [done|done|apply nx_lt; lia|done]|]. intros idx' [E _].
    assert (length idx' = n - 1)%nat as Hl.
    { apply (f_equal length) in E. rewrite length_delete, !fmap_length in E; [lia|].
      apply lookup_lt_is_Some_2. rewrite fmap_length, Hn. apply nx_lt. lia. }
    eapply ends_mono; [apply IH|].
    + done.
    + left. lia.
    + intros e He. assert (e.1 ∈ idx'.*1) as H by (apply elem_of_list_fmap; by exists e).
      rewrite E, <- fmap_delete in H. apply elem_of_list_fmap in H as (e' & -> & He'). apply Hf. by eapply elem_of_del.
    + lia.
    + rewrite app_length. cbn. destruct Hcap; [left; lia|by right].
    + intros [tris'|e] Hr; [|done]. destruct Hr as (ts & -> & Hc'). cbn. exists ((a, b, c) :: ts).
      split; [by rewrite <- app_assoc|]. econstructor; [done|done| |done]. by rewrite E.
  - destruct idx as [|[a fa] [|[b fb] [|[c fc] [|]]]]; cbn in Hn; try (destruct H3 as [?|HB]; [lia|]); try lia.
    + unfold push_tri. by case_match.
    + unfold push_tri. by case_match.
    + unfold push_tri. by case_match.
    + eapply ends_bind; [eapply (push_tri_ends _ _ _ _ _ _ a b c); [|done..]; destruct Hcap; [left; lia|by right]|].
      intros tris' ->. cbn. exists [(a, b, c)]. split; [done|constructor].
Qed.

Theorem triangulate_ends indices cap :
  (∀ i, i ∈ indices → (∃ v, verts !! i = Some v ∧ small v) ∨ B) → ((3 <= length indices)%nat ∨ B) →
  ((length indices <= cap + 2)%nat ∨ B) →
  ends B (triangulate verts indices cap) (tri_result indices []).
Proof.
  intros Hv H3 Hcap. unfold triangulate.
  set (idx := (λ i, (i, false)) <$> indices).
  assert (idx.*1 = indices) as E.
  { unfold idx. rewrite <- list_fmap_compose. apply list_fmap_id. }
  assert (length idx = length indices) as Hl by (unfold idx; apply fmap_length).
  eapply ends_bind; [apply mark_ears_ends; [done|]|].
  - intros e He. apply elem_of_list_fmap in He as (i & -> & Hi). by apply Hv.
  - intros idx' [E' _]. eapply ends_mono; [apply ear_loop_ends|].
    + by rewrite (same_length _ _ E').
    + done.
    + eapply fine_same; [done|]. intros e He. apply elem_of_list_fmap in He as (i & -> & Hi). by apply Hv.
    + lia.
    + done.
    + rewrite E', E. done.
Qed.
End run.
