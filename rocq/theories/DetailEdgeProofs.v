(** Sampling and simplifying the edges of a polygon. *)
From Verif Require Import Base FlowProofs ModelMath FloatOrder ModelHeightfield ModelCompact ModelContours ModelPoly ModelTriMesh ModelMarkArea ModelDetail SpecDetail.
Local Open Scope Z_scope.

(** ** Simplification of one edge's samples *)

(** Every sample strictly between [a] and [b] is within the error of the segment. *)
Definition span_ok (err : f32) (edge : list vec3) (a b : nat) : Prop :=
  ∀ m v va vb, (a < m < b)%nat → edge !! m = Some v → edge !! a = Some va → edge !! b = Some vb →
    f_lt (f_mul err err) (seg_dist3 v va vb) = false.

Lemma f_zero_rank : is_Some (f_rank f_zero).
Proof. by eexists. Qed.

Lemma f_lt_irr x y z : f_lt x y = false → is_Some (f_rank x) → f_lt x z = true → f_lt y z = true ∨ f_rank y = None.
Proof.
  intros Hxy Hx Hxz. destruct (f_rank y) eqn:Ey; [left|by right].
  destruct (f_lt_split x y z) as [H|H]; [by rewrite Ey|done|congruence|done].
Qed.

Lemma f_lt_rank_l x y : f_lt x y = true → is_Some (f_rank x).
Proof. intros (a & b & Ha & _)%f_lt_rank. by rewrite Ha. Qed.

Section deviation.
  Context (edge : list vec3) (a b : nat) (va vb : vec3).
  Context (Ha : edge !! a = Some va) (Hb : edge !! b = Some vb).
  Definition devat (m : nat) : f32 := match edge !! m with Some v => seg_dist3 v va vb | None => f_zero end.

  Lemma max_deviation3_spec : (a < length edge)%nat → (b < length edge)%nat →
    ∃ maxd maxi, max_deviation3 edge a b = Done (maxd, maxi)
      ∧ (∀ m, (a < m < b)%nat → f_lt maxd (devat m) = false)
      ∧ is_Some (f_rank maxd) ∧ nonneg maxd
      ∧ match maxi with Some m => (a < m < b)%nat ∧ maxd = devat m | None => maxd = f_zero end.
  Proof.
    intros Hla Hlb. unfold max_deviation3, get at 1 2. rewrite Ha, Hb. cbn [obind].
    match goal with |- ∃ _ _, foldM ?f _ _ = _ ∧ _ => set (F := f) end.
    set (I := λ (k : nat) (r : f32 * option nat),
      (∀ m, (a < m < k)%nat → f_lt r.1 (devat m) = false) ∧ is_Some (f_rank r.1) ∧ nonneg r.1 ∧
      match r.2 with Some m => (a < m < k)%nat ∧ r.1 = devat m | None => r.1 = f_zero end).
    assert (runs (foldM F (seq (S a) (b - S a)) (f_zero, None)) (I (S a + (b - S a))%nat)) as H.
    { apply foldM_seq_inv.
      - unfold I. cbn [fst snd]. split; [intros m Hm; lia|]. split; [apply f_zero_rank|]. split; [done|done].
      - intros m [maxd maxi] Hm (H1 & H2 & H3 & H4). cbn [fst snd] in *. unfold F.
        destruct (lookup_lt_is_Some_2 edge m) as [v Hv]; [lia|]. unfold get. rewrite Hv. cbn [obind runs].
        assert (devat m = seg_dist3 v va vb) as Ed by (unfold devat; by rewrite Hv).
        destruct (f_lt maxd (seg_dist3 v va vb)) eqn:El; unfold I; cbn [fst snd].
        + split; [|split; [by eapply f_lt_rank_r|split; [|split; [lia|by rewrite Ed]]]].
          * intros m' Hm'. destruct (decide (m' = m)) as [->|].
            -- rewrite Ed. destruct (f_lt _ _) eqn:E2 at 1; [|done].
               apply f_lt_rank in E2 as (x & y & Hx & Hy & Hxy). rewrite Hx in Hy. injection Hy as <-.
               destruct x as [[]]. unfold rank_lt in Hxy. lia.
            -- destruct (f_lt _ (devat m')) eqn:E2; [|done]. specialize (H1 m' ltac:(lia)).
               rewrite (f_lt_trans _ _ _ El E2) in H1. done.
          * unfold nonneg in *. destruct (f_lt (seg_dist3 v va vb) f_zero) eqn:E2; [|done].
            by rewrite (f_lt_trans _ _ _ El E2) in H3.
        + split; [|split; [done|split; [done|]]].
          * intros m' Hm'. destruct (decide (m' = m)) as [->|]; [by rewrite Ed|]. apply H1. lia.
          * destruct maxi; [split; [lia|apply H4]|done]. }
    destruct (foldM F _ _) as [[maxd maxi]| |] eqn:EF; [|done..].
    destruct H as (H1 & H2 & H3 & H4). cbn [fst snd] in *. exists maxd, maxi. split; [done|].
    split; [intros m Hm; apply H1; lia|]. split; [done|]. split; [done|].
    destruct maxi; [split; [lia|apply H4]|done].
  Qed.
End deviation.

Lemma span_ok_of_dev err edge a b va vb maxd :
  edge !! a = Some va → edge !! b = Some vb →
  (∀ m, (a < m < b)%nat → f_lt maxd (devat edge va vb m) = false) →
  is_Some (f_rank maxd) → f_lt (f_mul err err) maxd = false → span_ok err edge a b.
Proof.
  intros Ha Hb Hd Hr He m v va' vb' Hm Hv Ha' Hb'. rewrite Ha in Ha'. rewrite Hb in Hb'. injection Ha' as <-. injection Hb' as <-.
  specialize (Hd m Hm). unfold devat in Hd. rewrite Hv in Hd.
  destruct (f_lt (f_mul err err) (seg_dist3 v va vb)) eqn:E; [|done].
  destruct (f_lt_split _ maxd _ Hr E); congruence.
Qed.

(** The kept samples: from the first to the last, in increasing order. *)
Definition kept (nn : nat) (idx : list nat) : Prop :=
  idx !! 0%nat = Some 0%nat ∧ (2 ≤ length idx)%nat ∧ idx !! (length idx - 1)%nat = Some nn ∧
  (nn = 0%nat → length idx = 2%nat) ∧
  (∀ i a b, idx !! i = Some a → idx !! S i = Some b → nn ≠ 0%nat → (a < b)%nat).

Lemma kept_mono nn idx i j a b : kept nn idx → nn ≠ 0%nat → (i < j)%nat → idx !! i = Some a → idx !! j = Some b → (a + (j - i) ≤ b)%nat.
Proof.
  intros (_ & _ & _ & _ & Hs) Hnn. revert b. induction j as [|j IH]; intros b Hij Ha Hb; [lia|].
  destruct (lookup_lt_is_Some_2 idx j) as [c Hc]; [apply lookup_lt_Some in Hb; lia|].
  specialize (Hs j c b Hc Hb Hnn). destruct (decide (i = j)) as [->|]; [rewrite Ha in Hc; injection Hc; lia|].
  specialize (IH c ltac:(lia) Ha Hc). lia.
Qed.

Lemma kept_len nn idx : kept nn idx → nn ≠ 0%nat → (length idx ≤ nn + 1)%nat.
Proof.
  intros H Hnn. pose proof H as (H0 & H2 & Hl & _).
  pose proof (kept_mono nn idx 0 (length idx - 1) 0 nn H Hnn ltac:(lia) H0 Hl). lia.
Qed.

Lemma kept_range nn idx i a : kept nn idx → idx !! i = Some a → (a ≤ nn)%nat.
Proof.
  intros H Ha. pose proof H as (H0 & H2 & Hl & Hz & _). pose proof Ha as Hi%lookup_lt_Some.
  destruct (decide (nn = 0%nat)) as [->|Hnn].
  - specialize (Hz eq_refl). rewrite Hz in *. destruct i as [|[|i]]; [rewrite H0 in Ha; injection Ha; lia|cbn in Hl; rewrite Hl in Ha; injection Ha; lia|lia].
  - destruct (decide (i = length idx - 1)%nat) as [->|]; [rewrite Hl in Ha; injection Ha; lia|].
    pose proof (kept_mono nn idx i (length idx - 1) a nn H Hnn ltac:(lia) Ha Hl). lia.
Qed.

Lemma insert_lookup (idx : list nat) k m i : (S k ≤ length idx)%nat →
  (take (S k) idx ++ m :: drop (S k) idx) !! i =
    if decide (i < S k)%nat then idx !! i else if decide (i = S k) then Some m else idx !! (i - 1)%nat.
Proof.
  intros Hk. destruct (decide (i < S k)%nat).
  - rewrite lookup_app_l by (rewrite take_length; lia). by rewrite lookup_take by lia.
  - rewrite lookup_app_r by (rewrite take_length; lia). rewrite take_length, Nat.min_l by lia.
    destruct (decide (i = S k)) as [->|]; [by rewrite Nat.sub_diag|].
    replace (i - S k)%nat with (S (i - S k - 1)) by lia. rewrite lookup_cons, lookup_drop. f_equal. lia.
Qed.

Lemma kept_insert nn idx k a b m : kept nn idx → idx !! k = Some a → idx !! S k = Some b → (a < m < b)%nat →
  kept nn (take (S k) idx ++ m :: drop (S k) idx).
Proof.
  intros H Ha Hb Hm. pose proof H as (H0 & H2 & Hl & Hz & Hs). pose proof Hb as Hk%lookup_lt_Some.
  assert (nn ≠ 0%nat) as Hnn by (pose proof (kept_range _ _ _ _ H Hb); lia).
  assert (length (take (S k) idx ++ m :: drop (S k) idx) = S (length idx)) as Hlen
    by (rewrite app_length; cbn; rewrite take_length, drop_length; lia).
  split; [|split; [lia|split; [|split; [done|]]]].
  - rewrite insert_lookup by lia. by destruct (decide (0 < S k)%nat); [|lia].
  - rewrite Hlen, insert_lookup by lia. repeat (destruct (decide _); [lia|]).
    rewrite <-Hl. f_equal. lia.
  - intros i x y. rewrite !insert_lookup by lia. intros Hx Hy _.
    destruct (decide (i < S k)%nat), (decide (S i < S k)%nat); [by eapply Hs| |lia|].
    + assert (i = k) as -> by lia. destruct (decide (S k = S k)); [|done]. injection Hy as <-.
      rewrite Ha in Hx. injection Hx as <-. lia.
    + destruct (decide (i = S k)) as [->|].
      * injection Hx as <-. destruct (decide (S (S k) = S k)); [lia|]. cbn in Hy. rewrite Hb in Hy. injection Hy as <-. lia.
      * destruct (decide (S i = S k)); [lia|]. replace (S i - 1)%nat with (S (i - 1)) in Hy by lia. by eapply Hs.
Qed.

Lemma edge_simplify_spec err edge nn fuel idx k :
  length edge = S nn → (nn ≤ 31)%nat → kept nn idx → (k < length idx)%nat →
  (∀ i a b, (i < k)%nat → idx !! i = Some a → idx !! S i = Some b → span_ok err edge a b) →
  (2 * (nn + 1 - length idx) + (length idx - 1 - k) < fuel)%nat →
  ∃ r, edge_simplify fuel err edge idx k = Done r ∧ kept nn r ∧
    ∀ i a b, r !! i = Some a → r !! S i = Some b → span_ok err edge a b.
Proof.
  intros Hedge Hnn. revert idx k. induction fuel as [|fuel IH]; intros idx k Hk Hkl Hok Hf; [lia|].
  cbn [edge_simplify]. destruct (k <? length idx - 1)%nat eqn:Ek; cbn [negb].
  2:{ exists idx. split; [done|]. split; [done|]. intros i a b Ha Hb. pose proof Hb as Hi%lookup_lt_Some.
      eapply Hok; [|done|done]. lia. }
  destruct (lookup_lt_is_Some_2 idx k) as [a Ha]; [lia|]. destruct (lookup_lt_is_Some_2 idx (S k)) as [b Hb]; [lia|].
  unfold get at 1 2. rewrite Ha, Hb. cbn [obind].
  pose proof (kept_range _ _ _ _ Hk Ha). pose proof (kept_range _ _ _ _ Hk Hb).
  destruct (lookup_lt_is_Some_2 edge a) as [va Hva]; [lia|]. destruct (lookup_lt_is_Some_2 edge b) as [vb Hvb]; [lia|].
  destruct (max_deviation3_spec edge a b va vb Hva Hvb) as (maxd & maxi & -> & Hd & Hr & Hp & Hi); [lia..|]. cbn [obind].
  assert (f_lt (f_mul err err) maxd = false → ∃ r, edge_simplify fuel err edge idx (S k) = Done r ∧ kept nn r ∧
    ∀ i a b, r !! i = Some a → r !! S i = Some b → span_ok err edge a b) as Hadv.
  { intros He. apply IH; [done|lia| |lia]. intros i x y Hik Hx Hy. destruct (decide (i = k)) as [->|].
    - rewrite Ha in Hx. rewrite Hb in Hy. injection Hx as <-. injection Hy as <-. by eapply span_ok_of_dev.
    - eapply Hok; [|done|done]. lia. }
  destruct maxi as [m|].
  - destruct Hi as [Hm _]. destruct (f_lt (f_mul err err) maxd) eqn:He; [|by apply Hadv].
    assert (nn ≠ 0%nat) as Hnz by lia. pose proof (kept_insert _ _ _ _ _ _ Hk Ha Hb Hm) as Hk'.
    assert (length (take (S k) idx ++ m :: drop (S k) idx) = S (length idx)) as Hlen
      by (rewrite app_length; cbn; rewrite take_length, drop_length; lia).
    pose proof (kept_len _ _ Hk' Hnz). rewrite Hlen in *.
    unfold MAX_EDGE. destruct (32 <=? length idx)%nat eqn:E32; [lia|].
    apply IH; [done|lia| |lia]. intros i x y Hik. rewrite !insert_lookup by lia. intros Hx Hy.
    destruct (decide (i < S k)%nat); [|lia]. destruct (decide (S i < S k)%nat); [|lia]. eapply Hok; [|done|done]. lia.
  - subst maxd. apply Hadv. destruct (f_lt (f_mul err err) f_zero) eqn:E; [|done].
    pose proof (f_square_nonneg err) as Hsq. unfold nonneg in Hsq. congruence.
Qed.

(** ** Outlines *)
Lemma outline_snoc {A} j i off (E : list (list A)) e :
  outline_from j i off (E ++ [e]) =
    outline_from j i off E ++ ((match E with [] => j | _ => i + length E - 1 end)%nat :: seq (off + length (concat E)) (length e)).
Proof.
  revert j i off. induction E as [|x E IH]; intros j i off.
  { cbn. rewrite app_nil_r, Nat.add_0_r. done. }
  cbn [app outline_from concat length]. rewrite IH, <-!app_assoc. f_equal. f_equal. f_equal.
  rewrite app_length, <-Nat.add_assoc. f_equal. destruct E; cbn [length]; lia.
Qed.

Lemma outline_from_perm {A} j i off (E : list (list A)) :
  outline_from j i off E ≡ₚ (take (length E) (j :: seq i (length E - 1))) ++ seq off (length (concat E)).
Proof.
  revert j i off. induction E as [|e E IH]; intros j i off; [done|].
  cbn [outline_from length concat]. rewrite IH, app_length, seq_app.
  replace (S (length E) - 1)%nat with (length E) by lia. cbn [take app].
  rewrite (take_ge (seq i _)) by (rewrite seq_length; lia). constructor.
  assert (take (length E) (i :: seq (S i) (length E - 1)) = seq i (length E)) as ->.
  { destruct E as [|e' E]; [done|]. cbn [length]. rewrite take_ge by (cbn; rewrite seq_length; lia).
    cbn. by rewrite Nat.sub_0_r. }
  rewrite !app_assoc. f_equiv. apply Permutation_app_comm.
Qed.

Lemma outline_perm {A} (E : list (list A)) : outline E ≡ₚ seq 0 (length E + length (concat E)).
Proof.
  unfold outline. rewrite outline_from_perm, seq_app. f_equiv; [|done].
  destruct E as [|e E]; [done|]. cbn [length]. rewrite take_ge by (cbn; rewrite seq_length; lia).
  replace (S (length E) - 1)%nat with (length E) by lia. rewrite seq_S. cbn [plus]. by rewrite Permutation_cons_append.
Qed.
