(** Strictly convex polygons are always triangulated. *)
From Verif Require Import Base ModelMath ModelContours ModelPoly SpecPoly FlowProofs TriangulateProofs.
Local Open Scope Z_scope.

Definition sc (P : nat → vtx) (n : nat) : Prop :=
  ∀ i j k, (i < j < k)%nat → (k < n)%nat → cross (P i) (P j) (P k) < 0.
Definition cyc (i j k : nat) : Prop := ((i < j < k) ∨ (j < k < i) ∨ (k < i < j))%nat.

Lemma cross_cycle a b c : cross a b c = cross b c a.
Proof. unfold cross. lia. Qed.

Lemma sc_cyc P n i j k : sc P n → cyc i j k → (i < n)%nat → (j < n)%nat → (k < n)%nat → cross (P i) (P j) (P k) < 0.
Proof.
  intros H [C|[C|C]] Hi Hj Hk.
  - by apply H.
  - rewrite cross_cycle. by apply H.
  - rewrite <- cross_cycle. by apply H.
Qed.

Lemma nx_cases i n : (i < n)%nat → (nx i n = i + 1 ∧ i + 1 < n ∨ nx i n = 0 ∧ i + 1 = n)%nat.
Proof.
  intros H. destruct (decide (i + 1 < n)%nat).
  - left. by rewrite nx_small.
  - right. rewrite nx_last by lia. lia.
Qed.
Lemma pv_cases i n : (i < n)%nat → (pv i n = i - 1 ∧ 0 < i ∨ pv i n = n - 1 ∧ i = 0)%nat.
Proof.
  intros H. destruct (decide (i = 0)%nat) as [->|].
  - right. rewrite pv_0 by lia. lia.
  - left. rewrite pv_pos by lia. lia.
Qed.

Lemma convex_diag P n i : sc P n → (3 < n)%nat → (i < n)%nat → diagb P i (nx (nx i n) n) n = true.
Proof.
  intros Hsc H3 Hi.
  assert (nx i n < n)%nat as H1 by (apply nx_lt; lia).
  assert (nx (nx i n) n < n)%nat as H2 by (apply nx_lt; lia).
  assert (pv i n < n)%nat as Hp by (apply pv_lt; lia).
  pose proof (nx_cases i n Hi) as C1. pose proof (nx_cases _ n H1) as C2. pose proof (pv_cases i n Hi) as C3.
  set (i1 := nx i n) in *. set (j := nx i1 n) in *. set (p := pv i n) in *.
  unfold diagb. apply andb_true_intro. split.
  - unfold in_coneb. fold p i1.
    assert (cross (P p) (P i) (P i1) < 0) as Ha by (apply (sc_cyc _ n); [done|unfold cyc; lia|done..]).
    assert (cross (P i) (P j) (P p) < 0) as Hb by (apply (sc_cyc _ n); [done|unfold cyc; lia|done..]).
    assert (cross (P j) (P i) (P i1) < 0) as Hc by (apply (sc_cyc _ n); [done|unfold cyc; lia|done..]).
    unfold left_onb, leftb. destruct (cross (P p) (P i) (P i1) <=? 0) eqn:E; [|lia]. lia.
  - apply forallb_forall. intros k Hk%in_seq. apply negb_true_iff. unfold crossesb.
    assert (k < n)%nat as Hkn by lia. clear Hk.
    pose proof (nx_cases k n Hkn) as Ck. assert (nx k n < n)%nat as Hk1 by (apply nx_lt; lia).
    set (k1 := nx k n) in *.
    destruct ((k =? i)%nat || (k1 =? i)%nat || (k =? j)%nat || (k1 =? j)%nat) eqn:E; [done|].
    apply orb_false_elim in E as [E E4]. apply orb_false_elim in E as [E E3]. apply orb_false_elim in E as [E1 E2].
    apply Nat.eqb_neq in E1, E2, E3, E4. cbn [negb andb].
    destruct (vequal _ _ || _ || _ || _); [done|]. cbn [negb andb].
    assert (cross (P i) (P j) (P k) < 0) as Hc1 by (apply (sc_cyc _ n); [done|unfold cyc; lia|done..]).
    assert (cross (P i) (P j) (P k1) < 0) as Hc2 by (apply (sc_cyc _ n); [done|unfold cyc; lia|done..]).
    assert (cross (P k) (P k1) (P i) < 0) as Hc3 by (apply (sc_cyc _ n); [done|unfold cyc; lia|done..]).
    assert (cross (P k) (P k1) (P j) < 0) as Hc4 by (apply (sc_cyc _ n); [done|unfold cyc; lia|done..]).
    unfold interb, inter_propb, betweenb, collb, leftb.
    replace (cross (P i) (P j) (P k) =? 0) with false by lia.
    replace (cross (P i) (P j) (P k1) =? 0) with false by lia.
    replace (cross (P k) (P k1) (P i) =? 0) with false by lia.
    replace (cross (P k) (P k1) (P j) =? 0) with false by lia.
    replace (cross (P i) (P j) (P k) <? 0) with true by lia.
    replace (cross (P i) (P j) (P k1) <? 0) with true by lia.
    done.
Qed.

Section run.
Context (verts : list vtx) (B : Prop).

Definition flags_up (idx : list node) : Prop := ∀ k e, idx !! k = Some e → e.2 = true.

Lemma sc_delete (idx idx' : list node) i n : sc (npos verts idx) n → length idx = n →
  idx'.*1 = delete i (idx.*1) → (i < n)%nat → sc (npos verts idx') (n - 1).
Proof.
  intros Hsc Hn E Hi a b c Habc Hc.
  assert (∀ k, npos verts idx' k = npos verts idx (if (k <? i)%nat then k else S k)) as Hk.
  { intros k. unfold npos. apply (f_equal (.!! k)) in E. rewrite list_lookup_fmap in E.
    destruct (k <? i)%nat eqn:Eki.
    - rewrite lookup_delete_lt in E by lia. rewrite list_lookup_fmap in E.
      destruct (idx' !! k), (idx !! k); cbn in E; congruence.
    - rewrite lookup_delete_ge in E by lia. rewrite list_lookup_fmap in E.
      destruct (idx' !! k), (idx !! S k); cbn in E; congruence. }
  rewrite !Hk. apply Hsc; repeat case_match; lia.
Qed.

Lemma convex_loop fuel n cap (idx : list node) tris : length idx = n → ((3 <= n)%nat ∨ B) → fine verts B idx →
  (n <= fuel)%nat → ((length tris + n <= cap + 2)%nat ∨ B) →
  sc (npos verts idx) n → ((3 < n)%nat → flags_up idx) →
  ends B (ear_loop fuel n cap verts idx tris) (λ r, ∃ tris', r = Ok tris').
Proof.
  revert n idx tris. induction fuel as [|fuel IH]; intros n idx tris Hn H3 Hf Hfu Hcap Hsc Hup.
  { assert (n = 0)%nat as -> by lia. destruct H3 as [?|HB]; [lia|].
    cbn. unfold push_tri. case_match; cbn; [|done]. destruct idx; [|done]. done. }
  pose proof (ear_loop_ends verts B (S fuel) n cap idx tris Hn H3 Hf Hfu Hcap) as Hbase.
  cbn [ear_loop] in *. destruct (3 <? n)%nat eqn:E3.
  - assert (3 < n)%nat as Hn3 by lia. clear E3 Hbase. specialize (Hup Hn3).
    eapply ends_bind; [by apply best_ear_ends|]. intros b Hb.
    destruct b as [[m i]|]; cycle 1.
    { exfalso. assert (0 < n)%nat as H0 by lia. pose proof (nx_lt 0 n H0) as Hx. rewrite <- Hn in Hx at 2.
      apply lookup_lt_is_Some_2 in Hx as [[a f] Hx].
      apply (Hb 0%nat); [lia|]. exists a. rewrite Hx. by rewrite <- (Hup _ _ Hx). }
    cbn [obind]. destruct Hb as [Hi _].
    destruct (ear_rotation (idx.*1) n i) as (a & b & c & q & Ha & Hb & Hc & Hq & R1 & R2);
      [by rewrite fmap_length|done|done|].
    eapply ends_bind; [eapply push_tri_ends; [|done..]; destruct Hcap; [left; lia|by right]|]. intros tris' ->.
    eapply ends_bind; [apply cut_ear_ends; [done|done|apply nx_lt; lia|done]|]. intros idx' [E Hfl].
    assert (nx i n < n)%nat as H1 by (apply nx_lt; lia).
    assert (length idx' = n - 1)%nat as Hl.
    { apply (f_equal length) in E. rewrite length_delete, !fmap_length in E; [lia|].
      apply lookup_lt_is_Some_2. rewrite fmap_length, Hn. done. }
    apply IH.
    + done.
    + left. lia.
    + intros e He. assert (e.1 ∈ idx'.*1) as H by (apply elem_of_list_fmap; by exists e).
      rewrite E, <- fmap_delete in H. apply elem_of_list_fmap in H as (e' & -> & He'). apply Hf. by eapply elem_of_del.
    + lia.
    + rewrite app_length. cbn. destruct Hcap; [left; lia|by right].
    + by eapply sc_delete.
    + intros Hn4 k e He.
      assert (is_Some (delete (nx i n) idx !! k)) as [e' He'].
      { apply lookup_lt_is_Some_2. rewrite length_delete by (apply lookup_lt_is_Some_2; lia).
        apply lookup_lt_Some in He. lia. }
      destruct (Hfl k e' He') as [Hk|(x & y & Hx & Hy & Ek & Ey & Hk)].
      * rewrite He in Hk. injection Hk as ->.
        assert (e' ∈ idx) as Hin by (eapply elem_of_del, elem_of_list_lookup_2, He').
        apply elem_of_list_lookup in Hin as [k' Hk']. by apply (Hup k').
      * rewrite He in Hk. injection Hk as ->. cbn. subst y k.
        apply convex_diag; [|done|done]. eapply sc_delete; [done|done| |done]. apply fmap_delete.
  - destruct idx as [|[a fa] [|[b fb] [|[c fc] [|]]]]; cbn in Hn; try (destruct H3 as [?|HB]; [lia|]); try lia.
    + unfold push_tri. by case_match.
    + unfold push_tri. by case_match.
    + unfold push_tri. by case_match.
    + eapply ends_bind; [eapply (push_tri_ends B _ _ _ _ _ _ a b c); [|done..]; destruct Hcap; [left; lia|by right]|].
      intros tris' ->. cbn. eauto.
Qed.

Theorem convex_triangulate indices cap :
  (∀ i, i ∈ indices → (∃ v, verts !! i = Some v ∧ small v) ∨ B) → ((3 <= length indices)%nat ∨ B) →
  ((length indices <= cap + 2)%nat ∨ B) →
  strictly_convex (at_pos verts <$> indices) →
  ends B (triangulate verts indices cap) (λ r, ∃ tris, r = Ok tris).
Proof.
  intros Hv H3 Hcap Hsc. unfold triangulate.
  set (idx := (λ i, (i, false)) <$> indices). set (n := length indices).
  assert (idx.*1 = indices) as E.
  { unfold idx. rewrite <- list_fmap_compose. apply list_fmap_id. }
  assert (length idx = n) as Hl by (unfold idx; apply fmap_length).
  assert (fine verts B idx) as Hf.
  { intros e He. apply elem_of_list_fmap in He as (i & -> & Hi). by apply Hv. }
  assert (∀ idx', idx'.*1 = indices → sc (npos verts idx') n) as Hsc'.
  { intros idx' E' i j k Hijk Hk. unfold npos.
    assert (∀ k, (k < n)%nat → (at_pos verts <$> indices) !! k = Some (npos verts idx' k)) as Hpos.
    { intros x Hx. destruct (lookup_lt_is_Some_2 indices x) as [a Ha]; [done|].
      rewrite list_lookup_fmap, Ha. cbn. f_equal. unfold npos.
      rewrite <- E', list_lookup_fmap in Ha. apply fmap_Some in Ha as (e & -> & ->). done. }
    eapply Hsc; [done|apply Hpos; lia..]. }
  eapply ends_bind; [apply mark_ears_ends; [done|done]|].
  intros idx' [E' Hup]. apply convex_loop.
  - rewrite <- Hl. by apply same_length.
  - done.
  - by eapply fine_same.
  - lia.
  - done.
  - apply Hsc'. by rewrite E'.
  - intros Hn4 k e He. assert (k < n)%nat as Hk.
    { rewrite <- Hl, <- (same_length _ _ E'). by eapply lookup_lt_Some. }
    destruct (Hup (pv k n)) as [a Ha].
    + apply pv_lt. lia.
    + apply convex_diag; [apply Hsc', E|done|apply pv_lt; lia].
    + assert (nx (pv k n) n = k) as Ek.
      { destruct (pv_cases k n Hk) as [[-> ?]|[-> ->]]; [rewrite nx_small; lia|apply nx_last; lia]. }
      rewrite Ek in Ha. rewrite He in Ha. by injection Ha as ->.
Qed.
End run.

(** ** Every triangle of a convex polygon winds the right way *)

Lemma sconv_rotation l l' : rotation l l' → strictly_convex l → strictly_convex l'.
Proof.
  intros (p & q & -> & ->) H i j k a b c Hijk Ha Hb Hc.
  apply lookup_app_Some in Ha as [Ha|[Hai Ha]], Hb as [Hb|[Hbi Hb]], Hc as [Hc|[Hci Hc]];
    try (apply lookup_lt_Some in Ha as Ha'); try (apply lookup_lt_Some in Hb as Hb'); try (apply lookup_lt_Some in Hc as Hc'); try lia.
  - apply (H (length p + i) (length p + j) (length p + k))%nat; [lia|..]; by rewrite lookup_app_r, Nat.add_comm, Nat.add_sub by lia.
  - rewrite cross_cycle, cross_cycle. apply (H (k - length q) (length p + i) (length p + j))%nat; [lia|..].
    + by apply lookup_app_l_Some.
    + by rewrite lookup_app_r, Nat.add_comm, Nat.add_sub by lia.
    + by rewrite lookup_app_r, Nat.add_comm, Nat.add_sub by lia.
  - rewrite cross_cycle. apply (H (j - length q) (k - length q) (length p + i))%nat; [lia|..].
    + by apply lookup_app_l_Some.
    + by apply lookup_app_l_Some.
    + by rewrite lookup_app_r, Nat.add_comm, Nat.add_sub by lia.
  - apply (H (i - length q) (j - length q) (k - length q))%nat; [lia|..]; by apply lookup_app_l_Some.
Qed.
Lemma sconv_drop a b q : strictly_convex (a :: b :: q) → strictly_convex (a :: q).
Proof.
  intros H i j k x y z Hijk Hx Hy Hz. destruct j as [|j]; [lia|]. destruct k as [|k]; [lia|].
  destruct i as [|i].
  - by apply (H 0%nat (S (S j)) (S (S k)) x y z); [lia|..].
  - by apply (H (S (S i)) (S (S j)) (S (S k)) x y z); [lia|..].
Qed.
Lemma cuts_convex {A} (pos : A → vtx) l ts : cuts l ts → strictly_convex (pos <$> l) →
  Forall (λ t, cross (pos t.1.1) (pos t.1.2) (pos t.2) < 0) ts.
Proof.
  induction 1 as [a b c|l l' a b c q ts Hq R R' Hc IH]; intros H.
  - constructor; [|constructor]. by apply (H 0 1 2)%nat; [lia|..].
  - assert (∀ u v : list A, rotation u v → rotation (pos <$> u) (pos <$> v)) as Hrf.
    { intros u v (x & y & -> & ->). exists (pos <$> x), (pos <$> y). by rewrite !fmap_app. }
    apply Hrf in R, R'. apply (sconv_rotation _ _ R) in H as H1. constructor.
    + by apply (H1 0 1 2)%nat; [lia|..].
    + apply IH. apply (sconv_rotation _ _ (rotation_sym _ _ R')). cbn in *. by eapply sconv_drop.
Qed.
Lemma sconv_same l l' : Forall2 (λ a b, vx a = vx b ∧ vz a = vz b) l l' → strictly_convex l → strictly_convex l'.
Proof.
  intros HF H i j k a b c Hijk Ha Hb Hc.
  destruct (Forall2_lookup_r _ _ _ _ _ HF Ha) as (a' & Ha' & Ea1 & Ea2).
  destruct (Forall2_lookup_r _ _ _ _ _ HF Hb) as (b' & Hb' & Eb1 & Eb2).
  destruct (Forall2_lookup_r _ _ _ _ _ HF Hc) as (c' & Hc' & Ec1 & Ec2).
  pose proof (H i j k a' b' c' Hijk Ha' Hb' Hc') as Hx. unfold cross in *. rewrite Ea1, Ea2, Eb1, Eb2, Ec1, Ec2 in Hx. done.
Qed.
