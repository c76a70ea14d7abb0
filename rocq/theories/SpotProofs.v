(** The places of a heightfield are the spans of its compact field, and moves
    between them are its connections. *)
From Verif Require Import Base ModelMath ModelHeightfield ModelHistory ModelCompact SpecHeightfield SpecCompact SpecDistance SpecRegions
  SpecPipeline SpecCoverage InsertProofs HistoryProofs CompactProofs LinkProofs GraphProofs PipelineProofs.
Local Open Scope Z_scope.

Lemma opens_has l j a : l !! j = Some a → walkable a →
  ∃ k, opens l !! k = Some (Open (c_max a) (Z.min 255 (open_top (geometry l) j - c_max a)) (c_area a)).
Proof.
  intros Hj Ha. apply elem_of_list_lookup. unfold opens. apply elem_of_list_fmap. exists (j, a). split; [done|].
  unfold walkable_at. apply elem_of_list_filter. split; [done|]. apply elem_of_lookup_imap. by exists j, a.
Qed.

(** Later spans of a column are higher. *)
Lemma good_above l i j a b : good_column l → (i < j)%nat → l !! i = Some a → l !! j = Some b → c_max a < c_max b.
Proof.
  intros [G1 G2] Hij. revert b. induction Hij as [|j Hij IH]; intros b Ha Hb.
  - specialize (G2 _ _ _ Ha Hb). destruct (G1 _ _ Hb). lia.
  - destruct (lookup_lt_is_Some_2 l j) as [b' Hb']; [apply lookup_lt_Some in Hb; lia|]. specialize (IH _ Ha Hb').
    specialize (G2 _ _ _ Hb' Hb). destruct (G1 _ _ Hb). lia.
Qed.
Lemma good_floor l i j a b : good_column l → l !! i = Some a → l !! j = Some b → c_max a = c_max b → i = j.
Proof.
  intros G Ha Hb E. destruct (lt_eq_lt_dec i j) as [[H| ->]|H]; [|done|].
  - pose proof (good_above _ _ _ _ _ G H Ha Hb). lia.
  - pose proof (good_above _ _ _ _ _ G H Hb Ha). lia.
Qed.

Lemma walkable_at_nodup l : NoDup (walkable_at l).
Proof.
  apply NoDup_filter, (NoDup_fmap_1 fst). 
  assert ((imap pair l).*1 = seq 0 (length l)) as ->; [|apply NoDup_seq].
  apply list_eq. intros i. rewrite list_lookup_fmap, list_lookup_imap. destruct (decide (i < length l)%nat) as [Hi|Hi].
  - destruct (lookup_lt_is_Some_2 _ _ Hi) as [a Ha]. rewrite Ha. cbn. symmetry. by apply lookup_seq.
  - rewrite (lookup_ge_None_2 l) by lia. cbn. symmetry. apply lookup_seq_ge. lia.
Qed.
Lemma opens_inj l k k' q q' : good_column l → opens l !! k = Some q → opens l !! k' = Some q' → o_y q = o_y q' → k = k'.
Proof.
  intros [G1 G2]. unfold opens. rewrite !list_lookup_fmap. intros ([j a] & H & ->)%fmap_Some ([j' a'] & H' & ->)%fmap_Some. cbn.
  intros E. eapply NoDup_lookup; [apply walkable_at_nodup|exact H|]. rewrite H'. f_equal.
  assert (l !! j = Some a) as Hj.
  { apply elem_of_list_lookup_2, elem_of_list_filter in H as [_ H]. by apply elem_of_lookup_imap in H as (? & ? & [= -> ->] & ?). }
  assert (l !! j' = Some a') as Hj'.
  { apply elem_of_list_lookup_2, elem_of_list_filter in H' as [_ H']. by apply elem_of_lookup_imap in H' as (? & ? & [= -> ->] & ?). }
  assert (j = j') as <-; [|congruence]. by eapply (good_floor l); [split|..].
Qed.

Lemma same_cell (w x z x' z' : nat) : (x < w)%nat → (x' < w)%nat → (x + z * w = x' + z' * w)%nat → x = x' ∧ z = z'.
Proof. intros. assert (z = z') by nia. subst. lia. Qed.

Section spots.
  Context (hf : hfield) (ch : chf) (O : list (list ospan)) (wh wc : Z).
  Hypothesis HR : reachable hf.
  Hypothesis HO : field_opens hf O.
  Hypothesis HL : lists_opens ch O.
  Hypothesis HC : connects ch wh wc O.
  Hypothesis Hw : ch_w ch = hf_w hf.
  Hypothesis Hh : ch_h ch = hf_h hf.
  Hypothesis H62 : Forall (λ o, length o ≤ 62)%nat O.
  Hypothesis Hwc : 0 ≤ wc < wh.
  Hypothesis H255 : wh + wc ≤ 255.
  Notation sof := (spot_of hf O).

  Lemma column_fun c l l' : is_column hf c l → is_column hf c l' → l = l'.
  Proof.
    destruct (reachable_ok _ HR) as [cols Hok]. intros H1 H2.
    apply (is_column_rep _ _ _ _ (ok_rep _ _ Hok)) in H1 as (k1 & E1 & <-).
    apply (is_column_rep _ _ _ _ (ok_rep _ _ Hok)) in H2 as (k2 & E2 & <-). congruence.
  Qed.
  Lemma column_good c l : is_column hf c l → good_column l.
  Proof.
    destruct (reachable_ok _ HR) as [cols Hok]. intros H1.
    apply (is_column_rep _ _ _ _ (ok_rep _ _ Hok)) in H1 as (k1 & E1 & <-). apply (ok_fine _ _ Hok _ _ E1).
  Qed.
  Lemma O_stacked : Forall (stacked 0) O.
  Proof.
    destruct (reachable_ok _ HR) as [cols Hok]. pose proof HO as E. apply (field_opens_rep _ cols) in E as ->; [|done].
    apply Forall_lookup. intros c o Ho. unfold opens_of in Ho. rewrite list_lookup_fmap in Ho.
    apply fmap_Some in Ho as (kl & Hk & ->). destruct (ok_fine _ _ Hok _ _ Hk) as [Hg Ha].
    apply (opens_stacked (-1)); [lia|by apply good_sorted|].
    apply Forall_lookup. intros i a Hi. destruct (proj1 Hg _ _ Hi). lia.
  Qed.

  Lemma spot_index p : spot_in hf p → ∃ i, sof i p.
  Proof.
    intros (Hx & Hz & l & j & a & Hl & Hj & Ha & Ef & Et). set (c := (sp_x p + sp_z p * hf_w hf)%nat) in *.
    assert (c < length O)%nat as Hlt. { rewrite (proj1 HO). unfold c. nia. }
    destruct (lookup_lt_is_Some_2 _ _ Hlt) as [o Ho]. destruct (proj2 HO _ _ Ho) as (l' & Hl' & <-).
    pose proof (column_fun _ _ _ Hl' Hl). subst l'. destruct (opens_has _ _ _ Hj Ha) as (k & Hk).
    exists (first_index O c + k)%nat. split; [done|]. split; [done|]. cbn zeta. fold c.
    eexists (opens l), k, _, l, j, a. do 8 (split; [done|]). cbn. split; [done|]. split; [lia|done].
  Qed.
  (** A place is determined by its cell and floor. *)
  Lemma spot_eq p q : spot_in hf p → spot_in hf q → sp_x p = sp_x q → sp_z p = sp_z q → sp_floor p = sp_floor q → p = q.
  Proof.
    intros (_ & _ & l & j & a & Hl & Hj & Ha & Ef & Et) (_ & _ & l' & j' & a' & Hl' & Hj' & Ha' & Ef' & Et') Ex Ez E.
    destruct p as [x z f t], q as [x' z' f' t']. cbn in *. subst x' z' f'.
    pose proof (column_fun _ _ _ Hl' Hl). subst l'. assert (j = j') as <- by (apply (good_floor l j j' a a'); [by eapply column_good|done|done|congruence]). congruence.
  Qed.
  Lemma spot_fun i p q : sof i p → sof i q → p = q.
  Proof.
    intros Hp Hq. pose proof (spot_of_in _ _ _ _ Hp) as Ip. pose proof (spot_of_in _ _ _ _ Hq) as Iq.
    destruct Hp as (Hx & Hz & o & k & s & l & j & a & Ho & Hk & -> & _ & _ & _ & _ & _ & Ey & _).
    destruct Hq as (Hx' & Hz' & o' & k' & s' & l' & j' & a' & Ho' & Hk' & Ei & _ & _ & _ & _ & _ & Ey' & _).
    destruct (concat_index_inj O _ _ o o' k k' Ho Ho') as [E1 E2]; [by eapply lookup_lt_Some|by eapply lookup_lt_Some|done|].
    destruct (same_cell _ _ _ _ _ Hx Hx' E1) as [Ex Ez]. rewrite E1 in Ho. assert (o' = o) as -> by congruence. subst k'.
    assert (s' = s) as -> by congruence. apply spot_eq; [done|done|done|done|congruence].
  Qed.
  Lemma spot_inj i j p : sof i p → sof j p → i = j.
  Proof.
    intros (Hx & Hz & o & k & s & l & m & a & Ho & Hk & -> & Hl & Hm & _ & Ef & _ & Ey & _)
      (_ & _ & o' & k' & s' & l' & m' & a' & Ho' & Hk' & -> & _ & _ & _ & _ & _ & Ey' & _).
    assert (o' = o) as -> by congruence. f_equal.
    destruct (proj2 HO _ _ Ho) as (l0 & Hl0 & <-). eapply opens_inj; [by eapply column_good|done..|congruence].
  Qed.

  Lemma move_step i d p q : (d < 4)%nat → sof i p → move hf wh wc d p q → ∃ j, step ch i d j ∧ sof j q.
  Proof.
    intros Hd Hp (Hq & Ex & Ez & Hgap & Hfl). destruct (spot_index q Hq) as [j Hj]. exists j. split; [|done].
    destruct Hp as (Hx & Hz & o & k & s & l & m & a & Ho & Hk & -> & Hl & Hm & Ha & Ef & Et & Ey & Eh & _).
    destruct Hj as (Hx' & Hz' & o' & k' & s' & l' & m' & a' & Ho' & Hk' & -> & Hl' & Hm' & Ha' & Ef' & Et' & Ey' & Eh' & _).
    set (c := (sp_x p + sp_z p * hf_w hf)%nat) in *. set (c' := (sp_x q + sp_z q * hf_w hf)%nat) in *.
    assert (traversable wh wc s s') as Htr.
    { destruct (proj2 HO _ _ Ho) as (l0 & Hl0 & <-). destruct (proj2 HO _ _ Ho') as (l0' & Hl0' & <-).
      pose proof (column_fun _ _ _ Hl0 Hl). subst l0. pose proof (column_fun _ _ _ Hl0' Hl'). subst l0'.
      apply opens_at in Hk as (j1 & a1 & Hj1 & _ & ->). apply opens_at in Hk' as (j2 & a2 & Hj2 & _ & ->). cbn in *.
      assert (m = j1) as -> by (apply (good_floor l m j1 a a1); [eapply column_good, Hl|done|done|congruence]).
      assert (m' = j2) as -> by (apply (good_floor l' m' j2 a' a2); [eapply column_good, Hl'|done|done|congruence]).
      unfold traversable. cbn. rewrite <-Et, <-Et', Ey, Ey'. lia. }
    assert (nb_col (ch_w ch) (ch_h ch) (c mod ch_w ch) (c / ch_w ch) d = Some c') as Hnb.
    { assert (Hdm : (c mod hf_w hf = sp_x p)%nat ∧ (c / hf_w hf = sp_z p)%nat).
      { unfold c. rewrite Nat.mod_add, Nat.div_add by lia. rewrite Nat.mod_small, Nat.div_small by done. lia. }
      rewrite Hw, Hh, (proj1 Hdm), (proj2 Hdm). unfold nb_col. rewrite <-Ex, <-Ez.
      rewrite decide_True by lia. f_equal. unfold c'. lia. }
    assert (k < length o)%nat as Hlk by (by eapply lookup_lt_Some). assert (k' < length o')%nat as Hlk' by (by eapply lookup_lt_Some).
    destruct (lo_cell _ _ HL _ _ Ho) as (cl & Hcl & Hn & Hix). destruct (lo_cell _ _ HL _ _ Ho') as (cl' & Hcl' & Hn' & Hix').
    assert (o ≠ []) as Hne by (by intros ->; cbn in *; lia). assert (o' ≠ []) as Hne' by (by intros ->; cbn in *; lia).
    destruct (lo_span _ _ HL (first_index O c + k) s) as (sp & Hsp & _).
    { unfold first_index. by rewrite (concat_lookup O _ o k Ho). }
    exists c, k, c', k', cl, cl'. rewrite Hix, Hix' by done. split; [|done].
    exists sp. split; [exists cl; rewrite Hix by done; split; [done|]; split; [lia|done]|]. split; [|done].
    apply (HC c o k s d sp Ho Hk Hd Hsp). pose proof (Forall_lookup_1 _ _ _ _ H62 Ho') as Hl62. cbn in Hl62.
    split; [lia|]. exists c', o'. split; [done|]. split; [done|]. rewrite Nat2Z.id. split; [by exists s'|].
    intros j t Hj Ht Htr2. assert (j = k'); [|lia].
    eapply (traversable_unique wh wc 0); [by apply (Forall_lookup_1 _ _ _ _ O_stacked Ho')|lia|exact Ht|exact Hk'|done|done].
  Qed.

  Lemma move_back d p q : (d < 4)%nat → spot_in hf p → move hf wh wc d p q → move hf wh wc ((d + 2) mod 4) q p.
  Proof.
    intros Hd Hp (Hq & Ex & Ez & Hgap & Hfl). split; [done|].
    destruct d as [|[|[|[|d]]]]; cbn in *; try lia; (split; [lia|]; split; [lia|]; split; lia).
  Qed.

  (** Chamfer paths are moves. *)
  Lemma step_moves i d j p : (d < 4)%nat → sof i p → step ch i d j → ∃ q, sof j q ∧ moves hf wh wc 1 p q.
  Proof.
    intros Hd Hp Hs. destruct (spot_move hf ch O wh wc HO HL HC Hw Hh i d j p Hd Hp Hs) as (q & Hq & Hm).
    exists q. split; [done|]. econstructor; [done|done|constructor].
  Qed.
  Lemma moves_app n m p q s : moves hf wh wc n p q → moves hf wh wc m q s → moves hf wh wc (n + m) p s.
  Proof. induction 1; intros; [done|]. cbn. econstructor; eauto. Qed.
  Lemma corner_moves d1 d2 i j w p : (d1 < 4)%nat → (d2 < 4)%nat → sof i p → corner ch d1 d2 i j w →
    ∃ n q, sof j q ∧ moves hf wh wc n p q ∧ 3 * Z.of_nat n ≤ 2 * w.
  Proof.
    intros H1 H2 Hp [[Hs ->]|(m & Hs1 & Hs2 & ->)].
    - destruct (step_moves _ _ _ _ H1 Hp Hs) as (q & Hq & Hm). exists 1%nat, q. split; [done|]. split; [done|lia].
    - destruct (step_moves _ _ _ _ H1 Hp Hs1) as (q & Hq & Hm). destruct (step_moves _ _ _ _ H2 Hq Hs2) as (q' & Hq' & Hm').
      exists 2%nat, q'. split; [done|]. split; [by apply (moves_app 1 1 _ q)|lia].
  Qed.
  Lemma wpath_moves (mv : nat → nat → Z → Prop) i j w :
    (∀ i j w p, sof i p → mv i j w → ∃ n q, sof j q ∧ moves hf wh wc n p q ∧ 3 * Z.of_nat n ≤ 2 * w) →
    wpath mv i j w → ∀ p, sof i p → ∃ n q, sof j q ∧ moves hf wh wc n p q ∧ 3 * Z.of_nat n ≤ 2 * w.
  Proof.
    intros Hmv. induction 1 as [i|i j k w w' H _ IH]; intros p Hp.
    - exists 0%nat, p. split; [done|]. split; [constructor|lia].
    - destruct (Hmv _ _ _ _ Hp H) as (n & q & Hq & Hm & Hn). destruct (IH q Hq) as (n' & q' & Hq' & Hm' & Hn').
      exists (n + n')%nat, q'. split; [done|]. split; [by eapply moves_app|lia].
  Qed.
  Lemma chamfer_moves goal i w p : sof i p → chamfer ch goal i w →
    ∃ n b q, goal b ∧ sof b q ∧ moves hf wh wc n p q ∧ 3 * Z.of_nat n ≤ 2 * w.
  Proof.
    intros Hp (m & b & w1 & w2 & H1 & H2 & Hg & ->).
    destruct (wpath_moves (forward ch) i m w1) with (p := p) as (n & q & Hq & Hm & Hn); [|done|done|].
    { intros i' j' w' p' Hp' [H|H]; (eapply corner_moves; [| |exact Hp'|exact H]; lia). }
    destruct (wpath_moves (backward ch) m b w2) with (p := q) as (n' & q' & Hq' & Hm' & Hn'); [|done|done|].
    { intros i' j' w' p' Hp' [H|H]; (eapply corner_moves; [| |exact Hp'|exact H]; lia). }
    exists (n + n')%nat, b, q'. split; [done|]. split; [done|]. split; [by eapply moves_app|lia].
  Qed.

  (** Places with room are not near the rim. *)
  Lemma roomy_far radius i p w : sof i p → roomy hf wh wc radius p → chamfer ch (rim ch) i w → 2 * radius ≤ w.
  Proof.
    intros Hp [_ Hroom] Hch. destruct (decide (2 * radius ≤ w)) as [|Hlt]; [done|]. exfalso.
    destruct (chamfer_moves _ _ _ _ Hp Hch) as (n & b & q & [_ Hrim] & Hq & Hm & Hn).
    destruct Hrim as [H0|(d & Hd & Hrim)].
    - destruct (spot_area hf ch O HL _ _ Hq) as (a & Ha & Ha0). congruence.
    - destruct (Hroom n q d Hm ltac:(lia) Hd) as (q' & Hq'). destruct (move_step b d q q' Hd Hq Hq') as (j & Hj & Hjs).
      specialize (Hrim j Hj). destruct (spot_area hf ch O HL _ _ Hjs) as (a & Ha & Ha0). congruence.
  Qed.

  (** Spans joined inside a list are places joined inside a list. *)
  Lemma spot_ex i : wf_chf ch → (i < length (ch_spans ch))%nat → ∃ p, sof i p.
  Proof.
    intros Hwf Hi. destruct (in_cell_ex ch Hwf i Hi) as [c Hc]. pose proof (in_cell_lt ch Hwf _ _ Hc) as Hlt.
    rewrite Hw, Hh in Hlt. assert (0 < hf_w hf)%nat by nia.
    destruct (spot_cell hf ch O HO HL Hw Hh (c mod hf_w hf)%nat (c / hf_w hf)%nat i) as (p & _ & _ & Hp).
    - by apply Nat.mod_upper_bound; lia.
    - apply Nat.div_lt_upper_bound; lia.
    - by rewrite Nat.add_comm, Nat.mul_comm, <-Nat.div_mod by lia.
    - by exists p.
  Qed.
  Lemma adjacent_move i j p q : sof i p → sof j q → adjacent ch i j → ∃ d, (d < 4)%nat ∧ move hf wh wc d p q.
  Proof.
    intros Hp Hq (d & Hd & [Hs|Hs]).
    - exists d. split; [done|]. destruct (spot_move hf ch O wh wc HO HL HC Hw Hh i d j p Hd Hp Hs) as (q' & Hq' & Hm).
      by rewrite (spot_fun _ _ _ Hq Hq').
    - exists ((d + 2) mod 4)%nat. split; [by apply Nat.mod_upper_bound|].
      destruct (spot_move hf ch O wh wc HO HL HC Hw Hh j d i q Hd Hq Hs) as (p' & Hp' & Hm).
      rewrite <-(spot_fun _ _ _ Hp Hp') in Hm. apply move_back; [done|by eapply spot_of_in|done].
  Qed.
  Lemma joined_ways (L : list nat) (LS : list spot) i j p q : Forall2 sof L LS →
    joined ch (λ l, l ∈ L) i j → sof i p → sof j q → ways hf wh wc LS p q.
  Proof.
    intros HF J. revert p.
    assert (Hin : ∀ i p, i ∈ L → sof i p → p ∈ LS).
    { intros i0 p0 Hi Hp. apply elem_of_list_lookup in Hi as (k & Hk). eapply Forall2_lookup_l in HF as (p1 & H1 & Hs); [|exact Hk].
      rewrite (spot_fun _ _ _ Hp Hs). by eapply elem_of_list_lookup_2. }
    induction J as [i Hi|i j k Hi Ha J IH]; intros p Hp Hq.
    - rewrite (spot_fun _ _ _ Hp Hq) in *. constructor. by eapply Hin.
    - assert (∃ s, sof j s) as [s Hs].
      { assert (j ∈ L) as Hj by (by inversion J). apply elem_of_list_lookup in Hj as (n & Hn).
        eapply Forall2_lookup_l in HF as (s & _ & Hs); [|exact Hn]. by exists s. }
      destruct (adjacent_move _ _ _ _ Hp Hs Ha) as (d & Hd & Hm). econstructor; [done|by eapply Hin|done|by apply IH].
  Qed.
  Lemma spots_of (L : list nat) : (∀ i, i ∈ L → ∃ p, sof i p) → ∃ LS, Forall2 sof L LS.
  Proof.
    induction L as [|i L IH]; intros H; [by exists []|]. destruct (H i) as [p Hp]; [left|].
    destruct IH as [LS HF]; [intros j Hj; apply H; by right|]. exists (p :: LS). by constructor.
  Qed.
  Lemma spots_nodup L LS : Forall2 sof L LS → NoDup L → NoDup LS.
  Proof.
    intros HF Hnd. apply NoDup_alt. intros m n p Hm Hn. eapply Forall2_lookup_r in HF as Hm'; [|exact Hm]. destruct Hm' as (i & Hi & Hpi).
    eapply Forall2_lookup_r in HF as Hn'; [|exact Hn]. destruct Hn' as (j & Hj & Hpj).
    rewrite (spot_inj _ _ _ Hpi Hpj) in *. by eapply NoDup_lookup.
  Qed.
End spots.
