(** Properties C28 and C29 on large fields: the size limits are needed. *)
From Verif Require Import Base ModelMath ModelHeightfield ModelCompact ModelDistance ModelRegions
  SpecHeightfield SpecCompact SpecDistance SpecRegions CompactProofs GraphProofs FlowProofs DistanceProofs
  WatershedProofs RegionProofs GivesProofs CoverProofs ExampleFields PropertiesDistance PropertiesRegions PropertiesCover.
Local Open Scope Z_scope.

(** Spans without connections get ids of their own. *)
Lemma lone_ids ch b M id (L : list nat) :
  wf_chf ch → fits_u16 ch → distances_ok ch → 1 ≤ ch_maxdist ch → watershed ch b = Done (Some (M, id)) →
  NoDup L → (∀ i, i ∈ L → walkable_span ch i ∧ ¬ painted ch b i ∧ ∀ j, ¬ adjacent ch i j) →
  ∃ ids, NoDup ids ∧ length ids = length L ∧ ∀ r, r ∈ ids → base_id b ≤ r < id ∧ ∃ i, i ∈ L ∧ m_reg M !! i = Some r.
Proof.
  intros Hwf [Hw Hh] [HD Hd0] Hm E Hnd HL.
  destruct (watershed_facts ch Hwf Hw Hh (proj1 HD) Hd0 b M id Hm E) as (HW & Hb & _).
  assert (Hreg : ∀ i, i ∈ L → ∃ r, m_reg M !! i = Some r ∧ r ≠ 0).
  { intros i Hi. destruct (HL i Hi) as (Hwk & HnP & Hna).
    destruct (lookup_lt_is_Some_2 (m_reg M) i) as [r Hr].
    { rewrite (wi_lenR _ _ _ _ _ HW). destruct Hwk as (a & Ha & _). rewrite <-(areas_len ch Hwf). by eapply lookup_lt_Some. }
    exists r. split; [done|]. intros ->. apply (Hb i Hwk Hr). intros (d & j & Hd & Hs & _).
    apply (Hna j). exists d. split; [done|by left]. }
  exists ((λ i, m_reg M !!! i) <$> L). split; [|split].
  - apply NoDup_fmap_2_strong; [|done]. intros i j Hi Hj Heq.
    destruct (Hreg i Hi) as (r & Hr & Hn). destruct (Hreg j Hj) as (r' & Hr' & _).
    rewrite (list_lookup_total_correct _ _ _ Hr), (list_lookup_total_correct _ _ _ Hr') in Heq. subst r'.
    destruct (HL i Hi) as (_ & Hpi & Hna). destruct (HL j Hj) as (_ & Hpj & _).
    pose proof (wi_free _ _ _ _ _ HW i j r Hr Hr' Hn Hpi Hpj) as J. destruct J as [|i j k _ Ha _]; [done|]. by destruct (Hna j).
  - by rewrite fmap_length.
  - intros r (i & -> & Hi)%elem_of_list_fmap. destruct (Hreg i Hi) as (r & Hr & Hn).
    rewrite (list_lookup_total_correct _ _ _ Hr). destruct (HL i Hi) as (_ & Hp & _). split; [|by exists i].
    split; [by apply (wi_low _ _ _ _ _ HW i)|]. destruct (wi_dom _ _ _ _ _ HW i r Hr) as [[? _]|[_ ?]]; [done|lia].
Qed.

(** Different numbers in an interval. *)
Lemma NoDup_interval (l : list Z) a b : NoDup l → (∀ r, r ∈ l → a ≤ r < b) → Z.of_nat (length l) ≤ Z.max 0 (b - a).
Proof.
  intros Hnd Hl. pose proof (submseteq_length l ((λ k, a + Z.of_nat k) <$> seq 0 (Z.to_nat (b - a)))) as H.
  rewrite fmap_length, seq_length in H. enough (length l <= Z.to_nat (b - a))%nat by lia.
  apply H, NoDup_submseteq; [done|]. intros r Hr. specialize (Hl r Hr). apply elem_of_list_fmap.
  exists (Z.to_nat (r - a)). split; [lia|]. apply elem_of_seq. lia.
Qed.

(** ** Towers of spans without connections *)
(** A span number [k] of a tower of 255 spans; floors are 200 apart, and those of
    neighbouring towers differ by 100. *)
Definition lone (k : nat) : cspan :=
  CS (Z.of_nat (k mod 255) * 200 + Z.of_nat (k / 255 mod 2) * 100) 0 (foldl (λ data d, set_con_bits data d None) (set_height_bits 0 50) (seq 0 4)).
Lemma lone_free k d : (d < 4)%nat → connection (lone k) d = None.
Proof. intros Hd. do 4 (destruct d as [|d]; [by vm_compute|]). lia. Qed.

Section towers.
  (** [ch] has [m] ordinary spans, followed by spans without connections. *)
  Context (ch : chf) (m k : nat) (S0 : list cspan).
  Hypothesis Hm : length S0 = m.
  Hypothesis Hs : ch_spans ch = S0 ++ (lone <$> seq 0 k).
  Hypothesis Ha : ch_areas ch = repeat 255 (m + k).

  Lemma tower_len : length (ch_spans ch) = (m + k)%nat.
  Proof. rewrite Hs, app_length, fmap_length, seq_length. lia. Qed.

  Lemma tower_span i s d : ch_spans ch !! i = Some s → (m ≤ i)%nat → (d < 4)%nat → connection s d = None.
  Proof.
    rewrite Hs. intros Hi Hmi Hd. rewrite lookup_app_r in Hi by lia. rewrite list_lookup_fmap in Hi.
    apply fmap_Some in Hi as (q & _ & ->). by apply lone_free.
  Qed.

  (** Well-formedness, computed on the cells and the first [m] spans only. *)
  Lemma towers_wf :
    length (ch_cells ch) = (ch_w ch * ch_h ch)%nat →
    forallb (λ c, match ch_cells ch !! c with
      | Some cell => (cc_count cell =? 0)%nat || (cc_index cell =? cell_start (ch_cells ch) c)%nat
      | None => true end) (seq 0 (length (ch_cells ch))) = true →
    cell_start (ch_cells ch) (length (ch_cells ch)) = (m + k)%nat →
    (∀ x z cell i s d k, (x < ch_w ch)%nat → (z < ch_h ch)%nat →
      ch_cells ch !! (x + z * ch_w ch)%nat = Some cell → i ∈ index_range cell → (i < m)%nat →
      S0 !! i = Some s → (d < 4)%nat → connection s d = Some k →
      ∃ c' cell', nb_col (ch_w ch) (ch_h ch) x z d = Some c' ∧
        ch_cells ch !! c' = Some cell' ∧ (Z.to_nat k < cc_count cell')%nat) →
    wf_chf ch.
  Proof.
    intros H1 H2 H3 H4. split; [done| | |by rewrite tower_len|].
    - by rewrite Ha, tower_len, repeat_length.
    - intros c cell Hc Hpos. apply (forallb_elem _ _ c) in H2.
      + cbn beta in H2. rewrite Hc in H2. apply orb_prop in H2 as [H2|H2]; [apply Nat.eqb_eq in H2; lia|by apply Nat.eqb_eq].
      + apply elem_of_seq. apply lookup_lt_Some in Hc. lia.
    - intros x z cell i s d q Hx Hz Hc Hi Hsi Hd Hq. destruct (decide (m ≤ i)%nat) as [Hmi|Hmi].
      + by rewrite (tower_span i s d Hsi Hmi Hd) in Hq.
      + apply (H4 x z cell i s d q); try done; [lia|]. rewrite Hs in Hsi. rewrite lookup_app_l in Hsi by lia. done.
  Qed.
End towers.

(** ** C28 *)
Definition k28 : nat := 128 * 255 + 124.
Definition k29 : nat := 257 * 255.
Lemma k28_eq : Z.of_nat k28 = 32764.
Proof. by vm_compute. Qed.
Lemma k29_eq : Z.of_nat k29 = 65535.
Proof. by vm_compute. Qed.
Local Opaque k28 k29.
(** 32764 walkable spans in the 129 inner cells of a field of 3 x 131 cells, none
    of them connected to any other. (The distances are set by hand; the fields of a
    compact heightfield are public.) *)
Definition cells28 : list ccell :=
  (λ c, if ((c mod 3 =? 1) && (1 <=? c / 3) && (c / 3 <=? 129))%nat then CC (255 * (c / 3 - 1)) (if (c / 3 =? 129)%nat then 124 else 255) else CC 0 0) <$> seq 0 393.
Definition towers28 : chf := mkChf 3 131 10 1 0 1 0 geo0 cells28
  (lone <$> seq 0 k28) (repeat 0 k28) (repeat 255 k28).

Lemma towers28_wf : wf_chf towers28.
Proof.
  apply (towers_wf towers28 0 k28 [] eq_refl eq_refl eq_refl).
  { change (length cells28 = 393%nat). by vm_compute. }
  { change (ch_cells towers28) with cells28. by vm_compute. }
  { change (ch_cells towers28) with cells28. apply Nat.eqb_eq. by vm_compute. }
  intros. lia.
Qed.

Lemma towers28_ready : fits_u16 towers28 ∧ distances_ok towers28 ∧ length (ch_spans towers28) = k28%nat ∧
  ∀ i, (i < k28)%nat → walkable_span towers28 i ∧ ¬ near_edge towers28 1 i ∧ ∀ j, ¬ adjacent towers28 i j.
Proof.
  assert (Hlen : length (ch_spans towers28) = k28%nat).
  { unfold towers28. cbn [ch_spans]. by rewrite fmap_length, seq_length. }
  split; [split; cbn; lia|]. split; [|split; [done|]].
  { split; [split; [rewrite Hlen; unfold towers28; cbn [ch_dist]; apply repeat_length|cbn; lia]|].
    intros i d Hd. unfold towers28 in Hd. cbn [ch_dist] in Hd. apply repeat_lookup_Some in Hd as [-> _]. lia. }
  intros i Hi. split; [|split].
  - exists 255. split; [|done]. unfold towers28. cbn [ch_areas]. by apply repeat_lookup.
  - intros (x & z & Hx & Hz & (cell & Hc & Hin) & Hnear). unfold towers28 in Hx, Hz, Hc, Hnear. cbn [ch_w ch_h ch_cells] in *. unfold cells28 in Hc.
    apply list_lookup_fmap_Some in Hc as (c & Hc & ->). apply lookup_seq in Hc as [-> _]. cbn [Nat.add] in Hin.
    rewrite Nat.mod_add, Nat.div_add in Hin by lia. rewrite Nat.mod_small, Nat.div_small in Hin by lia.
    destruct ((x =? 1)%nat && (1 <=? 0 + z)%nat && (0 + z <=? 129)%nat) eqn:Eb; [|by apply elem_of_nil in Hin].
    apply andb_prop in Eb as [Eb E3]. apply andb_prop in Eb as [E1 E2].
    apply Nat.eqb_eq in E1. apply Nat.leb_le in E2, E3. lia.
  - assert (Hno : ∀ i d j, (d < 4)%nat → ¬ step towers28 i d j).
    { intros i' d j Hd (c & k & c' & k' & cell & cell' & (s & (cell0 & Hc0 & Hk & Hs) & Hcon & _) & Hc & _ & Hie & _).
      rewrite (tower_span towers28 0 k28 [] eq_refl eq_refl _ s d Hs) in Hcon; [done|lia|done]. }
    intros j (d & Hd & [H|H]); by eapply Hno.
Qed.

(** Region building succeeds, and a span that is not near the edge carries the
    border flag. With one span less this is impossible ([C28_border_exact_below_32764]). *)
Lemma lone_flagged ch k : wf_chf ch → fits_u16 ch → distances_ok ch → ch_maxdist ch = 1 →
  length (ch_spans ch) = k → Z.of_nat k = 32764 →
  (∀ i, (i < k)%nat → walkable_span ch i ∧ ¬ near_edge ch 1 i ∧ ∀ j, ¬ adjacent ch i j) →
  ∃ ch' i r, build_regions ch 1 0 0 = Done (Some ch') ∧ region_of ch' i = Some r ∧ border_flag r ∧ ¬ near_edge ch 1 i.
Proof.
  intros Hwf Hf HD Hm Hlen Hk Hall.
  destruct (C29_succeeds_below_32768 ch 1 0 0 Hwf Hf (proj1 HD)) as (ch' & E); [lia|lia|].
  destruct (built_of _ _ _ _ _ Hwf Hf (proj1 HD) E) as (_ & _ & M & id & R' & EW & HW & HL & HR).
  destruct (lone_ids ch 1 M id (seq 0 k) Hwf Hf HD ltac:(lia) EW (NoDup_seq _ _)) as (ids & Hnd & Hl & Hids).
  { intros i Hi%elem_of_seq. destruct (Hall i ltac:(lia)) as (H1 & H2 & H3). split; [done|]. split; [|done]. by intros (_ & ? & _). }
  rewrite seq_length in Hl.
  assert (∃ r, r ∈ ids ∧ 32768 ≤ r) as (r & Hr & Hge).
  { destruct (decide (Exists (λ r, 32768 ≤ r) ids)) as [(r & ? & ?)%Exists_exists|Hn]; [by exists r|].
    exfalso. apply not_Exists_Forall in Hn; [|apply _]. rewrite Forall_forall in Hn.
    pose proof (NoDup_interval ids 5 32768 Hnd) as H. rewrite Hl, Hk in H.
    assert (32764 ≤ Z.max 0 (32768 - 5)); [|lia].
    apply H. intros r Hr. specialize (Hn r Hr). destruct (Hids r Hr) as [[H5 _] _]. change (base_id 1) with 5 in H5. cbn in Hn. lia. }
  destruct (Hids r Hr) as [_ (i & Hi & Hreg)]. apply elem_of_seq in Hi. destruct (Hall i ltac:(lia)) as (_ & H2 & _).
  destruct (lookup_lt_is_Some_2 R' i) as [r' Hr']. { rewrite (l_len _ _ _ _ _ _ HL), Hlen. lia. }
  pose proof (l_border _ _ _ _ _ _ HL i r r' Hreg Hr' Hge) as ->.
  exists ch', i, r. split; [done|]. split; [by rewrite HR|]. split; [unfold border_flag; lia|done].
Qed.

Theorem C28_border_exact_refuted : ∃ ch b ma ms ch' i r, wf_chf ch ∧ fits_u16 ch ∧ has_distances ch ∧
  Z.of_nat (length (ch_spans ch)) = 32764 ∧ build_regions ch b ma ms = Done (Some ch') ∧
  region_of ch' i = Some r ∧ border_flag r ∧ ¬ near_edge ch b i.
Proof.
  destruct towers28_ready as (Hf & HD & Hlen & Hall).
  destruct (lone_flagged towers28 k28 towers28_wf Hf HD eq_refl Hlen k28_eq Hall) as (ch' & i & r & H).
  exists towers28, 1, 0, 0, ch', i, r. split; [exact towers28_wf|]. split; [exact Hf|]. split; [exact (proj1 HD)|].
  split; [rewrite Hlen; exact k28_eq|exact H].
Qed.

(** ** C29 *)
(** A floor of 3 x 3 cells and beside it 257 towers of 255 spans each: 65535
    spans without connections. *)
Definition patch9 : list cspan := flat_span 3 3 <$> seq 0 9.
Definition cells29 : list ccell :=
  ((λ c, CC c 1) <$> seq 0 9) ++ ((λ t, CC (9 + 255 * t) 255) <$> seq 0 257) ++ [CC 0 0].
Definition towers29 : chf := mkChf 3 89 10 1 0 0 0 geo0 cells29
  (patch9 ++ (lone <$> seq 0 k29)) [] (repeat 255 (9 + k29)).

Lemma towers29_low c cell j : ch_cells towers29 !! c = Some cell → j ∈ index_range cell → (j < 9)%nat → c = j ∧ cell = CC j 1.
Proof.
  unfold towers29. cbn [ch_cells]. unfold cells29. intros Hc Hj H9. apply lookup_app_Some in Hc as [Hc|[Hge Hc]].
  - apply list_lookup_fmap_Some in Hc as (x & Hx & ->). apply lookup_seq in Hx as [-> _]. unfold index_range in Hj. cbn in Hj.
    apply elem_of_list_singleton in Hj as ->. done.
  - apply lookup_app_Some in Hc as [Hc|[_ Hc]].
    + apply list_lookup_fmap_Some in Hc as (x & Hx & ->). unfold index_range in Hj. apply elem_of_seq in Hj. cbn [cc_index cc_count] in Hj. lia.
    + apply elem_of_list_lookup_2, elem_of_list_singleton in Hc as ->. by apply elem_of_nil in Hj.
Qed.
Lemma towers29_links : forallb (λ j, forallb (λ d, match connection (nth j patch9 (lone 0)) d with
    | None => true
    | Some q => (q =? 0) && match nb_col 3 89 (j mod 3) (j / 3) d with Some c' => (c' <? 9)%nat | None => false end end) (seq 0 4)) (seq 0 9) = true.
Proof. by vm_compute. Qed.
Lemma towers29_link j s d q : (j < 9)%nat → (d < 4)%nat → patch9 !! j = Some s → connection s d = Some q →
  q = 0 ∧ ∃ c', nb_col 3 89 (j mod 3) (j / 3) d = Some c' ∧ (c' < 9)%nat.
Proof.
  intros Hj Hd Hs Hq. pose proof towers29_links as H. apply (forallb_elem _ _ j) in H; [|apply elem_of_seq; lia].
  cbn beta in H. apply (forallb_elem _ _ d) in H; [|apply elem_of_seq; lia]. cbn beta in H.
  rewrite (nth_lookup_Some _ _ _ _ Hs), Hq in H. apply andb_prop in H as [H1 H2]. apply Z.eqb_eq in H1. split; [done|].
  destruct (nb_col _ _ _ _ _) as [c'|]; [|done]. exists c'. split; [done|]. by apply Nat.ltb_lt.
Qed.
Lemma towers29_cell c : (c < 9)%nat → ch_cells towers29 !! c = Some (CC c 1).
Proof.
  intros Hc. unfold towers29. cbn [ch_cells]. unfold cells29. rewrite lookup_app_l by (rewrite fmap_length, seq_length; lia).
  rewrite list_lookup_fmap, lookup_seq_lt by lia. done.
Qed.

Lemma towers29_wf : wf_chf towers29.
Proof.
  apply (towers_wf towers29 9 k29 patch9 eq_refl eq_refl eq_refl).
  { change (length cells29 = 267%nat). by vm_compute. }
  { change (ch_cells towers29) with cells29. by vm_compute. }
  { change (ch_cells towers29) with cells29. apply Nat.eqb_eq. by vm_compute. }
  intros x z cell i s d q Hx Hz Hc Hi H9 Hs Hd Hq. destruct (towers29_low _ _ _ Hc Hi H9) as [<- ->].
  destruct (towers29_link _ s d q H9 Hd Hs Hq) as [-> (c' & Hn & Hc')]. change (ch_w towers29) with 3%nat in *. change (ch_h towers29) with 89%nat in *.
  rewrite Nat.mod_add, Nat.div_add in Hn by lia. rewrite Nat.mod_small, Nat.div_small in Hn by lia.
  exists c', (CC c' 1). split; [done|]. split; [by apply towers29_cell|]. cbn. lia.
Qed.

Lemma towers29_free i j : (9 ≤ i)%nat → ¬ adjacent towers29 i j.
Proof.
  assert (Hfree : ∀ i d j, (9 ≤ i)%nat → (d < 4)%nat → ¬ step towers29 i d j).
  { intros i' d j' Hi Hd (c & k & c' & k' & cell & cell' & (s & (cell0 & Hc0 & Hk & Hs) & Hcon & _) & Hc & _ & -> & _).
    assert (cell0 = cell) as -> by congruence.
    by rewrite (tower_span towers29 9 k29 patch9 eq_refl eq_refl _ s d Hs Hi Hd) in Hcon. }
  intros Hi (d & Hd & [H|H]); [by eapply Hfree|].
  destruct (decide (9 ≤ j)%nat) as [Hj|Hj]; [by eapply Hfree|].
  destruct H as (c & k & c' & k' & cell & cell' & (s & (cell0 & Hc0 & Hk & Hs) & Hcon & Hnb) & Hc & Hc' & -> & ->).
  assert (cell0 = cell) as -> by congruence.
  destruct (towers29_low c cell (cc_index cell + k) Hc) as [-> Ecell]; [apply elem_of_seq; lia|lia|]. 
  assert (k = 0%nat) as -> by (rewrite Ecell in Hk; cbn in Hk; lia).
  change (ch_spans towers29) with (patch9 ++ (lone <$> seq 0 k29)) in Hs. rewrite lookup_app_l in Hs by (cbn; lia).
  destruct (towers29_link (cc_index cell + 0) s d _ ltac:(lia) Hd Hs Hcon) as [Ek (c1 & Hn & Hc1)].
  change (ch_w towers29) with 3%nat in Hnb. change (ch_h towers29) with 89%nat in Hnb. rewrite Hn in Hnb. injection Hnb as ->.
  rewrite (towers29_cell c' Hc1) in Hc'. injection Hc' as <-. cbn in Hi. lia.
Qed.

(** On such a field the distance field can be built, but region building does
    not succeed, whatever the parameters: the ids run out, or an overflow comes
    first. *)
Lemma lone_exhaust ch k : wf_chf ch → fits_u16 ch → Z.of_nat (Nat.min (ch_w ch) (ch_h ch)) ≤ 32767 →
  Z.of_nat k = 65535 → length (ch_spans ch) = (9 + k)%nat → ¬ area_border ch 4 →
  (∀ i, (9 ≤ i < 9 + k)%nat → walkable_span ch i ∧ ∀ j, ¬ adjacent ch i j) →
  ∃ c, build_distance_field ch = Done c ∧ wf_chf c ∧ has_distances c ∧
    ∀ ma ms ch', build_regions c 0 ma ms ≠ Done (Some ch').
Proof.
  intros Hwf Hf Hmin Hk Hlen H4 Hall.
  assert (ch_spans ch ≠ []) as Hne. { intros Hn. rewrite Hn in Hlen. cbn in Hlen. lia. }
  pose proof (C22_bounds ch Hwf Hf Hmin Hne) as H. apply runs_done in H as (c & E & _).
  destruct (distances_ready ch c Hwf Hf Hmin E) as ((m & B & ->) & Hwf2 & HD & Hm & _).
  eexists. split; [done|]. split; [done|]. split; [apply HD|]. intros ma ms ch' E2.
  assert (1 ≤ ch_maxdist (ch_set_dist ch m B)) as Hm1. { apply Hm. exists 4%nat. split; [lia|done]. }
  destruct (built_of _ _ _ _ _ Hwf2 Hf (proj1 HD) E2) as (_ & _ & M & id & R' & EW & HW & HL & HR).
  destruct (lone_ids _ 0 M id (seq 9 k) Hwf2 Hf HD Hm1 EW (NoDup_seq _ _)) as (ids & Hnd & Hl & Hids).
  { intros i Hi%elem_of_seq. destruct (Hall i ltac:(lia)) as (H1 & H2). split; [done|]. split; [|done]. intros (? & _). lia. }
  rewrite seq_length in Hl. pose proof (wi_id _ _ _ _ _ HW) as (_ & Hid & _).
  pose proof (NoDup_interval ids 1 65535 Hnd) as H. rewrite Hl, Hk in H.
  assert (65535 ≤ Z.max 0 (65535 - 1)); [|lia]. apply H. intros r Hr. destruct (Hids r Hr) as [Hb _].
  change (base_id 0) with 1 in Hb. lia.
Qed.

Theorem C29_large_fields_refuted : ∃ ch c, wf_chf ch ∧ fits_u16 ch ∧ build_distance_field ch = Done c ∧
  wf_chf c ∧ has_distances c ∧ ∀ ma ms ch', build_regions c 0 ma ms ≠ Done (Some ch').
Proof.
  assert (Hf : fits_u16 towers29) by (split; cbn; lia).
  assert (Hlen : length (ch_spans towers29) = (9 + k29)%nat) by (exact (tower_len towers29 9 k29 patch9 eq_refl eq_refl)).
  destruct (lone_exhaust towers29 k29 towers29_wf Hf ltac:(cbn; lia) k29_eq Hlen) as (c & H).
  - intros (_ & d & Hd & Hb).
    apply (Hb (nth d [3; 7; 5; 1]%nat 0%nat)).
    + exists 4%nat, 0%nat, (nth d [3; 7; 5; 1]%nat 0%nat), 0%nat, (CC 4 1), (CC (nth d [3; 7; 5; 1]%nat 0%nat) 1).
      split; [|split; [by apply towers29_cell; lia|split; [apply towers29_cell; do 4 (destruct d as [|d]; [cbn; lia|]); lia|split; [done|cbn; lia]]]].
      exists (flat_span 3 3 4). split; [exists (CC 4 1); split; [by apply towers29_cell; lia|split; [cbn; lia|done]]|].
      change (ch_w towers29) with 3%nat. change (ch_h towers29) with 89%nat.
      do 4 (destruct d as [|d]; [split; by vm_compute|]). lia.
    + change (ch_areas towers29) with (repeat 255 (9 + k29)). rewrite !repeat_lookup; [done|lia|].
      do 4 (destruct d as [|d]; [cbn [nth]; lia|]). lia.
  - intros i Hi. split; [|intros j; apply towers29_free; lia].
    exists 255. split; [|done]. change (ch_areas towers29) with (repeat 255 (9 + k29)). apply repeat_lookup. lia.
  - exists towers29, c. split; [exact towers29_wf|]. split; [exact Hf|exact H].
Qed.

Print Assumptions C28_border_exact_refuted.
Print Assumptions C29_large_fields_refuted.
