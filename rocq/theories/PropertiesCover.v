(** Property C74: which floor ends up in a region. *)
From Verif Require Import Base ModelMath ModelHeightfield ModelCompact ModelDistance ModelRegions
  SpecHeightfield SpecCompact SpecDistance SpecRegions CompactProofs GraphProofs FlowProofs
  WatershedProofs RegionProofs GivesProofs RegionSizeProofs DistanceProofs CoverProofs ExampleFields PropertiesDistance PropertiesRegions.
Local Open Scope Z_scope.

(** No distance is negative. (In the code they are [u16].) *)
Definition distances_ok (ch : chf) : Prop := has_distances ch ∧ ∀ i d, ch_dist ch !! i = Some d → 0 ≤ d.

(** ** C74 *)
(** A walkable span away from the border that ends without a region was lost to
    the minimum region size: it belongs to a patch of fewer than [ma] spans, all of
    its area, joined to it, and lost with it. *)
Theorem C74_only_small_patches_lost :
  ∀ ch b ma ms ch', wf_chf ch → fits_u16 ch → distances_ok ch → 1 ≤ ch_maxdist ch →
  Z.of_nat (length (ch_spans ch)) < 32764 → build_regions ch b ma ms = Done (Some ch') →
  ∀ i, walkable_span ch i → ¬ near_edge ch b i → ¬ in_region ch' i →
  ∃ L, i ∈ L ∧ NoDup L ∧ Z.of_nat (length L) < ma ∧
    ∀ j, j ∈ L → joined ch (λ l, l ∈ L) i j ∧ ch_areas ch !! j = ch_areas ch !! i ∧ region_of ch' j = Some 0.
Proof.
  intros ch b ma ms ch' Hwf Hf [HD Hd0] Hm Hsz E i Hwk Hne Hout. pose proof Hf as [Hw Hh].
  destruct (built_of _ _ _ _ _ Hwf Hf HD E) as (_ & _ & M & id & R' & EW & HW & HL & HR).
  assert (¬ painted ch b i) as HnP by (by intros (_ & ? & _)).
  pose proof (watershed_cover ch Hwf Hw Hh (proj1 HD) Hd0 b M id Hm Hsz EW i Hwk HnP) as Hnz.
  destruct (lookup_lt_is_Some_2 (m_reg M) i) as [r0 Hr0].
  { rewrite (wi_lenR _ _ _ _ _ HW). destruct Hwk as (a & Ha & _). rewrite <-(areas_len ch Hwf). by eapply lookup_lt_Some. }
  assert (0 < r0 < 32768) as Hr.
  { pose proof (winv_u16 ch _ _ M id i r0 HW Hr0). assert (r0 ≠ 0) by congruence.
    destruct (wi_dom _ _ _ _ _ HW i r0 Hr0) as [[? _]|[_ ?]]; [done|].
    pose proof (wi_id _ _ _ _ _ HW) as (? & ? & Hid). pose proof (cnt_bound (m_reg M)) as Hc.
    rewrite (wi_lenR _ _ _ _ _ HW) in Hc. unfold base_id in Hid. destruct (0 <? b); lia. }
  assert (Hlook : ∀ j r, m_reg M !! j = Some r → ∃ r', R' !! j = Some r').
  { intros j r Hj. apply lookup_lt_is_Some_2. rewrite (l_len _ _ _ _ _ _ HL), <-(wi_lenR _ _ _ _ _ HW). by eapply lookup_lt_Some. }
  assert (Hz : region_of ch' i = Some 0).
  { destruct (Hlook i r0 Hr0) as (r' & Hr'). rewrite HR, Hr'. f_equal. destruct (decide (r' = 0)) as [|Hn]; [done|].
    exfalso. apply Hout. exists r'. rewrite HR. split; [done|]. split; [done|]. unfold border_flag.
    pose proof (l_gen _ _ _ _ _ _ HL). pose proof (proj1 (l_inner _ _ _ _ _ _ HL i r0 r' Hr0 Hr' ltac:(lia))). lia. }
  destruct (prune_facts _ _ _ _ _ Hwf Hf HD E) as (M' & id' & EW' & HP & _). assert (M' = M) as -> by congruence.
  destruct (HP i r0 Hr0 Hr Hz) as (L & N1 & N2 & N3). exists L. split; [by apply N3|]. split; [done|]. split; [done|].
  intros j Hj. pose proof (proj1 (N3 j) Hj) as Hj0. split.
  { eapply joined_mono; [|apply (wi_conn ch _ _ _ _ HW i j r0 Hr0 Hj0); lia]. cbn. intros l. apply N3. }
  split; [apply (wi_area ch _ _ _ _ HW j i r0 Hj0 Hr0); lia|].
  destruct (l_pruned _ _ _ _ _ _ HL) as (regs0 & regs1 & EC & H0 & EP & HP1 & Hlv).
  destruct (Hlook j r0 Hj0) as (r' & Hr'). rewrite HR, Hr'. f_equal. rewrite HR in Hz.
  pose proof (wi_id _ _ _ _ _ HW) as Hid. assert (r0 < id) as Hlt by (destruct (wi_dom _ _ _ _ _ HW i r0 Hr0) as [[? _]|[_ ?]]; [done|lia]).
  destruct (lookup_lt_is_Some_2 regs1 (Z.to_nat r0)) as [g1 Hg1]; [rewrite (p_len _ _ _ HP1); lia|].
  destruct (decide (r' = 0)) as [|Hn]; [done|]. apply (Hlv j r0 r' g1 Hj0 ltac:(lia) Hr' Hg1) in Hn.
  by apply (Hlv i r0 0 g1 Hr0 ltac:(lia) Hz Hg1) in Hn.
Qed.

(** So with a minimum of one span or less, every walkable span away from the
    border is in a region. *)
Theorem C74_all_walkable_covered :
  ∀ ch b ma ms ch', wf_chf ch → fits_u16 ch → distances_ok ch → 1 ≤ ch_maxdist ch →
  Z.of_nat (length (ch_spans ch)) < 32764 → build_regions ch b ma ms = Done (Some ch') → ma ≤ 1 →
  ∀ i, walkable_span ch i → ¬ near_edge ch b i → in_region ch' i.
Proof.
  intros ch b ma ms ch' Hwf Hf HD Hm Hsz E Hma i Hwk Hne.
  assert (Hdec : in_region ch' i ∨ ¬ in_region ch' i).
  { unfold in_region, border_flag. destruct (region_of ch' i) as [r|] eqn:Er.
    - destruct (decide (r ≠ 0 ∧ ¬ 32768 ≤ r)) as [[? ?]|Hn].
      + left. exists r. done.
      + right. intros (r' & Hr' & ? & ?). apply Hn. by injection Hr' as <-.
    - right. intros (r' & Hr' & _). done. }
  destruct Hdec as [|Hout]; [done|]. exfalso.
  destruct (C74_only_small_patches_lost _ _ _ _ _ Hwf Hf HD Hm Hsz E i Hwk Hne Hout) as (L & Hi & _ & Hlen & _).
  destruct L; [by apply elem_of_nil in Hi|cbn in Hlen; lia].
Qed.

(** A field without a positive distance has no regions at all. *)
Theorem C74_zero_distance_no_regions :
  ∀ ch b ma ms ch', wf_chf ch → fits_u16 ch → distances_ok ch → ch_maxdist ch = 0 →
  build_regions ch b ma ms = Done (Some ch') → ∀ i, ¬ near_edge ch b i → ¬ in_region ch' i.
Proof.
  intros ch b ma ms ch' Hwf Hf [HD Hd0] Hm E i Hne (r & Hr & Hn & Hb). pose proof Hf as [Hw Hh].
  destruct (built_of _ _ _ _ _ Hwf Hf HD E) as (_ & _ & M & id & R' & EW & HW & HL & HR).
  destruct (region_orig _ _ _ _ _ _ _ _ _ HW HL HR Hr) as (Hr' & r0 & Hr0 & _).
  assert (m_reg M !! i = Some 0) as Hz.
  { apply (watershed_flat ch Hwf Hw Hh (proj1 HD) Hd0 b M id Hm EW).
    - by intros (_ & ? & _).
    - rewrite <-(wi_lenR _ _ _ _ _ HW). by eapply lookup_lt_Some. }
  apply Hn. by apply (l_none _ _ _ _ _ _ HL i r Hz).
Qed.

(** From the distance field on. If some span has neighbours of its area on all
    four sides, every walkable span away from the border is in a region or lost to
    the minimum size; if none has, nothing is in a region, however many walkable
    spans there are. *)
Lemma distances_ready ch c :
  wf_chf ch → fits_u16 ch → Z.of_nat (Nat.min (ch_w ch) (ch_h ch)) ≤ 32767 → build_distance_field ch = Done c →
  (∃ m B, c = ch_set_dist ch m B) ∧ wf_chf c ∧ distances_ok c ∧
  ((∃ i, (i < length (ch_spans ch))%nat ∧ ¬ area_border ch i) → 1 ≤ ch_maxdist c) ∧
  ((∀ i, (i < length (ch_spans ch))%nat → area_border ch i) → ch_maxdist c = 0).
Proof.
  intros Hwf Hf Hmin E.
  assert (ch_spans ch ≠ []) as Hne. { intros He. rewrite (C23_empty_field_panics _ Hwf Hf He) in E. done. }
  pose proof (runs_eq _ _ _ (C21_distance_field_exact _ Hwf Hf Hmin Hne) E) as (SD & Hwf2 & D & HD1 & HD2 & HD3 & HD4 & HD5).
  pose proof (runs_eq _ _ _ (C22_bounds _ Hwf Hf Hmin Hne) E) as (Hlen & Hb22).
  assert (Heq : ∃ m B, c = ch_set_dist ch m B).
  { unfold build_distance_field in E.
    repeat match goal with H : obind _ _ = Done _ |- _ => apply obind_done in H as (? & _ & ?) end. 
    match goal with H : Done (ch_set_dist ch ?m ?B) = Done c |- _ => exists m, B; by injection H end. }
  split; [done|]. split; [done|]. destruct Heq as (m & B & ->). cbn in *.
  assert (∃ v, B !! 0%nat = Some v) as (v0 & Hv0). { apply lookup_lt_is_Some_2. destruct (ch_spans ch); [done|]. cbn in Hlen. lia. }
  pose proof (proj1 (Hb22 _ _ Hv0)).
  split; [split; [split; cbn; [done|lia]|cbn; intros i d Hd; by apply (Hb22 i d)]|]. split.
  - intros (i & Hi & Hnb). destruct (lookup_lt_is_Some_2 B i) as [v Hv]; [lia|]. destruct (Hb22 i v Hv) as [? Hz].
    destruct (decide (v = 0)) as [->|]; [|lia]. exfalso. by apply Hnb, Hz.
  - intros Hall. destruct HD2 as (i & Hi & Em). destruct (HD1 i Hi) as [_ Hle].
    specialize (Hle 0 (proj2 (chamfer_zero _ _ _) (Hall i Hi))). lia.
Qed.

Theorem C74_from_distances :
  ∀ ch c b ma ms ch', wf_chf ch → fits_u16 ch → Z.of_nat (Nat.min (ch_w ch) (ch_h ch)) ≤ 32767 →
  Z.of_nat (length (ch_spans ch)) < 32764 →
  build_distance_field ch = Done c → build_regions c b ma ms = Done (Some ch') →
  (∃ i, (i < length (ch_spans ch))%nat ∧ ¬ area_border ch i) →
  ∀ i, walkable_span ch i → ¬ near_edge ch b i → ¬ in_region ch' i →
  ∃ L, i ∈ L ∧ NoDup L ∧ Z.of_nat (length L) < ma ∧
    ∀ j, j ∈ L → joined ch (λ l, l ∈ L) i j ∧ ch_areas ch !! j = ch_areas ch !! i ∧ region_of ch' j = Some 0.
Proof.
  intros ch c b ma ms ch' Hwf Hf Hmin Hsz E1 E2 Hin i Hwk Hne Hout.
  destruct (distances_ready ch c Hwf Hf Hmin E1) as ((m & B & ->) & Hwf2 & HD & Hm & _).
  destruct (C74_only_small_patches_lost (ch_set_dist ch m B) b ma ms ch' Hwf2 Hf HD (Hm Hin) Hsz E2 i Hwk Hne Hout) as (L & L1 & L2 & L3 & L4).
  exists L. split; [done|]. split; [done|]. split; [done|]. intros j Hj. destruct (L4 j Hj) as (J & A & R).
  split; [|done]. clear -J. induction J as [i H|i j k H Ha J IH]; [by constructor|by econstructor].
Qed.

Theorem C74_thin_floors_vanish :
  ∀ ch c b ma ms ch', wf_chf ch → fits_u16 ch → Z.of_nat (Nat.min (ch_w ch) (ch_h ch)) ≤ 32767 →
  build_distance_field ch = Done c → build_regions c b ma ms = Done (Some ch') →
  (∀ i, (i < length (ch_spans ch))%nat → area_border ch i) →
  ∀ i, ¬ near_edge ch b i → ¬ in_region ch' i.
Proof.
  intros ch c b ma ms ch' Hwf Hf Hmin E1 E2 Hall i Hne.
  destruct (distances_ready ch c Hwf Hf Hmin E1) as ((m & B & ->) & Hwf2 & HD & _ & Hm).
  exact (C74_zero_distance_no_regions (ch_set_dist ch m B) b ma ms ch' Hwf2 Hf HD (Hm Hall) E2 i Hne).
Qed.

(** ** Concrete fields *)
(** The 9 x 9 floor with a border of two cells and no minimum. *)
Definition floor9_all : chf * chf := Eval vm_compute in run_of floor9 2 1 20.
Example C74_hypotheses_met :
  wf_chf floor9 ∧ fits_u16 floor9 ∧ Z.of_nat (Nat.min (ch_w floor9) (ch_h floor9)) ≤ 32767 ∧
  Z.of_nat (length (ch_spans floor9)) < 32764 ∧
  build_distance_field floor9 = Done (fst floor9_all) ∧
  build_regions (fst floor9_all) 2 1 20 = Done (Some (snd floor9_all)) ∧
  1 ≤ ch_maxdist (fst floor9_all) ∧ walkable_span floor9 40 ∧ region_of (snd floor9_all) 40 = Some 5.
Proof.
  split; [apply wf_chf_b_ok; by vm_compute|]. split; [split; by vm_compute|].
  do 5 (split; [by vm_compute|]). split; [|by vm_compute]. exists 255. split; [by vm_compute|done].
Qed.

(** The smaller of the two islands, lost to a minimum of 26, is such a patch. *)
Example C74_lost_patch_met :
  build_regions (fst islands25) 0 26 20 = Done (Some (snd islands26)) ∧ 1 ≤ ch_maxdist (fst islands25) ∧
  walkable_span (fst islands25) 8 ∧ region_of (snd islands26) 8 = Some 0.
Proof.
  split; [by vm_compute|]. split; [by vm_compute|]. split; [|by vm_compute]. exists 255. split; [by vm_compute|done].
Qed.

(** A walkway of 2 x 20 cells: 40 connected walkable spans, above the minimum
    of 8, and no region. *)
Definition walkway : chf := flat 2 20 (repeat 255 40).
Definition walkway_run : chf * chf := Eval vm_compute in run_of walkway 0 8 20.
Theorem C74_every_floor_covered_refuted : ∃ ch c ch', wf_chf ch ∧ fits_u16 ch ∧
  build_distance_field ch = Done c ∧ build_regions c 0 8 20 = Done (Some ch') ∧
  length (ch_spans ch) = 40%nat ∧
  (∀ i, (i < 40)%nat → walkable_span ch i ∧ joined ch (walkable_span ch) 0 i) ∧
  ∀ i r, region_of ch' i = Some r → r = 0.
Proof.
  exists walkway, (fst walkway_run), (snd walkway_run).
  split; [apply wf_chf_b_ok; by vm_compute|]. split; [split; by vm_compute|].
  do 3 (split; [by vm_compute|]). 
  assert (Hw : ∀ i, (i < 40)%nat → walkable_span walkway i).
  { intros i Hi. exists 255. split; [|done]. by apply (repeat_lookup 255 40 i). }
  split; [intros i Hi; split; [by apply Hw|]|].
  - assert (E : forallb (λ i, let p := (if (i =? 1)%nat then 0 else i - 2)%nat in
      (i =? 0)%nat || step_b walkway p 0 (if (i =? 1)%nat then 2 else 1)%nat i 0 p i) (seq 0 40) = true) by (by vm_compute).
    induction (lt_wf i) as [i _ IH]. destruct (decide (i = 0%nat)) as [->|Hi0]; [constructor; by apply Hw|].
    apply (forallb_elem _ _ i) in E; [|apply elem_of_seq; lia]. apply orb_prop in E as [E|E]; [by apply Nat.eqb_eq in E|].
    apply step_b_ok in E. set (p := (if (i =? 1)%nat then 0 else i - 2)%nat) in *.
    assert (p < i)%nat as Hp by (unfold p; destruct (Nat.eqb_spec i 1); lia).
    eapply joined_trans; [apply (IH p Hp); lia|]. apply joined_adj; [apply Hw; lia|by apply Hw|].
    exists (if (i =? 1)%nat then 2 else 1)%nat. split; [destruct (i =? 1)%nat; lia|by left].
  - intros i r Hi. assert (E : forallb (Z.eqb 0) (region_list (snd walkway_run)) = true) by (by vm_compute).
    apply (forallb_elem _ _ r) in E; [by apply Z.eqb_eq in E|].
    apply elem_of_list_lookup. exists i. unfold region_list. by rewrite list_lookup_fmap.
Qed.

(** ** C66, continued *)
(** The documentation of [min_region_area] says "the minimum number of cells
    allowed to form isolated island areas". A patch that is not isolated can be
    removed too: here 2 x 2 cells of another area, all around which there is a floor
    of 221 cells that stays. (Region 1 gets its neighbours from its outer contour,
    where the patch does not appear, and is done when the patch's turn comes.) *)
Definition mud : chf := flat 15 15 ((λ c, if ((7 <=? c mod 15) && (c mod 15 <=? 8) && (7 <=? c / 15) && (c / 15 <=? 8))%nat then 5 else 255) <$> seq 0 225).
Definition mud_run : chf * chf := Eval vm_compute in run_of mud 0 8 20.
Theorem C66_isolated_islands_refuted : ∃ ch c ch' i, wf_chf ch ∧ fits_u16 ch ∧
  build_distance_field ch = Done c ∧ build_regions c 0 8 20 = Done (Some ch') ∧
  walkable_span ch i ∧ region_of ch' i = Some 0 ∧
  (∃ j, adjacent ch i j ∧ region_of ch' j = Some 1) ∧
  length (filter (λ r, r = 1) (region_list ch')) = 221%nat.
Proof.
  exists mud, (fst mud_run), (snd mud_run), 112%nat.
  split; [apply wf_chf_b_ok; by vm_compute|]. split; [split; by vm_compute|].
  do 2 (split; [by vm_compute|]). split; [exists 5; split; [by vm_compute|done]|]. split; [by vm_compute|].
  split; [|by vm_compute]. exists 111%nat. split; [|by vm_compute]. exists 0%nat. split; [lia|]. left.
  apply (step_b_ok _ 112 0 0 111 0). by vm_compute.
Qed.

Print Assumptions C74_only_small_patches_lost.
Print Assumptions C74_all_walkable_covered.
Print Assumptions C74_zero_distance_no_regions.
Print Assumptions C74_from_distances.
Print Assumptions C74_thin_floors_vanish.
Print Assumptions C74_every_floor_covered_refuted.
Print Assumptions C66_isolated_islands_refuted.
