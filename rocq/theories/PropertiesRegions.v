(** Properties C25-C30: region building. *)
From Verif Require Import Base ModelMath ModelHeightfield ModelCompact ModelDistance ModelRegions
  SpecHeightfield SpecCompact SpecDistance SpecRegions CompactProofs GraphProofs FlowProofs
  WatershedProofs RegionProofs GivesProofs RegionSizeProofs ExampleFields.
Local Open Scope Z_scope.

Lemma built_of ch b ma ms ch' :
  wf_chf ch → fits_u16 ch → has_distances ch → build_regions ch b ma ms = Done (Some ch') → built ch b ma ch'.
Proof.
  intros Hwf [Hw Hh] HD E. pose proof (build_regions_spec ch Hwf Hw Hh HD b ma ms) as H. by rewrite E in H.
Qed.

Lemma region_orig ch b ma ch' M id R' i r :
  winv ch (painted ch b) (base_id b) M id → labelled ch M id ma R' (ch_maxreg ch') → (∀ i, region_of ch' i = R' !! i) →
  region_of ch' i = Some r → R' !! i = Some r ∧ ∃ r0, m_reg M !! i = Some r0 ∧ 0 ≤ r0 ≤ 65535.
Proof.
  intros HW HL HR Hr. rewrite HR in Hr. split; [done|].
  destruct (lookup_lt_is_Some_2 (m_reg M) i) as [r0 Hr0].
  { rewrite (wi_lenR _ _ _ _ _ HW), <-(l_len _ _ _ _ _ _ HL). by eapply lookup_lt_Some. }
  exists r0. split; [done|]. by eapply winv_u16.
Qed.

(** ** C25 *)
Theorem C25_regions_are_walkable :
  ∀ ch b ma ms ch', wf_chf ch → fits_u16 ch → has_distances ch → build_regions ch b ma ms = Done (Some ch') →
  ∀ i r, region_of ch' i = Some r → r ≠ 0 → walkable_span ch i.
Proof.
  intros ch b ma ms ch' Hwf Hf HD E i r Hr Hn.
  destruct (built_of _ _ _ _ _ Hwf Hf HD E) as (_ & _ & M & id & R' & EW & HW & HL & HR).
  destruct (region_orig _ _ _ _ _ _ _ _ _ HW HL HR Hr) as (Hr' & r0 & Hr0 & _).
  apply (wi_walk _ _ _ _ _ HW i r0 Hr0). intros ->. by apply (l_none _ _ _ _ _ _ HL i r Hr0) in Hr'.
Qed.

Theorem C25_nothing_else_changes :
  ∀ ch b ma ms ch', wf_chf ch → fits_u16 ch → has_distances ch → build_regions ch b ma ms = Done (Some ch') →
  same_but_regions ch ch' ∧ ch_border ch' = b.
Proof.
  intros ch b ma ms ch' Hwf Hf HD E. destruct (built_of _ _ _ _ _ Hwf Hf HD E) as (H1 & H2 & _). done.
Qed.

(** ** C26 *)
Theorem C26_one_area_per_region :
  ∀ ch b ma ms ch', wf_chf ch → fits_u16 ch → has_distances ch → build_regions ch b ma ms = Done (Some ch') →
  ∀ i j r, region_of ch' i = Some r → region_of ch' j = Some r → r ≠ 0 → ¬ border_flag r →
  ch_areas ch' !! i = ch_areas ch' !! j.
Proof.
  intros ch b ma ms ch' Hwf Hf HD E i j r Hi Hj Hn Hb.
  destruct (built_of _ _ _ _ _ Hwf Hf HD E) as (HS & _ & M & id & R' & EW & HW & HL & HR).
  destruct HS as (_ & _ & _ & _ & _ & _ & _ & _ & -> & _). unfold border_flag in Hb.
  destruct (region_orig _ _ _ _ _ _ _ _ _ HW HL HR Hi) as (Hi' & r0 & Hr0 & Hr16).
  rewrite HR in Hj. apply (l_area _ _ _ _ _ _ HL i j r Hi' Hj).
  destruct (decide (r0 < 32768)) as [Hlt|Hge]; [pose proof (proj1 (l_inner _ _ _ _ _ _ HL i r0 r Hr0 Hi' Hlt))|
    pose proof (l_border _ _ _ _ _ _ HL i r0 r Hr0 Hi' ltac:(lia))]; lia.
Qed.

(** ** C27 *)
(** Ids are bounded by [max_region], which itself never carries the border
    flag. *)
Theorem C27_bounded :
  ∀ ch b ma ms ch', wf_chf ch → fits_u16 ch → has_distances ch → build_regions ch b ma ms = Done (Some ch') →
  0 ≤ ch_maxreg ch' < 32768 ∧
  ∀ i r, region_of ch' i = Some r → 0 ≤ r ∧ (r ≤ ch_maxreg ch' ∨ border_flag r).
Proof.
  intros ch b ma ms ch' Hwf Hf HD E.
  destruct (built_of _ _ _ _ _ Hwf Hf HD E) as (_ & _ & M & id & R' & EW & HW & HL & HR).
  split; [apply (l_gen _ _ _ _ _ _ HL)|]. intros i r Hi.
  destruct (region_orig _ _ _ _ _ _ _ _ _ HW HL HR Hi) as (Hi' & r0 & Hr0 & Hr16). unfold border_flag.
  destruct (decide (r0 < 32768)) as [Hlt|Hge]; [pose proof (proj1 (l_inner _ _ _ _ _ _ HL i r0 r Hr0 Hi' Hlt))|
    pose proof (l_border _ _ _ _ _ _ HL i r0 r Hr0 Hi' ltac:(lia))]; lia.
Qed.

(** For fields of up to 32762 spans the bound is never attained: the counter
    is one too high. *)
Theorem C27_never_attained :
  ∀ ch b ma ms ch', wf_chf ch → fits_u16 ch → has_distances ch → Z.of_nat (length (ch_spans ch)) < 32763 →
  build_regions ch b ma ms = Done (Some ch') →
  ∀ i r, region_of ch' i = Some r → r ≠ 0 → ¬ border_flag r → r < ch_maxreg ch'.
Proof.
  intros ch b ma ms ch' Hwf Hf HD Hsz E i r Hi Hn Hb.
  destruct (built_of _ _ _ _ _ Hwf Hf HD E) as (_ & _ & M & id & R' & EW & HW & HL & HR).
  destruct (region_orig _ _ _ _ _ _ _ _ _ HW HL HR Hi) as (Hi' & r0 & Hr0 & Hr16). unfold border_flag in Hb.
  destruct (decide (r0 < 32768)) as [Hlt|Hge]; [|pose proof (l_border _ _ _ _ _ _ HL i r0 r Hr0 Hi' ltac:(lia)); lia].
  destruct (l_inner _ _ _ _ _ _ HL i r0 r Hr0 Hi' Hlt) as [H1 H2]. apply H2; [|lia].
  pose proof (wi_id _ _ _ _ _ HW) as (? & ? & Hid). pose proof (cnt_bound (m_reg M)) as Hc.
  rewrite (wi_lenR _ _ _ _ _ HW) in Hc. unfold base_id in Hid. destruct (0 <? b); lia.
Qed.

(** ** C28 *)
(** Walkable spans near the edge always carry the border flag. *)
Theorem C28_border_painted :
  ∀ ch b ma ms ch', wf_chf ch → fits_u16 ch → has_distances ch → build_regions ch b ma ms = Done (Some ch') →
  0 < b → ∀ i, near_edge ch b i → walkable_span ch i → ∃ r, region_of ch' i = Some r ∧ border_flag r.
Proof.
  intros ch b ma ms ch' Hwf Hf HD E Hb i Hne Hwk.
  destruct (built_of _ _ _ _ _ Hwf Hf HD E) as (_ & _ & M & id & R' & EW & HW & HL & HR).
  assert (i < length (ch_spans ch))%nat as Hi.
  { destruct Hwk as (a & Ha & _). rewrite <-(wf_areas _ Hwf). by eapply lookup_lt_Some. }
  destruct (lookup_lt_is_Some_2 (m_reg M) i) as [r0 Hr0]; [by rewrite (wi_lenR _ _ _ _ _ HW)|].
  destruct (lookup_lt_is_Some_2 R' i) as [r Hr]; [by rewrite (l_len _ _ _ _ _ _ HL)|].
  assert (32768 ≤ r0) as H0. { destruct (wi_dom _ _ _ _ _ HW i r0 Hr0) as [[_ ?]|[Hnp _]]; [lia|]. by destruct Hnp. }
  exists r. rewrite HR. split; [done|]. rewrite (l_border _ _ _ _ _ _ HL i r0 r Hr0 Hr H0). done.
Qed.

(** For fields of fewer than 32764 spans no other span does. In larger fields the
    internal ids may reach 0x8000 before merging; from there on they are
    indistinguishable from border ids ([C28_border_exact_refuted]). *)
Theorem C28_border_exact_below_32764 :
  ∀ ch b ma ms ch', wf_chf ch → fits_u16 ch → has_distances ch → Z.of_nat (length (ch_spans ch)) < 32764 →
  build_regions ch b ma ms = Done (Some ch') →
  ∀ i r, region_of ch' i = Some r → border_flag r ↔ 0 < b ∧ near_edge ch b i ∧ walkable_span ch i.
Proof.
  intros ch b ma ms ch' Hwf Hf HD Hsz E i r Hr. split.
  - intros Hb. destruct (built_of _ _ _ _ _ Hwf Hf HD E) as (_ & _ & M & id & R' & EW & HW & HL & HR). unfold border_flag in Hb.
    destruct (region_orig _ _ _ _ _ _ _ _ _ HW HL HR Hr) as (Hr' & r0 & Hr0 & Hr16).
    pose proof (l_gen _ _ _ _ _ _ HL).
    destruct (decide (r0 < 32768)) as [Hlt|Hge]; [pose proof (proj1 (l_inner _ _ _ _ _ _ HL i r0 r Hr0 Hr' Hlt)); lia|].
    destruct (wi_dom _ _ _ _ _ HW i r0 Hr0) as [[Hp _]|[_ ?]]; [exact Hp|].
    pose proof (wi_id _ _ _ _ _ HW) as (? & ? & Hid). pose proof (cnt_bound (m_reg M)) as Hc.
    rewrite (wi_lenR _ _ _ _ _ HW) in Hc. unfold base_id in Hid. destruct (0 <? b); lia.
  - intros (Hb & Hne & Hwk). destruct (C28_border_painted ch b ma ms ch' Hwf Hf HD E Hb i Hne Hwk) as (r' & Hr' & ?). congruence.
Qed.

(** ** C29 *)
(** Every loop terminates, whatever the size of the field. *)
Theorem C29_terminates :
  ∀ ch b ma ms, wf_chf ch → fits_u16 ch → has_distances ch → build_regions ch b ma ms ≠ OutOfFuel.
Proof.
  intros ch b ma ms Hwf [Hw Hh] HD E. pose proof (build_regions_spec ch Hwf Hw Hh HD b ma ms) as H. by rewrite E in H.
Qed.

(** Fields of fewer than 32768 spans never panic and never run out of ids. For
    larger fields the claim is not true in general ([C29_large_fields_refuted]):
    ids can run out, and the expansion distance, a [u16] that grows by 2 per span,
    can overflow. *)
Theorem C29_succeeds_below_32768 :
  ∀ ch b ma ms, wf_chf ch → fits_u16 ch → has_distances ch → ch_maxdist ch < 65535 →
  Z.of_nat (length (ch_spans ch)) < 32768 → ∃ ch', build_regions ch b ma ms = Done (Some ch').
Proof.
  intros ch b ma ms Hwf [Hw Hh] HD Hm Hsz. pose proof (build_regions_spec ch Hwf Hw Hh HD b ma ms) as H.
  destruct (build_regions ch b ma ms) as [[ch'|]| |]; cbn in H.
  - by exists ch'.
  - unfold base_id in H. destruct (0 <? b); lia.
  - lia.
  - done.
Qed.

(** The limit on [max_distance] is needed. *)
Theorem C29_max_distance_refuted : ∃ ch, wf_chf ch ∧ fits_u16 ch ∧ has_distances ch ∧ ch_maxdist ch ≤ 65535 ∧
  build_regions ch 0 0 0 = Panicked.
Proof.
  exists (mkChf 1 1 0 0 0 65535 0 geo0 [CC 0 1] [CS 0 0 (Z.land (foldl (λ data d, set_con_bits data d None) 0 (seq 0 4)) 16777215)] [65535] [255]).
  split; [apply wf_chf_b_ok; by vm_compute|]. split; [split; cbn; lia|]. split; [split; cbn; [done|lia]|].
  split; [cbn; lia|]. by vm_compute.
Qed.

(** ** C30 *)
Theorem C30_regions_connected :
  ∀ ch b ma ms ch', wf_chf ch → fits_u16 ch → has_distances ch → build_regions ch b ma ms = Done (Some ch') →
  ∀ i j r, region_of ch' i = Some r → region_of ch' j = Some r → r ≠ 0 → ¬ border_flag r →
  joined ch (λ l, region_of ch' l = Some r) i j.
Proof.
  intros ch b ma ms ch' Hwf Hf HD E i j r Hi Hj Hn Hb.
  destruct (built_of _ _ _ _ _ Hwf Hf HD E) as (_ & _ & M & id & R' & EW & HW & HL & HR). unfold border_flag in Hb.
  destruct (region_orig _ _ _ _ _ _ _ _ _ HW HL HR Hi) as (Hi' & r0 & Hr0 & Hr16).
  rewrite HR in Hj. eapply joined_mono; [|apply (l_conn _ _ _ _ _ _ HL i j r Hi' Hj)].
  - cbn. intros l Hl. by rewrite HR.
  - destruct (decide (r0 < 32768)) as [Hlt|Hge]; [pose proof (proj1 (l_inner _ _ _ _ _ _ HL i r0 r Hr0 Hi' Hlt))|
      pose proof (l_border _ _ _ _ _ _ HL i r0 r Hr0 Hi' ltac:(lia))]; lia.
Qed.

(** ** C66 *)
(** The spans that belong to a region and do not carry the border flag. *)
Definition in_region (ch : chf) (i : nat) : Prop := ∃ r, region_of ch i = Some r ∧ r ≠ 0 ∧ ¬ border_flag r.

(** What pruning leaves, in terms of the regions before ([M]) and after. *)
Lemma prune_facts ch b ma ms ch' :
  wf_chf ch → fits_u16 ch → has_distances ch → build_regions ch b ma ms = Done (Some ch') →
  ∃ M id, watershed ch b = Done (Some (M, id)) ∧
  (∀ i r0, m_reg M !! i = Some r0 → 0 < r0 < 32768 → region_of ch' i = Some 0 →
    ∃ L, NoDup L ∧ Z.of_nat (length L) < ma ∧ ∀ j, j ∈ L ↔ m_reg M !! j = Some r0) ∧
  ∀ i, in_region ch' i → ∃ L, NoDup L ∧ (∀ l, l ∈ L → joined ch (in_region ch') i l) ∧
    (ma ≤ Z.of_nat (length L) ∨
     ∃ l m r, joined ch (in_region ch') i l ∧ adjacent ch l m ∧ region_of ch' m = Some r ∧ border_flag r).
Proof.
  intros Hwf Hf HD E. destruct (built_of _ _ _ _ _ Hwf Hf HD E) as (_ & _ & M & id & R' & EW & HW & HL & HR).
  exists M, id. split; [done|].
  destruct (l_pruned _ _ _ _ _ _ HL) as (regs0 & regs1 & EC & H0 & EP & HP & Hlv).
  pose proof (collect_tally ch Hwf _ _ M id HW _ _ EC) as HT. pose proof (collect_unvisited ch M _ _ EC) as HV.
  destruct (prune_regions_pg ch Hwf (painted ch b) (base_id b) M id HW ma regs0 H0 HV _ EP) as [HG HS].
  assert (Hreg : ∀ i r0, m_reg M !! i = Some r0 → 0 < r0 < 32768 → ∃ g0 g1 L, regs0 !! Z.to_nat r0 = Some g0 ∧ regs1 !! Z.to_nat r0 = Some g1 ∧
    NoDup L ∧ length L = rg_count g0 ∧ (0 < length L)%nat ∧ ∀ j, j ∈ L ↔ m_reg M !! j = Some r0).
  { intros i r0 Hi Hr. pose proof (wi_id _ _ _ _ _ HW) as Hid.
    assert (r0 < id) as Hlt by (destruct (wi_dom _ _ _ _ _ HW i r0 Hi) as [[_ ?]|[_ ?]]; lia).
    destruct (lookup_lt_is_Some_2 regs0 (Z.to_nat r0)) as [g0 Hg0]; [rewrite (proj1 H0); lia|].
    destruct (lookup_lt_is_Some_2 regs1 (Z.to_nat r0)) as [g1 Hg1]; [rewrite (p_len _ _ _ HP); lia|].
    destruct (HT _ _ Hg0 ltac:(lia)) as (L & L1 & L2 & L3). rewrite Z2Nat.id in L3 by lia. exists g0, g1, L.
    assert (i ∈ L) as HiL by (by apply L3). destruct L as [|x L]; [by apply elem_of_nil in HiL|].
    split; [done|]. split; [done|]. split; [done|]. split; [done|]. split; [cbn; lia|done]. }
  assert (Hlook : ∀ i r0, m_reg M !! i = Some r0 → ∃ r', R' !! i = Some r').
  { intros i r0 Hi. apply lookup_lt_is_Some_2. rewrite (l_len _ _ _ _ _ _ HL), <-(wi_lenR _ _ _ _ _ HW). by eapply lookup_lt_Some. }
  split.
  - intros i r0 Hi Hr Hz. destruct (Hreg i r0 Hi Hr) as (g0 & g1 & L & Hg0 & Hg1 & L1 & L2 & L3 & L4).
    exists L. split; [done|]. split; [|done]. rewrite HR in Hz.
    assert (¬ live (rg_id g1)) as Hnl. { intros Hlive. by apply (Hlv i r0 0 g1 Hi ltac:(lia) Hz Hg1) in Hlive. }
    destruct (pg_same _ _ _ _ _ HG _ _ Hg1) as (g0' & Hg0' & _ & Hst). assert (g0' = g0) as -> by congruence.
    destruct Hst as [[Eid Ecnt]|[Eid Hvis]]; [exfalso; apply Hnl; unfold live; lia|].
    destruct (pg_vis _ _ _ _ _ HG _ _ Hg1 Hvis) as [[_ Hsm]|(G & HkG & _ & Hall)].
    + unfold count0 in Hsm. rewrite Hg0 in Hsm. lia.
    + destruct (Hall _ HkG) as (g' & Hg' & _ & Ei). assert (g' = g1) as -> by congruence. lia.
  - intros i (r & Hr & Hrn & Hrb). unfold border_flag in Hrb.
    destruct (region_orig _ _ _ _ _ _ _ _ _ HW HL HR Hr) as (Hr' & r0 & Hr0 & Hr16).
    assert (0 < r0 < 32768) as Hlr0.
    { split.
      - destruct (decide (r0 = 0)) as [->|]; [|lia]. exfalso. apply Hrn. by apply (l_none _ _ _ _ _ _ HL i r Hr0).
      - destruct (decide (r0 < 32768)); [done|]. rewrite (l_border _ _ _ _ _ _ HL i r0 r Hr0 Hr' ltac:(lia)) in Hrb. lia. }
    destruct (Hreg i r0 Hr0 Hlr0) as (g0 & g1 & L0 & Hg0 & Hg1 & L1 & L2 & L3 & L4).
    assert (live (rg_id g1)) as Hlive by (apply (Hlv i r0 r g1 Hr0 ltac:(lia) Hr' Hg1); done).
    destruct (pg_same _ _ _ _ _ HG _ _ Hg1) as (g0' & Hg0' & _ & Hst). assert (g0' = g0) as -> by congruence.
    unfold live in Hlive. destruct Hst as [[Eid Ecnt]|[Eid _]]; [|lia].
    assert (rg_visited g1 = true) as Hvis.
    { destruct (HS _ _ Hg1) as [?|[Hd|?]]; [done| |lia]. exfalso.
      assert (dead (rg_id g1) = false) by (apply dead_iff; lia). congruence. }
    destruct (pg_vis _ _ _ _ _ HG _ _ Hg1 Hvis) as [[? _]|(G & HkG & HGood & Hall)]; [lia|].
    (* spans of the group are in a region in the end *)
    assert (Hof : ∀ l, of M G l → in_region ch' l).
    { intros l (k & Hk & Hl). destruct (Hall k Hk) as (g' & Hg' & _ & Ei). pose proof (g_in _ _ _ _ _ HGood k Hk) as Hin. unfold inner in Hin.
      destruct (Hlook l _ Hl) as (r' & Hr2). exists r'. rewrite HR. split; [done|]. split.
      - apply (Hlv l (Z.of_nat k) r' g' Hl ltac:(lia) Hr2); [by rewrite Nat2Z.id|]. unfold live. lia.
      - unfold border_flag. pose proof (l_gen _ _ _ _ _ _ HL). pose proof (proj1 (l_inner _ _ _ _ _ _ HL l _ r' Hl Hr2 ltac:(lia))). lia. }
    assert (Hjoin : ∀ l, of M G l → joined ch (in_region ch') i l).
    { intros l Hl. eapply joined_mono; [|apply (g_tog _ _ _ _ _ HGood i l); [|done]]; [exact Hof|].
      exists (Z.to_nat r0). split; [done|]. by rewrite Z2Nat.id by lia. }
    destruct (gather ch M regs0 G HT (g_nd _ _ _ _ _ HGood) (g_in _ _ _ _ _ HGood)) as (L & N1 & N2 & N3).
    exists L. split; [done|]. split; [intros l Hl; by apply Hjoin, N3|].
    destruct (g_big _ _ _ _ _ HGood) as [Hb|(k & g & c & Hk & Hg & Hc & Hbd)]; [left; lia|]. right.
    destruct H0 as [_ Hr00]. destruct (r_touch _ _ _ _ (Hr00 k g Hg) c Hc) as [->|(l & m & d & Hd & Hl & Hst & Hm)]; [done|].
    assert (0 ≤ c ≤ 65535) as Hc16 by (apply (winv_u16 ch _ _ M id m c HW Hm)).
    rewrite is_border_iff in Hbd by lia. destruct (Hlook m c Hm) as (rm & Hrm).
    exists l, m, rm. split; [apply Hjoin; by exists k|]. split; [exists d; split; [done|by left]|]. rewrite HR. split; [done|].
    rewrite (l_border _ _ _ _ _ _ HL m c rm Hm Hrm ltac:(lia)). unfold border_flag. lia.
Qed.

(** No small islands are left: around every span of a region there are at least
    [ma] spans that can be reached without leaving the regions, unless the border
    can be reached. *)
Theorem C66_no_small_islands :
  ∀ ch b ma ms ch', wf_chf ch → fits_u16 ch → has_distances ch → build_regions ch b ma ms = Done (Some ch') →
  ∀ i, in_region ch' i → ∃ L, NoDup L ∧ (∀ l, l ∈ L → joined ch (in_region ch') i l) ∧
    (ma ≤ Z.of_nat (length L) ∨
     ∃ l m r, joined ch (in_region ch') i l ∧ adjacent ch l m ∧ region_of ch' m = Some r ∧ border_flag r).
Proof.
  intros ch b ma ms ch' Hwf Hf HD E. by destruct (prune_facts _ _ _ _ _ Hwf Hf HD E) as (M & id & _ & _ & H).
Qed.

(** Nothing large is removed: a span loses its region only if that region,
    as found by the watershed, has fewer than [ma] spans. *)
Theorem C66_large_regions_kept :
  ∀ ch b ma ms ch' M id, wf_chf ch → fits_u16 ch → has_distances ch → watershed ch b = Done (Some (M, id)) →
  build_regions ch b ma ms = Done (Some ch') →
  ∀ i r L, m_reg M !! i = Some r → 0 < r < 32768 → NoDup L → (∀ j, j ∈ L → m_reg M !! j = Some r) → ma ≤ Z.of_nat (length L) →
  region_of ch' i ≠ Some 0.
Proof.
  intros ch b ma ms ch' M id Hwf Hf HD EW E i r L Hi Hr Hnd HL Hma Hz.
  destruct (prune_facts _ _ _ _ _ Hwf Hf HD E) as (M' & id' & EW' & H & _). assert (M' = M) as -> by congruence.
  destruct (H i r Hi Hr Hz) as (L' & N1 & N2 & N3).
  assert (length L <= length L')%nat; [|lia]. apply submseteq_length, NoDup_submseteq; [done|]. intros j Hj. by apply N3, HL.
Qed.

(** With a minimum of one span or less, nothing is removed. *)
Theorem C66_no_minimum :
  ∀ ch b ma ms ch' M id, wf_chf ch → fits_u16 ch → has_distances ch → watershed ch b = Done (Some (M, id)) →
  build_regions ch b ma ms = Done (Some ch') → ma ≤ 1 → ∀ i, region_of ch' i = Some 0 ↔ m_reg M !! i = Some 0.
Proof.
  intros ch b ma ms ch' M id Hwf Hf HD EW E Hma i.
  destruct (built_of _ _ _ _ _ Hwf Hf HD E) as (_ & _ & M' & id' & R' & EW' & HW & HL & HR). assert (M' = M) as -> by congruence.
  split.
  - intros Hz. destruct (region_orig _ _ _ _ _ _ _ _ _ HW HL HR Hz) as (Hr' & r0 & Hr0 & Hr16). rewrite Hr0. f_equal.
    destruct (decide (r0 = 0)) as [|Hn]; [done|]. exfalso. destruct (decide (r0 < 32768)) as [Hlt|].
    + apply (C66_large_regions_kept ch b ma ms ch' M id Hwf Hf HD EW E i r0 [i]); try done; try lia.
      * apply NoDup_singleton.
      * by intros j ->%elem_of_list_singleton.
    + pose proof (l_border _ _ _ _ _ _ HL i r0 0 Hr0 Hr' ltac:(lia)). lia.
  - intros Hz. rewrite HR. destruct (lookup_lt_is_Some_2 R' i) as [r' Hr'].
    { rewrite (l_len _ _ _ _ _ _ HL), <-(wi_lenR _ _ _ _ _ HW). by eapply lookup_lt_Some. }
    rewrite Hr'. f_equal. by apply (l_none _ _ _ _ _ _ HL i r').
Qed.

(** ** C67 *)
(** Merging never puts one region on top of itself: two spans of one column end
    in the same region only if the watershed had put them in the same region. *)
Theorem C67_merging_never_stacks :
  ∀ ch b ma ms ch' M id, wf_chf ch → fits_u16 ch → has_distances ch → watershed ch b = Done (Some (M, id)) →
  build_regions ch b ma ms = Done (Some ch') →
  ∀ c i j r, in_cell ch c i → in_cell ch c j → i ≠ j → region_of ch' i = Some r → region_of ch' j = Some r →
  r ≠ 0 → ¬ border_flag r → m_reg M !! i = m_reg M !! j.
Proof.
  intros ch b ma ms ch' M id Hwf Hf HD EW E c i j r Hi Hj Hij Hri Hrj Hn Hb. unfold border_flag in Hb.
  destruct (built_of _ _ _ _ _ Hwf Hf HD E) as (_ & _ & M' & id' & R' & EW' & HW & HL & HR). assert (M' = M) as -> by congruence.
  destruct (region_orig _ _ _ _ _ _ _ _ _ HW HL HR Hri) as (Hi' & r0 & Hr0 & Hr16). rewrite HR in Hrj.
  apply (l_stack _ _ _ _ _ _ HL i j r); [split; [done|by exists c]|done|done|].
  destruct (decide (r0 < 32768)) as [Hlt|Hge]; [pose proof (proj1 (l_inner _ _ _ _ _ _ HL i r0 r Hr0 Hi' Hlt))|
    pose proof (l_border _ _ _ _ _ _ HL i r0 r Hr0 Hi' ltac:(lia))]; lia.
Qed.

(** ** Concrete fields *)
(** Distance field and regions in one go. *)
Definition distances_then_regions (ch : chf) (b ma ms : Z) : outcome (option (chf * chf)) :=
  let! c := build_distance_field ch in
  let! r := build_regions c b ma ms in
  Done (match r with Some c' => Some (c, c') | None => None end).
Definition run_of (ch : chf) (b ma ms : Z) : chf * chf :=
  match distances_then_regions ch b ma ms with Done (Some p) => p | _ => (ch, ch) end.

(** The 9 x 9 floor with a border of two cells: all hypotheses hold, the outer
    ring carries the flag, the inner 5 x 5 spans are region 5, and the reported
    [max_region] is 6. *)
Definition floor9_run : chf * chf := Eval vm_compute in run_of floor9 2 8 20.
Definition region_list (ch : chf) : list Z := cs_reg <$> ch_spans ch.
Example C25_C30_hypotheses_met :
  wf_chf (fst floor9_run) ∧ fits_u16 (fst floor9_run) ∧ has_distances (fst floor9_run) ∧
  Z.of_nat (length (ch_spans (fst floor9_run))) < 32763 ∧ ch_maxdist (fst floor9_run) < 65535 ∧
  build_distance_field floor9 = Done (fst floor9_run) ∧
  build_regions (fst floor9_run) 2 8 20 = Done (Some (snd floor9_run)) ∧
  region_of (snd floor9_run) 0 = Some 32771 ∧ region_of (snd floor9_run) 40 = Some 5 ∧
  ch_maxreg (snd floor9_run) = 6.
Proof.
  split; [apply wf_chf_b_ok; by vm_compute|]. split; [split; by vm_compute|]. split; [split; by vm_compute|].
  repeat (split; [by vm_compute|]). by vm_compute.
Qed.

(** A floor of 49 spans beside one of 25, not connected: with a minimum of 25
    both are kept, with a minimum of 26 the smaller one is removed. *)
Definition islands : chf := flat 13 7
  ((λ c, if ((c mod 13 =? 7) || ((7 <=? c mod 13) && (5 <=? c / 13)))%nat then 0 else 255) <$> seq 0 91).
Definition islands25 : chf * chf := Eval vm_compute in run_of islands 0 25 20.
Definition islands26 : chf * chf := Eval vm_compute in run_of islands 0 26 20.
Definition islands_flooded : marks * Z := Eval vm_compute in
  match watershed (fst islands25) 0 with Done (Some p) => p | _ => (Marks [] [], 0) end.
Example C66_hypotheses_met :
  wf_chf (fst islands25) ∧ fits_u16 (fst islands25) ∧ has_distances (fst islands25) ∧
  watershed (fst islands25) 0 = Done (Some islands_flooded) ∧
  build_regions (fst islands25) 0 25 20 = Done (Some (snd islands25)) ∧
  build_regions (fst islands25) 0 26 20 = Done (Some (snd islands26)) ∧
  length (filter (λ r, r = 2) (m_reg (fst islands_flooded))) = 25%nat ∧
  m_reg (fst islands_flooded) !! 8%nat = Some 2 ∧
  region_of (snd islands25) 8 = Some 2 ∧ region_of (snd islands26) 8 = Some 0 ∧ region_of (snd islands26) 0 = Some 1.
Proof.
  split; [apply wf_chf_b_ok; by vm_compute|]. split; [split; by vm_compute|]. split; [split; by vm_compute|].
  repeat (split; [by vm_compute|]). by vm_compute.
Qed.

(** The documentation of [max_region] says "the maximum region id of any span". *)
Theorem C27_maximum_refuted : ∃ ch b ma ms ch', wf_chf ch ∧ fits_u16 ch ∧ has_distances ch ∧
  build_regions ch b ma ms = Done (Some ch') ∧
  ¬ ∃ i, region_of ch' i = Some (ch_maxreg ch').
Proof.
  exists (fst floor9_run), 2, 8, 20, (snd floor9_run).
  split; [apply wf_chf_b_ok; by vm_compute|]. split; [split; by vm_compute|]. split; [split; by vm_compute|].
  split; [by vm_compute|]. intros (i & Hi). assert (E : existsb (Z.eqb 6) (region_list (snd floor9_run)) = false) by (by vm_compute).
  apply not_true_iff_false in E. apply E. apply existsb_exists. exists 6. split; [|done].
  apply elem_of_list_In, elem_of_list_lookup. exists i. unfold region_list. rewrite list_lookup_fmap.
  replace (ch_maxreg (snd floor9_run)) with 6 in Hi by (by vm_compute). exact Hi.
Qed.

(** The documentation of [build_regions] says that spans of regions that are
    too small "will be re-assigned to [AreaType::NOT_WALKABLE]". Their areas stay as
    they are; only the region becomes NONE. *)
Definition floor7_small : chf * chf := Eval vm_compute in run_of floor7 0 80 20.
Theorem C25_reassigned_refuted : ∃ ch b ma ms ch', wf_chf ch ∧ fits_u16 ch ∧ has_distances ch ∧
  build_regions ch b ma ms = Done (Some ch') ∧
  (∀ i r, region_of ch' i = Some r → r = 0) ∧ Z.of_nat (length (ch_spans ch)) < ma ∧ walkable_span ch' 0.
Proof.
  exists (fst floor7_small), 0, 80, 20, (snd floor7_small).
  split; [apply wf_chf_b_ok; by vm_compute|]. split; [split; by vm_compute|]. split; [split; by vm_compute|].
  split; [by vm_compute|]. split; [|split; [by vm_compute|]].
  - intros i r Hi. assert (E : forallb (Z.eqb 0) (region_list (snd floor7_small)) = true) by (by vm_compute).
    apply (forallb_elem _ _ r) in E; [by apply Z.eqb_eq in E|].
    apply elem_of_list_lookup. exists i. unfold region_list. by rewrite list_lookup_fmap.
  - exists 255. split; [by vm_compute|done].
Qed.

(** "Single contour": around the unwalkable middle of the 7 x 7 floor there is
    one region, so the middle is a hole in it. *)
Definition floor7_run : chf * chf := Eval vm_compute in run_of floor7 0 8 20.
Theorem C30_single_contour_refuted : ∃ ch b ma ms ch' hole, wf_chf ch ∧ fits_u16 ch ∧ has_distances ch ∧
  build_regions ch b ma ms = Done (Some ch') ∧
  region_of ch' hole = Some 0 ∧
  (∀ i, (i < length (ch_spans ch))%nat → i ≠ hole → region_of ch' i = Some 1) ∧
  (∀ d, (d < 4)%nat → ∃ j, step ch hole d j).
Proof.
  exists (fst floor7_run), 0, 8, 20, (snd floor7_run), 24%nat.
  split; [apply wf_chf_b_ok; by vm_compute|]. split; [split; by vm_compute|]. split; [split; by vm_compute|].
  split; [by vm_compute|]. split; [by vm_compute|]. split.
  - intros i Hi Hne. assert (E : forallb (λ i, (i =? 24)%nat || bool_decide (region_of (snd floor7_run) i = Some 1)) (seq 0 49) = true) by (by vm_compute).
    apply (forallb_elem _ _ i) in E.
    + apply orb_prop in E as [E|E]; [by apply Nat.eqb_eq in E|]. by apply bool_decide_eq_true in E.
    + apply elem_of_seq. replace (length (ch_spans (fst floor7_run))) with 49%nat in Hi by (by vm_compute). lia.
  - intros d Hd.
    exists (nth d [23; 31; 25; 17]%nat 0%nat).
    destruct d as [|[|[|[|d]]]]; [..|lia].
    + apply (step_b_ok _ 24 0 0 23 0). by vm_compute.
    + apply (step_b_ok _ 24 0 1 31 0). by vm_compute.
    + apply (step_b_ok _ 24 0 2 25 0). by vm_compute.
    + apply (step_b_ok _ 24 0 3 17 0). by vm_compute.
Qed.

(** "Non-overlapping": the two turns of the helix are one region, so in the
    first column there are two spans of it, one above the other. (The code notices
    this and only logs it.) *)
Definition helix_run : chf * chf := Eval vm_compute in run_of helix 0 0 0.
Theorem C30_non_overlapping_refuted : ∃ ch b ma ms ch' c cell i j r, wf_chf ch ∧ fits_u16 ch ∧ has_distances ch ∧
  build_regions ch b ma ms = Done (Some ch') ∧
  ch_cells ch' !! c = Some cell ∧ i ∈ index_range cell ∧ j ∈ index_range cell ∧ i ≠ j ∧ r ≠ 0 ∧
  region_of ch' i = Some r ∧ region_of ch' j = Some r.
Proof.
  exists (fst helix_run), 0, 0, 0, (snd helix_run), 0%nat, (CC 0 2), 0%nat, 1%nat, 1.
  split; [apply wf_chf_b_ok; by vm_compute|]. split; [split; by vm_compute|]. split; [split; by vm_compute|].
  split; [by vm_compute|]. split; [by vm_compute|]. split; [apply elem_of_list_In; cbn; auto|].
  split; [apply elem_of_list_In; cbn; auto|]. split; [done|]. split; [done|]. split; by vm_compute.
Qed.

(** The two turns of the helix are one region before merging already. *)
Definition helix_flooded : marks * Z := Eval vm_compute in
  match watershed (fst helix_run) 0 with Done (Some p) => p | _ => (Marks [] [], 0) end.
Example C67_hypotheses_met :
  watershed (fst helix_run) 0 = Done (Some helix_flooded) ∧
  build_regions (fst helix_run) 0 0 0 = Done (Some (snd helix_run)) ∧
  in_cell (fst helix_run) 0 0 ∧ in_cell (fst helix_run) 0 1 ∧
  region_of (snd helix_run) 0 = Some 1 ∧ region_of (snd helix_run) 1 = Some 1 ∧
  m_reg (fst helix_flooded) !! 0%nat = Some 1.
Proof.
  split; [by vm_compute|]. split; [by vm_compute|].
  split; [exists (CC 0 2); split; [by vm_compute|apply elem_of_list_In; cbn; auto]|].
  split; [exists (CC 0 2); split; [by vm_compute|apply elem_of_list_In; cbn; auto]|].
  repeat (split; [by vm_compute|]). by vm_compute.
Qed.

Print Assumptions C25_regions_are_walkable.
Print Assumptions C25_nothing_else_changes.
Print Assumptions C25_reassigned_refuted.
Print Assumptions C26_one_area_per_region.
Print Assumptions C27_bounded.
Print Assumptions C27_never_attained.
Print Assumptions C27_maximum_refuted.
Print Assumptions C28_border_painted.
Print Assumptions C28_border_exact_below_32764.
Print Assumptions C29_terminates.
Print Assumptions C29_succeeds_below_32768.
Print Assumptions C29_max_distance_refuted.
Print Assumptions C30_regions_connected.
Print Assumptions C30_single_contour_refuted.
Print Assumptions C30_non_overlapping_refuted.
Print Assumptions C66_no_small_islands.
Print Assumptions C66_large_regions_kept.
Print Assumptions C66_no_minimum.
Print Assumptions C67_merging_never_stacks.
