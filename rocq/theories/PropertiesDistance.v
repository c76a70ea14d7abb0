(** Properties C18-C23: erosion and the distance field. *)
From Verif Require Import Base ModelMath ModelHeightfield ModelFilters ModelCompact ModelDistance
  SpecHeightfield SpecCompact SpecDistance CompactProofs LinkProofs GraphProofs SweepProofs
  DistanceProofs ExampleFields.
Local Open Scope Z_scope.

Lemma wf_same_areas ch ch' : wf_chf ch → same_but_areas ch ch' → wf_chf ch'.
Proof.
  intros [H1 H2 H3 H4 H5] (Ew & Eh & _ & _ & _ & _ & _ & _ & Ec & Es & _ & Ea).
  split; rewrite ?Ew, ?Eh, ?Ec, ?Es, ?Ea; done.
Qed.
Lemma wf_same_distances ch ch' : wf_chf ch → same_but_distances ch ch' → wf_chf ch'.
Proof.
  intros [H1 H2 H3 H4 H5] (Ew & Eh & _ & _ & _ & _ & _ & Ec & Es & Ea).
  split; rewrite ?Ew, ?Eh, ?Ec, ?Es, ?Ea; done.
Qed.

(** ** C18 *)
(** Span [i] lies within the radius: some two-sweep path to a rim span weighs
    less than twice the radius. *)
Definition within (ch : chf) (r : Z) (i : nat) : Prop :=
  ∃ w, chamfer ch (rim ch) i w ∧ w < 2 * r.

Theorem C18_erosion_exact :
  ∀ ch r, wf_chf ch → fits_u16 ch → 0 ≤ r ≤ 127 →
  runs (erode_walkable_area ch r) (λ ch', ∀ i a, ch_areas ch !! i = Some a →
    (within ch r i ∧ ch_areas ch' !! i = Some 0) ∨
    (¬ within ch r i ∧ ch_areas ch' !! i = Some a)).
Proof.
  intros ch r Hwf [Hw Hh] Hr. eapply runs_mono; [apply erode_spec; [done|done|done|lia|lia]|].
  intros ch' (A & -> & Hl & HA) i a Ha. cbn [ch_areas ch_set_areas].
  assert (i < length (ch_spans ch))%nat as Hi.
  { rewrite <-(wf_areas _ Hwf). by apply lookup_lt_Some in Ha. }
  specialize (HA i Hi). rewrite Z.mod_small in HA by lia. rewrite <-Ha. exact HA.
Qed.

(** The general threshold: twice the radius modulo 256. *)
Theorem C18_erosion_exact_all_radii :
  ∀ ch r, wf_chf ch → fits_u16 ch → 0 ≤ r ≤ 32767 →
  runs (erode_walkable_area ch r) (λ ch', ∀ i a, ch_areas ch !! i = Some a →
    let close := ∃ w, chamfer ch (rim ch) i w ∧ w < (2 * r) mod 256 in
    (close ∧ ch_areas ch' !! i = Some 0) ∨ (¬ close ∧ ch_areas ch' !! i = Some a)).
Proof.
  intros ch r Hwf [Hw Hh] Hr. eapply runs_mono; [apply erode_spec; [done|done|done|lia|lia]|].
  intros ch' (A & -> & Hl & HA) i a Ha. cbn [ch_areas ch_set_areas].
  assert (i < length (ch_spans ch))%nat as Hi.
  { rewrite <-(wf_areas _ Hwf). by apply lookup_lt_Some in Ha. }
  specialize (HA i Hi). rewrite <-Ha. exact HA.
Qed.

Theorem C18_rim_removed :
  ∀ ch r i, wf_chf ch → fits_u16 ch → 1 ≤ r ≤ 127 → rim ch i →
  runs (erode_walkable_area ch r) (λ ch', ch_areas ch' !! i = Some 0).
Proof.
  intros ch r i Hwf Hf Hr Hi. eapply runs_mono; [apply C18_erosion_exact; [done|done|lia]|].
  intros ch' H. pose proof Hi as [Hlt _]. rewrite <-(wf_areas _ Hwf) in Hlt.
  destruct (lookup_lt_is_Some_2 _ _ Hlt) as [a Ha].
  destruct (H i a Ha) as [[_ ?]|[Hn _]]; [done|]. exfalso. apply Hn.
  exists 0. split; [by apply chamfer_zero|lia].
Qed.

(** On the 9 x 9 floor, radius 2 removes the two outer rings and nothing else. *)
Lemma floor9_fits : fits_u16 floor9.
Proof. split; cbn; lia. Qed.
Definition eroded_area (r : Z) (i : nat) : option Z :=
  match erode_walkable_area floor9 r with Done c => ch_areas c !! i | _ => None end.
Lemma eroded_floor9 r i : 0 ≤ r ≤ 127 → ch_areas floor9 !! i = Some 255 →
  (within floor9 r i ∧ eroded_area r i = Some 0) ∨ (¬ within floor9 r i ∧ eroded_area r i = Some 255).
Proof.
  intros Hr Hi. pose proof (C18_erosion_exact floor9 r floor9_wf floor9_fits Hr) as H.
  unfold eroded_area. destruct (erode_walkable_area floor9 r); [|done..]. by apply H.
Qed.
Example C18_witness : wf_chf floor9 ∧ fits_u16 floor9 ∧
  (∃ i, ch_areas floor9 !! i = Some 255 ∧ within floor9 2 i ∧ ¬ within floor9 1 i) ∧
  (∃ i, ch_areas floor9 !! i = Some 255 ∧ ¬ within floor9 2 i).
Proof.
  split; [apply floor9_wf|]. split; [apply floor9_fits|].
  assert (Ha : ch_areas floor9 !! 10%nat = Some 255) by (by vm_compute).
  assert (Hb : ch_areas floor9 !! 40%nat = Some 255) by (by vm_compute).
  assert (E1 : eroded_area 1 10 = Some 255) by (by vm_compute).
  assert (E2 : eroded_area 2 10 = Some 0) by (by vm_compute).
  assert (E3 : eroded_area 2 40 = Some 255) by (by vm_compute).
  pose proof (eroded_floor9 1 10 ltac:(lia) Ha) as H1.
  pose proof (eroded_floor9 2 10 ltac:(lia) Ha) as H2.
  pose proof (eroded_floor9 2 40 ltac:(lia) Hb) as H3.
  rewrite E1 in H1. rewrite E2 in H2. rewrite E3 in H3.
  split.
  - exists 10%nat. split; [exact Ha|]. split.
    + destruct H2 as [[? _]|[_ [=]]]. assumption.
    + destruct H1 as [[_ [=]]|[? _]]. assumption.
  - exists 40%nat. split; [exact Hb|]. destruct H3 as [[_ [=]]|[? _]]. assumption.
Qed.

(** ** C19 *)
Theorem C19_only_removes :
  ∀ ch r, wf_chf ch → fits_u16 ch → 0 ≤ r ≤ 32767 →
  runs (erode_walkable_area ch r) (λ ch', same_but_areas ch ch' ∧ wf_chf ch' ∧
    ∀ i a, ch_areas ch !! i = Some a → ch_areas ch' !! i = Some 0 ∨ ch_areas ch' !! i = Some a).
Proof.
  intros ch r Hwf Hf Hr.
  assert (Hs : runs (erode_walkable_area ch r) (same_but_areas ch)).
  { destruct Hf as [Hw Hh]. eapply runs_mono; [apply erode_spec; [done|done|done|lia|lia]|].
    intros ch' (A & -> & Hl & _). unfold same_but_areas. cbn. rewrite (wf_areas _ Hwf). by split_and!. }
  eapply runs_mono; [apply runs_conj; [apply Hs|by apply C18_erosion_exact_all_radii]|].
  intros ch' [H1 H2]. split; [done|]. split; [by apply (wf_same_areas ch)|].
  intros i a Ha. destruct (H2 i a Ha) as [[_ ?]|[_ ?]]; auto.
Qed.

Theorem C19_radius_zero :
  ∀ ch, wf_chf ch → fits_u16 ch → erode_walkable_area ch 0 = Done ch.
Proof.
  intros ch Hwf Hf.
  pose proof (C18_erosion_exact ch 0 Hwf Hf ltac:(lia)) as H1.
  pose proof (C19_only_removes ch 0 Hwf Hf ltac:(lia)) as H2.
  destruct (erode_walkable_area ch 0) as [ch'| |]; [|done..]. cbn [runs] in *. f_equal.
  destruct H2 as [H2 _].
  assert (ch_areas ch' = ch_areas ch) as Ea.
  { apply list_eq. intros i. destruct (ch_areas ch !! i) as [a|] eqn:Ea.
    - destruct (H1 i a Ea) as [[(w & Hw & Hlt) _]|[_ ?]]; [|done]. exfalso.
      destruct Hw as (m & b & w1 & w2 & P1 & P2 & _ & ->).
      assert (0 ≤ w1). { eapply wpath_nonneg; [|exact P1]. intros ??? [->| ->]%forward_weight; lia. }
      assert (0 ≤ w2). { eapply wpath_nonneg; [|exact P2]. intros ??? [->| ->]%backward_weight; lia. }
      lia.
    - apply lookup_ge_None. apply lookup_ge_None in Ea.
      destruct H2 as (_ & _ & _ & _ & _ & _ & _ & _ & _ & _ & _ & ->). done. }
  destruct H2 as (? & ? & ? & ? & ? & ? & ? & ? & ? & ? & ? & _).
  destruct ch, ch'; cbn in *; subst; done.
Qed.

Theorem C19_monotone :
  ∀ ch r r' ch1 ch2 i, wf_chf ch → fits_u16 ch → 0 ≤ r ≤ r' → r' ≤ 127 →
  erode_walkable_area ch r = Done ch1 → erode_walkable_area ch r' = Done ch2 →
  ch_areas ch1 !! i = Some 0 → ch_areas ch2 !! i = Some 0.
Proof.
  intros ch r r' ch1 ch2 i Hwf Hf Hr Hr' E1 E2 Hi.
  pose proof (C18_erosion_exact ch r Hwf Hf ltac:(lia)) as H1.
  pose proof (C18_erosion_exact ch r' Hwf Hf ltac:(lia)) as H2.
  pose proof (C19_only_removes ch r Hwf Hf ltac:(lia)) as H3.
  rewrite E1 in H1, H3. rewrite E2 in H2. cbn [runs] in *.
  destruct H3 as [(_ & _ & _ & _ & _ & _ & _ & _ & _ & _ & _ & El) _].
  assert (i < length (ch_areas ch))%nat as Hlt by (rewrite <-El; by apply lookup_lt_Some in Hi).
  destruct (lookup_lt_is_Some_2 _ _ Hlt) as [a Ea].
  destruct (H2 i a Ea) as [[_ ?]|[Hn2 A2]]; [done|].
  destruct (H1 i a Ea) as [[(w & Hw & Hwl) _]|[_ A1]]; [|congruence].
  exfalso. apply Hn2. exists w. split; [done|lia].
Qed.
Example C19_witness : wf_chf floor9 ∧ fits_u16 floor9 ∧
  eroded_area 1 10 = Some 255 ∧ eroded_area 2 10 = Some 0 ∧ eroded_area 3 10 = Some 0.
Proof. split; [apply floor9_wf|]. split; [apply floor9_fits|]. split_and!; by vm_compute. Qed.

(** ** C20 *)
(** Radius 128 removes nothing, on any field, although 127 may remove spans. *)
Theorem C20_radius_128_removes_nothing :
  ∀ ch, wf_chf ch → fits_u16 ch → runs (erode_walkable_area ch 128) (λ ch', ch_areas ch' = ch_areas ch).
Proof.
  intros ch Hwf Hf.
  eapply runs_mono; [apply runs_conj; [apply (C18_erosion_exact_all_radii ch 128); [done|done|lia]|
    apply (C19_only_removes ch 128); [done|done|lia]]|].
  intros ch' [H1 [H2 _]]. apply list_eq. intros i. destruct (ch_areas ch !! i) as [a|] eqn:Ea.
  - change ((2 * 128) mod 256) with 0 in H1.
    destruct (H1 i a Ea) as [[(w & Hw & Hlt) _]|[_ ?]]; [|done]. exfalso.
    destruct Hw as (m & b & w1 & w2 & P1 & P2 & _ & ->).
    assert (0 ≤ w1). { eapply wpath_nonneg; [|exact P1]. intros ??? [->| ->]%forward_weight; lia. }
    assert (0 ≤ w2). { eapply wpath_nonneg; [|exact P2]. intros ??? [->| ->]%backward_weight; lia. }
    lia.
  - apply lookup_ge_None. apply lookup_ge_None in Ea.
    destruct H2 as (_ & _ & _ & _ & _ & _ & _ & _ & _ & _ & _ & ->). done.
Qed.

Theorem C20_monotonicity_refuted :
  ∃ ch r r' ch1 ch2 i, wf_chf ch ∧ fits_u16 ch ∧ 0 ≤ r ≤ r' ∧ r' ≤ 65535 ∧
  erode_walkable_area ch r = Done ch1 ∧ erode_walkable_area ch r' = Done ch2 ∧
  ch_areas ch1 !! i = Some 0 ∧ ch_areas ch2 !! i = Some 255.
Proof.
  exists floor9, 127, 128.
  pose proof (C19_only_removes floor9 127 floor9_wf floor9_fits ltac:(lia)) as H1.
  pose proof (C19_only_removes floor9 128 floor9_wf floor9_fits ltac:(lia)) as H2.
  assert (A1 : eroded_area 127 40 = Some 0) by (by vm_compute).
  assert (A2 : eroded_area 128 40 = Some 255) by (by vm_compute).
  unfold eroded_area in A1, A2.
  destruct (erode_walkable_area floor9 127) as [ch1| |]; [|destruct H1..].
  destruct (erode_walkable_area floor9 128) as [ch2| |]; [|destruct H2..].
  exists ch1, ch2, 40%nat. split; [apply floor9_wf|]. split; [apply floor9_fits|].
  split; [lia|]. split; [lia|]. split; [reflexivity|]. split; [reflexivity|]. split; assumption.
Qed.

Theorem C20_large_radius_panics :
  ∀ ch r, wf_chf ch → fits_u16 ch → 32768 ≤ r ≤ 65535 → erode_walkable_area ch r = Panicked.
Proof. intros ch r Hwf [Hw Hh] Hr. apply erode_panics; [done..|lia]. Qed.

(** ** C21 *)
Theorem C21_distance_field_exact :
  ∀ ch, wf_chf ch → fits_u16 ch → Z.of_nat (Nat.min (ch_w ch) (ch_h ch)) ≤ 32767 → ch_spans ch ≠ [] →
  runs (build_distance_field ch) (λ ch', same_but_distances ch ch' ∧ wf_chf ch' ∧
    ∃ D : nat → Z,
      (∀ i, (i < length (ch_spans ch))%nat → least_weight ch (area_border ch) i (D i)) ∧
      (∃ i, (i < length (ch_spans ch))%nat ∧ ch_maxdist ch' = D i) ∧
      (∀ i, (i < length (ch_spans ch))%nat → D i ≤ ch_maxdist ch') ∧
      length (ch_dist ch') = length (ch_spans ch) ∧
      (∀ i v, ch_dist ch' !! i = Some v → smoothed ch D i v)).
Proof.
  intros ch Hwf [Hw Hh] Hmin Hne.
  eapply runs_mono; [apply build_distance_spec; [done|done|done|lia|done]|].
  intros ch' (D & m & B & -> & HlD & HlB & HD & Hm & Hmax & HB & _).
  assert (Hs : same_but_distances ch (ch_set_dist ch m B)) by (unfold same_but_distances; cbn; by split_and!).
  split; [done|]. split; [by apply (wf_same_distances ch)|]. exists (λ i, D !!! i). rewrite <-HlD.
  cbn [ch_maxdist ch_dist ch_set_dist]. split; [done|]. split; [|split; [|split]].
  - apply elem_of_list_lookup in Hm as [i Hi]. exists i. split; [by apply lookup_lt_Some in Hi|].
    symmetry. by apply list_lookup_total_correct.
  - intros i Hi. apply Hmax. apply elem_of_list_lookup. exists i. by apply list_lookup_lookup_total_lt.
  - by rewrite HlD.
  - intros i v Hv. rewrite <-(list_lookup_total_correct _ _ _ Hv). apply HB.
    apply lookup_lt_Some in Hv. lia.
Qed.
Definition floor9_dist : option (Z * option Z * option Z) :=
  match build_distance_field floor9 with
  | Done c => Some (ch_maxdist c, ch_dist c !! 0%nat, ch_dist c !! 40%nat) | _ => None end.
Example C21_witness : wf_chf floor9 ∧ fits_u16 floor9 ∧ ch_spans floor9 ≠ [] ∧
  floor9_dist = Some (8, Some 0, Some 6).
Proof.
  split; [apply floor9_wf|]. split; [apply floor9_fits|]. split; [|by vm_compute].
  intros E. assert (length (ch_spans floor9) = 0%nat) as El by (by rewrite E). vm_compute in El. discriminate El.
Qed.

(** ** C22 *)
Theorem C22_bounds :
  ∀ ch, wf_chf ch → fits_u16 ch → Z.of_nat (Nat.min (ch_w ch) (ch_h ch)) ≤ 32767 → ch_spans ch ≠ [] →
  runs (build_distance_field ch) (λ ch',
    length (ch_dist ch') = length (ch_spans ch) ∧
    ∀ i v, ch_dist ch' !! i = Some v → 0 ≤ v ≤ ch_maxdist ch' ∧ (v = 0 ↔ area_border ch i)).
Proof.
  intros ch Hwf [Hw Hh] Hmin Hne.
  eapply runs_mono; [apply build_distance_spec; [done|done|done|lia|done]|].
  intros ch' (D & m & B & -> & HlD & HlB & HD & Hm & Hmax & HB & H2).
  cbn [ch_maxdist ch_dist ch_set_dist]. split; [done|]. intros i v Hv.
  assert (i < length D)%nat as Hi by (apply lookup_lt_Some in Hv; lia).
  rewrite <-(list_lookup_total_correct _ _ _ Hv). specialize (HB i Hi). clear Hv v.
  assert (HDb : ∀ j, (j < length D)%nat → 0 ≤ D !!! j ≤ m).
  { intros j Hj. apply Hmax, elem_of_list_lookup. exists j. by apply list_lookup_lookup_total_lt. }
  assert (H0 : D !!! i = 0 ↔ area_border ch i).
  { destruct (HD i Hi) as [Hc Hle]. split.
    - intros E. rewrite E in Hc. exact (proj1 (chamfer_zero _ _ _) Hc).
    - intros Hb. specialize (Hle 0 (proj2 (chamfer_zero _ _ _) Hb)). pose proof (HDb i Hi). lia. }
  destruct HB as [[Hle ->]|(Hgt & v0 & v1 & v2 & v3 & R0 & R1 & R2 & R3 & ->)].
  { split; [by apply HDb|done]. }
  pose proof (HDb i Hi) as Hbi.
  assert (Hr : ∀ d v, (d < 4)%nat → ring ch (λ j, D !!! j) (D !!! i) i d v → 0 ≤ v ≤ 2 * m).
  { intros d v Hd [[_ ->]|(a & Ha & Hor)]; [lia|].
    pose proof (step_bound ch Hwf i d a Hd Ha) as [_ Han]. rewrite <-HlD in Han. pose proof (HDb a Han).
    destruct Hor as [[_ ->]|(b & Hb & ->)]; [lia|].
    assert (((d + 1) mod 4 < 4)%nat) as Hd2 by (by apply Nat.mod_upper_bound).
    pose proof (step_bound ch Hwf a _ b Hd2 Hb) as [_ Hbn]. rewrite <-HlD in Hbn. pose proof (HDb b Hbn). lia. }
  pose proof (Hr 0%nat v0 ltac:(lia) R0). pose proof (Hr 1%nat v1 ltac:(lia) R1).
  pose proof (Hr 2%nat v2 ltac:(lia) R2). pose proof (Hr 3%nat v3 ltac:(lia) R3).
  assert (1 ≤ v2).
  { destruct R2 as [[_ ->]|(a & Ha & Hor)]; [lia|]. specialize (H2 i a Hi Ha).
    pose proof (step_bound ch Hwf i 2 a ltac:(lia) Ha) as [_ Han]. rewrite <-HlD in Han. pose proof (HDb a Han).
    destruct Hor as [[_ ->]|(b & Hb & ->)]; [lia|].
    assert (((2 + 1) mod 4 < 4)%nat) as Hd2 by (by apply Nat.mod_upper_bound).
    pose proof (step_bound ch Hwf a _ b Hd2 Hb) as [_ Hbn]. rewrite <-HlD in Hbn. pose proof (HDb b Hbn). lia. }
  split; [lia|]. rewrite <-H0. lia.
Qed.

(** ** C23 *)
Theorem C23_empty_field_panics :
  ∀ ch, wf_chf ch → fits_u16 ch → ch_spans ch = [] → build_distance_field ch = Panicked.
Proof.
  intros ch Hwf [Hw Hh] He. unfold build_distance_field, calculate_distance_field.
  destruct (proj1 (runs_done _ _) (mark_distance_spec ch Hwf Hw Hh)) as (seed & -> & Hl & Hs). cbn [obind].
  assert (E : runs (sweeps add_chk_u16 ch seed) (λ D2, length D2 = 0%nat)).
  { eapply runs_mono.
    - apply (sweeps_spec ch Hwf Hw Hh add_chk_u16 65535 (λ _ v, 0 ≤ v ≤ 0) (λ _ v, 0 ≤ v ≤ 0) seed Hl).
      + rewrite He. cbn. lia.
      + intros. apply good_add_chk; lia.
      + intros. apply good_add_chk; lia.
      + intros c i D Hin. apply (in_cell_bound ch Hwf) in Hin. rewrite He in Hin. cbn in Hin. lia.
      + intros c i D v Hin. apply (in_cell_bound ch Hwf) in Hin. rewrite He in Hin. cbn in Hin. lia.
    - intros D [Hd _]. rewrite He in Hd. done. }
  destruct (sweeps add_chk_u16 ch seed) as [[|? ?]| |]; done.
Qed.
Theorem C23_total_refuted : ∃ ch, wf_chf ch ∧ fits_u16 ch ∧ build_distance_field ch = Panicked.
Proof.
  exists (mkChf 2 2 0 0 0 0 0 geo0 (repeat cc_default 4) [] [] []). split; [|split].
  - apply wf_chf_b_ok. by vm_compute.
  - split; cbn; lia.
  - by vm_compute.
Qed.

Print Assumptions C18_erosion_exact.
Print Assumptions C18_erosion_exact_all_radii.
Print Assumptions C18_rim_removed.
Print Assumptions C19_only_removes.
Print Assumptions C19_radius_zero.
Print Assumptions C19_monotone.
Print Assumptions C20_radius_128_removes_nothing.
Print Assumptions C20_monotonicity_refuted.
Print Assumptions C20_large_radius_panics.
Print Assumptions C21_distance_field_exact.
Print Assumptions C22_bounds.
Print Assumptions C23_empty_field_panics.
Print Assumptions C23_total_refuted.
