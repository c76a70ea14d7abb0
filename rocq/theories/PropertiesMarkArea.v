(** Property C24: marking areas by a convex volume. *)
From Verif Require Import Base ModelMath ModelHeightfield ModelCompact ModelMarkArea
  SpecHeightfield SpecCompact SpecDistance SpecMarkArea CompactProofs LinkProofs GraphProofs
  MarkAreaProofs ExampleFields PropertiesDistance.
Local Open Scope Z_scope.

Theorem C24_marks_exactly :
  ∀ ch vol, wf_chf ch → Z.of_nat (ch_w ch * ch_h ch) ≤ 2 ^ 31 →
  runs (mark_convex_poly_area ch vol) (λ ch', same_but_areas ch ch' ∧ wf_chf ch' ∧
    ∀ i a, ch_areas ch !! i = Some a →
      (covered ch vol i ∧ ch_areas ch' !! i = Some (vol_area vol)) ∨
      (¬ covered ch vol i ∧ ch_areas ch' !! i = Some a)).
Proof.
  intros ch vol Hwf Hcells. unfold mark_convex_poly_area.
  assert (Hnone : (∀ i, ¬ covered ch vol i) → same_but_areas ch ch ∧ wf_chf ch ∧
    ∀ i a, ch_areas ch !! i = Some a →
      (covered ch vol i ∧ ch_areas ch !! i = Some (vol_area vol)) ∨
      (¬ covered ch vol i ∧ ch_areas ch !! i = Some a)).
  { intros Hn. split; [unfold same_but_areas; by split_and!|]. split; [done|]. intros i a Ha. by right. }
  destruct (aabb2_from_verts (vol_verts vol)) as [[lo hi]|] eqn:Hbox.
  2:{ cbn [runs]. apply Hnone. intros i (x & z & s & l & h & _ & _ & _ & _ & _ & E & _). congruence. }
  set (minx := to_cell _ _ (p_x lo)). set (maxx := to_cell _ _ (p_x hi)).
  set (minz := to_cell _ _ (p_y lo)). set (maxz := to_cell _ _ (p_y hi)).
  assert (Hfp : ∀ x z, in_footprint (ch_geo ch) lo hi x z ↔ minx ≤ Z.of_nat x ≤ maxx ∧ minz ≤ Z.of_nat z ≤ maxz)
    by done.
  destruct ((maxx <? 0) || (Z.of_nat (ch_w ch) <=? minx) || (maxz <? 0) || (Z.of_nat (ch_h ch) <=? minz)) eqn:E.
  { cbn [runs]. apply Hnone. intros i (x & z & s & l & h & Hx & Hz & _ & _ & _ & E' & Hf & _).
    rewrite Hbox in E'. injection E' as <- <-. apply (proj1 (Hfp _ _)) in Hf. lia. }
  eapply runs_bind.
  { apply (mark_rect_spec ch Hwf vol Hcells lo hi Hbox); lia. }
  intros A [HlA HA]. cbn [runs].
  assert (Hs : same_but_areas ch (ch_set_areas ch A)) by (unfold same_but_areas; cbn; by split_and!).
  split; [done|]. split; [by apply (wf_same_areas ch)|]. cbn [ch_areas ch_set_areas].
  intros i a Ha.
  assert (i < length (ch_spans ch))%nat as Hi.
  { rewrite <-(wf_areas _ Hwf). by apply lookup_lt_Some in Ha. }
  destruct (in_cell_ex ch Hwf i Hi) as [c Hin]. pose proof (in_cell_lt ch Hwf c i Hin) as Hc.
  destruct (cell_coords ch c Hc) as (Hw & Hcx & Hcz & Ec).
  destruct (HA c i Hin) as [(Hv & Hh & E')|[Hn E']].
  - left. split; [|done]. destruct Hh as (s & Hs' & Hne & Hy & Hp).
    exists (c mod ch_w ch)%nat, (c / ch_w ch)%nat, s, lo, hi. rewrite <-Ec.
    split; [done|]. split; [done|]. split; [done|]. split; [done|]. split; [done|]. split; [done|].
    split; [apply Hfp; lia|]. split; [done|done].
  - right. split; [|congruence]. intros (x & z & s & l & h & Hx & Hz & Hin' & Hs' & Hne & Eb & Hf & Hy & Hp).
    rewrite Hbox in Eb. injection Eb as <- <-. apply (proj1 (Hfp _ _)) in Hf.
    assert (Hcx' : c = (x + z * ch_w ch)%nat) by (by apply (in_cell_unique ch Hwf c _ i)).
    assert (Em : (c mod ch_w ch = x)%nat) by (rewrite Hcx', Nat.mod_add by lia; by apply Nat.mod_small).
    assert (Ed : (c / ch_w ch = z)%nat) by (rewrite Hcx', Nat.div_add by lia; by rewrite Nat.div_small).
    rewrite Em, Ed in Hn. apply Hn. split; [lia|]. by exists s.
Qed.

(** The claims in words: only walkable spans change, and only to the new area. *)
Theorem C24_unwalkable_stays :
  ∀ ch vol i, wf_chf ch → Z.of_nat (ch_w ch * ch_h ch) ≤ 2 ^ 31 →
  ch_areas ch !! i = Some 0 →
  runs (mark_convex_poly_area ch vol) (λ ch', ch_areas ch' !! i = Some 0).
Proof.
  intros ch vol i Hwf Hc Ha. eapply runs_mono; [by apply C24_marks_exactly|].
  intros ch' (_ & _ & H). destruct (H i 0 Ha) as [[(x & z & s & lo & hi & _ & _ & _ & _ & Hne & _) _]|[_ ?]]; done.
Qed.

(** A square over the middle of the 9 x 9 floor. *)
Definition square (lo hi : Z) (miny maxy : f32) : volume :=
  Volume [V2 (f_of_me lo (-1)) (f_of_me lo (-1)); V2 (f_of_me hi (-1)) (f_of_me lo (-1));
          V2 (f_of_me hi (-1)) (f_of_me hi (-1)); V2 (f_of_me lo (-1)) (f_of_me hi (-1))]
    miny maxy 7.
Definition ex_vol : volume := square 4 12 (f_of_Z 0) (f_of_Z 1).
Definition marked_area (vol : volume) (i : nat) : option Z :=
  match mark_convex_poly_area floor9 vol with Done c => ch_areas c !! i | _ => None end.
Example C24_witness : wf_chf floor9 ∧ Z.of_nat (ch_w floor9 * ch_h floor9) ≤ 2 ^ 31 ∧
  (∃ i, covered floor9 ex_vol i) ∧ (∃ i, ch_areas floor9 !! i = Some 255 ∧ ¬ covered floor9 ex_vol i).
Proof.
  split; [apply floor9_wf|]. assert (Hc : Z.of_nat (ch_w floor9 * ch_h floor9) ≤ 2 ^ 31) by (cbn; lia).
  split; [exact Hc|]. pose proof (C24_marks_exactly floor9 ex_vol floor9_wf Hc) as H.
  assert (E1 : marked_area ex_vol 40 = Some 7) by (by vm_compute).
  assert (E2 : marked_area ex_vol 10 = Some 255) by (by vm_compute).
  assert (A1 : ch_areas floor9 !! 40%nat = Some 255) by (by vm_compute).
  assert (A2 : ch_areas floor9 !! 10%nat = Some 255) by (by vm_compute).
  unfold marked_area in E1, E2.
  destruct (mark_convex_poly_area floor9 ex_vol) as [ch'| |]; [|destruct H..].
  destruct H as (_ & _ & H). split.
  - exists 40%nat. pose proof (H _ _ A1) as H'. rewrite E1 in H'.
    destruct H' as [[? _]|[_ [=]]]. assumption.
  - exists 10%nat. split; [exact A2|]. pose proof (H _ _ A2) as H'. rewrite E2 in H'.
    destruct H' as [[_ [=]]|[? _]]. assumption.
Qed.

(** The vertical range is not respected below the field's minimum: a volume
    whose top is below a span's floor still marks the span, because cell
    heights are truncated toward zero. In [floor9] cells are 1 high and start
    at height 0, so a floor at cell [y] has world height [y]. *)
Theorem C24_vertical_range_refuted :
  ∃ ch vol i s, wf_chf ch ∧ ch_spans ch !! i = Some s ∧
    v_y (g_min (ch_geo ch)) = f_of_Z 0 ∧ g_ch (ch_geo ch) = f_of_Z 1 ∧
    f_lt (vol_max_y vol) (f_of_Z (cs_y s)) = true ∧
    ch_areas ch !! i ≠ Some (vol_area vol) ∧
    runs (mark_convex_poly_area ch vol) (λ ch', ch_areas ch' !! i = Some (vol_area vol)).
Proof.
  exists floor9, (square 4 12 (f_of_me (-3) (-2)) (f_of_me (-1) (-1))), 40%nat, (flat_span 9 9 40).
  split; [apply floor9_wf|]. split; [by vm_compute|]. split; [done|]. split; [done|].
  split; [by vm_compute|]. split.
  - assert (A1 : ch_areas floor9 !! 40%nat = Some 255) by (by vm_compute). rewrite A1. by intros [=].
  - assert (E : marked_area (square 4 12 (f_of_me (-3) (-2)) (f_of_me (-1) (-1))) 40 = Some 7) by (by vm_compute).
    unfold marked_area in E. destruct (mark_convex_poly_area floor9 _) as [ch'| |]; [|discriminate E..]. exact E.
Qed.

Print Assumptions C24_marks_exactly.
Print Assumptions C24_unwalkable_stays.
Print Assumptions C24_vertical_range_refuted.
