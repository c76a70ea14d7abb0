(** Contours: theorems C31 to C34 and C68. *)
From Verif Require Import Base ModelMath ModelHeightfield ModelFilters ModelCompact ModelDistance ModelRegions
  ModelContours SpecHeightfield SpecCompact SpecDistance SpecRegions SpecContours PackProofs CompactProofs LinkProofs
  GraphProofs DistanceProofs SweepProofs FlowProofs WatershedProofs OrbitProofs ContourWalkProofs SimplifyProofs
  ContourSetProofs ExampleFields RegionProofs PropertiesRegions.
Local Open Scope Z_scope.

Lemma build_of ch err len wall areas :
  contourable ch → 0 ≤ len → 2 * ch_border ch ≤ Z.of_nat (ch_w ch) → 2 * ch_border ch ≤ Z.of_nat (ch_h ch) →
  ends (bad ch len wall areas) (build_contours ch err len wall areas) (λ cs, ∃ SS,
    Z.of_nat (length (ks_contours cs)) ≤ Z.max (ch_maxreg ch) 8 ∧ NoDup (concat SS) ∧
    Forall2 (outlines ch) (ks_contours cs) SS ∧
    ks_w cs = Z.of_nat (ch_w ch) - 2 * ch_border ch ∧ ks_h cs = Z.of_nat (ch_h ch) - 2 * ch_border ch).
Proof. intros [Hwf [Hw Hh] Hs Hr Hb Hm] Hl H1 H2. by apply build_spec. Qed.

(** Too small a field makes [build_contours] panic before it does anything. *)
Lemma too_small ch err len wall areas :
  0 ≤ ch_border ch → Z.of_nat (ch_w ch) < 2 * ch_border ch ∨ Z.of_nat (ch_h ch) < 2 * ch_border ch →
  build_contours ch err len wall areas = Panicked.
Proof.
  intros Hb H. unfold build_contours, chk_u16, chk.
  destruct ((0 <=? ch_border ch * 2) && _) eqn:E1; [|done]. cbn [obind].
  destruct ((0 <=? Z.of_nat (ch_w ch) - ch_border ch * 2) && _) eqn:E2; [|done]. cbn [obind].
  destruct ((0 <=? Z.of_nat (ch_h ch) - ch_border ch * 2) && _) eqn:E3; [|done]. lia.
Qed.

(** ** C31 *)
(** Every contour follows, side by side, boundary sides of its region that no
    other contour follows; its raw vertices are the ends of these sides, and they
    form a closed loop of unit steps. Its area is that of a span of its region (all
    have the same, C26). *)
Theorem C31_closed_loops :
  ∀ ch err len wall areas cs, contourable ch → 0 ≤ len →
  build_contours ch err len wall areas = Done cs →
  ∃ SS, NoDup (concat SS) ∧
    Forall2 (λ ct sides, inner (ct_reg ct) ∧ traces ch (ct_reg ct) (ct_area ct) sides (ct_raw ct) ∧ lattice_loop (ct_raw ct) ∧
      has_area ch (ct_reg ct) (ct_area ct)) (ks_contours cs) SS.
Proof.
  intros ch err len wall areas cs Hc Hl E. pose proof (ca_border _ Hc) as [Hb0 _].
  destruct (decide (2 * ch_border ch ≤ Z.of_nat (ch_w ch) ∧ 2 * ch_border ch ≤ Z.of_nat (ch_h ch))) as [[H1 H2]|Hno].
  - pose proof (build_of ch err len wall areas Hc Hl H1 H2) as H. rewrite E in H. destruct H as (SS & _ & Hnd & HF & _).
    exists SS. split; [done|]. eapply Forall2_impl; [exact HF|]. by intros ct sides (? & ? & ? & _ & _ & _ & ?).
  - rewrite too_small in E; [done|done|lia].
Qed.

(** The fields that region building makes of a field with symmetric
    connections (see C14) are [contourable]. *)
Theorem C31_after_build_regions :
  ∀ ch b ma ms ch', wf_chf ch → fits_u16 ch → symmetric ch → has_distances ch → 0 ≤ b →
  build_regions ch b ma ms = Done (Some ch') → regions_small ch' → contourable ch'.
Proof.
  intros ch b ma ms ch' Hwf Hf Hs HD Hb0 E Hsm.
  pose proof (C25_nothing_else_changes _ _ _ _ _ Hwf Hf HD E) as [HS Hbd].
  pose proof (C25_regions_are_walkable _ _ _ _ _ Hwf Hf HD E) as Hwk.
  pose proof (C27_bounded _ _ _ _ _ Hwf Hf HD E) as [Hmr Hrb].
  destruct HS as (Ew & Eh & _ & _ & _ & _ & Ec & _ & Ea & Els & Esp).
  assert (Hsp : ∀ i s', ch_spans ch' !! i = Some s' → ∃ s, ch_spans ch !! i = Some s ∧ s' = CS (cs_y s) (cs_reg s') (cs_data s)).
  { intros i s' H'. destruct (lookup_lt_is_Some_2 (ch_spans ch) i) as [s Hs']. { rewrite <-Els. by eapply lookup_lt_Some. }
    exists s. split; [done|]. destruct (Esp _ _ Hs') as (r & Hr). rewrite Hr in H'. by injection H' as <-. }
  assert (Hlk : ∀ c k d c' k', linked ch' c k d c' k' ↔ linked ch c k d c' k').
  { intros c k d c' k'. unfold linked, span_in. rewrite Ec, Ew, Eh. split.
    - intros (s' & (cell & H1 & H2 & H3) & H4 & H5). destruct (Hsp _ _ H3) as (s & Hs' & Es). exists s. split; [by exists cell|].
      split; [|done]. rewrite Es in H4. done.
    - intros (s & (cell & H1 & H2 & H3) & H4 & H5). destruct (Esp _ _ H3) as (r & Hr).
      exists (CS (cs_y s) r (cs_data s)). split; [by exists cell|]. done. }
  assert (Hwf' : wf_chf ch').
  { destruct Hwf as [W1 W2 W3 W4 W5]. split.
    - by rewrite Ec, Ew, Eh.
    - by rewrite Ea, Els.
    - rewrite Ec. done.
    - by rewrite Ec, Els.
    - rewrite Ec, Ew, Eh. intros x z cell i s d k Hx Hz Hc Hi Hs' Hd Hk. destruct (Hsp _ _ Hs') as (s0 & Hs0 & Es).
      apply (W5 x z cell i s0 d k); try done. by rewrite Es in Hk. }
  split; [done| | | | |done].
  - destruct Hf. split; [by rewrite Ew|by rewrite Eh].
  - intros c k d c' k' Hd Hl. apply Hlk. apply Hs; [done|]. by apply Hlk.
  - intros i r Hi. destruct (built_of _ _ _ _ _ Hwf Hf HD E) as (_ & _ & M & id & R' & _ & HW & HL & HR).
    destruct (region_orig _ _ _ _ _ _ _ _ _ HW HL HR Hi) as (Hi' & r0 & Hr0 & Hr16).
    destruct (decide (r0 < 32768)) as [Hlt|Hge]; [pose proof (proj1 (l_inner _ _ _ _ _ _ HL i r0 r Hr0 Hi' Hlt))|
      pose proof (l_border _ _ _ _ _ _ HL i r0 r Hr0 Hi' ltac:(lia))]; lia.
  - rewrite <-Hbd in Hb0. split; [done|]. intros i r Hi [Hn Hnb] Hne. rewrite Hbd in Hne, Hb0.
    assert (near_edge ch b i) as Hne'.
    { destruct Hne as (x & z & H1 & H2 & (cell & H3 & H4) & H5). exists x, z. rewrite Ew, Eh in *. rewrite Ec in H3.
      split; [done|]. split; [done|]. split; [by exists cell|done]. }
    destruct (decide (0 < b)) as [Hpos|].
    + destruct (C28_border_painted _ _ _ _ _ Hwf Hf HD E Hpos i Hne' (Hwk _ _ Hi Hn)) as (r' & Hr' & Hb').
      assert (r' = r) as -> by congruence. done.
    + destruct Hne' as (x & z & H1 & H2 & _ & H5). lia.
Qed.

(** ** C32 *)
(** Simplifying a raw contour whose vertices do not all coincide: never runs
    forever. *)
Theorem C32_terminates :
  ∀ raw err len wall areas, spread raw → simplify_contour raw err len wall areas ≠ OutOfFuel.
Proof.
  intros raw err len wall areas Hsp E.
  assert (0 < length raw)%nat as Hn. { destruct Hsp as (p & q & Hp & _). destruct raw; [by apply elem_of_nil in Hp|cbn; lia]. }
  pose proof (simplify_spec raw Hn True err len wall areas Hsp ltac:(by left)) as H. by rewrite E in H.
Qed.

Lemma splitting_iff len wall areas : 0 ≤ len → (0 <? len) && (wall || areas) = false ↔ no_splitting len wall areas.
Proof.
  intros Hl. unfold no_splitting. split.
  - intros [E|[E1 E2]%orb_false_iff]%andb_false_iff; [left; lia|by right].
  - intros [->|[-> ->]]; [done|]. by rewrite andb_false_r.
Qed.

(** Its result: raw vertices in cyclic order with the flags of the raw contour,
    among them every vertex at which the region beyond or the area border changes,
    if there is a region beyond at all; without splitting no vertex on a wall or an
    area border is further than the tolerance from its segment, and with splitting
    the segments along walls are no longer than asked for. *)
Theorem C32_simplification :
  ∀ raw err len wall areas, spread raw → 0 ≤ len → no_splitting len wall areas ∨ (len ≤ 255 ∧ coords_i16 raw) →
  ∃ l j0 os, simplify_contour raw err len wall areas = Done l ∧
    subloop raw j0 os (fst <$> l) ∧
    Forall2 (λ o v, edge_info raw (j0 + o) v) os l ∧
    (has_portal raw → ∀ j p, changes raw j → at_loop raw j = Some p → ∃ v, v ∈ l ∧ v.1 = p.1) ∧
    (no_splitting len wall areas → within raw (f_mul err err) j0 os) ∧
    (¬ no_splitting len wall areas → edges_short raw len wall areas j0 os).
Proof.
  intros raw err len wall areas Hsp Hl Hp.
  assert (0 < length raw)%nat as Hn. { destruct Hsp as (p & q & H & _). destruct raw; [by apply elem_of_nil in H|cbn; lia]. }
  pose proof (simplify_spec raw Hn False err len wall areas Hsp) as H.
  assert ((0 ≤ len ≤ 255 ∧ coords_i16 raw) ∨ (0 <? len) && (wall || areas) = false) as Hp'.
  { rewrite splitting_iff by done. naive_solver. }
  specialize (H ltac:(by right)).
  destruct (simplify_contour raw err len wall areas) as [l| |]; [|done|done].
  destruct H as (j0 & os & Hord & Hkeep & (HQ1 & HQ2 & _) & ->). eexists _, j0, os. split; [done|].
  split.
  { rewrite <-list_fmap_compose. by apply (ordered_subloop raw Hn). }
  split.
  { apply Forall2_fmap_r, Forall2_same_length_lookup. split; [done|]. intros k o o' Ho Ho'. assert (o' = o) as -> by congruence.
    eexists _, _. rewrite !(at_loop_pts raw Hn). split; [done|]. split; [done|]. split; [done|]. cbn [snd].
    replace (ix raw j0 (o + 1)) with ((j0 + o + 1) mod length raw)%nat by (unfold ix; f_equal; lia).
    unfold ix. set (a := rat _ _). set (b := rat _ _). unfold beyond_region, area_border.
    split; [|split].
    - apply Z.bits_inj'. intros n Hn0. rewrite !Z.land_spec, Z.lor_spec, !Z.land_spec. unfold REGION_MASK.
      change 65535 with (Z.ones 16). rewrite Z.testbit_ones_nonneg by lia. destruct (Z.ltb_spec n 16) as [Hlt|Hge]; [|by rewrite !andb_false_r].
      rewrite !andb_true_r. rewrite (Z.lor_spec (Z.ones 16)), Z.testbit_ones_nonneg by lia.
      replace (n <? 16) with true by lia. cbn [orb]. rewrite andb_true_r. change BORDER_VERTEX with (2 ^ 16).
      rewrite Z.pow2_bits_false by lia. by rewrite andb_false_r, orb_false_r.
    - rewrite Z.lor_spec, !Z.land_spec. cbn. by rewrite andb_false_r, andb_true_r, orb_false_r.
    - rewrite Z.lor_spec, !Z.land_spec. cbn. by rewrite andb_false_r, andb_true_r. }
  split.
  { intros Hpt j p Hch Hj. destruct (keeps_spec raw Hn j0 os Hkeep Hpt j Hch) as (o & Ho & Eo).
    eexists. split; [apply elem_of_list_fmap; by exists o|]. cbn [fst].
    rewrite (at_loop_pts raw Hn) in Hj. injection Hj as <-. cbn [fst]. by rewrite Eo. }
  rewrite <-(splitting_iff len wall areas Hl). rewrite not_false_iff_true. done.
Qed.

(** The same of whole contour sets: every contour has at least three vertices;
    they are raw vertices in order, and if there is a region beyond the boundary at
    all, there is one wherever the region beyond or the area border changes. *)
Theorem C32_contour_sets :
  ∀ ch err len wall areas cs ct, contourable ch → 0 ≤ len →
  build_contours ch err len wall areas = Done cs → ct ∈ ks_contours cs →
  (3 ≤ length (ct_verts ct))%nat ∧
  (∃ j0 os, subloop (ct_raw ct) j0 os (fst <$> ct_verts ct)) ∧
  (has_portal (ct_raw ct) → ∀ j p, changes (ct_raw ct) j → at_loop (ct_raw ct) j = Some p →
     ∃ v, v ∈ ct_verts ct ∧ vpos v.1 = vpos p.1).
Proof.
  intros ch err len wall areas cs ct Hc Hl E Hct. pose proof (ca_border _ Hc) as [Hb0 _].
  destruct (decide (2 * ch_border ch ≤ Z.of_nat (ch_w ch) ∧ 2 * ch_border ch ≤ Z.of_nat (ch_h ch))) as [[H1 H2]|Hno].
  - pose proof (build_of ch err len wall areas Hc Hl H1 H2) as H. rewrite E in H. destruct H as (SS & _ & Hnd & HF & _).
    apply elem_of_list_lookup in Hct as (k & Hk). eapply Forall2_lookup_l in HF as (sides & _ & Ho); [|exact Hk].
    destruct Ho as (_ & _ & _ & ? & ? & ? & _). done.
  - rewrite too_small in E; [done|done|lia].
Qed.

(** ** C33 *)
(** The contour table never grows: a set never has more contours than
    [max(max_region, 8)] — whatever the field. *)
Theorem C33_at_most_max_region :
  ∀ ch err len wall areas cs, contourable ch → 0 ≤ len →
  build_contours ch err len wall areas = Done cs → Z.of_nat (length (ks_contours cs)) ≤ Z.max (ch_maxreg ch) 8.
Proof.
  intros ch err len wall areas cs Hc Hl E. pose proof (ca_border _ Hc) as [Hb0 _].
  destruct (decide (2 * ch_border ch ≤ Z.of_nat (ch_w ch) ∧ 2 * ch_border ch ≤ Z.of_nat (ch_h ch))) as [[H1 H2]|Hno].
  - pose proof (build_of ch err len wall areas Hc Hl H1 H2) as H. rewrite E in H. by destruct H as (SS & ? & _).
  - rewrite too_small in E; [done|done|lia].
Qed.

(** With parameters in range, the only way for it to panic is that there are
    more closed boundaries than that. *)
Theorem C33_panics_only_if_full :
  ∀ ch err len wall areas, contourable ch → 0 ≤ len →
  2 * ch_border ch ≤ Z.of_nat (ch_w ch) → 2 * ch_border ch ≤ Z.of_nat (ch_h ch) →
  no_splitting len wall areas ∨ (len ≤ 255 ∧ Z.of_nat (ch_w ch) ≤ 32767 ∧ Z.of_nat (ch_h ch) ≤ 32767) →
  (∃ cs, build_contours ch err len wall areas = Done cs) ∨
  (build_contours ch err len wall areas = Panicked ∧ more_boundaries ch (Z.max (ch_maxreg ch) 8)).
Proof.
  intros ch err len wall areas Hc Hl H1 H2 Hp. pose proof (build_of ch err len wall areas Hc Hl H1 H2) as H.
  destruct (build_contours ch err len wall areas) as [cs| |]; [left; by exists cs| |done].
  right. split; [done|]. destruct H as [[Hn Hr]|H]; [|done]. exfalso. destruct Hp as [?|(? & ? & ?)]; [done|]. apply Hr. lia.
Qed.

(** ** C34 *)
(** Any field narrower than twice its border. *)
Theorem C34_narrow_field_panics :
  ∀ ch err len wall areas, 0 ≤ ch_border ch →
  Z.of_nat (ch_w ch) < 2 * ch_border ch ∨ Z.of_nat (ch_h ch) < 2 * ch_border ch →
  build_contours ch err len wall areas = Panicked.
Proof. apply too_small. Qed.

(** Any [max_edge_len] of 256 or more, with wall edges tessellated, on any raw
    contour that has a wall. *)
Theorem C34_long_edges_panic :
  ∀ raw err len areas, spread raw → 256 ≤ len → (∃ p : rawv, p ∈ raw ∧ beyond_region p.2 = 0) →
  simplify_contour raw err len true areas = Panicked.
Proof.
  intros raw err len areas Hsp Hl Hw. apply long_edges; [|done|done|done].
  destruct Hsp as (p & q & H & _). destruct raw; [by apply elem_of_nil in H|cbn; lia].
Qed.

(** The parameters that work: at most 255 on fields of at most 32767 cells a
    side, or no splitting. *)
Theorem C34_succeeds :
  ∀ ch err len wall areas, contourable ch → 0 ≤ len →
  2 * ch_border ch ≤ Z.of_nat (ch_w ch) → 2 * ch_border ch ≤ Z.of_nat (ch_h ch) →
  no_splitting len wall areas ∨ (len ≤ 255 ∧ Z.of_nat (ch_w ch) ≤ 32767 ∧ Z.of_nat (ch_h ch) ≤ 32767) →
  ¬ more_boundaries ch (Z.max (ch_maxreg ch) 8) →
  ∃ cs, build_contours ch err len wall areas = Done cs.
Proof.
  intros ch err len wall areas Hc Hl H1 H2 Hp Hm. destruct (C33_panics_only_if_full ch err len wall areas Hc Hl H1 H2 Hp) as [?|[_ ?]]; done.
Qed.

(** ** C68 *)
(** The frame of a contour set: its bounds are those of the field without the
    border, on the sides only, and all its vertices lie on or inside its edges. *)
Definition in_frame (cs : contour_set) (v : vtx) : Prop := 0 ≤ vx v ≤ ks_w cs ∧ 0 ≤ vz v ≤ ks_h cs.

Lemma build_frame ch err len wall areas cs :
  build_contours ch err len wall areas = Done cs →
  ks_geo cs = unborder_geo (ch_geo ch) (ch_border ch) ∧ ks_border cs = ch_border ch ∧ ks_maxerr cs = err.
Proof.
  unfold build_contours. intros E. revert E. unfold chk_u16, chk.
  repeat match goal with
  | |- context [if ?c then _ else _] => destruct c; cbn [obind]; [|done]
  end.
  destruct (mark_boundaries ch) as [flags| |]; cbn [obind]; [|done|done].
  match goal with |- context [obind ?m _] => destruct m; cbn [obind]; [|done|done] end.
  by intros [= <-].
Qed.

Theorem C68_frame :
  ∀ ch err len wall areas cs, contourable ch → 0 ≤ len →
  build_contours ch err len wall areas = Done cs →
  let b := ch_border ch in let g := ch_geo ch in let g' := ks_geo cs in
  let pad := f_mul (f_of_Z b) (g_cs g) in
  ks_border cs = b ∧ ks_maxerr cs = err ∧
  ks_w cs + 2 * b = Z.of_nat (ch_w ch) ∧ ks_h cs + 2 * b = Z.of_nat (ch_h ch) ∧
  g_cs g' = g_cs g ∧ g_ch g' = g_ch g ∧ v_y (g_min g') = v_y (g_min g) ∧ v_y (g_max g') = v_y (g_max g) ∧
  (b = 0 → g' = g) ∧
  (0 < b → v_x (g_min g') = f_add (v_x (g_min g)) pad ∧ v_z (g_min g') = f_add (v_z (g_min g)) pad ∧
           v_x (g_max g') = f_sub (v_x (g_max g)) pad ∧ v_z (g_max g') = f_sub (v_z (g_max g)) pad) ∧
  ∀ ct, ct ∈ ks_contours cs →
    (∀ p, p ∈ ct_raw ct → in_frame cs p.1) ∧ (∀ p, p ∈ ct_verts ct → in_frame cs p.1).
Proof.
  intros ch err len wall areas cs Hc Hl E b g g' pad. pose proof (ca_border _ Hc) as [Hb0 Hclear].
  destruct (build_frame _ _ _ _ _ _ E) as (Eg & Eb & Ee).
  destruct (decide (2 * ch_border ch ≤ Z.of_nat (ch_w ch) ∧ 2 * ch_border ch ≤ Z.of_nat (ch_h ch))) as [[H1 H2]|Hno];
    [|rewrite too_small in E; [done|done|lia]].
  pose proof (build_of ch err len wall areas Hc Hl H1 H2) as H. rewrite E in H. destruct H as (SS & _ & Hnd & HF & Hw & Hh).
  split; [done|]. split; [done|]. split; [unfold b; lia|]. split; [unfold b; lia|].
  assert (HG : g_cs g' = g_cs g ∧ g_ch g' = g_ch g ∧ v_y (g_min g') = v_y (g_min g) ∧ v_y (g_max g') = v_y (g_max g) ∧
    (b = 0 → g' = g) ∧
    (0 < b → v_x (g_min g') = f_add (v_x (g_min g)) pad ∧ v_z (g_min g') = f_add (v_z (g_min g)) pad ∧
           v_x (g_max g') = f_sub (v_x (g_max g)) pad ∧ v_z (g_max g') = f_sub (v_z (g_max g)) pad)).
  { unfold g', pad, g. rewrite Eg. unfold unborder_geo. fold b. destruct (Z.ltb_spec 0 b); (do 4 (split; [done|])); split; [lia|done|done|lia]. }
  destruct HG as (G1 & G2 & G3 & G4 & G5 & G6). do 6 (split; [done|]).
  intros ct Hct. apply elem_of_list_lookup in Hct as (k & Hk). eapply Forall2_lookup_l in HF as (sides & _ & Ho); [|exact Hk].
  destruct Ho as (Hin & Htr & _ & _ & (j0 & os & _ & _ & Hsub) & _).
  assert (Hraw : ∀ p, p ∈ ct_raw ct → in_frame cs p.1).
  { intros p Hp. apply elem_of_list_lookup in Hp as (m & Hm). eapply Forall2_lookup_r in Htr as (s & _ & Hs); [|exact Hm].
    destruct Hs as ((Hd & Hr & _) & (x & z & Hx & Hz & Hcell & Ex & Ez) & _).
    pose proof (Hclear _ _ Hr Hin) as Hne. cbn [fst snd] in Ex, Ez.
    assert (b ≤ Z.of_nat x ∧ Z.of_nat x + b < Z.of_nat (ch_w ch) ∧ b ≤ Z.of_nat z ∧ Z.of_nat z + b < Z.of_nat (ch_h ch)) as Hb.
    { destruct (decide (Z.of_nat x < b ∨ Z.of_nat (ch_w ch) ≤ Z.of_nat x + b ∨ Z.of_nat z < b ∨ Z.of_nat (ch_h ch) ≤ Z.of_nat z + b)) as [Hy|]; [|lia].
      exfalso. apply Hne. by exists x, z. }
    assert (0 ≤ nth s.2 [0; 1; 1; 0] 0 ≤ 1 ∧ 0 ≤ nth s.2 [1; 1; 0; 0] 0 ≤ 1) as Hoff.
    { destruct s.2 as [|[|[|[|]]]]; cbn; lia. }
    unfold in_frame, b in *. lia. }
  split; [done|]. intros p Hp. apply elem_of_list_lookup in Hp as (m & Hm).
  eapply Forall2_lookup_r in Hsub as (o & _ & Hat); [|rewrite list_lookup_fmap, Hm; done].
  destruct (at_loop (ct_raw ct) (j0 + o)) as [q|] eqn:Eq; [|done]. injection Hat as <-.
  apply Hraw. unfold at_loop in Eq. by eapply elem_of_list_lookup_2.
Qed.

(** ** Concrete fields *)
Lemma small_field ch : Z.of_nat (length (ch_spans ch)) ≤ 10000 → regions_small ch.
Proof.
  intros H r _. unfold region_size.
  pose proof (filter_length (λ i, region_of ch i = Some r) (seq 0 (length (ch_spans ch)))) as Hf. rewrite seq_length in Hf. lia.
Qed.
Lemma run_contourable ch ch' b ma ms :
  wf_chf_b ch = true → fits_u16 ch → symmetric_b ch = true → has_distances ch → 0 ≤ b →
  build_regions ch b ma ms = Done (Some ch') → Z.of_nat (length (ch_spans ch')) ≤ 10000 → contourable ch'.
Proof.
  intros Hwf Hf Hs HD Hb E Hn. eapply C31_after_build_regions; [by apply wf_chf_b_ok|done|by apply symmetric_b_ok|done|done|exact E|].
  by apply small_field.
Qed.

Lemma floor9_contourable : contourable (snd floor9_run).
Proof.
  apply (run_contourable (fst floor9_run) _ 2 8 20); [by vm_compute|split; by vm_compute|by vm_compute|split; by vm_compute|done|by vm_compute|by vm_compute].
Qed.
Lemma floor7_contourable : contourable (snd floor7_run).
Proof.
  apply (run_contourable (fst floor7_run) _ 0 8 20); [by vm_compute|split; by vm_compute|by vm_compute|split; by vm_compute|done|by vm_compute|by vm_compute].
Qed.

(** The 9 x 9 floor with a border of 2: the hypotheses hold, and the 5 x 5
    inner region has one contour of 20 raw vertices, of which the corners are
    kept: beyond it is the border region, so it is not split. *)
Definition sizes (o : outcome contour_set) : option (list (nat * nat)) :=
  match o with Done cs => Some ((λ ct, (length (ct_raw ct), length (ct_verts ct))) <$> ks_contours cs) | _ => None end.
Example C31_C34_hypotheses_met :
  contourable (snd floor9_run) ∧ 2 * ch_border (snd floor9_run) ≤ Z.of_nat (ch_w (snd floor9_run)) ∧
  sizes (build_contours (snd floor9_run) (f_of_Z 1) 3 true false) = Some [(20, 4)]%nat.
Proof. split; [apply floor9_contourable|]. split; by vm_compute. Qed.

(** The frame of the same set: 5 x 5 cells, moved in by two cells of size 1, and
    its simplified contour runs along the frame's edges. *)
Definition frame (o : outcome contour_set) : option (Z * Z * vec3 * list (list (Z * Z))) :=
  match o with
  | Done cs => Some (ks_w cs, ks_h cs, g_min (ks_geo cs), (λ ct, (λ v, (vx v.1, vz v.1)) <$> ct_verts ct) <$> ks_contours cs)
  | _ => None
  end.
Example C68_hypotheses_met :
  contourable (snd floor9_run) ∧ ch_border (snd floor9_run) = 2 ∧
  frame (build_contours (snd floor9_run) (f_of_Z 1) 3 true false) =
    Some (5, 5, V3 (f_of_Z 2) f_zero (f_of_Z 2), [[(0, 5); (5, 5); (5, 0); (0, 0)]]).
Proof. split; [apply floor9_contourable|]. split; (vm_compute; reflexivity). Qed.

(** The 7 x 7 floor around a hole: two boundaries; with a tolerance of 1 the
    boundary of the hole is simplified away. 255 is accepted and 256 is not. *)
Example C31_holes :
  contourable (snd floor7_run) ∧
  sizes (build_contours (snd floor7_run) (f_of_Z 0) 0 true false) = Some [(28, 4); (4, 4)]%nat ∧
  sizes (build_contours (snd floor7_run) (f_of_Z 1) 0 true false) = Some [(28, 4)]%nat.
Proof. split; [apply floor7_contourable|]. split; by vm_compute. Qed.
Theorem C34_max_edge_len_refuted : ∃ ch err, contourable ch ∧
  (∃ cs, build_contours ch err 255 true false = Done cs) ∧ build_contours ch err 256 true false = Panicked.
Proof.
  exists (snd floor7_run), (f_of_Z 1). split; [apply floor7_contourable|].
  assert (E : match build_contours (snd floor7_run) (f_of_Z 1) 255 true false with Done _ => true | _ => false end = true) by (by vm_compute).
  split; [|by vm_compute]. destruct (build_contours _ _ 255 _ _) as [cs| |]; [by exists cs|done|done].
Qed.
Example C34_narrow_field_met : ∃ ch, wf_chf ch ∧ symmetric ch ∧ 0 ≤ ch_border ch ∧ Z.of_nat (ch_w ch) < 2 * ch_border ch.
Proof.
  exists (mkChf 3 3 10 1 2 0 0 geo0 (ch_cells (flat 3 3 [])) (ch_spans (flat 3 3 [])) [] (repeat 255 9)).
  split; [apply wf_chf_b_ok; by vm_compute|]. split; [apply symmetric_b_ok; by vm_compute|]. split; by vm_compute.
Qed.

(** A 12 x 12 floor with nine single-cell holes is one region with ten
    boundaries, and building its contours panics. *)
Definition nine_holes : chf :=
  flat 12 12 ((λ c, if ((c mod 12) mod 4 =? 2)%nat && ((c / 12) mod 4 =? 2)%nat then 0 else 255) <$> seq 0 144).
Definition nine_holes_run : chf * chf := Eval vm_compute in run_of nine_holes 0 0 1000.
Theorem C33_any_number_refuted : ∃ ch ch0 b ma ms err, contourable ch ∧
  build_distance_field nine_holes = Done ch0 ∧ build_regions ch0 b ma ms = Done (Some ch) ∧ ch_maxreg ch = 2 ∧
  build_contours ch err 0 true false = Panicked.
Proof.
  exists (snd nine_holes_run), (fst nine_holes_run), 0, 0, 1000, (f_of_Z 0). split.
  - apply (run_contourable (fst nine_holes_run) _ 0 0 1000); [by vm_compute|split; by vm_compute|by vm_compute|split; by vm_compute|done|by vm_compute|by vm_compute].
  - split; [by vm_compute|]. split; [by vm_compute|]. split; by vm_compute.
Qed.

(** A change of the area border is not kept when no vertex has a region beyond:
    the 7 x 7 floor with an unwalkable notch in its side. *)
Definition notch : chf := flat 7 7 ((λ c, if (c =? 3)%nat then 0 else 255) <$> seq 0 49).
Definition notch_run : chf * chf := Eval vm_compute in run_of notch 0 0 1000.
Definition notch_contours : contour_set :=
  Eval vm_compute in match build_contours (snd notch_run) (f_of_Z 1) 0 true false with Done cs => cs | _ => CSet [] geo0 0 0 0 f_zero end.
Theorem C32_area_changes_refuted : ∃ ch err cs ct j p, contourable ch ∧
  build_contours ch err 0 true false = Done cs ∧ ct ∈ ks_contours cs ∧
  changes (ct_raw ct) j ∧ at_loop (ct_raw ct) j = Some p ∧ ¬ ∃ v, v ∈ ct_verts ct ∧ vpos v.1 = vpos p.1.
Proof.
  exists (snd notch_run), (f_of_Z 1), notch_contours.
  destruct (ks_contours notch_contours) as [|ct l] eqn:El; [by vm_compute in El|].
  exists ct, 23%nat, (V 4 0 0, 0). split.
  { apply (run_contourable (fst notch_run) _ 0 0 1000); [by vm_compute|split; by vm_compute|by vm_compute|split; by vm_compute|done|by vm_compute|by vm_compute]. }
  split; [by vm_compute|]. vm_compute in El. injection El as <- <-. split; [left|]. split.
  { eexists _, _. split; [by vm_compute|]. split; [by vm_compute|]. right. by vm_compute. }
  split; [by vm_compute|]. intros (v & Hv & E). cbn [ct_verts] in Hv.
  repeat (apply elem_of_cons in Hv as [->|Hv]; [by vm_compute in E|]). by apply elem_of_nil in Hv.
Qed.

(** Splitting a segment can put raw vertices further off than the tolerance:
    a rectangle with a bump and a dent of depth one in its long side. *)
Definition along (x0 x1 : nat) (z : Z) : list rawv := (λ k, (V (Z.of_nat k) 0 z, 0)) <$> seq x0 (x1 - x0).
Definition across (z0 z1 : nat) (x : Z) : list rawv := (λ k, (V x 0 (Z.of_nat k), 0)) <$> seq z0 (z1 - z0).
Definition bumpy : list rawv :=
  along 0 9 5 ++ along 8 13 6 ++ [(V 12 0 5, 0)] ++ along 12 17 4 ++ along 16 21 5 ++ across 6 15 20 ++
  rev (along 0 21 15) ++ rev (across 6 15 0).
Definition unit_apart_b (p q : Z * Z) : bool :=
  ((Z.abs (fst p - fst q) =? 1) && (snd p =? snd q)) || ((fst p =? fst q) && (Z.abs (snd p - snd q) =? 1)).
Definition lattice_loop_b (l : list rawv) : bool :=
  (0 <? length l)%nat && forallb (λ k, match l !! k, l !! ((k + 1) mod length l)%nat with
    | Some p, Some q => unit_apart_b (vpos p.1) (vpos q.1) | _, _ => true end) (seq 0 (length l)).
Lemma lattice_loop_b_ok l : lattice_loop_b l = true → lattice_loop l.
Proof.
  unfold lattice_loop_b. intros [H1 H2]%andb_prop. split; [by destruct l|]. intros k p q Hp Hq.
  pose proof (lookup_lt_Some l k p Hp) as Hk.
  apply (forallb_elem _ _ k) in H2; [|apply elem_of_seq; lia]. cbn beta in H2. rewrite Hp, Hq in H2.
  unfold unit_apart_b in H2. unfold unit_apart. apply orb_prop in H2 as [H2|H2]; apply andb_prop in H2 as [? ?]; [left|right]; lia.
Qed.
Global Instance vtx_eq_dec : EqDecision vtx.
Proof. solve_decision. Defined.
Theorem C32_tolerance_after_splitting_refuted : ∃ raw err len l j0 os, lattice_loop raw ∧ NoDup (fst <$> raw) ∧
  simplify_contour raw err len true false = Done l ∧ subloop raw j0 os (fst <$> l) ∧ ¬ within raw (f_mul err err) j0 os.
Proof.
  exists bumpy, (f_of_Z 1), 12.
  destruct (simplify_contour bumpy (f_of_Z 1) 12 true false) as [l| |] eqn:El; [|by vm_compute in El|by vm_compute in El].
  exists l, 0%nat, [0; 12; 24; 34; 44; 54]%nat. split; [apply lattice_loop_b_ok; by vm_compute|].
  split; [apply (bool_decide_unpack _); by vm_compute|]. split; [done|]. vm_compute in El. injection El as <-. split.
  - split; [|split].
    + intros a b x y Hab Ha Hb.
      do 6 (destruct a as [|a]; [do 6 (destruct b as [|b]; [cbn in Ha, Hb; (lia || (injection Ha as <-; injection Hb as <-; lia))|]); by cbn in Hb|]).
      by cbn in Ha.
    + intros x Hx. change (length bumpy) with 64%nat. repeat (apply elem_of_cons in Hx as [->|Hx]; [lia|]). by apply elem_of_nil in Hx.
    + repeat (constructor; [by vm_compute|]). constructor.
  - intros Hw. specialize (Hw 12%nat 24%nat 15%nat (V 11 0 6, 0) (V 20 0 5, 0) (V 12 0 4, 0)). cbn [fst snd] in Hw.
    assert (f_lt (f_mul (f_of_Z 1) (f_of_Z 1)) (deviation (V 12 0 4) (V 11 0 6) (V 20 0 5)) = true) as E by (by vm_compute).
    rewrite Hw in E; [done| |lia|by vm_compute|by vm_compute|by vm_compute|by left].
    exists 1%nat. split; [done|]. by left.
Qed.
Example C32_hypotheses_met : spread bumpy ∧ coords_i16 bumpy ∧
  (∃ p : rawv, p ∈ bumpy ∧ beyond_region p.2 = 0) ∧ ¬ no_splitting 12 true false.
Proof.
  split; [|split; [|split]].
  - apply (loop_spread floor7), lattice_loop_b_ok. by vm_compute.
  - intros p Hp. assert (E : forallb (λ p : rawv, (0 <=? vx p.1) && (vx p.1 <=? 32767) && (0 <=? vz p.1) && (vz p.1 <=? 32767)) bumpy = true) by (by vm_compute).
    apply (forallb_elem _ _ p) in E; [|done]. lia.
  - exists (V 0 0 5, 0). split; [apply elem_of_list_lookup; by exists 0%nat|done].
  - intros [?|[? _]]; done.
Qed.

(** Of three coinciding vertices in a row, two are left. *)
Theorem C32_degenerate_segments_refuted : ∃ l l' p q, remove_degenerate_segments l = Done l' ∧
  l' !! 0%nat = Some p ∧ l' !! 1%nat = Some q ∧ vpos p.1 = vpos q.1.
Proof.
  exists [(V 1 0 1, 0); (V 1 0 1, 0); (V 1 0 1, 0); (V 2 0 1, 0); (V 2 0 2, 0)], [(V 1 0 1, 0); (V 1 0 1, 0); (V 2 0 1, 0); (V 2 0 2, 0)].
  exists (V 1 0 1, 0), (V 1 0 1, 0). split; [by vm_compute|]. done.
Qed.

Print Assumptions C31_closed_loops.
Print Assumptions C31_after_build_regions.
Print Assumptions C32_terminates.
Print Assumptions C32_simplification.
Print Assumptions C32_contour_sets.
Print Assumptions C32_area_changes_refuted.
Print Assumptions C32_tolerance_after_splitting_refuted.
Print Assumptions C32_degenerate_segments_refuted.
Print Assumptions C33_at_most_max_region.
Print Assumptions C33_panics_only_if_full.
Print Assumptions C33_any_number_refuted.
Print Assumptions C34_narrow_field_panics.
Print Assumptions C34_long_edges_panic.
Print Assumptions C34_succeeds.
Print Assumptions C34_max_edge_len_refuted.
Print Assumptions C68_frame.
