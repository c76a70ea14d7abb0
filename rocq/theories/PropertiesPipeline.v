(** Whole builds: theorems C70 and later. *)
From Verif Require Import Base ModelMath ModelHeightfield ModelFilters ModelHistory ModelTriMesh ModelRasterize ModelCompact
  ModelDistance ModelRegions ModelContours ModelPoly ModelDetail ModelExport ModelConfig ModelPipeline
  SpecHeightfield SpecCompact SpecDistance SpecRegions SpecContours SpecPoly SpecDetail SpecPipeline
  HistoryProofs FilterProofs CompactProofs LinkProofs GraphProofs FlowProofs GivesProofs PipelineProofs PaintProofs
  PropertiesHeightfield PropertiesRasterize PropertiesTriMesh PropertiesCompact PropertiesDistance PropertiesRegions
  PropertiesContours PropertiesPoly PropertiesDetail PropertiesMesh PropertiesExport.
Local Open Scope Z_scope.

(** Voxel measures for which the build is defined: the agent's height and climb
    are [u16], it climbs less than its height, and its radius is less than 128. *)
Record measures (c : cfg) : Prop := {
  ms_wh : 0 ≤ cf_wh c ≤ 65535;
  ms_climb : 0 ≤ cf_climb c < cf_wh c;
  ms_radius : 0 ≤ cf_radius c ≤ 127;
  ms_border : 0 ≤ cf_border c;
  ms_edge : 0 ≤ cf_edge_len c;
  ms_nvp : 3 ≤ cf_nvp c
}.
(** Scenes of a moderate size: at most 32767 cells a side, 62 walkable spans per
    column and 2^32 in all, and regions of at most 10000 spans. *)
Record moderate (r : run) : Prop := {
  md_w : Z.of_nat (hf_w (r_empty r)) ≤ 32767;
  md_h : Z.of_nat (hf_h (r_empty r)) ≤ 32767;
  md_layers : ∀ O, field_opens (r_field r) O → Forall (λ o, length o ≤ 62)%nat O ∧ Z.of_nat (length (concat O)) < 2 ^ 32;
  md_regions : regions_small (r_regions r)
}.

(** ** The stages of a build *)
Lemma or_err_done {A B} (m : outcome (option A)) e (k : A → outcome (bresult B)) b :
  or_err m e k = Done (BOk b) → ∃ a, m = Done (Some a) ∧ k a = Done (BOk b).
Proof. unfold or_err. intros ([a|] & E & H)%obind_done; [by exists a|done]. Qed.

Lemma build_done cosf f1 f2 c affs r : build_navmesh cosf f1 f2 c affs = Done (BOk r) →
  ∃ m lo hi, gather affs = Done m ∧ aabb_of (tm_verts m) = Some (lo, hi) ∧
    mark_walkable m (cosf (cf_slope c)) = Done (r_tris r) ∧
    build_heightfield (Geo lo hi (cf_cs c) (cf_ch c)) = Done (Some (r_empty r)) ∧
    rasterize_triangles (r_empty r) (r_tris r) (cf_climb c) = Done (Some (r_solid r)) ∧
    run_filters (cf_wh c) (cf_climb c) (r_solid r) = Done (r_field r) ∧
    into_compact (r_field r) (cf_wh c) (cf_climb c) = Done (Some (r_open r)) ∧
    erode_walkable_area (r_open r) (cf_radius c) = Done (r_eroded r) ∧
    build_distance_field (r_eroded r) = Done (r_dist r) ∧
    build_regions (r_dist r) (cf_border c) (cf_min_area c) (cf_merge_area c) = Done (Some (r_regions r)) ∧
    build_contours (r_regions r) (cf_edge_err c) (cf_edge_len c) (cf_wall c) (cf_areas c) = Done (r_contours r) ∧
    into_polygon_mesh f1 (Z.to_nat (cf_nvp c)) (r_contours r) = Done (Ok (r_mesh r)) ∧
    detail_new f2 (r_mesh r) (r_regions r) (cf_sample_dist c) (cf_sample_err c) = Done (r_detail r).
Proof.
  unfold build_navmesh. intros (m & Em & H)%obind_done. destruct (aabb_of _) as [[lo hi]|] eqn:Ea; [|done].
  apply obind_done in H as (m' & Em' & H). apply or_err_done in H as (hf0 & E0 & H). apply or_err_done in H as (hf1 & E1 & H).
  apply obind_done in H as (hf2 & E2 & H). apply or_err_done in H as (ch0 & E3 & H). apply obind_done in H as (ch1 & E4 & H).
  apply obind_done in H as (ch2 & E5 & H). apply or_err_done in H as (ch3 & E6 & H). apply obind_done in H as (ks & E7 & H).
  apply obind_done in H as (p & E8 & H). destruct p as [pm|e]; [|done]. apply obind_done in H as (dm & E9 & H).
  injection H as <-. exists m, lo, hi. done.
Qed.

(** The areas of gathered and marked triangles. *)
Lemma mapM_o_length {A B} (f : A → outcome B) l l' : mapM_o f l = Done l' → length l' = length l.
Proof.
  revert l'. induction l as [|a l IH]; intros l'; cbn [mapM_o]; [by intros [= <-]|].
  intros (b & _ & (bs & E & [= <-])%obind_done)%obind_done. cbn. by rewrite (IH _ E).
Qed.
Lemma trimesh_areas b t : trimesh_of b = Some t → Forall (λ a, a = 0) (tm_areas t).
Proof.
  intros H. apply C52_from_mesh in H as (_ & _ & l & _ & _ & _ & -> & _). apply Forall_forall.
  by intros a Ha%elem_of_list_In%repeat_spec.
Qed.
Lemma gather_areas affs m : gather affs = Done m → Forall (λ a, a = 0) (tm_areas m).
Proof.
  unfold gather. revert m. apply gives_keep; [constructor|]. intros [o tr] s _ Hs m. unfold add_affector. cbn [fst snd].
  destruct (o ≫= trimesh_of) as [t|] eqn:E; [|by intros [= <-]].
  apply bind_Some in E as (b & _ & Ht). unfold extend. destruct (_ <? _); [done|].
  intros (idx & _ & [= <-])%obind_done. cbn. apply Forall_app_2; [done|]. by eapply trimesh_areas.
Qed.
Lemma mark_areas m thr m' : mark_walkable m thr = Done m' → Forall (λ a, a = 0) (tm_areas m) → Forall (λ a, a = 0 ∨ a = 255) (tm_areas m').
Proof.
  unfold mark_walkable. intros (areas & E & [= <-])%obind_done H0. cbn. revert E. set (f := λ '(i, t) areas, _).
  assert (H : gives (foldM f (imap (λ i t, (i, t)) (tm_idx m)) (tm_areas m)) (Forall (λ a, a = 0 ∨ a = 255))).
  { apply gives_keep; [eapply Forall_impl; [exact H0|auto]|]. intros [i t] s _ Hs. unfold f.
    eapply (gives_bind _ _ (λ _, True)); [done|]. intros n _. destruct (f_lt _ _); [|by apply gives_done].
    apply gives_put_end. intros _. apply Forall_insert; [done|by right]. }
  apply H.
Qed.

Lemma u128_u16 x : f_to_u16 x < 65535 → f_to_u128 x = f_to_u16 x.
Proof.
  unfold f_to_u16, f_to_u128, f_cast. destruct x as [s|s| |s m e]; try done.
  - destruct s; [done|lia].
  - unfold sat. intros H. lia.
Qed.

Lemma field_of g hf : build_heightfield g = Done (Some hf) → Z.of_nat (hf_w hf) < 65535 → Z.of_nat (hf_h hf) < 65535 → reachable hf ∧ hf_geo hf = g.
Proof.
  intros E Hw Hh. pose proof E as E'. unfold build_heightfield in E'. apply obind_done in E' as (n & En & E').
  destruct (_ <? n) in E'; [done|]. injection E' as E'.
  set (wd := cell_count (v_x (g_min g)) (v_x (g_max g)) (g_cs g)) in *. set (ht := cell_count (v_z (g_min g)) (v_z (g_max g)) (g_cs g)) in *.
  assert (∀ x, 0 ≤ f_to_u16 x) as Hp.
  { intros x. unfold f_to_u16, f_cast, sat. destruct x as [s|[]| |]; lia. }
  assert (f_to_u16 wd < 65535) as H1. { rewrite <-E' in Hw. cbn in Hw. pose proof (Hp wd). lia. }
  assert (f_to_u16 ht < 65535) as H2. { rewrite <-E' in Hh. cbn in Hh. pose proof (Hp ht). lia. }
  destruct (C46_dimensions g (f_to_u128 wd) (f_to_u128 ht)) as (hf' & Eh & Hr & _ & _ & Hg & _);
    [done|done|rewrite u128_u16 by done; lia|rewrite u128_u16 by done; lia|].
  assert (hf' = hf) as -> by congruence. done.
Qed.

Lemma filters_reach hf wh climb hf' : reachable hf → 0 ≤ wh ≤ 65535 → 0 ≤ climb ≤ 65535 → run_filters wh climb hf = Done hf' →
  reachable hf' ∧ hf_w hf' = hf_w hf ∧ hf_h hf' = hf_h hf ∧ hf_geo hf' = hf_geo hf.
Proof.
  intros Hr Hwh Hc E. unfold run_filters in E. apply obind_done in E as (h1 & E1 & (h2 & E2 & E3)%obind_done).
  assert (∀ op h h', valid_op op → reachable h → run_op op h = Done h' → reachable h' ∧ hf_w h' = hf_w h ∧ hf_h h' = hf_h h ∧ hf_geo h' = hf_geo h) as Hop.
  { intros op h h' Hv Rh E. destruct (reachable_ok h Rh) as [cols Hok]. pose proof (run_op_ok op h cols Hv Hok) as H.
    rewrite E in H. destruct H as ((A & B & C & _) & _). split; [by eapply reachable_step|]. done. }
  destruct (Hop (OpLowHanging climb) hf h1) as (R1 & A1 & B1 & C1); [done|done|done|].
  destruct (Hop (OpLedge wh climb) h1 h2) as (R2 & A2 & B2 & C2); [done|done|done|].
  destruct (Hop (OpLowHeight wh) h2 hf') as (R3 & A3 & B3 & C3); [done|done|done|].
  split; [done|]. split; [congruence|]. split; congruence.
Qed.

(** What is known of the intermediate results. *)
Record staged (c : cfg) (r : run) (O : list (list ospan)) : Prop := {
  sg_solid : reachable (r_solid r);
  sg_field : reachable (r_field r);
  sg_w : hf_w (r_field r) = hf_w (r_solid r) ∧ hf_w (r_solid r) = hf_w (r_empty r);
  sg_h : hf_h (r_field r) = hf_h (r_solid r) ∧ hf_h (r_solid r) = hf_h (r_empty r);
  sg_opens : field_opens (r_field r) O;
  sg_ow : ch_w (r_open r) = hf_w (r_field r);
  sg_oh : ch_h (r_open r) = hf_h (r_field r);
  sg_lists : lists_opens (r_open r) O;
  sg_connects : connects (r_open r) (cf_wh c) (cf_climb c) O;
  sg_wf : wf_chf (r_open r);
  sg_sym : symmetric (r_open r);
  sg_fits : fits_u16 (r_open r);
  sg_eroded : same_but_areas (r_open r) (r_eroded r);
  sg_eroded_wf : wf_chf (r_eroded r);
  sg_erosion : ∀ i a, ch_areas (r_eroded r) !! i = Some a → a ≠ 0 →
    ¬ PropertiesDistance.within (r_open r) (cf_radius c) i ∧ ch_areas (r_open r) !! i = Some a;
  sg_dist : same_but_distances (r_eroded r) (r_dist r);
  sg_dist_wf : wf_chf (r_dist r);
  sg_has : has_distances (r_dist r);
  sg_regions : same_but_regions (r_dist r) (r_regions r);
  sg_border : ch_border (r_regions r) = cf_border c;
  sg_contourable : contourable (r_regions r)
}.

Lemma stages_staged thr affs m g c r : measures c → moderate r →
  gather affs = Done m → mark_walkable m thr = Done (r_tris r) →
  build_heightfield g = Done (Some (r_empty r)) →
  rasterize_triangles (r_empty r) (r_tris r) (cf_climb c) = Done (Some (r_solid r)) →
  run_filters (cf_wh c) (cf_climb c) (r_solid r) = Done (r_field r) →
  into_compact (r_field r) (cf_wh c) (cf_climb c) = Done (Some (r_open r)) →
  erode_walkable_area (r_open r) (cf_radius c) = Done (r_eroded r) →
  build_distance_field (r_eroded r) = Done (r_dist r) →
  build_regions (r_dist r) (cf_border c) (cf_min_area c) (cf_merge_area c) = Done (Some (r_regions r)) →
  ∃ O, staged c r O.
Proof.
  intros [Mw Mc Mr Mb Me Mn] [Dw Dh Dl Dr] Eg Em E0 E1 E2 E3 E4 E5 E6.
  destruct (field_of _ _ E0) as [R0 _]; [lia|lia|].
  pose proof (mark_areas _ _ _ Em (gather_areas _ _ Eg)) as Har.
  assert (by_insertions (r_empty r) (r_solid r)) as Hby.
  { pose proof (C55_rasterize_triangles (r_empty r) (r_tris r) (cf_climb c) R0 ltac:(lia) ltac:(lia)) as H. rewrite E1 in H.
    destruct H as (hf' & [= <-] & H); [|lia|done]. eapply Forall_impl; [exact Har|]. intros a [->| ->]; lia. }
  destruct (by_insertions_shape _ _ R0 Hby) as (R1 & W1 & H1 & _).
  destruct (filters_reach _ (cf_wh c) (cf_climb c) _ R1 Mw ltac:(lia) E2) as (R2 & W2 & H2 & _).
  destruct (reachable_ok _ R2) as [cols Hok]. set (O := opens_of cols).
  assert (field_opens (r_field r) O) as HO by (by apply (field_opens_rep _ cols)).
  destruct (Dl O HO) as [Hlay Htot].
  assert (countable O) as Hcount. { split; [|done]. eapply Forall_impl; [exact Hlay|]. intros o Ho. cbn in *. lia. }
  pose proof (runs_eq _ _ _ (C12_lists_walkable_spans _ O (cf_wh c) (cf_climb c) R2 HO Hcount) E3 _ eq_refl)
    as (Ow & Oh & _ & _ & _ & _ & _ & HL & _).
  pose proof (proj1 (runs_eq _ _ _ (C13_connections_exact _ O (cf_wh c) (cf_climb c) R2 HO Hcount) E3 _ eq_refl)) as HC.
  pose proof (runs_eq _ _ _ (C14_symmetric _ O (cf_wh c) (cf_climb c) R2 HO Htot Hlay ltac:(lia)) E3 _ eq_refl) as HS.
  pose proof (runs_eq _ _ _ (C17_compaction_well_formed _ O (cf_wh c) (cf_climb c) R2 HO Hcount) E3 _ eq_refl) as Hwf.
  assert (fits_u16 (r_open r)) as Hf. { split; [rewrite Ow|rewrite Oh]; lia. }
  pose proof (runs_eq _ _ _ (C19_only_removes _ (cf_radius c) Hwf Hf ltac:(lia)) E4) as (SA & Hwf1 & _).
  pose proof (runs_eq _ _ _ (C18_erosion_exact _ (cf_radius c) Hwf Hf ltac:(lia)) E4) as HE.
  pose proof SA as (A1 & A2 & _ & _ & _ & _ & _ & _ & A9 & A10 & _ & A12).
  assert (fits_u16 (r_eroded r)) as Hf1. { split; [rewrite A1|rewrite A2]; apply Hf. }
  assert (ch_spans (r_eroded r) ≠ []) as Hne.
  { intros He. rewrite (C23_empty_field_panics _ Hwf1 Hf1 He) in E5. done. }
  assert (Z.of_nat (Nat.min (ch_w (r_eroded r)) (ch_h (r_eroded r))) ≤ 32767) as Hmin. { rewrite A1, Ow. lia. }
  pose proof (runs_eq _ _ _ (C21_distance_field_exact _ Hwf1 Hf1 Hmin Hne) E5) as (SD & Hwf2 & D & HD1 & HD2 & HD3 & HD4 & _).
  pose proof (runs_eq _ _ _ (C22_bounds _ Hwf1 Hf1 Hmin Hne) E5) as (_ & Hb22).
  pose proof SD as (B1 & B2 & _ & _ & _ & _ & _ & B8 & B9 & B10).
  assert (has_distances (r_dist r)) as HD.
  { split; [by rewrite B9|]. destruct (ch_dist (r_dist r)) as [|v l] eqn:Ed.
    - cbn in HD4. destruct (ch_spans (r_eroded r)); done.
    - specialize (Hb22 0%nat v eq_refl) as [? _]. lia. }
  assert (fits_u16 (r_dist r)) as Hf2. { split; [rewrite B1|rewrite B2]; apply Hf1. }
  pose proof (C25_nothing_else_changes _ _ _ _ _ Hwf2 Hf2 HD E6) as [SR Hbd].
  assert (symmetric (r_dist r)) as HS2.
  { intros cc k d c' k' Hd. unfold linked, span_in. rewrite B1, B2, B8, B9, A1, A2, A9, A10. by apply HS. }
  exists O. split; try done.
  - intros i a Ha Ha0. destruct (lookup_lt_is_Some_2 (ch_areas (r_open r)) i) as [a' Ha'].
    { rewrite <-A12. by eapply lookup_lt_Some. }
    destruct (HE _ _ Ha') as [[_ H]|[H H']]; [congruence|]. split; [done|congruence].
  - apply (C31_after_build_regions _ _ _ _ _ Hwf2 Hf2 HS2 HD Mb E6 Dr).
Qed.
Lemma build_staged cosf f1 f2 c affs r : measures c → build_navmesh cosf f1 f2 c affs = Done (BOk r) → moderate r →
  ∃ O, staged c r O.
Proof.
  intros M E D. apply build_done in E as (m & lo & hi & Eg & Ea & Em & E0 & E1 & E2 & E3 & E4 & E5 & E6 & _).
  by eapply stages_staged.
Qed.

Section staged.
  Context (c : cfg) (r : run) (O : list (list ospan)).
  Hypothesis M : measures c.
  Hypothesis S : staged c r O.

  Lemma regions_cells : ch_cells (r_regions r) = ch_cells (r_open r) ∧ ch_w (r_regions r) = hf_w (r_field r) ∧
    ch_h (r_regions r) = hf_h (r_field r) ∧ ch_areas (r_regions r) = ch_areas (r_eroded r) ∧
    length (ch_spans (r_regions r)) = length (ch_spans (r_open r)).
  Proof.
    pose proof (sg_eroded _ _ _ S) as (A1 & A2 & _ & _ & _ & _ & _ & _ & A9 & A10 & _).
    pose proof (sg_dist _ _ _ S) as (B1 & B2 & _ & _ & _ & _ & _ & B8 & B9 & B10).
    pose proof (sg_regions _ _ _ S) as (C1 & C2 & _ & _ & _ & _ & C7 & _ & C9 & C10 & _).
    rewrite <-(sg_ow _ _ _ S), <-(sg_oh _ _ _ S). split; [congruence|]. split; [congruence|]. split; [congruence|]. split; congruence.
  Qed.
  Lemma regions_span i s' : ch_spans (r_regions r) !! i = Some s' →
    ∃ s, ch_spans (r_open r) !! i = Some s ∧ cs_y s' = cs_y s ∧ cs_data s' = cs_data s.
  Proof.
    intros H'. pose proof (sg_eroded _ _ _ S) as (_ & _ & _ & _ & _ & _ & _ & _ & _ & A10 & _).
    pose proof (sg_dist _ _ _ S) as (_ & _ & _ & _ & _ & _ & _ & _ & B9 & _).
    pose proof (sg_regions _ _ _ S) as (_ & _ & _ & _ & _ & _ & _ & _ & _ & C10 & C11).
    destruct (lookup_lt_is_Some_2 (ch_spans (r_dist r)) i) as [s Hs]. { rewrite <-C10. by eapply lookup_lt_Some. }
    destruct (C11 _ _ Hs) as (g & Hg). rewrite Hg in H'. injection H' as <-. exists s. split; [congruence|done].
  Qed.
  Lemma regions_step i d j : step (r_regions r) i d j → step (r_open r) i d j.
  Proof.
    destruct regions_cells as (Ec & Ew & Eh & _).
    intros (c1 & k & c2 & k' & l1 & l2 & (s & (l & H1 & H2 & H3) & H4 & H5) & H6 & H7 & H8). rewrite Ec in *.
    destruct (regions_span _ _ H3) as (s0 & Hs0 & _ & Ed). exists c1, k, c2, k', l1, l2. split; [|done].
    exists s0. split; [by exists l|]. rewrite (sg_ow _ _ _ S), (sg_oh _ _ _ S), <-Ew, <-Eh. split; [|done].
    unfold connection in *. by rewrite <-Ed.
  Qed.
  Lemma regions_floor i : floor_of (r_regions r) i = cs_y <$> ch_spans (r_open r) !! i.
  Proof.
    unfold floor_of. destruct (ch_spans (r_regions r) !! i) as [s|] eqn:E.
    - destruct (regions_span _ _ E) as (s0 & -> & Ey & _). cbn. by rewrite Ey.
    - apply lookup_ge_None in E. destruct regions_cells as (_ & _ & _ & _ & El). rewrite lookup_ge_None_2 by lia. done.
  Qed.

  Notation sof := (spot_of (r_field r) O).
  Lemma staged_move i d j p : (d < 4)%nat → sof i p → step (r_regions r) i d j →
    ∃ q, sof j q ∧ move (r_field r) (cf_wh c) (cf_climb c) d p q.
  Proof.
    intros Hd Hp Hs. eapply (spot_move (r_field r) (r_open r) O (cf_wh c) (cf_climb c)); try apply S; try done. by apply regions_step.
  Qed.
  Lemma staged_goes i d o p : (d < 4)%nat → sof i p → goes (r_regions r) (Some i) d o → ∀ j, o = Some j →
    ∃ q, sof j q ∧ move (r_field r) (cf_wh c) (cf_climb c) d p q.
  Proof. intros Hd Hp Hg j ->. by eapply staged_move. Qed.
  Lemma staged_floor i p : sof i p → floor_of (r_regions r) i = Some (sp_floor p).
  Proof.
    intros H. rewrite regions_floor. eapply (spot_floor (r_field r) (r_open r) O); try apply S; done.
  Qed.

  Lemma goes_none ch d o : goes ch None d o → o = None.
  Proof. destruct o; done. Qed.

  (** The height of a corner: one of the floors around, at most two climbs above
      the span it belongs to. *)
  Lemma corner_height i d y p : (d < 4)%nat → sof i p → corner_top (r_regions r) i d y →
    sp_floor p ≤ y ≤ sp_floor p + 2 * cf_climb c ∧ ∃ j q, sof j q ∧ sp_floor q = y.
  Proof.
    intros Hd Hp (a & b & c1 & c2 & (Ga & Gb & G1 & G2) & (o & j & Ho & -> & Hj) & Hmax).
    set (d' := ((d + 1) mod 4)%nat) in *. assert (d' < 4)%nat as Hd' by (apply Nat.mod_upper_bound; lia).
    pose proof (ms_climb _ M) as Mc. split.
    - split; [apply (Hmax i); [left|by apply staged_floor]|].
      assert (∀ k q, sof k q → floor_of (r_regions r) k = Some (sp_floor q)) as Hfl by apply staged_floor.
      assert (∀ d1 d2 o1, (d1 < 4)%nat → (d2 < 4)%nat → goes (r_regions r) (Some i) d1 o1 → goes (r_regions r) o1 d2 (Some j) → y ≤ sp_floor p + 2 * cf_climb c) as Htwo.
      { intros d1 d2 o1 H1 H2 Go1 Go2. destruct o1 as [k|]; [|done].
        destruct (staged_move i d1 k p H1 Hp Go1) as (q & Hq & _ & _ & _ & _ & Hq2).
        destruct (staged_move k d2 j q H2 Hq Go2) as (q' & Hq' & _ & _ & _ & _ & Hq2'). rewrite (Hfl _ _ Hq') in Hj. injection Hj as <-. lia. }
      assert (∀ d1, (d1 < 4)%nat → goes (r_regions r) (Some i) d1 (Some j) → y ≤ sp_floor p + 2 * cf_climb c) as Hone.
      { intros d1 H1 Go1. destruct (staged_move i d1 j p H1 Hp Go1) as (q & Hq & _ & _ & _ & _ & Hq2).
        rewrite (Hfl _ _ Hq) in Hj. injection Hj as <-. lia. }
      repeat (apply elem_of_cons in Ho as [Ho|Ho]); [..|by apply elem_of_nil in Ho].
      + injection Ho as ->. rewrite (Hfl _ _ Hp) in Hj. injection Hj as <-. lia.
      + subst a. by apply (Hone d).
      + subst b. by apply (Hone d').
      + subst c1. by apply (Htwo d d' a).
      + subst c2. by apply (Htwo d' d b).
    - assert (∀ d1 d2 o1, (d1 < 4)%nat → (d2 < 4)%nat → goes (r_regions r) (Some i) d1 o1 → goes (r_regions r) o1 d2 (Some j) → ∃ q, sof j q) as Htwo.
      { intros d1 d2 o1 H1 H2 Go1 Go2. destruct o1 as [k|]; [|done].
        destruct (staged_move i d1 k p H1 Hp Go1) as (q & Hq & _).
        destruct (staged_move k d2 j q H2 Hq Go2) as (q' & Hq' & _). by exists q'. }
      assert (∀ d1, (d1 < 4)%nat → goes (r_regions r) (Some i) d1 (Some j) → ∃ q, sof j q) as Hone.
      { intros d1 H1 Go1. destruct (staged_move i d1 j p H1 Hp Go1) as (q & Hq & _). by exists q. }
      assert (∃ q, sof j q) as [q Hq].
      { repeat (apply elem_of_cons in Ho as [Ho|Ho]); [..|by apply elem_of_nil in Ho].
        + injection Ho as ->. by exists p.
        + subst a. by apply (Hone d).
        + subst b. by apply (Hone d').
        + subst c1. by apply (Htwo d d' a).
        + subst c2. by apply (Htwo d' d b). }
      exists j, q. split; [done|]. rewrite (staged_floor _ _ Hq) in Hj. by injection Hj.
  Qed.

  (** A span that erosion left. *)
  Lemma staged_stands G i a p : field_geometry (r_solid r) G → run_filters (cf_wh c) (cf_climb c) (r_solid r) = Done (r_field r) →
    sof i p → ch_areas (r_eroded r) !! i = Some a → a ≠ 0 →
    stands (r_field r) G (cf_wh c) (cf_climb c) (cf_radius c) p.
  Proof.
    intros HG EF Hp Ha Ha0. pose proof (ms_climb _ M) as Mc. pose proof (ms_wh _ M) as Mw. pose proof (ms_radius _ M) as Mr.
    pose proof (spot_of_in _ _ _ _ Hp) as Hin. pose proof Hin as (Hx & Hz & l & k & cell & Hcol & Hk & Hwk & Ef & Et).
    destruct (sg_w _ _ _ S) as [W _]. destruct (sg_h _ _ _ S) as [H _].
    pose proof (runs_eq _ _ _ (C10_pipeline _ (cf_wh c) (cf_climb c) G (sg_solid _ _ _ S) Mw ltac:(lia) HG) EF) as H10.
    destruct (H10 (sp_x p) (sp_z p) l) as [_ Hst]; [by rewrite <-W|by rewrite <-H|by rewrite <-W|].
    destruct (Hst _ _ Hk Hwk) as [Hclear Hledge]. split; [done|]. rewrite Et, Ef, W, H. split; [done|]. split; [done|].
    intros d Hd. destruct (sg_erosion _ _ _ S _ _ Ha Ha0) as [Hfar _].
    eapply (room (r_field r) (r_open r) O (cf_wh c) (cf_climb c)); try apply S; try done; [by constructor|].
    cbn [Nat.add]. intros w Hw. rewrite Z2Nat.id by lia. destruct (Z.le_gt_cases (2 * cf_radius c) w) as [|Hlt]; [done|].
    destruct Hfar. by exists w.
  Qed.
End staged.

(** ** C70 *)
(** Vertex [v] of a mesh with border [b] is a corner of the cell of [p], which
    is not in the border, and at the height of a floor next to that corner. *)
Definition corner_of (hf : hfield) (b climb : Z) (v : vtx) (p : spot) : Prop :=
  let x := Z.of_nat (sp_x p) in let z := Z.of_nat (sp_z p) in
  x ≤ vx v + b ≤ x + 1 ∧ z ≤ vz v + b ≤ z + 1 ∧
  b ≤ x < Z.of_nat (hf_w hf) - b ∧ b ≤ z < Z.of_nat (hf_h hf) - b ∧
  sp_floor p ≤ vy v ≤ sp_floor p + 2 * climb ∧
  ∃ q, spot_in hf q ∧ sp_floor q = vy v.

Lemma raw_corner c r O G ct p : measures c → staged c r O → field_geometry (r_solid r) G →
  run_filters (cf_wh c) (cf_climb c) (r_solid r) = Done (r_field r) →
  build_regions (r_dist r) (cf_border c) (cf_min_area c) (cf_merge_area c) = Done (Some (r_regions r)) →
  build_contours (r_regions r) (cf_edge_err c) (cf_edge_len c) (cf_wall c) (cf_areas c) = Done (r_contours r) →
  ct ∈ ks_contours (r_contours r) → p ∈ ct_raw ct →
  ∃ s, stands (r_field r) G (cf_wh c) (cf_climb c) (cf_radius c) s ∧ corner_of (r_field r) (cf_border c) (cf_climb c) p.1 s.
Proof.
  intros M S HG EF ER EC Hct Hp. destruct (regions_cells c r O S) as (Ec & Ew & Eh & Ea & _).
  destruct (C31_closed_loops _ _ _ _ _ _ (sg_contourable _ _ _ S) (ms_edge _ M) EC) as (SS & _ & HF).
  apply elem_of_list_lookup in Hct as (k & Hk). eapply Forall2_lookup_l in HF as (sides & _ & Hin & Htr & _); [|exact Hk].
  apply elem_of_list_lookup in Hp as (n & Hn). unfold traces in Htr. eapply Forall2_lookup_r in Htr as ([i d] & _ & H); [|exact Hn].
  cbn [fst snd] in H. destruct H as ((Hd & Hreg & _) & (x & z & Hx & Hz & Hcell & Ex & Ez) & _ & Htop & _). cbn [fst snd] in Ex, Ez.
  rewrite Ew, Eh in *.
  assert (Hcell' : in_cell (r_open r) (x + z * hf_w (r_field r)) i). { destruct Hcell as (cell & H1 & H2). exists cell. by rewrite <-Ec. }
  destruct (spot_cell (r_field r) (r_open r) O) with (x := x) (z := z) (i := i) as (s & Sx & Sz & Hs); try apply S; try done.
  exists s. split.
  - pose proof (sg_dist _ _ _ S) as (B1 & B2 & _ & _ & _ & _ & _ & B8 & B9 & B10).
    pose proof (sg_eroded _ _ _ S) as (A1 & A2 & _).
    assert (fits_u16 (r_dist r)) as Hf. { split; [rewrite B1, A1|rewrite B2, A2]; apply (sg_fits _ _ _ S). }
    destruct (C25_regions_are_walkable _ _ _ _ _ (sg_dist_wf _ _ _ S) Hf (sg_has _ _ _ S) ER i _ Hreg (proj1 Hin)) as (a & Ha & Ha0).
    rewrite B10 in Ha. by eapply staged_stands.
  - destruct (corner_height c r O M S i d _ s Hd Hs Htop) as (Hy & j & q & Hq & Eq).
    destruct (ca_border _ (sg_contourable _ _ _ S)) as [_ Hclear]. rewrite (sg_border _ _ _ S) in *.
    assert (¬ near_edge (r_regions r) (cf_border c) i) as Hne by (by apply (Hclear i (ct_reg ct))).
    assert (cf_border c ≤ Z.of_nat x ∧ Z.of_nat x < Z.of_nat (hf_w (r_field r)) - cf_border c ∧
            cf_border c ≤ Z.of_nat z ∧ Z.of_nat z < Z.of_nat (hf_h (r_field r)) - cf_border c) as (? & ? & ? & ?).
    { destruct (decide (Z.of_nat x < cf_border c ∨ Z.of_nat (hf_w (r_field r)) ≤ Z.of_nat x + cf_border c ∨
        Z.of_nat z < cf_border c ∨ Z.of_nat (hf_h (r_field r)) ≤ Z.of_nat z + cf_border c)) as [Hb|Hb]; [|lia].
      destruct Hne. exists x, z. by rewrite Ew, Eh. }
    unfold corner_of. rewrite Sx, Sz.
    assert (0 ≤ nth d [0; 1; 1; 0] 0 ≤ 1 ∧ 0 ≤ nth d [1; 1; 0; 0] 0 ≤ 1) as [? ?] by (destruct d as [|[|[|[|d]]]]; cbn; lia).
    split; [lia|]. split; [lia|]. split; [lia|]. split; [lia|]. split; [done|]. exists q. split; [by eapply spot_of_in|done].
Qed.

Theorem C70_vertices_are_standable :
  ∀ cosf f1 f2 c affs r, measures c → build_navmesh cosf f1 f2 c affs = Done (BOk r) → moderate r →
  ∃ G, field_geometry (r_solid r) G ∧
    ∀ v, v ∈ pm_verts (r_mesh r) →
    ∃ p, stands (r_field r) G (cf_wh c) (cf_climb c) (cf_radius c) p ∧
      corner_of (r_field r) (cf_border c) (cf_climb c) v p.
Proof.
  intros cosf f1 f2 c affs r M E D. destruct (build_staged _ _ _ _ _ _ M E D) as [O S].
  apply build_done in E as (m & lo & hi & _ & _ & _ & _ & _ & E2 & _ & _ & _ & E6 & E7 & E8 & _).
  destruct (reachable_ok _ (sg_solid _ _ _ S)) as [cols Hok]. exists (geom <$> cols).
  assert (field_geometry (r_solid r) (geom <$> cols)) as HG by (by apply (field_geometry_rep _ cols)). split; [done|].
  intros v Hv. destruct (C64_mesh_shape f1 (Z.to_nat (cf_nvp c)) (r_contours r) (r_mesh r)) as (_ & _ & _ & _ & _ & Hverts & _);
    [pose proof (ms_nvp _ M); lia|done|].
  rewrite Forall_forall in Hverts. destruct (Hverts v Hv) as (ct & f & Hct & Hvf). apply elem_of_list_filter in Hct as [_ Hct].
  destruct (C32_contour_sets _ _ _ _ _ _ _ (sg_contourable _ _ _ S) (ms_edge _ M) E7 Hct) as (_ & (j0 & os & _ & _ & Hsub) & _).
  apply elem_of_list_lookup in Hvf as (k & Hk). 
  eapply Forall2_lookup_r in Hsub as (o & _ & Ho); [|rewrite list_lookup_fmap, Hk; reflexivity].
  unfold at_loop in Ho. apply fmap_Some in Ho as (p & Hp & Ep). cbn in Ep. subst v. apply elem_of_list_lookup_2 in Hp.
  by eapply raw_corner.
Qed.

(** ** C71 *)
(** Triangle [t] faces up: its unit normal, as computed, has a y above [thr]. *)
Definition faces_up (vs : list vec3) (thr : f32) (t : Z * Z * Z) : Prop :=
  ∃ a b c, vs !! Z.to_nat t.1.1 = Some a ∧ vs !! Z.to_nat t.1.2 = Some b ∧ vs !! Z.to_nat t.2 = Some c ∧
    f_lt thr (v_y (v_normalize_or_zero (v_cross (v_sub b a) (v_sub c a)))) = true.

Lemma mark_faces m thr m' : mark_walkable m thr = Done m' → Forall (λ a, a = 0) (tm_areas m) →
  Forall (λ a, a = 0 ∨ (a = 255 ∧ ∃ t, t ∈ tm_idx m' ∧ faces_up (tm_verts m') thr t)) (tm_areas m').
Proof.
  unfold mark_walkable. intros (areas & E & [= <-])%obind_done H0. cbn. revert E. set (f := λ '(i, t) areas, _).
  set (P := λ a, a = 0 ∨ (a = 255 ∧ ∃ t, t ∈ tm_idx m ∧ faces_up (tm_verts m) thr t)).
  assert (H : gives (foldM f (imap (λ i t, (i, t)) (tm_idx m)) (tm_areas m)) (Forall P)).
  { apply gives_keep; [eapply Forall_impl; [exact H0|by left]|]. intros [i t] s Hit Hs. unfold f.
    assert (t ∈ tm_idx m) as Ht.
    { apply elem_of_list_lookup in Hit as (j & Hj). rewrite list_lookup_imap in Hj. apply fmap_Some in Hj as (t' & Ht' & [= _ ->]).
      by eapply elem_of_list_lookup_2. }
    eapply (gives_bind _ _ (λ n, f_lt thr (v_y n) = true → faces_up (tm_verts m) thr t)).
    { unfold tri_normal, vert. apply gives_get. intros a Ha. apply gives_get. intros b Hb. apply gives_get. intros c Hc.
      apply gives_done. intros Hn. exists a, b, c. done. }
    intros n Hn. destruct (f_lt thr (v_y n)) eqn:El; [|by apply gives_done].
    apply gives_put_end. intros _. apply Forall_insert; [done|]. right. split; [done|]. exists t. split; [done|]. by apply Hn. }
  apply H.
Qed.
Lemma gives_ends_eq {A} B (m : outcome A) Q a : ends B m Q → m = Done a → Q a.
Proof. intros H ->. done. Qed.
Lemma links_painted (P : Z → Prop) hf o l e : painted P hf → links (hf_alloc hf) o l e → Forall (λ kc : key * cell, P (c_area kc.2)) l.
Proof.
  intros HP. revert o. induction l as [|[k c] l IH]; intros o; cbn [links]; [constructor|]. intros (_ & nx & Hk & Hl).
  constructor; [by apply (HP k _ Hk)|by eapply IH].
Qed.
Lemma opens_painted (P : Z → Prop) hf O : painted P hf → field_opens hf O → Forall (λ p, P (o_area p)) (concat O).
Proof.
  intros HP [_ HO]. apply Forall_concat, Forall_lookup. intros c o Ho. destruct (HO _ _ Ho) as (l & (kl & (h & _ & Hl) & <-) & <-).
  pose proof (links_painted P hf _ _ _ HP Hl) as HF. unfold opens. apply Forall_fmap, Forall_forall. intros [i a] Hp.
  apply elem_of_list_filter in Hp as [_ Hp]. apply elem_of_list_lookup in Hp as (j & Hj). rewrite list_lookup_imap in Hj.
  apply fmap_Some in Hj as (a' & Ha' & [= _ ->]). cbn. rewrite list_lookup_fmap in Ha'. apply fmap_Some in Ha' as (kc & Hkc & ->).
  by apply (Forall_lookup_1 _ _ _ _ HF Hkc).
Qed.

Lemma opens_walkable hf O : field_opens hf O → Forall (λ p, o_area p ≠ 0) (concat O).
Proof.
  intros [_ HO]. apply Forall_concat, Forall_lookup. intros c o Ho. destruct (HO _ _ Ho) as (l & _ & <-).
  unfold opens. apply Forall_fmap, Forall_forall. intros [i a] Hp. by apply elem_of_list_filter in Hp as [? _].
Qed.

(** The area of a walkable span is 255, and comes from a triangle that faces up;
    there is such a span. *)
Lemma staged_areas cosf f1 f2 c affs r O : measures c → build_navmesh cosf f1 f2 c affs = Done (BOk r) → moderate r → staged c r O →
  Forall (λ a, a = 0 ∨ a = 255) (ch_areas (r_regions r)) ∧
  ∃ t, t ∈ tm_idx (r_tris r) ∧ faces_up (tm_verts (r_tris r)) (cosf (cf_slope c)) t.
Proof.
  intros [Mw Mc Mr Mb Me Mn] E [Dw Dh Dl Dr] S.
  apply build_done in E as (m & lo & hi & Eg & Ea & Em & E0 & E1 & E2 & E3 & E4 & E5 & _).
  set (P := λ a, a = 0 ∨ (a = 255 ∧ ∃ t, t ∈ tm_idx (r_tris r) ∧ faces_up (tm_verts (r_tris r)) (cosf (cf_slope c)) t)).
  assert (P 0) as P0 by (by left).
  destruct (field_of _ _ E0) as [R0 _]; [lia|lia|].
  pose proof (mark_faces _ _ _ Em (gather_areas _ _ Eg)) as Har. fold P in Har.
  assert (painted P (r_empty r)) as Hp0.
  { unfold build_heightfield in E0. repeat (destruct (_ || _) in E0; [done|]).
    repeat match goal with H : context [obind] |- _ => apply obind_done in H as (? & ? & H) end.
    repeat (case_match; try done). injection E0 as <-. intros k s. cbn. by rewrite lookup_empty. }
  pose proof (gives_ends_eq _ _ _ _ (painted_triangles P (r_empty r) (r_tris r) (cf_climb c) R0 ltac:(lia) ltac:(lia)
    ltac:(eapply Forall_impl; [exact Har|]; intros a Pa; split; [destruct Pa as [->|[-> _]]; lia|exact Pa]) ltac:(lia) Hp0) E1)
    as (hf' & [= <-] & _ & Hp1).
  pose proof (painted_filters P P0 _ _ _ Hp1 _ E2) as Hp2.
  pose proof (opens_painted P _ _ Hp2 (sg_opens _ _ _ S)) as HO.
  pose proof (opens_walkable _ _ (sg_opens _ _ _ S)) as HW.
  pose proof (sg_lists _ _ _ S) as HL. split.
  - destruct (regions_cells c r O S) as (_ & _ & _ & Eareas & El). rewrite Eareas. apply Forall_lookup. intros i a Ha.
    destruct (decide (a = 0)) as [->|Ha0]; [by left|].
    destruct (sg_erosion _ _ _ S _ _ Ha Ha0) as [_ Ha'].
    destruct (lookup_lt_is_Some_2 (concat O) i) as [p Hp].
    { rewrite <-(lo_areas _ _ HL). by eapply lookup_lt_Some. }
    destruct (lo_span _ _ HL _ _ Hp) as (s & _ & _ & _ & Hpa). rewrite Ha' in Hpa. injection Hpa as ->.
    destruct (Forall_lookup_1 _ _ _ _ HO Hp) as [?|[? _]]; [by left|by right].
  - destruct (concat O) as [|p l] eqn:EO.
    + exfalso. assert (ch_spans (r_eroded r) = []) as He.
      { pose proof (sg_eroded _ _ _ S) as (_ & _ & _ & _ & _ & _ & _ & _ & _ & A10 & _). rewrite A10.
        pose proof (lo_spans _ _ HL) as Hl. rewrite EO in Hl. by destruct (ch_spans (r_open r)). }
      pose proof (sg_eroded _ _ _ S) as (A1 & A2 & _).
      assert (fits_u16 (r_eroded r)) as Hf. { split; [rewrite A1|rewrite A2]; apply (sg_fits _ _ _ S). }
      rewrite (C23_empty_field_panics _ (sg_eroded_wf _ _ _ S) Hf He) in E5. done.
    + apply Forall_cons in HO as [[H0|[_ H0]] _]; [|done]. apply Forall_cons in HW as [H1 _]. congruence.
Qed.

(** Every table of the result is consistent, every polygon is walkable, and the
    detail mesh refines the polygons. *)
Theorem C71_navmesh :
  ∀ cosf f1 f2 c affs r, measures c → build_navmesh cosf f1 f2 c affs = Done (BOk r) → moderate r →
  let m := r_mesh r in let dm := r_detail r in let np := length (pm_polys m) in let nvp := Z.to_nat (cf_nvp c) in
  (** one entry per polygon *)
  length (pm_nbrs m) = np ∧ length (pm_flags m) = np ∧ length (pm_areas m) = np ∧
  (** polygons have three to [nvp] corners, all of them vertices *)
  Forall (λ row, ∃ vs, padded nvp vs row ∧
    (corner_total (ks_contours (r_contours r)) < 65535 → Forall (λ v, v < Z.of_nat (length (pm_verts m))) vs)) (pm_polys m) ∧
  (** neighbours are missing, a polygon, or a portal of a mesh with a border *)
  Forall (λ n, length n = nvp ∧ Forall (λ q, q = 65535 ∨ 0 <= q < Z.of_nat np ∨ (0 < cf_border c ∧ 32768 <= q <= 32771)) n) (pm_nbrs m) ∧
  (** all polygons are walkable; some triangle faces up *)
  Forall (λ a, a = 255) (pm_areas m) ∧
  (∃ t, t ∈ tm_idx (r_tris r) ∧ faces_up (tm_verts (r_tris r)) (cosf (cf_slope c)) t) ∧
  (** the sub-meshes partition vertices and triangles, which refer to vertices of
      their own sub-mesh *)
  (pm_verts m ≠ [] →
   length (dm_meshes dm) = np ∧
   tiles 0 ((λ s, (sm_vbase s, sm_vcount s)) <$> dm_meshes dm) (Z.of_nat (length (dm_verts dm))) ∧
   tiles 0 ((λ s, (sm_tbase s, sm_tcount s)) <$> dm_meshes dm) (Z.of_nat (length (dm_tris dm))) ∧
   length (dm_flags dm) = length (dm_tris dm) ∧
   ∀ k sm, dm_meshes dm !! k = Some sm → Forall (λ t, ∀ x, x ∈ corners t → Z.of_nat x < sm_vcount sm)
     (segment (dm_tris dm) (sm_tbase sm) (sm_tcount sm))).
Proof.
  intros cosf f1 f2 c affs r M E D m dm np nvp. destruct (build_staged _ _ _ _ _ _ M E D) as [O S].
  destruct (staged_areas _ _ _ _ _ _ _ M E D S) as [HA Hup].
  apply build_done in E as (m0 & lo & hi & _ & _ & _ & _ & _ & E2 & _ & _ & _ & E6 & E7 & E8 & E9).
  assert (3 <= nvp)%nat as H3 by (pose proof (ms_nvp _ M); lia).
  destruct (C64_mesh_shape f1 nvp (r_contours r) m H3 E8) as (L1 & L2 & L3 & L4 & L5 & Hv & Hp & Hn & Har & Hreg).
  destruct (C64_live f1 nvp (r_contours r) m H3 E8) as [Hsz Hlive].
  pose proof (C31_closed_loops _ _ _ _ _ _ (sg_contourable _ _ _ S) (ms_edge _ M) E7) as (SS & _ & HF).
  assert (Forall (λ ct, ct_area ct = 255) (ks_contours (r_contours r))) as Hct.
  { apply Forall_lookup. intros k ct Hk. eapply Forall2_lookup_l in HF as (sides & _ & Hin); [|exact Hk].
    destruct Hin as (Hin & _ & _ & i & Hi & Ha).
    pose proof (sg_dist _ _ _ S) as (B1 & B2 & _ & _ & _ & _ & _ & B8 & B9 & B10).
    pose proof (sg_eroded _ _ _ S) as (A1 & A2 & _).
    assert (fits_u16 (r_dist r)) as Hf. { split; [rewrite B1, A1|rewrite B2, A2]; apply (sg_fits _ _ _ S). }
    destruct (C25_regions_are_walkable _ _ _ _ _ (sg_dist_wf _ _ _ S) Hf (sg_has _ _ _ S) E6 i _ Hi (proj1 Hin)) as (a & Ha' & Ha0).
    destruct (regions_cells c r O S) as (_ & _ & _ & Ea & _). rewrite B10, <-Ea, Ha in Ha'. injection Ha' as Eaa.
    destruct (Forall_lookup_1 _ _ _ _ HA Ha) as [H0|H0]; [congruence|exact H0]. }
  assert (∀ a, a ∈ pm_areas m → a = 255) as Har'.
  { intros a Ha. rewrite Forall_forall in Har. destruct (Har a Ha) as (ct & Hin & ->). apply elem_of_list_filter in Hin as [_ Hin].
    rewrite Forall_forall in Hct. by apply Hct. }
  split; [done|]. split; [done|]. split; [done|]. split; [done|].
  split.
  { destruct (C68_frame _ _ _ _ _ _ (sg_contourable _ _ _ S) (ms_edge _ M) E7) as (Eb & _). rewrite Eb, (sg_border _ _ _ S) in Hn. exact Hn. }
  split; [apply Forall_forall; intros a Ha; by apply Har'|]. split; [exact Hup|].
  intros Hvn. destruct (C59_submeshes _ _ _ _ _ _ Hvn Hsz Hlive E9) as (D1 & D2 & D3 & D4 & D5).
  split; [done|]. split; [done|]. split; [done|]. split; [done|]. intros k sm Hk.
  destruct (lookup_lt_is_Some_2 (pm_polys m) k) as [row Hrow]. { rewrite <-D1. by eapply lookup_lt_Some. }
  destruct (Hlive row) as (l & Hl & _); [by eapply elem_of_list_lookup_2|]. by apply (D5 k row l sm Hrow Hl Hk).
Qed.

(** ** Concrete builds *)
Lemma concat_bound {A} (L : list (list A)) n : (length (concat L) ≤ n)%nat → Forall (λ l, length l ≤ n)%nat L.
Proof.
  intros H. apply Forall_forall. intros l Hl. apply elem_of_list_split in Hl as (p & q & ->).
  rewrite concat_app in H. cbn in H. rewrite !app_length in H. lia.
Qed.
(** Enough to know that a build is moderate, computable on its results. *)
Definition moderate_b (r : run) : bool :=
  (Z.of_nat (hf_w (r_empty r)) <=? 32767) && (Z.of_nat (hf_h (r_empty r)) <=? 32767) &&
  (Nat.leb (walkable_span_count (r_field r)) 255) && forallb (λ cell, Nat.leb (cc_count cell) 62) (ch_cells (r_open r)) &&
  (Z.of_nat (length (ch_spans (r_regions r))) <=? 10000).
Lemma moderate_b_ok cosf f1 f2 c affs r : measures c → build_navmesh cosf f1 f2 c affs = Done (BOk r) → moderate_b r = true → moderate r.
Proof.
  intros [Mw Mc Mr Mb Me Mn] E H. unfold moderate_b in H. apply andb_true_iff in H as [H H5]. apply andb_true_iff in H as [H H4].
  apply andb_true_iff in H as [H H3]. apply andb_true_iff in H as [H1 H2]. apply Nat.leb_le in H3.
  apply build_done in E as (m & lo & hi & Eg & Ea & Em & E0 & E1 & E2 & E3 & _).
  destruct (field_of _ _ E0) as [R0 _]; [lia|lia|].
  pose proof (mark_areas _ _ _ Em (gather_areas _ _ Eg)) as Har.
  assert (by_insertions (r_empty r) (r_solid r)) as Hby.
  { pose proof (C55_rasterize_triangles (r_empty r) (r_tris r) (cf_climb c) R0 ltac:(lia) ltac:(lia)) as H. rewrite E1 in H.
    destruct H as (hf' & [= <-] & H); [|lia|done]. eapply Forall_impl; [exact Har|]. intros a [->| ->]; lia. }
  destruct (by_insertions_shape _ _ R0 Hby) as (R1 & W1 & H1' & _).
  destruct (filters_reach _ (cf_wh c) (cf_climb c) _ R1 Mw ltac:(lia) E2) as (R2 & W2 & H2' & _).
  destruct (reachable_ok _ R2) as [cols Hok].
  split; [lia|lia| |apply small_field; lia].
  intros O HO. pose proof HO as EO. apply (field_opens_rep _ cols) in EO; [|done].
  pose proof (walkable_count_spec _ _ (ok_rep _ _ Hok)) as Hn. rewrite <-EO in Hn.
  assert (length (concat O) ≤ 255)%nat as Hc by lia.
  assert (Z.of_nat (length (concat O)) < 2 ^ 32) as Ht. { change (2 ^ 32) with 4294967296. lia. }
  split; [|done].
  assert (countable O) as Hcount. { split; [by apply concat_bound|done]. }
  pose proof (runs_eq _ _ _ (C12_lists_walkable_spans _ O (cf_wh c) (cf_climb c) R2 HO Hcount) E3 _ eq_refl)
    as (_ & _ & _ & _ & _ & _ & _ & HL & _).
  apply Forall_lookup. intros i o Ho. destruct (lo_cell _ _ HL _ _ Ho) as (cell & Hcell & <- & _).
  rewrite forallb_forall in H4. specialize (H4 cell). apply Nat.leb_le, H4. by apply elem_of_list_In, (elem_of_list_lookup_2 _ i).
Qed.

(** A floor twelve cells a side with a slab one voxel thick lying on it, and an
    affector without a mesh; one voxel of border, an agent of radius 1. *)
Definition quad : bmesh :=
  BM TriangleList {[0 := VFloat32x3 [p3 0 0 0; p3 0 0 1; p3 1 0 1; p3 1 0 0]]} (Some (IU16 [0; 1; 2; 0; 2; 3])) 3.
Definition scaled (k x y z : Z) (v : vec3) : vec3 :=
  V3 (f_add (f_mul (v_x v) (f_of_Z k)) (f_of_Z x)) (f_add (v_y v) (f_of_Z y)) (f_add (f_mul (v_z v) (f_of_Z k)) (f_of_Z z)).
Definition slab_scene : list affector := [(Some quad, scaled 12 (-2) 1 3); (None, id); (Some quad, scaled 3 3 2 8)].
Definition scene_cfg : cfg :=
  Cfg 0 0 0 1 (f_of_Z 1) (f_of_Z 1) v_zero v_zero f_zero 3 1 1 12 (f_of_Z 1) 2 4 6 (f_of_Z 6) (f_of_Z 1) true false.
Definition half (_ : f32) : f32 := f_of_me 1 (-1).

Lemma scene_measures : measures scene_cfg.
Proof. split; cbn; lia. Qed.
Definition ok_with (o : outcome (bresult run)) (P : run → bool) : bool :=
  match o with Done (BOk r) => P r | _ => false end.
Lemma ok_with_run o P : ok_with o P = true → ∃ r, o = Done (BOk r) ∧ P r = true.
Proof. destruct o as [[r|]| |]; try done. intros H. by exists r. Qed.

Example C70_witness : ∃ r, measures scene_cfg ∧ build_navmesh half 100 100 scene_cfg slab_scene = Done (BOk r) ∧ moderate r ∧
  pm_verts (r_mesh r) = [V 1 1 1; V 1 1 9; V 9 1 9; V 9 1 1] ∧ length (dm_tris (r_detail r)) = 2%nat.
Proof.
  destruct (ok_with_run (build_navmesh half 100 100 scene_cfg slab_scene) (λ r, moderate_b r &&
    bool_decide (pm_verts (r_mesh r) = [V 1 1 1; V 1 1 9; V 9 1 9; V 9 1 1]) && bool_decide (length (dm_tris (r_detail r)) = 2%nat)))
    as (r & Er & H); [vm_compute; reflexivity|].
  apply andb_true_iff in H as [[Hm Hv%bool_decide_eq_true]%andb_true_iff Ht%bool_decide_eq_true].
  exists r. split; [apply scene_measures|]. split; [exact Er|].
  split; [exact (moderate_b_ok _ _ _ _ _ _ scene_measures Er Hm)|]. split; [exact Hv|exact Ht].
Qed.

Print Assumptions C70_vertices_are_standable.
Print Assumptions C71_navmesh.
