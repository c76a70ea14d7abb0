(** When a whole build returns: C85. *)
From Coq Require Import Reals.
From Verif Require Import Base ModelMath FloatReal FloatSideProofs FloatSpotProofs ModelHeightfield ModelFilters ModelHistory ModelTriMesh ModelRasterize ModelCompact
  ModelDistance ModelRegions ModelContours ModelPoly ModelDetail ModelExport ModelConfig ModelPipeline
  SpecHeightfield SpecCompact SpecDistance SpecRegions SpecContours SpecPoly SpecDetail SpecPipeline SpecPatch
  HistoryProofs FilterProofs CompactProofs LinkProofs DistanceProofs GraphProofs FlowProofs GivesProofs PipelineProofs
  PropertiesHeightfield PropertiesRasterize PropertiesTriMesh PropertiesCompact PropertiesDistance PropertiesRegions
  PropertiesContours PropertiesPoly PropertiesConnect PropertiesDetail PropertiesPatch PropertiesPipeline.
Local Open Scope Z_scope.

(** Parameters that the stages after the regions can work with. *)
Record workable (c : cfg) : Prop := {
  wk_nvp : cf_nvp c ≤ 126;
  wk_edge : no_splitting (cf_edge_len c) (cf_wall c) (cf_areas c) ∨ cf_edge_len c ≤ 255;
  wk_error : f_cast f_ceil_Z 0 U32_MAX (cf_edge_err c) ≤ 32767;
  (* the cell size and the distance between samples *)
  wk_cell : f_valid (cf_cs c) ∧ FloatReal.f_finite (cf_cs c) ∧ (0 < f_R (cf_cs c) <= 2 ^ 40)%R;
  wk_dist : f_valid (cf_sample_dist c) ∧ FloatReal.f_finite (cf_sample_dist c) ∧ (0 < f_R (cf_sample_dist c))%R;
  wk_ratio : (f_R (cf_cs c) <= 2 ^ 40 * f_R (cf_sample_dist c))%R
}.

(** The first stages of a build, up to the rasterized field. *)
Definition rasterized (cosf : f32 → f32) (c : cfg) (affs : list affector) (tris : trimesh) (hf0 hf1 : hfield) : Prop :=
  ∃ m lo hi, gather affs = Done m ∧ aabb_of (tm_verts m) = Some (lo, hi) ∧
    mark_walkable m (cosf (cf_slope c)) = Done tris ∧
    build_heightfield (Geo lo hi (cf_cs c) (cf_ch c)) = Done (Some hf0) ∧
    rasterize_triangles hf0 tris (cf_climb c) = Done (Some hf1).
(** The next ones, up to the regions. *)
Definition divided (c : cfg) (hf1 hf2 : hfield) (ch0 ch1 ch2 ch3 : chf) : Prop :=
  run_filters (cf_wh c) (cf_climb c) hf1 = Done hf2 ∧
  into_compact hf2 (cf_wh c) (cf_climb c) = Done (Some ch0) ∧
  erode_walkable_area ch0 (cf_radius c) = Done ch1 ∧
  build_distance_field ch1 = Done ch2 ∧
  build_regions ch2 (cf_border c) (cf_min_area c) (cf_merge_area c) = Done (Some ch3).

Lemma build_from cosf f1 f2 c affs tris hf0 hf1 : rasterized cosf c affs tris hf0 hf1 →
  build_navmesh cosf f1 f2 c affs =
    (let! hf2 := run_filters (cf_wh c) (cf_climb c) hf1 in
    or_err (into_compact hf2 (cf_wh c) (cf_climb c)) TooManyLayers (λ ch0,
    let! ch1 := erode_walkable_area ch0 (cf_radius c) in
    let! ch2 := build_distance_field ch1 in
    or_err (build_regions ch2 (cf_border c) (cf_min_area c) (cf_merge_area c)) TooManyRegions (λ ch3,
    let! ks := build_contours ch3 (cf_edge_err c) (cf_edge_len c) (cf_wall c) (cf_areas c) in
    let! r := into_polygon_mesh f1 (Z.to_nat (cf_nvp c)) ks in
    match r with
    | Err e => Done (BErr (MeshError e))
    | Ok pm =>
      let! dm := detail_new f2 pm ch3 (cf_sample_dist c) (cf_sample_err c) in
      Done (BOk (Run tris hf0 hf1 hf2 ch0 ch1 ch2 ch3 ks pm dm))
    end))).
Proof.
  intros (m & lo & hi & E1 & E2 & E3 & E4 & E5). unfold build_navmesh.
  rewrite E1. cbn [obind]. rewrite E2, E3. cbn [obind]. unfold or_err at 1. rewrite E4. cbn [obind].
  unfold or_err at 1. rewrite E5. done.
Qed.

Lemma rasterized_reach cosf c affs tris hf0 hf1 : measures c → rasterized cosf c affs tris hf0 hf1 →
  Z.of_nat (hf_w hf0) ≤ 32767 → Z.of_nat (hf_h hf0) ≤ 32767 → reachable hf1 ∧ hf_w hf1 = hf_w hf0 ∧ hf_h hf1 = hf_h hf0 ∧ g_cs (hf_geo hf1) = cf_cs c.
Proof.
  intros [Mw Mc Mr Mb Me Mn] (m & lo & hi & Eg & _ & Em & E0 & E1) Dw Dh.
  destruct (field_of _ _ E0) as [R0 G0]; [lia|lia|].
  pose proof (mark_areas _ _ _ Em (gather_areas _ _ Eg)) as Har.
  assert (by_insertions hf0 hf1) as Hby.
  { pose proof (C55_rasterize_triangles hf0 tris (cf_climb c) R0 ltac:(lia) ltac:(lia)) as H. rewrite E1 in H.
    destruct H as (hf' & [= <-] & H); [|lia|done]. eapply Forall_impl; [exact Har|]. intros a [->| ->]; lia. }
  destruct (by_insertions_shape _ _ R0 Hby) as (R1 & W1 & H1 & G1). by rewrite G1, G0.
Qed.

Lemma filters_return hf wh climb : reachable hf → 0 ≤ wh ≤ 65535 → 0 ≤ climb ≤ 65535 → ∃ hf', run_filters wh climb hf = Done hf'.
Proof.
  intros Hr Hwh Hc. destruct (reachable_ok _ Hr) as [cols Hok].
  pose proof (C10_pipeline hf wh climb (geom <$> cols) Hr Hwh Hc ltac:(by apply (field_geometry_rep _ cols))) as H.
  destruct (run_filters wh climb hf) as [hf'| |]; [by exists hf'|done..].
Qed.

(** Distances are below 65533. *)
Lemma distance_max ch : wf_chf ch → fits_u16 ch → Z.of_nat (Nat.min (ch_w ch) (ch_h ch)) ≤ 32767 → ch_spans ch ≠ [] →
  runs (build_distance_field ch) (λ ch', ch_maxdist ch' ≤ 65532).
Proof.
  intros Hwf [Hw Hh] Hmin Hne. unfold build_distance_field.
  eapply runs_bind; [apply calculate_spec; [done|done|done|lia]|]. intros D [Hl HD].
  destruct (list_max_opt_spec D) as (m & -> & Hm1 & Hm2).
  { intros ->. destruct (ch_spans ch); done. }
  cbn [unwrap obind]. eapply runs_bind.
  { apply box_blur_spec; try done. intros i Hi. destruct (HD i Hi) as [? _]. lia. }
  intros B _. cbn. apply elem_of_list_lookup in Hm1 as [i Hi].
  destruct (HD i) as [Hb _]; [rewrite <-Hl; by eapply lookup_lt_Some|].
  rewrite (list_lookup_total_correct _ _ _ Hi) in Hb. lia.
Qed.

Lemma concat_nil {A} (L : list (list A)) : concat L = [] → Forall (λ l, l = []) L.
Proof. induction L as [|l L IH]; [constructor|]. cbn. intros [-> H]%app_eq_nil. constructor; [done|by apply IH]. Qed.

(** ** C85 *)

(** The stages up to the regions: everything returns unless there is no walkable
    span, when the build panics. *)
Theorem C85_regions_are_found :
  ∀ cosf c affs tris hf0 hf1, measures c → rasterized cosf c affs tris hf0 hf1 →
  Z.of_nat (hf_w hf0) ≤ 32767 → Z.of_nat (hf_h hf0) ≤ 32767 →
  ∃ hf2 O, run_filters (cf_wh c) (cf_climb c) hf1 = Done hf2 ∧ field_opens hf2 O ∧
    (Forall (λ o, length o ≤ 62)%nat O → concat O ≠ [] → Z.of_nat (length (concat O)) < 32768 →
       ∃ ch0 ch1 ch2 ch3, divided c hf1 hf2 ch0 ch1 ch2 ch3) ∧
    (concat O = [] → ∀ f1 f2, build_navmesh cosf f1 f2 c affs = Panicked).
Proof.
  intros cosf c affs tris hf0 hf1 M Hras Dw Dh. destruct (rasterized_reach _ _ _ _ _ _ M Hras Dw Dh) as (R1 & W1 & H1 & GC).
  pose proof (ms_wh _ M) as Mw. pose proof (ms_climb _ M) as Mc. pose proof (ms_radius _ M) as Mr.
  destruct (filters_return hf1 (cf_wh c) (cf_climb c) R1 Mw ltac:(lia)) as [hf2 E2].
  destruct (filters_reach _ (cf_wh c) (cf_climb c) _ R1 Mw ltac:(lia) E2) as (R2 & W2 & H2 & _).
  destruct (reachable_ok _ R2) as [cols Hok]. exists hf2, (opens_of cols). set (O := opens_of cols).
  assert (field_opens hf2 O) as HO by (by apply (field_opens_rep _ cols)).
  split; [done|]. split; [done|].
  assert (Forall (λ o, length o ≤ 62)%nat O → Z.of_nat (length (concat O)) < 32768 → ∃ ch0 ch1, into_compact hf2 (cf_wh c) (cf_climb c) = Done (Some ch0) ∧
    erode_walkable_area ch0 (cf_radius c) = Done ch1 ∧ wf_chf ch1 ∧ fits_u16 ch1 ∧ Z.of_nat (Nat.min (ch_w ch1) (ch_h ch1)) ≤ 32767 ∧
    length (ch_spans ch1) = length (concat O)) as Hfirst.
  { intros Hlay Htot. change (2 ^ 32) with 4294967296 in *.
    assert (countable O) as Hcount. { split; [|change (2 ^ 32) with 4294967296; lia]. eapply Forall_impl; [exact Hlay|]. intros o Ho. cbn in *. lia. }
    pose proof (C15_error_iff hf2 O (cf_wh c) (cf_climb c) R2 HO Hcount) as H15.
    destruct (into_compact hf2 (cf_wh c) (cf_climb c)) as [[ch0|]| |] eqn:E3; [|exfalso|done..].
    2:{ destruct H15 as [H15 _]. destruct (H15 eq_refl) as (c1 & o & k & p & d & c' & o' & _ & _ & _ & _ & Ho' & (j & q & Hj & _ & Hge) & _).
        rewrite Forall_lookup in Hlay. specialize (Hlay _ _ Ho'). apply lookup_lt_Some in Hj. lia. }
    pose proof (runs_eq _ _ _ (C12_lists_walkable_spans _ O (cf_wh c) (cf_climb c) R2 HO Hcount) E3 _ eq_refl)
      as (Ow & Oh & _ & _ & _ & _ & _ & HL & _).
    pose proof (runs_eq _ _ _ (C17_compaction_well_formed _ O (cf_wh c) (cf_climb c) R2 HO Hcount) E3 _ eq_refl) as Hwf.
    assert (fits_u16 ch0) as Hf. { split; [rewrite Ow|rewrite Oh]; lia. }
    pose proof (C19_only_removes _ (cf_radius c) Hwf Hf ltac:(lia)) as H19.
    destruct (erode_walkable_area ch0 (cf_radius c)) as [ch1| |] eqn:E4; [|done..].
    destruct H19 as ((A1 & A2 & _ & _ & _ & _ & _ & _ & A9 & A10 & _ & A12) & Hwf1 & _).
    exists ch0, ch1. split; [done|]. split; [done|]. split; [done|]. split; [split; [rewrite A1|rewrite A2]; apply Hf|].
    split; [rewrite A1, Ow; lia|]. rewrite A10. by apply (lo_spans _ _ HL). }
  split.
  - intros Hlay Hne Htot. destruct (Hfirst Hlay Htot) as (ch0 & ch1 & E3 & E4 & Hwf1 & Hf1 & Hmin & Hlen).
    assert (ch_spans ch1 ≠ []) as Hsp. { intros E. rewrite E in Hlen. destruct (concat O); done. }
    pose proof (C21_distance_field_exact _ Hwf1 Hf1 Hmin Hsp) as H21. pose proof (C22_bounds _ Hwf1 Hf1 Hmin Hsp) as H22.
    pose proof (distance_max _ Hwf1 Hf1 Hmin Hsp) as Hmax.
    destruct (build_distance_field ch1) as [ch2| |] eqn:E5; [|done..]. cbn in H21, H22, Hmax.
    destruct H21 as (SD & Hwf2 & D & _ & _ & _ & HD4 & _). pose proof SD as (B1 & B2 & _ & _ & _ & _ & _ & B8 & B9 & B10).
    destruct (C29_succeeds_below_32768 ch2 (cf_border c) (cf_min_area c) (cf_merge_area c) Hwf2) as [ch3 E6].
    + split; [rewrite B1|rewrite B2]; apply Hf1.
    + split; [by rewrite B9|]. destruct (ch_dist ch2) as [|v l] eqn:Ed.
      * cbn in HD4. destruct (ch_spans ch1); done.
      * destruct H22 as [_ H22]. specialize (H22 0%nat v eq_refl) as [? _]. lia.
    + lia.
    + rewrite B9, Hlen. lia.
    + exists ch0, ch1, ch2, ch3. done.
  - intros Hnil f1 f2. destruct (Hfirst) as (ch0 & ch1 & E3 & E4 & Hwf1 & Hf1 & _ & Hlen).
    + eapply Forall_impl; [by apply concat_nil|]. intros o ->. cbn. lia.
    + rewrite Hnil. cbn. lia.
    + rewrite (build_from _ f1 f2 _ _ _ _ _ Hras), E2. cbn [obind]. unfold or_err at 1. rewrite E3. cbn [obind]. rewrite E4. cbn [obind].
      rewrite C23_empty_field_panics; [done..|]. rewrite Hnil in Hlen. by destruct (ch_spans ch1).
Qed.
Print Assumptions C85_regions_are_found.

(** The frame of a mesh. *)
Lemma mesh_frame hf nvp ks pm : into_polygon_mesh hf nvp ks = Done (Ok pm) →
  pm_geo pm = ks_geo ks ∧ pm_border pm = ks_border ks ∧ pm_maxerr pm = ks_maxerr ks.
Proof.
  unfold into_polygon_mesh, pbind. destruct (65535 <? _); [done|].
  intros ([[[t flags] m]|e] & _ & H)%obind_done; [|done]. apply obind_done in H as ([m'|e] & _ & H); [|done].
  apply obind_done in H as (p1 & _ & H). apply obind_done in H as (p2 & _ & H). by injection H as <-.
Qed.
Lemma padded_live nvp vs row : padded nvp vs row → live row vs.
Proof.
  intros (-> & Hn & Hv). exists (repeat 65535 (nvp - length vs)). split; [done|]. split.
  - intros H. rewrite Forall_forall in Hv. specialize (Hv _ H). lia.
  - destruct (nvp - length vs)%nat as [|k]; [by left|]. right. by eexists.
Qed.

Lemma lives_ok rows : Forall2 live rows (live_indices <$> rows).
Proof. apply Forall2_fmap_r, Forall_Forall2_diag, Forall_forall. intros row _. apply live_indices_live. Qed.

(** The detail of a mesh needs more vertices or triangles than the code makes
    room for: one and a half times the corners of the polygons, twice that for
    triangles, and 256. *)
Definition outgrows (m : pmesh) (ch : chf) (dist err : f32) : Prop :=
  ∃ lives sizes, Forall2 live (pm_polys m) lives ∧ (length sizes ≤ length (pm_polys m))%nat ∧
    (∀ k sz, sizes !! k = Some sz → refined m ch dist err k sz) ∧
    let n := sum_list (length <$> lives) in
    (n + n / 2 + 256 < sum_list sizes.*1 ∨ (n + n / 2) * 2 + 256 < sum_list sizes.*2)%nat.

Section returning.
  Context (c : cfg) (r : run) (O : list (list ospan)) (G : list (list (Z * Z))).
  Hypothesis M : measures c.
  Hypothesis W : workable c.
  Hypothesis S : staged c r O.
  Hypothesis HG : field_geometry (r_solid r) G.
  Hypothesis EF : run_filters (cf_wh c) (cf_climb c) (r_solid r) = Done (r_field r).
  Hypothesis Dw : Z.of_nat (hf_w (r_field r)) ≤ 32767.
  Hypothesis Dh : Z.of_nat (hf_h (r_field r)) ≤ 32767.
  Let ch := r_regions r.

  Lemma return_floor i y : floor_of ch i = Some y → y < 65535.
  Proof.
    intros Hy. destruct (regions_cells c r O S) as (Ec & Ew & Eh & _ & El).
    pose proof (ca_wf _ (sg_contourable _ _ _ S)) as Hwf. fold ch in Hwf, Ec, Ew, Eh.
    assert (i < length (ch_spans ch))%nat as Hi. { unfold floor_of in Hy. apply fmap_Some in Hy as (s & Hs & _). by eapply lookup_lt_Some. }
    destruct (in_cell_ex ch Hwf i Hi) as [cl Hcl]. pose proof (in_cell_lt ch Hwf cl i Hcl) as Hlt.
    destruct (cell_coords ch cl Hlt) as (_ & Hx & Hz & E). rewrite Ew, Eh in *.
    assert (in_cell (r_open r) (cl mod hf_w (r_field r) + cl / hf_w (r_field r) * hf_w (r_field r)) i) as Hcell'.
    { rewrite <-E. destruct Hcl as (cell & H1 & H2). exists cell. by rewrite <-Ec. }
    destruct (spot_cell (r_field r) (r_open r) O) with (x := (cl mod hf_w (r_field r))%nat) (z := (cl / hf_w (r_field r))%nat) (i := i) as (p & Sx & Sz & Hs); try apply S; try done.
    pose proof (staged_floor c r O S i p Hs) as Hf. fold ch in Hf. rewrite Hy in Hf. injection Hf as ->.
    pose proof (spot_of_in _ _ _ _ Hs) as (Hx' & Hz' & l & k & cell & Hcol & Hk & Hwk & Ef & Et).
    destruct (sg_w _ _ _ S) as [W1 _]. destruct (sg_h _ _ _ S) as [H1 _].
    pose proof (ms_wh _ M) as Mw. pose proof (ms_climb _ M) as Mc.
    pose proof (runs_eq _ _ _ (C10_pipeline _ (cf_wh c) (cf_climb c) G (sg_solid _ _ _ S) Mw ltac:(lia) HG) EF) as H10.
    destruct (H10 (sp_x p) (sp_z p) l) as [_ Hst]; [by rewrite <-W1|by rewrite <-H1|by rewrite <-W1|].
    destruct (Hst _ _ Hk Hwk) as [Hclear _]. rewrite Ef.
    destruct (reachable_ok _ (sg_field _ _ _ S)) as [cols Hok].
    apply (is_column_rep _ cols _ _ (ok_rep _ _ Hok)) in Hcol as (kl & Hkl & <-).
    destruct (ok_fine _ _ Hok _ _ Hkl) as [[Hgood _] _].
    assert (open_top (geometry kl.*2) k ≤ 65535) as Htop.
    { unfold open_top, geometry. rewrite list_lookup_fmap. destruct (kl.*2 !! Datatypes.S k) as [b|] eqn:Eb; cbn; [|lia].
      specialize (Hgood _ _ Eb). lia. }
    lia.
  Qed.

  Context (f1 : nat) (ks : contour_set) (pm : pmesh).
  Hypothesis EC : build_contours ch (cf_edge_err c) (cf_edge_len c) (cf_wall c) (cf_areas c) = Done ks.
  Hypothesis EP : into_polygon_mesh f1 (Z.to_nat (cf_nvp c)) ks = Done (Ok pm).
  Context (pieces : list piece).
  Hypothesis HM : mesh_of (Z.to_nat (cf_nvp c)) (ks_border ks) (drawn (ks_contours ks)) (pm_verts pm) (pm_polys pm) (pm_nbrs pm) (pm_regs pm) (pm_areas pm) pieces.
  Hypothesis Eg : g_cs (ch_geo ch) = cf_cs c.

  Lemma return_vert v : v ∈ pm_verts pm → 0 ≤ vx v ≤ Z.of_nat (ch_w ch) - 2 * pm_border pm ∧ 0 ≤ vz v ≤ Z.of_nat (ch_h ch) - 2 * pm_border pm.
  Proof.
    intros Hv. destruct (mesh_frame _ _ _ _ EP) as (_ & Eb & _).
    pose proof (C68_frame _ _ _ _ _ _ (sg_contourable _ _ _ S) (ms_edge _ M) EC) as H. cbv zeta in H.
    destruct H as (K1 & _ & K3 & K4 & _ & _ & _ & _ & _ & _ & Hin). fold ch in K1, K3, K4.
    destruct (proj1 (mo_welded _ _ _ _ _ _ _ _ _ HM) v Hv) as (ct & Hct & Hvc). apply elem_of_list_filter in Hct as [_ Hct].
    apply elem_of_list_fmap in Hvc as (q & -> & Hq). destruct (proj2 (Hin ct Hct) q Hq) as [? ?]. rewrite Eb, K1. lia.
  Qed.

  (** The piece and the contour of a polygon. *)
  Lemma return_row k row l : pm_polys pm !! k = Some row → live row l →
    ∃ pc, pc ∈ pieces ∧ l ∈ pc.2 ∧ pm_regs pm !! k = Some (ct_reg pc.1.1).
  Proof.
    intros Hk Hl. pose proof (mo_rows _ _ _ _ _ _ _ _ _ HM) as Hrows. pose proof (mo_regs _ _ _ _ _ _ _ _ _ HM) as Hregs.
    destruct (Forall2_lookup_l _ _ _ _ _ Hrows Hk) as (vs & Hvs & Hpad). assert (l = vs) as -> by (exact (live_fun _ _ _ Hl (padded_live _ _ _ Hpad))).
    assert (k < length (tags ct_reg pieces))%nat as Hlt.
    { rewrite tags_length. unfold polygons. by eapply lookup_lt_Some. }
    destruct (lookup_lt_is_Some_2 _ _ Hlt) as [rg Hrg]. destruct (tags_lookup _ _ _ _ Hrg) as (j & pc & Hj & (pc' & i & Hj' & Hi & E) & Er).
    rewrite Hj in Hj'. injection Hj' as <-. exists pc. split; [by eapply elem_of_list_lookup_2|]. split.
    - change (concat (snd <$> pieces)) with (polygons pieces) in Hvs. rewrite (polygons_split _ _ _ Hj), E in Hvs.
      rewrite lookup_app_r in Hvs by lia. replace (length (polygons (take j pieces)) + i - length (polygons (take j pieces)))%nat with i in Hvs by lia.
      rewrite lookup_app_l in Hvs by done. by eapply elem_of_list_lookup_2.
    - rewrite Er, <-Hrg, <-Hregs. symmetry. apply lookup_take. by eapply lookup_lt_Some.
  Qed.
  Lemma return_piece pc : pc ∈ pieces → pc.1.1 ∈ ks_contours ks ∧ piece_ok (Z.to_nat (cf_nvp c)) (pm_verts pm) pc.
  Proof.
    intros Hpc. split.
    - assert (pc.1.1 ∈ drawn (ks_contours ks)) as H. { rewrite <-(mo_contours _ _ _ _ _ _ _ _ _ HM). apply elem_of_list_fmap. by exists pc. }
      by apply elem_of_list_filter in H as [_ H].
    - pose proof (mo_pieces _ _ _ _ _ _ _ _ _ HM) as H. rewrite Forall_forall in H. by apply H.
  Qed.
  (** A corner of a polygon is at a corner of its contour. *)
  Lemma return_corner pc l p : pc ∈ pieces → l ∈ pc.2 → p ∈ l →
    ∃ w v, pm_verts pm !! Z.to_nat p = Some w ∧ v ∈ fst <$> ct_verts pc.1.1 ∧ vx w = vx v ∧ vz w = vz v.
  Proof.
    intros Hpc Hl Hp. destruct (return_piece pc Hpc) as [_ Hok]. destruct pc as [[ct ind] g]. destruct Hok as (HF & _ & T & _).
    cbn in Hl. assert (p ∈ ind) as Hpi. { apply (tl_corners _ _ T). by exists l. }
    apply elem_of_list_lookup in Hpi as (j & Hj). destruct (Forall2_lookup_r _ _ _ _ _ HF Hj) as (v & Hv & _ & w & Hw & E1 & E2 & _).
    exists w, v. split; [done|]. split; [by eapply elem_of_list_lookup_2|]. done.
  Qed.

  Lemma return_region k row l : pm_polys pm !! k = Some row → live row l → (3 ≤ length l)%nat → ∃ rg p v x z i,
    pm_regs pm !! k = Some rg ∧ rg ≠ 0 ∧ p ∈ l ∧ pm_verts pm !! Z.to_nat p = Some v ∧
    (x < ch_w ch)%nat ∧ in_cell ch (x + z * ch_w ch) i ∧ region_of ch i = Some rg ∧
    pm_border pm ≤ Z.of_nat x ∧ vx v - 1 ≤ Z.of_nat x - pm_border pm ≤ vx v ∧
    pm_border pm ≤ Z.of_nat z ∧ vz v - 1 ≤ Z.of_nat z - pm_border pm ≤ vz v.
  Proof.
    intros Hk Hl Hn. destruct (return_row k row l Hk Hl) as (pc & Hpc & Hlp & Hreg). destruct (return_piece pc Hpc) as [Hct _].
    destruct l as [|p l]; [cbn in Hn; lia|]. destruct (return_corner pc _ p Hpc Hlp ltac:(left)) as (w & v & Hw & Hv & Ex & Ez).
    set (ct := pc.1.1) in *.
    destruct (C31_closed_loops _ _ _ _ _ _ (sg_contourable _ _ _ S) (ms_edge _ M) EC) as (SS & _ & HF).
    destruct (C32_contour_sets _ _ _ _ _ _ _ (sg_contourable _ _ _ S) (ms_edge _ M) EC Hct) as (_ & (j0 & os & _ & _ & Hsub) & _).
    apply elem_of_list_lookup in Hv as (n & Hv). eapply Forall2_lookup_r in Hsub as (o & _ & Ho); [|exact Hv].
    unfold at_loop in Ho. apply fmap_Some in Ho as (q & Hq & Eq).
    apply elem_of_list_lookup in Hct as (kk & Hkk). eapply Forall2_lookup_l in HF as (sides & _ & Hin & Htr & _); [|exact Hkk].
    unfold traces in Htr. eapply Forall2_lookup_r in Htr as ([i d] & _ & H); [|exact Hq].
    cbn [fst snd] in H. destruct H as ((Hd & Hrg & _) & (x & z & Hx & Hz & Hcell & Eqx & Eqz) & _). cbn [fst snd] in Eqx, Eqz.
    destruct (mesh_frame _ _ _ _ EP) as (_ & Eb & _).
    pose proof (C68_frame _ _ _ _ _ _ (sg_contourable _ _ _ S) (ms_edge _ M) EC) as HK. cbv zeta in HK. destruct HK as (K1 & _).
    rewrite <-Eb in K1. fold ch in K1, Eqx, Eqz, Hx, Hz, Hcell, Hrg.
    destruct (ca_border _ (sg_contourable _ _ _ S)) as [_ Hclear]. fold ch in Hclear. rewrite <-K1 in *.
    assert (¬ near_edge ch (pm_border pm) i) as Hne by (by apply (Hclear i (ct_reg ct))).
    assert (pm_border pm ≤ Z.of_nat x ∧ pm_border pm ≤ Z.of_nat z) as (? & ?).
    { destruct (decide (Z.of_nat x < pm_border pm ∨ Z.of_nat z < pm_border pm)) as [Hb|Hb]; [|lia].
      destruct Hne. exists x, z. split; [done|]. split; [done|]. split; [done|]. tauto. }
    assert (0 ≤ nth d [0; 1; 1; 0] 0 ≤ 1 ∧ 0 ≤ nth d [1; 1; 0; 0] 0 ≤ 1) as [? ?] by (destruct d as [|[|[|[|d]]]]; cbn; lia).
    exists (ct_reg ct), p, w, x, z, i. rewrite <-Eq in Eqx, Eqz.
    split; [done|]. split; [apply Hin|]. split; [left|]. split; [done|]. split; [done|]. split; [done|]. split; [done|]. lia.
  Qed.

  Lemma lt_zero_R x : FloatReal.f_finite x → (0 < f_R x)%R → f_lt f_zero x = true.
  Proof.
    destruct x as [s|s| |s m e]; intros Fx Hx; try done; [by destruct (Rlt_irrefl 0)|].
    assert (s = false) as -> by (by apply (f_R_pos s m e)). done.
  Qed.

  Lemma return_detailable : detailable pm ch (cf_sample_dist c) (cf_sample_err c).
  Proof.
    destruct (mesh_frame _ _ _ _ EP) as (Egeo & Eb & Ee).
    pose proof (C68_frame _ _ _ _ _ _ (sg_contourable _ _ _ S) (ms_edge _ M) EC) as HK. cbv zeta in HK.
    destruct HK as (K1 & K2 & _ & _ & K5 & _). fold ch in K1, K5.
    destruct (regions_cells c r O S) as (_ & Ew & Eh & _). fold ch in Ew, Eh.
    pose proof (sg_border _ _ _ S) as Hbd. fold ch in Hbd. pose proof (ms_border _ M). pose proof (ms_nvp _ M).
    destruct W as [W1 W2 W3 (W4a & W4b & W4c) (W5a & W5b & W5c) W6].
    assert (g_cs (pm_geo pm) = cf_cs c) as Ecs by (rewrite Egeo, K5; done).
    assert (∀ k row l, pm_polys pm !! k = Some row → live row l → (3 ≤ length l ≤ 126)%nat ∧ ∀ p, p ∈ l → (Z.to_nat p < length (pm_verts pm))%nat) as Hcorners.
    { intros k row l Hk Hl. destruct (return_row k row l Hk Hl) as (pc & Hpc & Hlp & _). destruct (return_piece pc Hpc) as [_ Hok]. split.
      - destruct pc as [[ct ind] g]. destruct Hok as (_ & _ & _ & Hlen & _). rewrite Forall_forall in Hlen. specialize (Hlen l Hlp). lia.
      - intros p Hp. destruct (return_corner pc l p Hpc Hlp Hp) as (w & _ & Hw & _). by eapply lookup_lt_Some. }
    constructor.
    - apply (sg_contourable _ _ _ S).
    - by rewrite Ew.
    - by rewrite Eh.
    - apply return_floor.
    - by rewrite Eb, K1, Hbd.
    - apply return_vert.
    - rewrite Ecs, Eg. split; [done|]. split; apply lt_zero_R; tauto.
    - by apply lt_zero_R.
    - by rewrite Ee, K2.
    - done.
    - intros k row l inp a b Hk Hl Hc Ha Hb.
      assert (∀ v, v ∈ inp → ∃ w, w ∈ pm_verts pm ∧ v_x v = f_mul (f_of_Z (vx w)) (cf_cs c) ∧ v_z v = f_mul (f_of_Z (vz w)) (cf_cs c)) as Hat.
      { intros v Hv. apply elem_of_list_lookup in Hv as (j & Hj). destruct (Forall2_lookup_r _ _ _ _ _ Hc Hj) as (i & _ & w & Hw & ->).
        exists w. rewrite Ecs. split; [by eapply elem_of_list_lookup_2|]. done. }
      destruct (Hat a Ha) as (wa & Hwa & Ax & Az). destruct (Hat b Hb) as (wb & Hwb & Bx & Bz).
      destruct (return_vert wa Hwa). destruct (return_vert wb Hwb). rewrite Eb, K1, Hbd in *.
      unfold ModelDetail.dist2, dot2, sub2, xz. cbn [fst snd]. rewrite Ax, Az, Bx, Bz.
      destruct (diff_R (cf_cs c) W4a W4b (proj1 W4c) (proj2 W4c) (vx wb) (vx wa)) as (V1 & F1 & B1); [lia|lia|].
      destruct (diff_R (cf_cs c) W4a W4b (proj1 W4c) (proj2 W4c) (vz wb) (vz wa)) as (V2 & F2 & B2); [lia|lia|].
      destruct (side_R (cf_cs c) (proj1 W4c) (proj2 W4c) _ _ V1 F1 B1 V2 F2 B2) as (V3 & F3 & B3).
      by eapply (side_count (cf_cs c) (cf_sample_dist c)).
    - intros k row l Hk Hl. eapply return_region; [done|done|]. by apply (Hcorners k row l).
  Qed.
End returning.

(** The rest of the build, given its regions: it panics when a region has more
    boundaries than expected, fails when a contour cannot be triangulated, panics
    when the detail outgrows its bookkeeping, and otherwise returns a navmesh. *)
Theorem C85_build_returns :
  ∀ cosf f1 f2 c affs tris hf0 hf1 hf2 ch0 ch1 ch2 ch3 O, measures c → workable c →
  rasterized cosf c affs tris hf0 hf1 → Z.of_nat (hf_w hf0) ≤ 32767 → Z.of_nat (hf_h hf0) ≤ 32767 →
  divided c hf1 hf2 ch0 ch1 ch2 ch3 →
  field_opens hf2 O → Forall (λ o, length o ≤ 62)%nat O → Z.of_nat (length (concat O)) < 2 ^ 32 → regions_small ch3 →
  2 * cf_border c ≤ Z.of_nat (hf_w hf0) → 2 * cf_border c ≤ Z.of_nat (hf_h hf0) → (2 * (hf_w hf0 * hf_h hf0) < f2)%nat →
  let build := build_navmesh cosf f1 f2 c affs in
  (build = Panicked ∧ more_boundaries ch3 (Z.max (ch_maxreg ch3) 8)) ∨
  ∃ ks, build_contours ch3 (cf_edge_err c) (cf_edge_len c) (cf_wall c) (cf_areas c) = Done ks ∧
    (fits (Z.to_nat (cf_nvp c)) (ks_contours ks) → Forall plain_contour (drawn (ks_contours ks)) →
     (build = Done (BErr (MeshError InvalidContour)) ∧ ∃ ct, ct ∈ drawn (ks_contours ks) ∧ ¬ strictly_convex (fst <$> ct_verts ct)) ∨
     ∃ pm, into_polygon_mesh f1 (Z.to_nat (cf_nvp c)) ks = Done (Ok pm) ∧
       ((∃ dm, build = Done (BOk (Run tris hf0 hf1 hf2 ch0 ch1 ch2 ch3 ks pm dm))) ∨
        (build = Panicked ∧ outgrows pm ch3 (cf_sample_dist c) (cf_sample_err c)))).
Proof.
  intros cosf f1 f2 c affs tris hf0 hf1 hf2 ch0 ch1 ch2 ch3 O M W Hras Dw Dh (E2 & E3 & E4 & E5 & E6) HO Hlay Htot Hsm Bw Bh Hfuel build.
  destruct (rasterized_reach _ _ _ _ _ _ M Hras Dw Dh) as (R1 & W1 & H1 & GC).
  pose proof (ms_wh _ M) as Mw. pose proof (ms_climb _ M) as Mc.
  destruct (filters_reach _ (cf_wh c) (cf_climb c) _ R1 Mw ltac:(lia) E2) as (R2 & W2 & H2 & G2).
  destruct (reachable_ok _ R2) as [cols2 Hok2]. destruct (reachable_ok _ R1) as [cols1 Hok1].
  set (run0 := Run tris hf0 hf1 hf2 ch0 ch1 ch2 ch3).
  assert (∀ ks pm dm, moderate (run0 ks pm dm)) as Hmod.
  { intros ks pm dm. split; cbn; [done|done| |done]. intros O' HO'. apply (field_opens_rep _ cols2) in HO'; [|done].
    apply (field_opens_rep _ cols2) in HO; [|done]. subst O O'. done. }
  assert (∀ ks pm dm, ∃ O', staged c (run0 ks pm dm) O') as Hst.
  { intros ks pm dm. destruct Hras as (m & lo & hi & Eg & _ & Em & E0 & E1).
    exact (stages_staged _ _ _ _ c (run0 ks pm dm) M (Hmod ks pm dm) Eg Em E0 E1 E2 E3 E4 E5 E6). }
  assert (field_geometry hf1 (geom <$> cols1)) as HG by (by apply (field_geometry_rep _ cols1)).
  assert (build = (let! ks := build_contours ch3 (cf_edge_err c) (cf_edge_len c) (cf_wall c) (cf_areas c) in
    let! r := into_polygon_mesh f1 (Z.to_nat (cf_nvp c)) ks in
    match r with
    | Err e => Done (BErr (MeshError e))
    | Ok pm => let! dm := detail_new f2 pm ch3 (cf_sample_dist c) (cf_sample_err c) in Done (BOk (run0 ks pm dm))
    end)) as Eb.
  { unfold build. rewrite (build_from _ f1 f2 _ _ _ _ _ Hras), E2. cbn [obind]. unfold or_err at 1. rewrite E3. cbn [obind].
    rewrite E4. cbn [obind]. rewrite E5. cbn [obind]. unfold or_err at 1. rewrite E6. done. }
  clearbody build.
  set (ks0 := CSet [] (hf_geo hf0) 0 0 0 f_zero). set (pm0 := PMesh [] [] [] [] [] [] 0 (hf_geo hf0) 0 f_zero). set (dm0 := DMesh [] [] [] []).
  destruct (Hst ks0 pm0 dm0) as [O0 S0].
  destruct (regions_cells c _ _ S0) as (_ & Ew & Eh & _). cbn [r_regions r_field run0] in Ew, Eh.
  pose proof (sg_contourable _ _ _ S0) as Hca. pose proof (sg_border _ _ _ S0) as Hbd. cbn [r_regions run0] in Hca, Hbd.
  destruct (C33_panics_only_if_full ch3 (cf_edge_err c) (cf_edge_len c) (cf_wall c) (cf_areas c) Hca (ms_edge _ M)) as [[ks EC]|[EC Hmany]].
  - rewrite Hbd, Ew, W2, W1. lia.
  - rewrite Hbd, Eh, H2, H1. lia.
  - destruct (wk_edge _ W) as [|?]; [by left|]. right. rewrite Ew, Eh, W2, W1, H2, H1. done.
  - right. exists ks. split; [done|]. intros Hfit Hplain.
    destruct (C51_mesh f1 (Z.to_nat (cf_nvp c)) ks Hfit Hplain) as (x & EP & Hx). rewrite EC in Eb. cbn [obind] in Eb. rewrite EP in Eb. cbn [obind] in Eb.
    destruct x as [pm|e]; [right|left].
    + exists pm. split; [done|]. destruct Hx as [pieces HM].
      assert (detailable pm ch3 (cf_sample_dist c) (cf_sample_err c)) as Hdet.
      { apply (return_detailable c (run0 ks pm dm0) O0 (geom <$> cols1)) with (f1 := f1) (ks := ks) (pieces := pieces); try done.
        - destruct S0. split; done.
        - cbn. rewrite W2, W1. done.
        - cbn. rewrite H2, H1. done.
        - cbn [r_regions run0]. pose proof (sg_regions _ _ _ S0) as (_ & _ & _ & _ & _ & C6 & _). pose proof (sg_dist _ _ _ S0) as (_ & _ & _ & _ & _ & _ & B7 & _).
          pose proof (sg_eroded _ _ _ S0) as (_ & _ & _ & _ & _ & _ & _ & A8 & _). cbn [r_regions r_dist r_eroded r_open run0] in C6, B7, A8.
          rewrite C6, B7, A8.
          assert (countable (opens_of cols2)) as Hcount.
          { apply (field_opens_rep _ cols2) in HO as ->; [|done]. split; [|done]. eapply Forall_impl; [exact Hlay|]. intros o Ho. cbn in *. lia. }
          pose proof (runs_eq _ _ _ (into_compact_spec hf2 cols2 (cf_wh c) (cf_climb c) Hok2 Hcount) E3) as [_ H]. destruct (H _ eq_refl) as (_ & _ & _ & _ & _ & _ & _ & _ & -> & _).
          cbn. by rewrite G2. }
      destruct (C84_detail_returns f2 pm ch3 (cf_sample_dist c) (cf_sample_err c) (live_indices <$> pm_polys pm) Hdet) as [(dm & sizes & ED & _)|[ED (sizes & Z1 & Z2 & Z3)]].
      * rewrite Ew, Eh, W2, W1, H2, H1. done.
      * apply lives_ok.
      * left. exists dm. rewrite Eb, ED. done.
      * right. rewrite Eb, ED. split; [done|]. exists (live_indices <$> pm_polys pm), sizes. split; [|done].
        apply lives_ok.
    + destruct Hx as [-> Hx]. by rewrite Eb.
  - left. rewrite Eb, EC. done.
Qed.
Print Assumptions C85_build_returns.

(** The scene of C70 meets the hypotheses. *)
Lemma scene_workable : workable scene_cfg.
Proof.
  destruct (f_of_Z_R 1) as [E1 F1]; [lia|]. destruct (f_of_Z_R 6) as [E6 F6]; [lia|].
  split; cbn [cf_nvp cf_edge_len cf_wall cf_areas cf_edge_err cf_cs cf_sample_dist scene_cfg].
  - lia.
  - right. lia.
  - by vm_compute.
  - split; [by vm_compute|]. split; [done|]. rewrite E1. Lra.lra.
  - split; [by vm_compute|]. split; [done|]. rewrite E6. Lra.lra.
  - rewrite E1, E6. Lra.lra.
Qed.
#[local] Instance plain_dec ct : Decision (plain_contour ct).
Proof. unfold plain_contour, small. apply _. Defined.
#[local] Instance fits_dec nvp cs : Decision (fits nvp cs).
Proof. unfold fits. apply _. Defined.
Example C85_ex : ∃ tris hf0 hf1 hf2 ch0 ch1 ch2 ch3 O ks,
  measures scene_cfg ∧ workable scene_cfg ∧ rasterized half scene_cfg slab_scene tris hf0 hf1 ∧
  hf_w hf0 = 12%nat ∧ hf_h hf0 = 12%nat ∧ divided scene_cfg hf1 hf2 ch0 ch1 ch2 ch3 ∧
  field_opens hf2 O ∧ Forall (λ o, length o ≤ 62)%nat O ∧ concat O ≠ [] ∧ Z.of_nat (length (concat O)) < 2 ^ 32 ∧ regions_small ch3 ∧
  build_contours ch3 (cf_edge_err scene_cfg) (cf_edge_len scene_cfg) (cf_wall scene_cfg) (cf_areas scene_cfg) = Done ks ∧
  fits 6 (ks_contours ks) ∧ Forall plain_contour (drawn (ks_contours ks)) ∧ drawn (ks_contours ks) ≠ [].
Proof.
  destruct (ok_with_run (build_navmesh half 300 300 scene_cfg slab_scene) (λ r, moderate_b r &&
    bool_decide (hf_w (r_empty r) = 12%nat) && bool_decide (hf_h (r_empty r) = 12%nat) && bool_decide (0 < walkable_span_count (r_field r))%nat &&
    bool_decide (fits 6 (ks_contours (r_contours r))) && bool_decide (Forall plain_contour (drawn (ks_contours (r_contours r)))) &&
    bool_decide (0 < length (drawn (ks_contours (r_contours r))))%nat))
    as (r & Er & H); [vm_compute; reflexivity|].
  apply andb_true_iff in H as [H H7%bool_decide_eq_true]. apply andb_true_iff in H as [H H6%bool_decide_eq_true].
  apply andb_true_iff in H as [H H5%bool_decide_eq_true]. apply andb_true_iff in H as [H H4%bool_decide_eq_true].
  apply andb_true_iff in H as [H H3%bool_decide_eq_true]. apply andb_true_iff in H as [Hm H2%bool_decide_eq_true].
  pose proof (moderate_b_ok _ _ _ _ _ _ scene_measures Er Hm) as Hmod.
  destruct (build_staged _ _ _ _ _ _ scene_measures Er Hmod) as [O S].
  apply build_done in Er as (m & lo & hi & Eg & Ea & Em & E0 & E1 & E2 & E3 & E4 & E5 & E6 & E7 & _).
  exists (r_tris r), (r_empty r), (r_solid r), (r_field r), (r_open r), (r_eroded r), (r_dist r), (r_regions r), O, (r_contours r).
  pose proof (sg_opens _ _ _ S) as HO. destruct (md_layers _ Hmod O HO) as [Hlay Htot].
  split; [apply scene_measures|]. split; [apply scene_workable|].
  split; [exists m, lo, hi; split; [exact Eg|split; [exact Ea|split; [exact Em|split; [exact E0|exact E1]]]]|].
  split; [exact H2|]. split; [exact H3|].
  split; [split; [exact E2|split; [exact E3|split; [exact E4|split; [exact E5|exact E6]]]]|].
  split; [exact HO|]. split; [exact Hlay|]. split.
  { intros E. destruct (reachable_ok _ (sg_field _ _ _ S)) as [cols Hok]. pose proof (walkable_count_spec _ _ (ok_rep _ _ Hok)) as Hn.
    apply (field_opens_rep _ cols) in HO; [|exact Hok]. rewrite <-HO, E in Hn. cbn in Hn. lia. }
  split; [exact Htot|]. split; [exact (md_regions _ Hmod)|]. split; [exact E7|]. split; [exact H5|]. split; [exact H6|].
  intros E. rewrite E in H7. cbn in H7. lia.
Qed.
(** With a threshold that no triangle reaches, no span is walkable, and the build panics. *)
Example C85_no_floor : build_navmesh (λ _, f_of_Z 2) 300 300 scene_cfg slab_scene = Panicked.
Proof. vm_compute. reflexivity. Qed.
