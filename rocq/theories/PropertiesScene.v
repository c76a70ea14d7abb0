(** Whole builds: obstacles and failures, theorems C72 and C73. *)
From Verif Require Import Base ModelMath ModelHeightfield ModelFilters ModelHistory ModelTriMesh ModelRasterize ModelCompact
  ModelDistance ModelRegions ModelContours ModelPoly ModelDetail ModelExport ModelConfig ModelPipeline
  SpecHeightfield SpecCompact SpecDistance SpecTriMesh SpecPoly SpecPipeline HistoryProofs FilterProofs CompactProofs LinkProofs FlowProofs GivesProofs
  TriMeshProofs TriangulateProofs ReverseProofs PipelineProofs PaintProofs
  PropertiesHeightfield PropertiesRasterize PropertiesTriMesh PropertiesCompact PropertiesDistance PropertiesPoly PropertiesMesh
  PropertiesPipeline.
Local Open Scope Z_scope.

(** ** C72 *)

(** A polygon with convex corners that winds the wrong way: the outline of an
    obstacle inside a region, which contour building walks in the opposite
    direction. *)
Definition hole_outline (ps : list vtx) : Prop :=
  (4 ≤ length ps)%nat ∧ Forall small ps ∧
  ∀ i j k a b c, (i < j < k)%nat → ps !! i = Some a → ps !! j = Some b → ps !! k = Some c → 0 < cross a b c.

Lemma seq_positions (ps : list vtx) : at_pos ps <$> seq 0 (length ps) = ps.
Proof.
  apply list_eq. intros i. rewrite list_lookup_fmap. destruct (ps !! i) as [p|] eqn:E.
  - rewrite lookup_seq_lt by (by eapply lookup_lt_Some). cbn. unfold at_pos. by rewrite E.
  - rewrite lookup_seq_ge by (by apply lookup_ge_None). done.
Qed.
(** It is never triangulated. *)
Theorem C72_hole_fails :
  ∀ ps cap, hole_outline ps → triangulate ps (seq 0 (length ps)) cap = Done (Err InvalidContour).
Proof.
  intros ps cap (H4 & Hs & Hc). pose proof (reverse_triangulate ps False (seq 0 (length ps)) cap) as H.
  rewrite seq_positions, seq_length in H.
  destruct (triangulate ps (seq 0 (length ps)) cap) as [r| |]; cbn in H; [rewrite H; [done|..]|exfalso; apply H|exfalso; apply H];
    try done; try lia;
    (intros i Hi%elem_of_seq; left; destruct (lookup_lt_is_Some_2 ps i) as [v Hv]; [lia|]; exists v; split; [done|];
     by apply (Forall_lookup_1 _ _ _ _ Hs Hv)).
Qed.

(** So no mesh is ever made of contours with the outline of an obstacle among
    them, however good the others are. *)
Theorem C72_no_mesh_around_obstacles :
  ∀ hf nvp ks ct pm, ct ∈ ks_contours ks → hole_outline (fst <$> ct_verts ct) →
  into_polygon_mesh hf nvp ks ≠ Done (Ok pm).
Proof.
  intros hf nvp ks ct pm Hct Hh E. destruct (mesh_triangulated _ _ _ _ E) as [cap HF]. rewrite Forall_forall in HF.
  destruct (HF ct Hct) as (tris & Et). { pose proof Hh as (H4 & _). rewrite fmap_length in H4. lia. }
  pose proof (C72_hole_fails _ cap Hh) as H. rewrite fmap_length in H. rewrite Et in H. done.
Qed.
Theorem C72_error :
  ∀ hf nvp ks ct, fits nvp (ks_contours ks) → Forall plain_contour (drawn (ks_contours ks)) →
  ct ∈ ks_contours ks → hole_outline (fst <$> ct_verts ct) →
  into_polygon_mesh hf nvp ks = Done (Err InvalidContour).
Proof.
  intros hf nvp ks ct Hf Hp Hct Hh. destruct (C51_mesh hf nvp ks Hf Hp) as (r & E & Hr). rewrite E. destruct r as [pm|e].
  - by destruct (C72_no_mesh_around_obstacles hf nvp ks ct pm Hct Hh).
  - destruct Hr as [-> _]. done.
Qed.
(** And no build succeeds. *)
Theorem C72_no_build :
  ∀ cosf f1 f2 c affs r ct, build_navmesh cosf f1 f2 c affs = Done (BOk r) → ct ∈ ks_contours (r_contours r) →
  ¬ hole_outline (fst <$> ct_verts ct).
Proof.
  intros cosf f1 f2 c affs r ct E Hct Hh. apply build_done in E as (m & lo & hi & _ & _ & _ & _ & _ & _ & _ & _ & _ & _ & _ & E8 & _).
  by apply (C72_no_mesh_around_obstacles _ _ _ _ _ Hct Hh E8).
Qed.

(** A floor twelve cells a side with a box of three cells, two voxels high, in
    the middle: its floor is walkable all around, but the build fails. *)
Definition box_scene : list affector := [(Some quad, scaled 12 (-2) 1 3); (Some quad, scaled 3 3 3 8)].
Definition fails_with (o : outcome (bresult run)) (e : build_error) : bool :=
  match o, e with
  | Done (BErr (MeshError InvalidContour)), MeshError InvalidContour => true
  | Done (BErr EmptyScene), EmptyScene => true
  | _, _ => false
  end.
Lemma fails_with_ok o e : fails_with o e = true → o = Done (BErr e).
Proof. destruct o as [[?|[]]| |]; destruct e; cbn; try done; repeat case_match; congruence. Qed.
Theorem C72_box_on_a_floor_refuted :
  measures scene_cfg ∧
  (∃ r, build_navmesh half 100 100 scene_cfg [(Some quad, scaled 12 (-2) 1 3)] = Done (BOk r) ∧ length (pm_polys (r_mesh r)) = 1%nat) ∧
  build_navmesh half 100 100 scene_cfg box_scene = Done (BErr (MeshError InvalidContour)).
Proof.
  split; [apply scene_measures|]. split.
  - destruct (ok_with_run (build_navmesh half 100 100 scene_cfg [(Some quad, scaled 12 (-2) 1 3)])
      (λ r, Nat.eqb (length (pm_polys (r_mesh r))) 1)) as (r & Er & H); [vm_compute; reflexivity|].
    exists r. split; [exact Er|]. by apply Nat.eqb_eq.
  - apply fails_with_ok. vm_compute. reflexivity.
Qed.

(** The outline of that box, as contour building returns it. *)
Definition box_outline : list vtx := [V 3 1 4; V 7 1 3; V 8 1 7; V 4 1 8].
Example C72_ex : hole_outline box_outline.
Proof.
  split; [cbn; lia|]. split; [repeat constructor; cbn; lia|]. intros i j k a b c Hijk Ha Hb Hc.
  pose proof (lookup_lt_Some _ _ _ Hc) as Hk. cbn in Hk.
  assert (k = 3 ∨ k = 2)%nat as [-> | ->] by lia; [assert (j = 2 ∨ j = 1)%nat as [-> | ->] by lia|assert (j = 1)%nat as -> by lia];
    [assert (i = 0 ∨ i = 1)%nat as [-> | ->] by lia| |]; try assert (i = 0)%nat as -> by lia; cbn in Ha, Hb, Hc; injection Ha as <-; injection Hb as <-; injection Hc as <-; vm_compute; done.
Qed.
Definition hole_set (ps : list (Z * Z)) : contour_set :=
  set_of [contour_of [(0, 0); (0, 12); (12, 12); (12, 0)] [0; 0; 0; 0]; contour_of ps (repeat 0 (length ps))].
Example C72_ex_set : fits 6 (ks_contours (hole_set [(3, 4); (7, 3); (8, 7); (4, 8)])) ∧
  Forall plain_contour (drawn (ks_contours (hole_set [(3, 4); (7, 3); (8, 7); (4, 8)]))).
Proof.
  change (drawn (ks_contours (hole_set [(3, 4); (7, 3); (8, 7); (4, 8)]))) with (ks_contours (hole_set [(3, 4); (7, 3); (8, 7); (4, 8)])).
  split; [|repeat constructor; cbn; try lia; try set_solver]. split; [lia|]. split; [lia|]. by vm_compute.
Qed.

(** A hole with three corners does not fail, but becomes a polygon of the wrong
    winding on top of the polygon around it. *)
Theorem C72_triangular_hole_refuted :
  ∃ ks pm vs, into_polygon_mesh 0 6 ks = Done (Ok pm) ∧ fits 6 (ks_contours ks) ∧ Forall plain_contour (drawn (ks_contours ks)) ∧
    vs ++ repeat 65535 3 ∈ pm_polys pm ∧ 0 < poly_area (place (pm_verts pm) <$> vs) ∧
    (∃ ws, ws ++ repeat 65535 2 ∈ pm_polys pm ∧ place (pm_verts pm) <$> ws = [V 0 0 0; V 0 0 12; V 12 0 12; V 12 0 0]).
Proof.
  exists (hole_set [(3, 4); (7, 3); (8, 7)]). eexists. exists [4; 5; 6]. split; [vm_compute; reflexivity|]. cbn [pm_polys pm_verts].
  split; [|split; [|split; [|split]]].
  - split; [lia|]. split; [lia|]. by vm_compute.
  - change (drawn (ks_contours (hole_set [(3, 4); (7, 3); (8, 7)]))) with (ks_contours (hole_set [(3, 4); (7, 3); (8, 7)])).
    repeat constructor; cbn; try lia; try set_solver.
  - right. left.
  - vm_compute. done.
  - exists [0; 1; 2; 3]. split; [left|]. vm_compute. done.
Qed.

(** ** C73 *)

(** The mesh of an affector, if it can be read. *)
Definition mesh_in (a : affector) : option trimesh := a.1 ≫= trimesh_of.
(** The triangles that it adds to the scene, moved by its transform. *)
Definition shown (a : affector) : list placed_tri :=
  match mesh_in a with None => [] | Some t => SpecTriMesh.move a.2 <$> soup t end.
Definition vertex_count (a : affector) : Z := match mesh_in a with None => 0 | Some t => Z.of_nat (length (tm_verts t)) end.
Definition scene_valid (affs : list affector) : Prop := Forall (λ a, ∀ t, mesh_in a = Some t → valid t) affs.

Lemma soup_moved g t : soup (TM (g <$> tm_verts t) (tm_idx t) (tm_areas t)) = SpecTriMesh.move g <$> soup t.
Proof.
  unfold soup. cbn. generalize (tm_idx t) as l, (tm_areas t) as l'. intros l. induction l as [|[[a b] c] l IH]; intros [|x l']; try done.
  cbn. rewrite IH. f_equal. unfold SpecTriMesh.move. cbn. unfold corner_at. repeat case_match; cbn; rewrite ?list_lookup_fmap; done.
Qed.
(** Gathering keeps the triangles of all readable meshes, moved, in order. *)
Theorem C73_scene :
  ∀ affs, scene_valid affs → foldr Z.add 0 (vertex_count <$> affs) <= 4294967295 →
  ∃ m, gather affs = Done m ∧ valid m ∧ soup m = concat (shown <$> affs) ∧
    Z.of_nat (length (tm_verts m)) = foldr Z.add 0 (vertex_count <$> affs).
Proof.
  intros affs Hv Hn.
  assert (∀ a0, valid a0 → Z.of_nat (length (tm_verts a0)) + foldr Z.add 0 (vertex_count <$> affs) <= 4294967295 →
    ∃ m, foldM add_affector affs a0 = Done m ∧ valid m ∧ soup m = soup a0 ++ concat (shown <$> affs) ∧
      Z.of_nat (length (tm_verts m)) = Z.of_nat (length (tm_verts a0)) + foldr Z.add 0 (vertex_count <$> affs)) as H.
  { clear Hn. assert (∀ l, 0 <= foldr Z.add 0 (vertex_count <$> l)) as Hpos.
    { intros l. induction l as [|a l IHl]; cbn; [lia|]. unfold vertex_count at 1. case_match; lia. }
    induction Hv as [|a affs Ha Hv IH]; intros a0 H0 Hn; cbn [foldM fmap list_fmap concat foldr] in *.
    - exists a0. rewrite app_nil_r. split; [done|]. split; [done|]. split; [done|lia].
    - unfold add_affector, shown, vertex_count in *. fold (mesh_in a). destruct (mesh_in a) as [t|] eqn:Et.
      + destruct (Ha t eq_refl) as [Hi Hl]. set (b := TM (a.2 <$> tm_verts t) (tm_idx t) (tm_areas t)).
        assert (valid b) as Hb. { split; cbn; [by rewrite fmap_length|done]. }
        specialize (Hpos affs). assert (length (tm_verts b) = length (tm_verts t)) as Elen by (cbn; by rewrite fmap_length).
        destruct (extend_done a0 b H0 Hb) as (m1 & E1 & V1 & S1 & L1); [unfold vertex_count in *; lia..|]. rewrite E1. cbn [obind].
        assert (Z.of_nat (length (tm_verts m1)) = Z.of_nat (length (tm_verts a0)) + Z.of_nat (length (tm_verts t))) as L1'.
        { revert E1. unfold extend. destruct (_ <? _); [done|]. intros (? & _ & [= <-])%obind_done. cbn. rewrite app_length. fold b in Elen. cbn in Elen. lia. }
        destruct (IH m1 V1) as (m & E & V & S & L); [lia|]. exists m. split; [done|]. split; [done|]. split; [|lia].
        rewrite S, S1, <-app_assoc. do 2 f_equal. apply soup_moved.
      + cbn [obind]. destruct (IH a0 H0) as (m & E & V & S & L); [lia|]. exists m. done. }
  destruct (H tm_default) as (m & E & V & S & L); [by repeat constructor|cbn; lia|]. exists m. done.
Qed.
(** Affectors whose mesh cannot be read make no difference to a build. *)
Theorem C73_unreadable :
  ∀ cosf f1 f2 c affs, build_navmesh cosf f1 f2 c affs = build_navmesh cosf f1 f2 c (filter (λ a, mesh_in a ≠ None) affs).
Proof.
  intros cosf f1 f2 c affs.
  assert (gather affs = gather (filter (λ a, mesh_in a ≠ None) affs)) as E; [|unfold build_navmesh; by rewrite E].
  unfold gather. generalize tm_default. induction affs as [|a affs IH]; intros m; [done|]. rewrite filter_cons.
  destruct (decide (mesh_in a ≠ None)) as [Ha|Ha]; cbn [foldM].
  - destruct (add_affector a m) as [m'| |]; [|done|done]. cbn [obind]. apply IH.
  - unfold add_affector at 1. fold (mesh_in a). destruct (mesh_in a) as [t|]; [by destruct Ha|]. apply IH.
Qed.
(** The scene is reported as empty exactly if no readable mesh has a vertex. *)
Theorem C73_empty :
  ∀ cosf f1 f2 c affs, scene_valid affs → foldr Z.add 0 (vertex_count <$> affs) <= 4294967295 →
  build_navmesh cosf f1 f2 c affs = Done (BErr EmptyScene) ↔ Forall (λ a, vertex_count a = 0) affs.
Proof.
  intros cosf f1 f2 c affs Hv Hn. destruct (C73_scene affs Hv Hn) as (m & E & _ & _ & L). unfold build_navmesh. rewrite E. cbn [obind].
  assert (foldr Z.add 0 (vertex_count <$> affs) = 0 ↔ Forall (λ a, vertex_count a = 0) affs) as Hz.
  { clear. assert (∀ a, 0 <= vertex_count a) as Hp by (intros a; unfold vertex_count; case_match; lia).
    assert (∀ l, 0 <= foldr Z.add 0 (vertex_count <$> l)) as Hpos.
    { intros l. induction l as [|a l IHl]; cbn; [lia|]. specialize (Hp a). lia. }
    induction affs as [|a l IH]; cbn; [done|]. rewrite Forall_cons, <-IH. specialize (Hp a). specialize (Hpos l). lia. }
  rewrite <-Hz, <-L. destruct (tm_verts m) as [|v vs]; cbn [aabb_of length]; [done|]. split; [|lia]. intros H. exfalso. revert H.
  unfold or_err. intros (? & _ & ([?|] & _ & H)%obind_done)%obind_done; [|done].
  apply obind_done in H as ([?|] & _ & H); [|done]. apply obind_done in H as (? & _ & H). apply obind_done in H as ([?|] & _ & H); [|done].
  apply obind_done in H as (? & _ & H). apply obind_done in H as (? & _ & H). apply obind_done in H as ([?|] & _ & H); [|done].
  apply obind_done in H as (? & _ & H). apply obind_done in H as ([?|?] & _ & H); [|done]. apply obind_done in H as (? & _ & H). done.
Qed.

(** A scene without a triangle that faces up is not reported: the build panics. *)
Theorem C73_nothing_walkable_panics :
  ∀ cosf f1 f2 c affs m lo hi hf, measures c → gather affs = Done m → valid m → aabb_of (tm_verts m) = Some (lo, hi) →
  build_heightfield (Geo lo hi (cf_cs c) (cf_ch c)) = Done (Some hf) → Z.of_nat (hf_w hf) < 65535 → Z.of_nat (hf_h hf) < 65535 →
  (∀ t, t ∈ tm_idx m → ¬ faces_up (tm_verts m) (cosf (cf_slope c)) t) →
  build_navmesh cosf f1 f2 c affs = Panicked.
Proof.
  intros cosf f1 f2 c affs m lo hi hf [Mw Mc Mr Mb Me Mn] Eg Hv Ea E0 Hw Hh Hno.
  unfold build_navmesh. rewrite Eg. cbn [obind]. rewrite Ea.
  destruct (C44_marks_exactly m (cosf (cf_slope c)) Hv) as (m' & Em & Ev & Ei & _). rewrite Em. cbn [obind].
  unfold or_err. rewrite E0. cbn [obind]. destruct (field_of _ _ E0 Hw Hh) as [R0 _].
  set (P := λ a : Z, a = 0).
  assert (Forall P (tm_areas m')) as Har.
  { eapply Forall_impl; [exact (mark_faces _ _ _ Em (gather_areas _ _ Eg))|]. intros a [->|[_ (t & Ht & Hu)]]; [done|].
    rewrite Ei in Ht. rewrite Ev in Hu. by destruct (Hno t Ht). }
  assert (painted P hf) as Hp0.
  { unfold build_heightfield in E0. repeat (destruct (_ || _) in E0; [done|]).
    repeat match goal with H : context [obind] |- _ => apply obind_done in H as (? & ? & H) end.
    repeat (case_match; try done). injection E0 as <-. intros k s. cbn. by rewrite lookup_empty. }
  pose proof (painted_triangles P hf m' (cf_climb c) R0 ltac:(lia) ltac:(lia)
    ltac:(eapply Forall_impl; [exact Har|]; intros a ->; split; [lia|done]) ltac:(lia) Hp0) as Hr.
  destruct (rasterize_triangles hf m' (cf_climb c)) as [r1| |]; [|done|done]. destruct Hr as (hf1 & -> & Hby & Hp1). cbn [obind].
  destruct (by_insertions_shape _ _ R0 Hby) as (R1 & W1 & H1 & _).
  assert (runs (run_filters (cf_wh c) (cf_climb c) hf1) (λ _, True)) as Hf.
  { destruct (reachable_ok _ R1) as [cols1 Hok1]. 
    eapply runs_mono; [apply (C10_pipeline hf1 (cf_wh c) (cf_climb c) (geom <$> cols1) R1 Mw ltac:(lia))|done]. by apply (field_geometry_rep _ cols1). }
  destruct (run_filters (cf_wh c) (cf_climb c) hf1) as [hf2| |] eqn:E2; [|done|done]. cbn [obind]. clear Hf.
  destruct (filters_reach _ (cf_wh c) (cf_climb c) _ R1 Mw ltac:(lia) E2) as (R2 & W2 & H2 & _).
  pose proof (painted_filters P eq_refl _ _ _ Hp1 _ E2) as Hp2.
  destruct (reachable_ok _ R2) as [cols Hok]. set (O := opens_of cols).
  assert (field_opens hf2 O) as HO by (by apply (field_opens_rep _ cols)).
  assert (concat O = []) as EO.
  { pose proof (opens_painted P _ _ Hp2 HO) as A. pose proof (opens_walkable _ _ HO) as B.
    destruct (concat O) as [|p l]; [done|]. apply Forall_cons in A as [A _]. apply Forall_cons in B as [B _]. done. }
  assert (countable O) as Hcount. { split; [apply concat_bound|]; rewrite EO; cbn; lia. }
  pose proof (C15_error_iff _ O (cf_wh c) (cf_climb c) R2 HO Hcount) as H15.
  pose proof (C12_lists_walkable_spans _ O (cf_wh c) (cf_climb c) R2 HO Hcount) as H12.
  pose proof (C17_compaction_well_formed _ O (cf_wh c) (cf_climb c) R2 HO Hcount) as H17.
  destruct (into_compact hf2 (cf_wh c) (cf_climb c)) as [[ch|]| |]; [|exfalso|done|done]; cbn [runs obind] in *.
  2:{ destruct (proj1 H15 eq_refl) as (cl & o & k & p & _ & _ & _ & Ho & Hk & _).
      apply elem_of_list_split_length in Ho as (l1 & l2 & EOl & _). rewrite EOl, concat_app in EO. cbn in EO.
      destruct o; [done|]. by destruct (concat l1). }
  destruct (H12 ch eq_refl) as (Ow & Oh & _ & _ & _ & _ & _ & HL & _). specialize (H17 ch eq_refl).
  assert (fits_u16 ch) as Hf. { split; [rewrite Ow|rewrite Oh]; lia. }
  pose proof (C19_only_removes _ (cf_radius c) H17 Hf ltac:(lia)) as H19.
  destruct (erode_walkable_area ch (cf_radius c)) as [ch1| |]; [|done|done]. cbn [obind runs] in *. destruct H19 as (SA & Hwf1 & _).
  pose proof SA as (A1 & A2 & _ & _ & _ & _ & _ & _ & A9 & A10 & _ & A12).
  rewrite (C23_empty_field_panics ch1); [done|done|split; [rewrite A1|rewrite A2]; apply Hf|].
  rewrite A10. pose proof (lo_spans _ _ HL) as Hl. rewrite EO in Hl. by destruct (ch_spans ch).
Qed.

(** A floor seen from below only. *)
Definition mirrored (v : vec3) : vec3 := V3 (f_mul (v_x v) (f_of_Z (-12))) (v_y v) (f_mul (v_z v) (f_of_Z 12)).
Definition underside : list affector := [(Some quad, mirrored); (None, id)].
Example C73_ex : scene_valid underside ∧ foldr Z.add 0 (vertex_count <$> underside) = 4 ∧
  ∃ m lo hi hf, gather underside = Done m ∧ valid m ∧ aabb_of (tm_verts m) = Some (lo, hi) ∧
    build_heightfield (Geo lo hi (cf_cs scene_cfg) (cf_ch scene_cfg)) = Done (Some hf) ∧ hf_w hf = 12%nat ∧ hf_h hf = 12%nat ∧
    (∀ t, t ∈ tm_idx m → ¬ faces_up (tm_verts m) (half (cf_slope scene_cfg)) t).
Proof.
  assert (scene_valid underside) as Hv.
  { apply Forall_cons. split; [|apply Forall_cons; split; [|by apply Forall_nil]]; intros t; unfold mesh_in; cbn; [|done].
    intros [= <-]. repeat constructor; cbn; lia. }
  split; [done|]. split; [by vm_compute|].
  destruct (C73_scene underside Hv) as (m & Em & Vm & _); [vm_compute; congruence|].
  assert (∃ lo hi hf, aabb_of (tm_verts m) = Some (lo, hi) ∧ build_heightfield (Geo lo hi (cf_cs scene_cfg) (cf_ch scene_cfg)) = Done (Some hf) ∧
    hf_w hf = 12%nat ∧ hf_h hf = 12%nat) as (lo & hi & hf & A & B & W & H).
  { vm_compute in Em. injection Em as <-. do 3 eexists. split; [vm_compute; reflexivity|]. split; [vm_compute; reflexivity|]. done. }
  exists m, lo, hi, hf. split; [done|]. split; [done|]. split; [done|]. split; [done|]. split; [done|]. split; [done|].
  vm_compute in Em. injection Em as <-. clear. cbn [tm_idx tm_verts]. intros t Ht (a & b & c & Ha & Hb & Hc & Hf).
  repeat (apply elem_of_cons in Ht as [->|Ht]; [vm_compute in Ha, Hb, Hc; injection Ha as <-; injection Hb as <-; injection Hc as <-; vm_compute in Hf; done|]).
  by apply elem_of_nil in Ht.
Qed.
Theorem C73_ceiling_without_floor_refuted : measures scene_cfg ∧ build_navmesh half 100 100 scene_cfg underside = Panicked.
Proof.
  split; [apply scene_measures|]. destruct C73_ex as (_ & _ & m & lo & hi & hf & A & B & C & D & W & H & N).
  apply (C73_nothing_walkable_panics half 100 100 scene_cfg underside m lo hi hf); [apply scene_measures|done..|lia|lia|done].
Qed.
(** A floor that is too small for the agent is not an error: the mesh is empty. *)
Definition doormat : list affector := [(Some quad, scaled 4 0 0 0)].
Definition empty_b (r : run) : bool := match pm_polys (r_mesh r), dm_tris (r_detail r) with [], [] => true | _, _ => false end.
Example C73_too_small : ∃ r, build_navmesh half 100 100 scene_cfg doormat = Done (BOk r) ∧ empty_b r = true.
Proof. apply (ok_with_run _ empty_b). vm_compute. reflexivity. Qed.
(** And one with nothing at all is an empty scene. *)
Example C73_ex_empty : build_navmesh half 100 100 scene_cfg [(None, id)] = Done (BErr EmptyScene).
Proof. vm_compute. reflexivity. Qed.

Print Assumptions C72_hole_fails.
Print Assumptions C72_no_mesh_around_obstacles.
Print Assumptions C72_error.
Print Assumptions C72_no_build.
Print Assumptions C72_box_on_a_floor_refuted.
Print Assumptions C72_triangular_hole_refuted.
Print Assumptions C73_scene.
Print Assumptions C73_unreadable.
Print Assumptions C73_empty.
Print Assumptions C73_nothing_walkable_panics.
Print Assumptions C73_ceiling_without_floor_refuted.
