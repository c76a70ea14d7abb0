(** The editor's view: theorems C78 and C79. *)
From Verif Require Import Base ModelMath ModelHeightfield ModelContours ModelPoly ModelTriMesh ModelDetail ModelExport ModelConfig ModelPipeline
  ModelView SpecPoly SpecDetail SpecPipeline SpecView SpecSession ExportProofs DetailMeshProofs ViewProofs SessionProofs
  PropertiesTriMesh PropertiesMesh PropertiesDetail PropertiesPipeline.
Local Open Scope Z_scope.

(** ** C78 *)

(** Lines and surface of a polygon mesh show its polygons, whatever their number
    of corners. *)
Theorem C78_polygon_mesh :
  ∀ nvp m, Forall (λ row, ∃ vs, padded nvp vs row ∧ Forall (λ v, v < Z.of_nat (length (pm_verts m))) vs) (pm_polys m) →
  2 * Z.of_nat nvp * Z.of_nat (length (pm_polys m)) < 4294967296 →
  ∃ lines s, poly_lines m = Done lines ∧ poly_surface m = Done s ∧ poly_picture nvp m lines s.
Proof.
  intros nvp m H Hb. destruct (poly_lines_ok nvp m H) as (lines & El & Hl). destruct (poly_surface_ok nvp m H Hb) as (s & tss & Es & Hc & Ht).
  exists lines, s. split; [exact El|]. split; [exact Es|]. split; [exact Hl|]. by exists tss.
Qed.
Print Assumptions C78_polygon_mesh.

Lemma tiles_sum from (l : list submesh) to : tiles from ((λ s, (sm_vbase s, sm_vcount s)) <$> l) to →
  foldr (λ m n, sm_vcount m + n) 0 l = to - from.
Proof.
  revert from. induction l as [|m l IH]; intros from H; cbn in *; [lia|]. destruct H as (_ & _ & H). rewrite (IH _ H). lia.
Qed.

(** Lines and surface of a detail mesh whose sub-meshes partition its tables show
    all of its triangles, each with the vertices of its own sub-mesh. *)
Theorem C78_detail_mesh :
  ∀ d,
  tiles 0 ((λ s, (sm_vbase s, sm_vcount s)) <$> dm_meshes d) (Z.of_nat (length (dm_verts d))) →
  tiles 0 ((λ s, (sm_tbase s, sm_tcount s)) <$> dm_meshes d) (Z.of_nat (length (dm_tris d))) →
  Forall (λ sm, Forall (λ t, ∀ x, x ∈ corners t → Z.of_nat x < sm_vcount sm) (segment (dm_tris d) (sm_tbase sm) (sm_tcount sm))) (dm_meshes d) →
  Z.of_nat (length (dm_verts d)) < 4294967296 →
  ∃ lines s, detail_lines d = Done lines ∧ detail_surface d = Done s ∧ detail_picture d lines s.
Proof.
  intros d Hv Ht Hi Hb. apply detail_ok.
  - apply Forall_lookup. intros k m Hm.
    assert (((λ s, (sm_vbase s, sm_vcount s)) <$> dm_meshes d) !! k = Some (sm_vbase m, sm_vcount m)) as Kv by (by rewrite list_lookup_fmap, Hm).
    assert (((λ s, (sm_tbase s, sm_tcount s)) <$> dm_meshes d) !! k = Some (sm_tbase m, sm_tcount m)) as Kt by (by rewrite list_lookup_fmap, Hm).
    apply (tiles_range _ _ _ k) with (1 := Hv) in Kv. apply (tiles_range _ _ _ k) with (1 := Ht) in Kt.
    do 6 (split; [lia|]). eapply Forall_impl; [exact (Forall_lookup_1 _ _ _ _ Hi Hm)|]. intros [[a b] c] H x Hx. by apply H.
  - apply tiles_sum in Hv. lia.
Qed.
Print Assumptions C78_detail_mesh.

Lemma into_nvp hf nvp ks pm : into_polygon_mesh hf nvp ks = Done (Ok pm) → pm_nvp pm = nvp.
Proof.
  unfold into_polygon_mesh. destruct (_ <? _); [done|]. cbv zeta. unfold pbind.
  destruct (all_contours _ _ _ _) as [[[[t flags] m]|]| |]; try done. cbn [obind].
  destruct (remove_flagged _ _ _ _ _ _ _) as [[m'|]| |]; try done. cbn [obind].
  destruct (build_adjacency _ _ _ _) as [polys| |]; try done. cbn [obind].
  destruct (0 <? ks_border ks).
  - destruct (find_portals _ _ _ _ _ _) as [q| |]; try done. cbn [obind]. by intros [= <-].
  - cbn [obind]. by intros [= <-].
Qed.
(** What the build makes can be drawn. *)
Theorem C78_built :
  ∀ cosf f1 f2 c affs r, measures c → build_navmesh cosf f1 f2 c affs = Done (BOk r) → moderate r →
  corner_total (ks_contours (r_contours r)) < 65535 → cf_nvp c <= 32767 →
  drawable (r_mesh r, r_detail r).
Proof.
  intros cosf f1 f2 c affs r M E D Hc Hn. pose proof (C71_navmesh _ _ _ _ _ _ M E D) as H. cbv zeta in H.
  destruct H as (_ & _ & _ & Hp & _ & _ & _ & Hd).
  apply build_done in E as (m0 & lo & hi & _ & _ & _ & _ & _ & _ & _ & _ & _ & _ & _ & E8 & E9).
  assert (3 <= Z.to_nat (cf_nvp c))%nat as H3 by (pose proof (ms_nvp _ M); lia).
  destruct (C64_mesh_shape f1 _ (r_contours r) (r_mesh r) H3 E8) as (_ & _ & _ & _ & Hsz & _).
  destruct (C64_live f1 _ (r_contours r) (r_mesh r) H3 E8) as [Hbig Hlive].
  split; cbn [fst snd].
  - rewrite (into_nvp _ _ _ _ E8). apply C78_polygon_mesh; [|nia]. eapply Forall_impl; [exact Hp|]. intros row (vs & P & F). exists vs. auto.
  - destruct (decide (pm_verts (r_mesh r) = [])) as [Ev|Hvn].
    + assert (r_detail r = dmesh0) as ->. { unfold detail_new in E9. rewrite Ev in E9. cbn in E9. congruence. }
      apply C78_detail_mesh; cbn; try done; constructor.
    + destruct (Hd Hvn) as (D1 & D2 & D3 & _ & D5).
      destruct (C59_submeshes _ _ _ _ _ _ Hvn Hbig Hlive E9) as (_ & _ & _ & _ & D6).
      apply C78_detail_mesh; [exact D2|exact D3|apply Forall_lookup; exact D5|].
      pose proof (tiles_sum _ _ _ D2) as Hs.
      assert (∀ sm, sm ∈ dm_meshes (r_detail r) → sm_vcount sm <= 127) as H127.
      { intros sm (k & Hk)%elem_of_list_lookup. destruct (lookup_lt_is_Some_2 (pm_polys (r_mesh r)) k) as [row Hrow]. { rewrite <-D1. by eapply lookup_lt_Some. }
        destruct (Hlive row) as (l & Hl & _); [by eapply elem_of_list_lookup_2|]. by destruct (D6 k row l sm Hrow Hl Hk) as (? & _). }
      assert (∀ l : list submesh, (∀ sm, sm ∈ l → sm_vcount sm <= 127) → foldr (λ m n, sm_vcount m + n) 0 l <= 127 * Z.of_nat (length l)) as Hsum.
      { clear. induction l as [|m l IH]; intros H; [done|]. cbn [foldr length].
        assert (sm_vcount m <= 127) by (apply H, elem_of_list_here). assert (foldr (λ m n, sm_vcount m + n) 0 l <= 127 * Z.of_nat (length l)); [|lia].
        apply IH. intros sm Hsm. apply H. by apply elem_of_list_further. }
      specialize (Hsum _ H127). lia.
Qed.
Print Assumptions C78_built.

Lemma mapM_o_panics {A B} (f : A → outcome B) l : Forall (λ x, (∃ b, f x = Done b) ∨ f x = Panicked) l → Exists (λ x, f x = Panicked) l → mapM_o f l = Panicked.
Proof.
  induction l as [|x l IH]; intros H He; [by apply Exists_nil in He|]. apply Forall_cons in H as [[[b Hb]|Hp] H]; cbn [mapM_o].
  - rewrite Hb. cbn [obind]. apply Exists_cons in He as [He|He]; [congruence|]. by rewrite (IH H He).
  - by rewrite Hp.
Qed.
(** The triangles of an affector that was loaded are outlined, unless an index is
    out of range: then the editor panics. *)
Theorem C78_affectors :
  ∀ t, Forall (λ i : Z * Z * Z, 0 <= i.1.1 ∧ 0 <= i.1.2 ∧ 0 <= i.2) (tm_idx t) →
  (Forall (λ i : Z * Z * Z, Forall (λ j, j < Z.of_nat (length (tm_verts t))) [i.1.1; i.1.2; i.2]) (tm_idx t) →
    ∃ l, affector_lines (affector_mesh t) = Done l ∧ affector_picture t l) ∧
  (¬ Forall (λ i : Z * Z * Z, Forall (λ j, j < Z.of_nat (length (tm_verts t))) [i.1.1; i.1.2; i.2]) (tm_idx t) →
    affector_lines (affector_mesh t) = Panicked).
Proof.
  intros t H0. split.
  - intros H. destruct (affector_lines_ok t) as (l & El & Hl); [|by exists l].
    apply Forall_forall. intros i Hi. rewrite Forall_forall in H, H0. specialize (H i Hi). specialize (H0 i Hi). cbn in H0.
    repeat rewrite Forall_cons in H. repeat rewrite Forall_cons. repeat split; try constructor; lia.
  - intros H. unfold affector_lines. rewrite affector_trip. cbn [unwrap obind tm_verts tm_idx]. apply mapM_o_panics.
    + apply Forall_forall. intros [[a b] c] _. cbn [mapM_o fst snd]. unfold get.
      destruct (tm_verts t !! Z.to_nat a); [|by right]. destruct (tm_verts t !! Z.to_nat b); [|by right].
      destruct (tm_verts t !! Z.to_nat c); [|by right]. left. by eexists.
    + apply not_Forall_Exists in H; [|apply _]. apply Exists_exists in H as ([[a b] c] & Hin & Hi). apply Exists_exists. exists (a, b, c). split; [done|].
      cbn [mapM_o fst snd]. cbn [compose fst snd] in Hi. rewrite Forall_forall in H0. specialize (H0 _ Hin). cbn in H0.
      unfold get. destruct (tm_verts t !! Z.to_nat a) eqn:Ea; [|done]. destruct (tm_verts t !! Z.to_nat b) eqn:Eb; [|done].
      destruct (tm_verts t !! Z.to_nat c) eqn:Ec; [|done]. exfalso. apply Hi.
      apply lookup_lt_Some in Ea, Eb, Ec. repeat constructor; lia.
Qed.
Print Assumptions C78_affectors.

(** ** C79 *)

(** No sequence of clicks, builds, loads and systems makes the view panic. *)
Theorem C79_no_panic :
  ∀ h, Forall (sound) h → ∃ s, history h session0 = Done s.
Proof. intros h H. destruct (history_inv h true session0 H (inv_start)) as (s & E & _). by exists s. Qed.
Print Assumptions C79_no_panic.

(** Which boxes are ticked, which navmesh is the latest and which scene is loaded is
    what the events say. *)
Fixpoint ticked (h : list event) (g : gizmo) (b : bool) : bool :=
  match h with
  | [] => b
  | EToggle g' :: h => ticked h g (if decide (g = g') then negb b else b)
  | _ :: h => ticked h g b
  end.
Fixpoint latest (h : list event) (n : option (pmesh * dmesh)) : option (pmesh * dmesh) :=
  match h with [] => n | EBuild m :: h => latest h (Some m) | _ :: h => latest h n end.
Fixpoint scene (h : list event) (r : list visual * list trimesh) : list visual * list trimesh :=
  match h with [] => r | ELoad r' :: h => scene h (rs_vis r', (rs_aff r').*2) | _ :: h => scene h r end.

Definition loaded (s : session) (r : list visual * list trimesh) : Prop := (ses_vis s).*1 = r.1 ∧ (ses_affs s).*1 = affector_mesh <$> r.2.
Lemma run_keeps y s s' : run_sys y s = Done s' → ses_on s' = ses_on s ∧ ses_mesh s' = ses_mesh s ∧ (ses_vis s').*1 = (ses_vis s).*1 ∧ (ses_affs s').*1 = (ses_affs s).*1.
Proof.
  assert (∀ l l', mapM_o (λ a : bmesh * list (list vec3), let! ls := affector_lines a.1 in Done (a.1, ls)) l = Done l' → l'.*1 = l.*1) as Hm.
  { set (f := λ a : bmesh * list (list vec3), _). induction l as [|a l IH]; intros l' H; [by injection H as <-|].
    change (obind (f a) (λ b, obind (mapM_o f l) (λ bs, Done (b :: bs))) = Done l') in H. unfold f at 1 in H.
    destruct (affector_lines a.1) as [ls| |]; [|done|done]. cbn [obind] in H.
    destruct (mapM_o f l) as [q| |] eqn:Eq; [|done|done]. cbn [obind] in H. injection H as <-. rewrite !fmap_cons. cbn [fst]. by rewrite (IH _ eq_refl). }
  intros H. destruct y as [[]|g]; cbn [run_sys] in H.
  - destruct (ses_ton s GVisual && ses_on s GVisual); injection H as <-; cbn; [|done]. by rewrite <-list_fmap_compose.
  - destruct (ses_ton s GAffector && ses_on s GAffector); [|by injection H as <-].
    destruct (mapM_o _ _) as [l| |] eqn:El in H; [|done|done]. cbn [obind] in H. injection H as <-. apply Hm in El. done.
  - unfold mesh_condition in H. destruct (ses_mesh s) eqn:Es; [|by injection H as <-]. destruct (ses_on s GPoly); cbn [negb] in H; [|by injection H as <-].
    destruct (ses_new s GPoly); cbn [ses_mesh seen_new seen_on] in H; rewrite Es in H; [|destruct (ses_ton s GPoly && true); [|by injection H as <-]];
      destruct (draw_view _ _) in H; cbn [obind] in H; try done; by injection H as <-.
  - unfold mesh_condition in H. destruct (ses_mesh s) eqn:Es; [|by injection H as <-]. destruct (ses_on s GDetail); cbn [negb] in H; [|by injection H as <-].
    destruct (ses_new s GDetail); cbn [ses_mesh seen_new seen_on] in H; rewrite Es in H; [|destruct (ses_ton s GDetail && true); [|by injection H as <-]];
      destruct (draw_view _ _) in H; cbn [obind] in H; try done; by injection H as <-.
  - destruct (ses_toff s g && negb (ses_on s g)); injection H as <-; [|done]. destruct g; cbn; rewrite <-?list_fmap_compose; done.
Qed.
Lemma history_keeps h r s s' : history h s = Done s' → loaded s r →
  (∀ g, ses_on s' g = ticked h g (ses_on s g)) ∧ ses_mesh s' = latest h (ses_mesh s) ∧ loaded s' (scene h r).
Proof.
  unfold history. revert r s. induction h as [|e h IH]; intros r s E L; [by injection E as <-|]. cbn [foldM] in E.
  destruct (handle_event e s) as [s1| |] eqn:E1; [|done|done]. cbn [obind] in E. destruct e as [g|n|q|y]; cbn [handle_event ticked latest scene] in *.
  - injection E1 as <-. destruct (IH r _ E L) as (A1 & A2 & A3). split; [|done]. intros g'. rewrite A1. cbn [ses_on]. unfold upd.
    destruct (decide (g' = g)) as [->|]; done.
  - injection E1 as <-. by apply (IH r _ E).
  - injection E1 as <-. apply (IH (rs_vis q, (rs_aff q).*2) _ E). split; cbn [ses_vis ses_affs fst snd]; rewrite <-!list_fmap_compose; [|done].
    clear. induction (rs_vis q) as [|v l IHl]; [done|]. cbn. by f_equal.
  - destruct (run_keeps _ _ _ E1) as (B1 & B2 & B3 & B4). destruct (IH r s1 E) as (A1 & A2 & A3).
    { destruct L. split; congruence. }
    rewrite B2 in A2. split; [|done]. intros g. by rewrite A1, B1.
Qed.

(** After every frame the screen agrees with the checkboxes, the latest navmesh and
    the loaded scene, provided some checkbox was clicked after the latest load. At
    the start the detail mesh and the visual meshes are ticked. *)
Theorem C79_follows :
  ∀ h ys, Forall (sound) h → clicked h → frame ys →
  ∃ s, history (h ++ (ERun <$> ys)) session0 = Done s ∧ as_chosen s ∧
    (∀ g, ses_on s g = ticked h g (match g with GDetail | GVisual => true | _ => false end)) ∧
    ses_mesh s = latest h None ∧ (ses_vis s).*1 = (scene h ([], [])).1 ∧ (ses_affs s).*1 = affector_mesh <$> (scene h ([], [])).2.
Proof.
  intros h ys H Hc F. destruct (history_inv h true session0 H (inv_start)) as (s & E & Hi). rewrite (after_clicked h Hc) in Hi.
  destruct (frame_achieved ys s Hi) as (s' & E' & Hi' & A & Eo & Em). exists s'.
  destruct (history_keeps h ([], []) session0 s E) as (K1 & K2 & K3); [done|].
  destruct (history_keeps (ERun <$> ys) (scene h ([], [])) s s' E' K3) as (_ & _ & K4 & K5).
  assert (∀ r, scene (ERun <$> ys) r = r) as Er by (clear; induction ys; intros; cbn; auto). rewrite Er in K4, K5.
  split; [|split; [by apply (achieved_chosen ys)|]].
  - unfold history in *. by rewrite foldM_app, E.
  - rewrite Eo, Em, K2. split; [done|]. done.
Qed.
Print Assumptions C79_follows.

(** ** Loading a scene without a click *)

(** No run condition would let a system run. *)
Definition settled (s : session) : Prop :=
  (∀ g, ses_on s g = false → ses_toff s g = false) ∧
  (∀ g, g = GVisual ∨ g = GAffector → ses_on s g = true → ses_ton s g = false) ∧
  (∀ g, g = GPoly ∨ g = GDetail → ses_on s g = true → ses_mesh s = None ∨ (ses_new s g = false ∧ ses_ton s g = false)).
Lemma run_flags y s s' : run_sys y s = Done s' → ∀ g,
  (ses_new s g = false → ses_new s' g = false) ∧ (ses_ton s g = false → ses_ton s' g = false) ∧ (ses_toff s g = false → ses_toff s' g = false).
Proof.
  assert (∀ f g g', f g = false → upd f g' false g = false) as Hu.
  { intros f g g' H. unfold upd. by destruct (decide (g = g')). }
  intros H g. destruct y as [[]|g']; cbn [run_sys] in H.
  - destruct (ses_ton s GVisual && ses_on s GVisual); injection H as <-; cbn; auto.
  - destruct (ses_ton s GAffector && ses_on s GAffector); [|injection H as <-; cbn; auto].
    destruct (mapM_o _ _) as [l| |] eqn:El in H; [|done|done]. cbn [obind] in H. injection H as <-. cbn; auto.
  - unfold mesh_condition in H. destruct (ses_mesh s) eqn:Es; [|by injection H as <-]. destruct (ses_on s GPoly); cbn [negb] in H; [|by injection H as <-].
    destruct (ses_new s GPoly); cbn [ses_mesh seen_new seen_on] in H; rewrite Es in H; [|destruct (ses_ton s GPoly && true); [|injection H as <-; cbn; auto]];
      destruct (draw_view _ _) in H; cbn [obind] in H; try done; injection H as <-; cbn; auto.
  - unfold mesh_condition in H. destruct (ses_mesh s) eqn:Es; [|by injection H as <-]. destruct (ses_on s GDetail); cbn [negb] in H; [|by injection H as <-].
    destruct (ses_new s GDetail); cbn [ses_mesh seen_new seen_on] in H; rewrite Es in H; [|destruct (ses_ton s GDetail && true); [|injection H as <-; cbn; auto]];
      destruct (draw_view _ _) in H; cbn [obind] in H; try done; injection H as <-; cbn; auto.
  - destruct (ses_toff s g' && negb (ses_on s g')); injection H as <-; [|cbn; auto]. destruct g'; cbn; auto.
Qed.
Lemma run_clears y s s' : run_sys y s = Done s' →
  (∀ g, y = SHide g → ses_toff s' g = false) ∧
  (∀ g, y = SDraw g → g = GVisual ∨ g = GAffector → ses_ton s' g = false) ∧
  (∀ g, y = SDraw g → g = GPoly ∨ g = GDetail → ses_on s g = true → ses_mesh s ≠ None → ses_new s' g = false ∧ (ses_new s g = false → ses_ton s' g = false)).
Proof.
  intros H. destruct y as [[]|g']; cbn [run_sys] in H; split; try split; intros g [= <-]; try (intros [?|?]; done).
  - intros _. destruct (ses_ton s GVisual && ses_on s GVisual); injection H as <-; cbn; apply upd_same.
  - intros _. destruct (ses_ton s GAffector && ses_on s GAffector); [|injection H as <-; cbn; apply upd_same].
    destruct (mapM_o _ _) as [l| |] eqn:El in H; [|done|done]. cbn [obind] in H. injection H as <-. cbn. apply upd_same.
  - intros _ Ho Hm. unfold mesh_condition in H. destruct (ses_mesh s) eqn:Es; [|done]. rewrite Ho in H; cbn [negb] in H.
    destruct (ses_new s GPoly); cbn [ses_mesh seen_new seen_on] in H; rewrite Es in H; [|destruct (ses_ton s GPoly && true); [|injection H as <-; cbn; rewrite ?upd_same; naive_solver]];
      destruct (draw_view _ _) in H; cbn [obind] in H; try done; injection H as <-; cbn; rewrite ?upd_same; naive_solver.
  - intros _ Ho Hm. unfold mesh_condition in H. destruct (ses_mesh s) eqn:Es; [|done]. rewrite Ho in H; cbn [negb] in H.
    destruct (ses_new s GDetail); cbn [ses_mesh seen_new seen_on] in H; rewrite Es in H; [|destruct (ses_ton s GDetail && true); [|injection H as <-; cbn; rewrite ?upd_same; naive_solver]];
      destruct (draw_view _ _) in H; cbn [obind] in H; try done; injection H as <-; cbn; rewrite ?upd_same; naive_solver.
  - destruct (ses_toff s g' && negb (ses_on s g')); injection H as <-; [|cbn; apply upd_same]. destruct g'; cbn; apply upd_same.
Qed.
(** What a list of systems has cleared. *)
Lemma systems_clear ys s s' : history (ERun <$> ys) s = Done s' →
  ses_on s' = ses_on s ∧ ses_mesh s' = ses_mesh s ∧
  (∀ g, (ses_new s g = false → ses_new s' g = false) ∧ (ses_ton s g = false → ses_ton s' g = false) ∧ (ses_toff s g = false → ses_toff s' g = false)) ∧
  (∀ g, SHide g ∈ ys → ses_toff s' g = false) ∧
  (∀ g, SDraw g ∈ ys → g = GVisual ∨ g = GAffector → ses_ton s' g = false) ∧
  (∀ g, SDraw g ∈ ys → g = GPoly ∨ g = GDetail → ses_on s g = true → ses_mesh s ≠ None → ses_new s' g = false ∧ (ses_new s g = false → ses_ton s' g = false)).
Proof.
  unfold history. revert s. induction ys as [|y ys IH]; intros s E; cbn [fmap list_fmap foldM handle_event] in E.
  - injection E as <-. split; [done|]. split; [done|]. split; [done|]. split; [|split]; intros g H%elem_of_nil; done.
  - destruct (run_sys y s) as [s1| |] eqn:E1; [|done|done]. cbn [obind] in E. destruct (IH s1 E) as (I1 & I2 & I3 & I4 & I5 & I6).
    destruct (run_keeps _ _ _ E1) as (B1 & B2 & _). pose proof (run_flags _ _ _ E1) as F. destruct (run_clears _ _ _ E1) as (C1 & C2 & C3).
    split; [congruence|]. split; [congruence|]. split. { intros g. destruct (F g) as (? & ? & ?), (I3 g) as (? & ? & ?). auto. }
    split; [|split].
    + intros g [Hg|Hg]%elem_of_cons; [|auto]. apply I3, C1. by symmetry.
    + intros g [Hg|Hg]%elem_of_cons H; [|auto]. apply I3, C2; [by symmetry|done].
    + intros g [Hg|Hg]%elem_of_cons H Ho Hm.
      * destruct (C3 g (eq_sym Hg) H Ho Hm) as [Q1 Q2]. split; [apply I3, Q1|intros Hn; apply I3, Q2, Hn].
      * rewrite <-B1 in Ho. rewrite <-B2 in Hm. destruct (I6 g Hg H Ho Hm) as [Q1 Q2]. split; [done|]. intros Hn. apply Q2, F, Hn.
Qed.
Lemma two_frames ys ys' s s' : frame ys → frame ys' → history (ERun <$> (ys ++ ys')) s = Done s' → settled s'.
Proof.
  intros F F' E. unfold history in E. rewrite fmap_app, foldM_app in E. destruct (foldM handle_event (ERun <$> ys) s) as [s1| |] eqn:E1; [|done|done]. cbn [obind] in E.
  destruct (systems_clear _ _ _ E1) as (A1 & A2 & A3 & A4 & A5 & A6). destruct (systems_clear _ _ _ E) as (B1 & B2 & B3 & B4 & B5 & B6).
  split; [|split].
  - intros g _. apply B4, F'.
  - intros g Hg _. apply B5; [apply F'|done].
  - intros g Hg Ho. destruct (decide (ses_mesh s' = None)) as [|Hm]; [by left|right].
    assert (ses_new s1 g = false) as Hn by (apply A6; [apply F|done|congruence|congruence]).
    destruct (B6 g) as [Q1 Q2]; [apply F'|done|congruence|congruence|]. auto.
Qed.
(** Nothing runs on a settled screen. *)
Lemma settled_step y s : settled s → ∃ s', run_sys y s = Done s' ∧ settled s' ∧ ses_on s' = ses_on s ∧ ses_mesh s' = ses_mesh s ∧
  ses_poly s' = ses_poly s ∧ ses_detail s' = ses_detail s ∧ ses_affs s' = ses_affs s ∧ ses_vis s' = ses_vis s.
Proof.
  intros (S1 & S2 & S3).
  assert (∃ s', run_sys y s = Done s' ∧ ses_poly s' = ses_poly s ∧ ses_detail s' = ses_detail s ∧ ses_affs s' = ses_affs s ∧ ses_vis s' = ses_vis s) as (s' & E & H).
  { destruct y as [[]|g]; cbn [run_sys].
    - assert (ses_ton s GVisual && ses_on s GVisual = false) as ->; [|by eexists].
      destruct (ses_on s GVisual) eqn:Eo; [rewrite (S2 GVisual) by auto; done|]. apply andb_false_r.
    - assert (ses_ton s GAffector && ses_on s GAffector = false) as ->; [|by eexists].
      destruct (ses_on s GAffector) eqn:Eo; [rewrite (S2 GAffector) by auto; done|]. apply andb_false_r.
    - unfold mesh_condition. destruct (ses_mesh s) eqn:Es; [|by eexists]. destruct (ses_on s GPoly) eqn:Eo; cbn [negb]; [|by eexists].
      destruct (S3 GPoly) as [?|[-> ->]]; [by left|done|congruence|]. by eexists.
    - unfold mesh_condition. destruct (ses_mesh s) eqn:Es; [|by eexists]. destruct (ses_on s GDetail) eqn:Eo; cbn [negb]; [|by eexists].
      destruct (S3 GDetail) as [?|[-> ->]]; [by right|done|congruence|]. by eexists.
    - assert (ses_toff s g && negb (ses_on s g) = false) as ->; [|by eexists].
      destruct (ses_on s g) eqn:Eo; [apply andb_false_r|by rewrite (S1 g Eo)]. }
  exists s'. split; [done|]. destruct (run_keeps _ _ _ E) as (B1 & B2 & _). pose proof (run_flags _ _ _ E) as F.
  split; [|tauto]. split; [|split].
  - intros g Ho. apply F, S1. congruence.
  - intros g Hg Ho. apply F, S2; [done|]. congruence.
  - intros g Hg Ho. rewrite B1 in Ho. rewrite B2. destruct (S3 g Hg Ho) as [?|[? ?]]; [by left|]. right. split; apply F; done.
Qed.

(** A scene loaded after two frames without input: until the next click or build,
    all its visual meshes are visible and none of its affectors is outlined,
    whatever the checkboxes say; the surfaces of the old navmesh stay as they were,
    but lose their lines. *)
Theorem C79_after_load :
  ∀ h ys ys' r zs, Forall (sound) h → loadable r → frame ys → frame ys' →
  ∃ s s', history (h ++ (ERun <$> (ys ++ ys'))) session0 = Done s ∧
    history (ELoad r :: (ERun <$> zs)) s = Done s' ∧ ses_on s' = ses_on s ∧
    ses_vis s' = (λ v, (v, true)) <$> rs_vis r ∧
    ses_affs s' = (λ a : list f32 * trimesh, (affector_mesh a.2, [])) <$> rs_aff r ∧
    ses_poly s' = Vw (vw_visible (ses_poly s)) [] (vw_surface (ses_poly s)) ∧
    ses_detail s' = Vw (vw_visible (ses_detail s)) [] (vw_surface (ses_detail s)).
Proof.
  intros h ys ys' r zs H Hr F F'.
  destruct (history_inv (h ++ (ERun <$> (ys ++ ys'))) true session0) as (s & E & _).
  { apply Forall_app. split; [done|]. apply Forall_fmap. by apply Forall_true. }
  { apply inv_start. }
  exists s. assert (settled s) as Hs.
  { unfold history in E. rewrite foldM_app in E. destruct (foldM handle_event h session0) as [s0| |]; [|done|done]. cbn [obind] in E. by apply (two_frames ys ys' s0). }
  unfold history. cbn [foldM handle_event obind]. set (s1 := Ses _ _ _ _ _ _ _ _ _).
  assert (settled s1) as Hs1 by exact Hs.
  assert (∀ zs t, settled t → ∃ s', foldM handle_event (ERun <$> zs) t = Done s' ∧ settled s' ∧ ses_on s' = ses_on t ∧ ses_mesh s' = ses_mesh t ∧
    ses_poly s' = ses_poly t ∧ ses_detail s' = ses_detail t ∧ ses_affs s' = ses_affs t ∧ ses_vis s' = ses_vis t) as Hz.
  { clear. induction zs as [|z zs IH]; intros t Ht; [by exists t|]. destruct (settled_step z t Ht) as (t1 & E1 & H1 & K).
    cbn [fmap list_fmap foldM handle_event]. rewrite E1. cbn [obind]. destruct (IH t1 H1) as (t2 & E2 & H2 & K2). exists t2. split; [done|]. split; [done|].
    destruct K as (-> & -> & -> & -> & -> & ->) in K2. exact K2. }
  destruct (Hz zs s1 Hs1) as (s' & E' & _ & K1 & _ & K3 & K4 & K5 & K6). exists s'. split; [exact E|]. split; [exact E'|].
  rewrite K1, K3, K4, K5, K6. done.
Qed.
Print Assumptions C79_after_load.

(** ** Concrete cases *)

(** A pentagon and a triangle, with room for six corners. *)
Definition pentagon : pmesh :=
  PMesh [V 0 0 0; V 0 0 4; V 2 1 6; V 4 0 4; V 4 0 0; V 8 0 2] [[0; 1; 2; 3; 4; 65535]; [4; 3; 5; 65535; 65535; 65535]] [] [] [] [] 6 geo0 0 f_zero.
Example C78_polygon_mesh_ex : Forall (λ row, ∃ vs, padded 6 vs row ∧ Forall (λ v, v < Z.of_nat (length (pm_verts pentagon))) vs) (pm_polys pentagon) ∧
  (sf_idx <$> match poly_surface pentagon with Done s => Some s | _ => None end) = Some [0; 1; 2; 0; 3; 4; 0; 5; 6; 7; 8; 9].
Proof.
  split; [|by vm_compute]. constructor; [|constructor; [|constructor]].
  - exists [0; 1; 2; 3; 4]. repeat constructor; done.
  - exists [4; 3; 5]. repeat constructor; done.
Qed.
Definition two_subs : dmesh :=
  DMesh [SubM 0 3 0 1; SubM 3 4 1 2] (repeat v_zero 3 ++ [p3 0 0 0; p3 0 0 1; p3 1 0 1; p3 1 0 0]) [(0, 1, 2); (0, 1, 2); (0, 2, 3)]%nat [0; 0; 0].
Example C78_detail_mesh_ex :
  tiles 0 ((λ s, (sm_vbase s, sm_vcount s)) <$> dm_meshes two_subs) (Z.of_nat (length (dm_verts two_subs))) ∧
  tiles 0 ((λ s, (sm_tbase s, sm_tcount s)) <$> dm_meshes two_subs) (Z.of_nat (length (dm_tris two_subs))) ∧
  Forall (λ sm, Forall (λ t, ∀ x, x ∈ corners t → Z.of_nat x < sm_vcount sm) (segment (dm_tris two_subs) (sm_tbase sm) (sm_tcount sm))) (dm_meshes two_subs).
Proof.
  split; [by vm_compute|]. split; [by vm_compute|]. repeat constructor; intros x Hx; cbn in Hx; repeat (apply elem_of_cons in Hx as [->|Hx]; [done|]); by apply elem_of_nil in Hx.
Qed.
Example C78_built_ex : ∃ r, measures scene_cfg ∧ build_navmesh half 100 100 scene_cfg slab_scene = Done (BOk r) ∧ moderate r ∧
  corner_total (ks_contours (r_contours r)) < 65535 ∧ cf_nvp scene_cfg <= 32767 ∧ pm_polys (r_mesh r) ≠ [].
Proof.
  destruct (ok_with_run (build_navmesh half 100 100 scene_cfg slab_scene) (λ r, moderate_b r &&
    (corner_total (ks_contours (r_contours r)) <? 65535) && negb (Nat.eqb (length (pm_polys (r_mesh r))) 0)))
    as (r & Er & H); [vm_compute; reflexivity|].
  apply andb_true_iff in H as [[Hm Hv]%andb_true_iff Ht].
  exists r. split; [apply scene_measures|]. split; [exact Er|].
  split; [exact (moderate_b_ok _ _ _ _ _ _ scene_measures Er Hm)|]. clear Er Hm. split; [lia|]. split; [by vm_compute|]. by destruct (pm_polys (r_mesh r)).
Qed.

(** A scene with a visual mesh and an affector of one triangle. *)
Definition small_tm : trimesh := TM [p3 0 0 0; p3 0 0 1; p3 1 0 1] [(0, 1, 2)] [0].
Definition small_scene : response := Rs [([], small_tm)] [Vi [] 0 None] [] [] [].
Definition all_systems : list sys :=
  [SDraw GPoly; SDraw GDetail; SDraw GAffector; SDraw GVisual; SHide GPoly; SHide GDetail; SHide GAffector; SHide GVisual].
Lemma all_frame : frame all_systems.
Proof. intros g. unfold all_systems. destruct g; split; rewrite !elem_of_cons; tauto. Qed.
Lemma small_loadable : loadable small_scene.
Proof. repeat constructor; cbn; lia. Qed.
Lemma pentagon_drawable : drawable (pentagon, two_subs).
Proof.
  split; cbn [fst snd].
  - apply C78_polygon_mesh; [apply C78_polygon_mesh_ex|by vm_compute].
  - destruct C78_detail_mesh_ex as (H1 & H2 & H3). by apply C78_detail_mesh.
Qed.
(** Both meshes ticked, then built, loaded, built again; then the box of the
    affectors is clicked. *)
Example C79_follows_ex : let h := [EToggle GPoly; EBuild (pentagon, two_subs); ERun (SDraw GPoly); ELoad small_scene; EBuild (pentagon, two_subs); EToggle GAffector] in
  Forall sound h ∧ clicked h ∧ frame all_systems ∧
  match history (h ++ (ERun <$> all_systems)) session0 with
  | Done s => (length (vw_lines (ses_poly s)), length (vw_lines (ses_detail s)), length <$> (ses_affs s).*2) = (2, 3, [1])%nat
  | _ => False
  end.
Proof.
  cbv zeta. split; [|split; [|split; [apply all_frame|by vm_compute]]].
  - rewrite ?Forall_app, ?Forall_fmap, ?Forall_cons; split_and!; try exact I; try apply Forall_nil_2; try (by apply Forall_true); try apply pentagon_drawable; apply small_loadable.
  - intros h1 r h2 E. exists GAffector.
    assert (last (ELoad r :: h2) = Some (EToggle GAffector)) as Hl. { rewrite <-(last_app_cons h1), <-E. done. }
    destruct h2 as [|e h2]; [done|]. rewrite last_cons_cons in Hl. by apply last_Some_elem_of.
Qed.

(** Loading a scene while its visual meshes are unticked shows them; loading one
    while affectors are ticked does not show them; and the old detail mesh keeps its
    surface but not its lines. *)
Theorem C79_load_refuted :
  ∃ h s, Forall sound h ∧ history (h ++ (ERun <$> all_systems)) session0 = Done s ∧ frame all_systems ∧
    (ses_on s GVisual = false ∧ (ses_vis s).*2 = [true]) ∧
    (ses_on s GAffector = true ∧ (ses_affs s).*2 = [[]] ∧ (∀ t, trimesh_of <$> (ses_affs s).*1 = [Some t] → ¬ affector_picture t [])) ∧
    (ses_on s GDetail = true ∧ ses_mesh s = Some (pentagon, two_subs) ∧ vw_visible (ses_detail s) = true ∧ vw_lines (ses_detail s) = []) ∧
    ¬ as_chosen s.
Proof.
  set (h := [EBuild (pentagon, two_subs); EToggle GVisual; EToggle GAffector] ++ (ERun <$> (all_systems ++ all_systems)) ++ [ELoad small_scene]).
  exists h. destruct (history (h ++ (ERun <$> all_systems)) session0) as [s| |] eqn:E; [|by vm_compute in E|by vm_compute in E]. exists s.
  vm_compute in E. injection E as <-.
  split; [unfold h; rewrite ?Forall_app, ?Forall_fmap, ?Forall_cons; split_and!; try exact I; try apply Forall_nil_2; try (by apply Forall_true); try apply pentagon_drawable; apply small_loadable|].
  split; [done|]. split; [apply all_frame|]. split; [done|]. split; [|split; [done|]].
  - split; [done|]. split; [done|]. intros t Ht (ts & H1 & H2). apply Forall2_nil_inv_r in H2. subst ts. apply Forall2_nil_inv_r in H1.
    vm_compute in Ht. injection Ht as <-. done.
  - intros [_ _ _ _ H]. apply Forall_cons in H as [H _]. done.
Qed.
Print Assumptions C79_load_refuted.
Example C78_affectors_ex : affector_lines (affector_mesh small_tm) = Done [[p3 0 0 0; p3 0 0 1; p3 1 0 1; p3 0 0 0]] ∧
  affector_lines (affector_mesh (TM (tm_verts small_tm) [(0, 1, 3)] [0])) = Panicked.
Proof. by vm_compute. Qed.
Example C79_after_load_ex : Forall sound [EBuild (pentagon, two_subs); EToggle GVisual] ∧ loadable small_scene ∧ frame all_systems.
Proof. rewrite !Forall_cons. split_and!; try exact I; [apply pentagon_drawable|constructor|apply small_loadable|apply all_frame]. Qed.
