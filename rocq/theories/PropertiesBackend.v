(** From the game to the editor's build: C81. *)
From Verif Require Import Base ModelMath ModelTriMesh ModelExport ModelPipeline ModelBackend SpecTriMesh SpecExport ExportProofs
  PropertiesTriMesh PropertiesExport PropertiesScene.
Local Open Scope Z_scope.

(** The triangles of the mesh of an entity, if it has a mesh that is loaded and can
    be read. *)
Definition visible_tris (g : game) (e : gentity) (t : trimesh) : Prop :=
  ∃ h m, ge_mesh e = Some h ∧ gm_meshes g !! h = Some m ∧ trimesh_of m = Some t.
(** The body [id] exists and is static. *)
Definition static_in (g : game) (id : Z) : Prop :=
  ∃ k e, gm_entities g !! k = Some (id, e) ∧ ge_body e = Some BStatic ∧ ∀ j e', (j < k)%nat → gm_entities g !! j ≠ Some (id, e').
(** The triangles of a collider: the tessellation of its shape, none of them
    walkable; for a compound those of its parts, placed as C43 describes. *)
Definition shape_tris (c : collider) (t : trimesh) : Prop :=
  match c with
  | CShape s => s = Some (tm_verts t, tm_idx t) ∧ tm_areas t = repeat 0 (length (tm_idx t))
  | CCompound parts => Forall part_valid parts.*2 → foldr Z.add 0 (part_size <$> parts.*2) <= 4294967295 → valid t ∧ soup t = drifted parts
  end.
(** The triangles of the collider of an entity, if it belongs to a static body and
    its shape is supported. *)
Definition solid_tris (g : game) (e : gentity) (t : trimesh) : Prop :=
  ∃ c b, ge_collider e = Some (c, b) ∧ static_in g b ∧ shape_tris c t.

(** One entry for each entity that gives triangles, in order, and none for the
    others. *)
Inductive collects (P : gentity → trimesh → Prop) : list (Z * gentity) → list (list f32 * trimesh) → Prop :=
| collects_nil : collects P [] []
| collects_yes id e es t l : P e t → collects P es l → collects P ((id, e) :: es) ((ge_tf e, t) :: l)
| collects_no id e es l : (∀ t, ¬ P e t) → collects P es l → collects P ((id, e) :: es) l.

(** ** C81 *)

Lemma body_of_static g b : body_of g b = Some BStatic ↔ static_in g b.
Proof.
  unfold body_of, static_in. split.
  - destruct (list_find _ _) as [[k [i e]]|] eqn:E; [|done]. cbn. intros H.
    apply list_find_Some in E as (E & <- & Hj). cbn. exists k, e. split; [done|]. split; [done|].
    intros j e' Hlt E'. by apply (Hj j _ E').
  - intros (k & e & E & Hb & Hj). assert (list_find (λ e : Z * gentity, e.1 = b) (gm_entities g) = Some (k, (b, e))) as ->; [|done].
    apply list_find_Some. split; [done|]. split; [done|]. intros j [i e'] E' Hlt Hi. cbn in Hi. subst i. by apply (Hj j e').
Qed.
Lemma mesh3d_collects g : collects (visible_tris g) (gm_entities g) (mesh3d_backend g).
Proof.
  unfold mesh3d_backend. induction (gm_entities g) as [|[id e] es IH]; [constructor|]. cbn [omap list_omap].
  destruct (_ ≫= _) as [[tf t]|] eqn:E.
  - cbn in E. apply bind_Some in E as (h & Eh & E). apply bind_Some in E as (m & Em & E). apply bind_Some in E as (t' & Et & [= <- <-]).
    constructor; [|done]. by exists h, m.
  - constructor; [|done]. intros t (h & m & Eh & Em & Et). cbn in E. rewrite Eh in E. cbn in E. rewrite Em in E. cbn in E.
    by rewrite Et in E.
Qed.
Lemma collider_shape c o : collider_trimesh c = Done o → match o with Some t => shape_tris c t | None => ∀ t, ¬ shape_tris c t end.
Proof.
  destruct c as [s|parts]; cbn [collider_trimesh].
  - intros [= <-]. destruct s as [[vs idx]|]; cbn; [done|]. by intros t [? _].
  - intros (m & Em & [= <-])%obind_done Hv Hs. destruct (C43_actual_placement parts Hv Hs) as (m' & Em' & H1 & H2).
    rewrite Em in Em'. by injection Em' as ->.
Qed.
Lemma collider_collects g l : collider_backend g = Done l → collects (solid_tris g) (gm_entities g) l.
Proof.
  unfold collider_backend. revert l. induction (gm_entities g) as [|[id e] es IH]; intros l; cbn [collect_colliders].
  { intros [= <-]. constructor. }
  intros (x & Ex & (r & Er & [= <-])%obind_done)%obind_done. specialize (IH r Er). cbn [snd] in Ex.
  destruct x as [[tf t]|].
  - destruct (ge_collider e) as [[c b]|] eqn:Ec; [|done]. destruct (body_of g b) as [bd|] eqn:Eb; [|done].
    destruct (is_static bd) eqn:Es; [|done]. cbn [negb] in Ex. apply obind_done in Ex as (m & Em & [= Ef]).
    destruct m as [m|]; [|done]. injection Ef as <- <-. constructor; [|done]. exists c, b. split; [done|].
    split; [|by apply (collider_shape c (Some m))]. apply body_of_static. by destruct bd.
  - constructor; [|done]. intros t (c & b & Ec & Hs & Em). rewrite Ec in Ex. apply body_of_static in Hs. rewrite Hs in Ex. cbn in Ex.
    apply obind_done in Ex as ([m|] & Ed & Ex); [done|]. by apply (collider_shape c None Ed t).
Qed.

(** The backends give the editor exactly the triangles they are documented to. *)
Theorem C81_backends :
  ∀ g, (∃ l, run_backend BMesh3d g = Done l ∧ collects (visible_tris g) (gm_entities g) l) ∧
       (∀ l, run_backend BCollider g = Done l → collects (solid_tris g) (gm_entities g) l).
Proof. intros g. split; [|apply collider_collects]. eexists. split; [done|]. apply mesh3d_collects. Qed.

(** Colliders do not make the backend panic, unless a compound of a static body has
    too many vertices. *)
Theorem C81_no_panic :
  ∀ g, (∀ k id e parts b, gm_entities g !! k = Some (id, e) → ge_collider e = Some (CCompound parts, b) → static_in g b →
          Forall part_valid parts.*2 ∧ foldr Z.add 0 (part_size <$> parts.*2) <= 4294967295) →
  ∃ l, run_backend BCollider g = Done l.
Proof.
  intros g. cbn. unfold collider_backend. induction (gm_entities g) as [|[id e] es IH]; intros H; cbn [collect_colliders].
  { by eexists. }
  destruct IH as [r Er]; [intros k; apply (H (S k))|]. rewrite Er. cbn [snd].
  destruct (ge_collider e) as [[c b]|] eqn:Ec; [|by eexists]. destruct (body_of g b) as [bd|] eqn:Eb; [|by eexists].
  destruct (is_static bd) eqn:Es; [|by eexists]. cbn [negb]. destruct bd; try done. apply body_of_static in Eb.
  assert (∃ t, collider_trimesh c = Done t) as [t Et].
  { destruct c as [s|parts]; [by eexists|]. destruct (H 0%nat id e parts b eq_refl Ec Eb) as [Hv Hs].
    destruct (C43_actual_placement parts Hv Hs) as (m & Em & _). cbn. rewrite Em. by eexists. }
  rewrite Et. cbn [obind]. by eexists.
Qed.

(** Of several backends the one set last is used. *)
Theorem C81_last_backend :
  ∀ bs b g rest, request (foldl (λ r b, set_backend b r) None (bs ++ [b])) g rest = request (Some b) g rest.
Proof. intros bs b g rest. by rewrite foldl_app. Qed.

(** The meshes of the game's entities as affectors of a build in the game itself. *)
Definition own_meshes (eff : list f32 → vec3 → vec3) (g : game) : list affector :=
  omap (λ e : Z * gentity, h ← ge_mesh e.2; Some (gm_meshes g !! h, eff (ge_tf e.2))) (gm_entities g).
(** The triangles that a backend gave, moved, as a scene of one mesh after the other;
    areas are marked later. *)
Definition join (eff : list f32 → vec3 → vec3) (l : list (list f32 * trimesh)) : outcome trimesh :=
  foldM (λ a m, extend m (TM (eff a.1 <$> tm_verts a.2) (tm_idx a.2) (repeat 0 (length (tm_idx a.2))))) l tm_default.

Lemma gather_imported eff (tbl : gmap positive bmesh) l affs :
  Forall2 (λ (f : list f32 * trimesh) (s : list f32 * handle), s.1 = f.1 ∧ ∃ m, tbl !! s.2 = Some m ∧
     trimesh_of m = Some (TM (tm_verts f.2) (tm_idx f.2) (repeat 0 (length (tm_idx f.2))))) l affs →
  gather ((λ a : list f32 * handle, (tbl !! a.2, eff a.1)) <$> affs) = join eff l.
Proof.
  intros HF. unfold gather, join. generalize tm_default. induction HF as [|f s l affs (E1 & m & E2 & E3) _ IH]; intros m0; [done|].
  rewrite fmap_cons. cbn [foldM]. unfold add_affector at 1. cbn [fst snd]. rewrite E2. cbn [mbind option_bind]. rewrite E3. cbn [tm_verts tm_idx tm_areas].
  rewrite E1. destruct (extend m0 _) as [m1| |]; [|done..]. cbn [obind]. apply IH.
Qed.
Lemma trimesh_zero m t : trimesh_of m = Some t → tm_areas t = repeat 0 (length (tm_idx t)).
Proof.
  unfold trimesh_of, from_mesh. destruct (bm_topo m); try done. cbn [negb].
  intros (vs & _ & (is & _ & H)%bind_Some)%bind_Some. destruct (_ =? _)%nat; [|done]. by injection H as <-.
Qed.
Lemma gather_own eff g : gather (own_meshes eff g) = join eff (mesh3d_backend g).
Proof.
  unfold gather, join, own_meshes, mesh3d_backend. generalize tm_default. induction (gm_entities g) as [|[id e] es IH]; intros m0; [done|].
  cbn [omap list_omap fst snd]. destruct (ge_mesh e) as [h|]; cbn [mbind option_bind]; [|apply IH]. cbn [foldM].
  unfold add_affector at 1. cbn [fst snd]. destruct (gm_meshes g !! h) as [m|]; cbn [mbind option_bind]; [|apply IH].
  destruct (trimesh_of m) as [t|] eqn:Et; cbn [mbind option_bind]; [|apply IH]. cbn [foldM fst snd]. rewrite (trimesh_zero _ _ Et).
  destruct (extend m0 _) as [m1| |]; [|done..]. cbn [obind]. apply IH.
Qed.

(** Loading the game into the editor and building there gives, whatever the
    backend and the editor held before, the navmesh of the triangles of the backend,
    under their transforms. *)
Lemma loaded b g rest r eff meshes mats images ed l : run_backend b g = Done l → request (Some b) g rest = Done (inr r) →
  w_meshes rest = Some meshes → w_mats rest = Some mats → w_images rest = Some images →
  within_u32 meshes → within_u32 mats → within_u32 images → (∀ h m, meshes !! h = Some m → mesh_ok m) → editor_ok ed →
  ∃ affs vis ed', import_response r ed = Done (affs, vis, ed') ∧ gather (affectors_of eff ed' affs) = join eff l.
Proof.
  intros El. unfold request. rewrite El. cbn [obind]. set (w := Wd (Some (Some l)) _ _ _ _).
  intros Er0 E1 E2 E3 S1 S2 S3 Hok Hed.
  assert (get_navmesh_input false w = inr r) as Er by congruence. clear Er0.
  destruct (C56_roundtrip w r meshes mats images ed Er E1 E2 E3 S1 S2 S3 Hok Hed) as (affs & vis & ed' & Ei & _ & _ & _ & _ & HF & _).
  exists affs, vis, ed'. split; [done|]. unfold affectors_of.
  assert (rs_aff r = l) as El'.
  { revert Er. unfold get_navmesh_input, w. cbn [w_backend w_meshes w_images w_mats w_entities]. rewrite E1, E2, E3.
    destruct (export_entities _ _ _ _ _). by intros [= <-]. }
  rewrite El' in HF. by apply gather_imported.
Qed.
Theorem C81_editor_build :
  ∀ b g rest r eff meshes mats images ed l, run_backend b g = Done l → request (Some b) g rest = Done (inr r) →
  w_meshes rest = Some meshes → w_mats rest = Some mats → w_images rest = Some images →
  within_u32 meshes → within_u32 mats → within_u32 images → (∀ h m, meshes !! h = Some m → mesh_ok m) → editor_ok ed →
  ∃ affs vis ed', import_response r ed = Done (affs, vis, ed') ∧
    ∀ cosf f1 f2 c, build_navmesh cosf f1 f2 c (affectors_of eff ed' affs) =
      build_navmesh cosf f1 f2 c ((λ a : list f32 * trimesh, (Some (affector_mesh a.2), eff a.1)) <$> l).
Proof.
  intros b g rest r eff meshes mats images ed l El Er E1 E2 E3 S1 S2 S3 Hok Hed.
  destruct (loaded b g rest r eff meshes mats images ed l El Er E1 E2 E3 S1 S2 S3 Hok Hed) as (affs & vis & ed' & Ei & Eg).
  exists affs, vis, ed'. split; [done|]. intros. unfold build_navmesh. rewrite Eg.
  assert (gather ((λ a : list f32 * trimesh, (Some (affector_mesh a.2), eff a.1)) <$> l) = join eff l) as ->; [|done].
  unfold gather, join. generalize tm_default. clear. induction l as [|a l IH]; intros m0; [done|].
  rewrite fmap_cons. cbn [foldM]. unfold add_affector at 1. cbn [fst snd mbind option_bind]. rewrite affector_trip. cbn [tm_verts tm_idx tm_areas].
  destruct (extend m0 _) as [m1| |]; [|done..]. cbn [obind]. apply IH.
Qed.

(** With the mesh backend it is the navmesh that a build from the game's own meshes
    gives. *)
Theorem C81_mesh_build :
  ∀ g rest r eff meshes mats images ed, request (Some BMesh3d) g rest = Done (inr r) →
  w_meshes rest = Some meshes → w_mats rest = Some mats → w_images rest = Some images →
  within_u32 meshes → within_u32 mats → within_u32 images → (∀ h m, meshes !! h = Some m → mesh_ok m) → editor_ok ed →
  ∃ affs vis ed', import_response r ed = Done (affs, vis, ed') ∧
    ∀ cosf f1 f2 c, build_navmesh cosf f1 f2 c (affectors_of eff ed' affs) = build_navmesh cosf f1 f2 c (own_meshes eff g).
Proof.
  intros g rest r eff meshes mats images ed Er E1 E2 E3 S1 S2 S3 Hok Hed.
  destruct (loaded BMesh3d g rest r eff meshes mats images ed _ eq_refl Er E1 E2 E3 S1 S2 S3 Hok Hed) as (affs & vis & ed' & Ei & Eg).
  exists affs, vis, ed'. split; [done|]. intros. unfold build_navmesh. by rewrite Eg, gather_own.
Qed.

(** The areas that a backend of the user's own gives its triangles are lost on the
    way to the editor. *)
Theorem C81_areas_refuted :
  ∃ f g rest r affs vis ed' t, request (Some (BCustom f)) g rest = Done (inr r) ∧ import_response r ed0 = Done (affs, vis, ed') ∧
    editor_ok ed0 ∧ f g = [([], t)] ∧ valid t ∧ tm_areas t = [7] ∧
    ∀ eff m, gather (affectors_of eff ed' affs) = Done m → tm_areas m = [0].
Proof.
  exists (λ _, [([], TM [V3 f_zero f_zero f_zero; V3 f_one f_zero f_zero; V3 f_zero f_zero f_one] [(0, 2, 1)] [7])]), (Gm [] ∅), ex_world.
  eexists _, _, _, _, _. split; [vm_compute; reflexivity|]. split; [vm_compute; reflexivity|]. split; [apply C56_ex|]. split; [reflexivity|].
  split; [split; [repeat constructor; cbn; lia|done]|]. split; [done|]. intros eff m H. vm_compute in H. by injection H as <-.
Qed.

(** A game with a readable mesh, one that is not loaded, and one without triangles;
    a static collider, a moving one, one without body and an unsupported one. *)
Definition sample_game : game := Gm
  [(1, GE [] (Some 1%positive) None (Some BStatic)); (2, GE [f_one] (Some 9%positive) None (Some BDynamic)); (3, GE [] None None None);
   (4, GE [f_one] (Some 1%positive) (Some (CShape (Some ([V3 f_zero f_zero f_zero; V3 f_one f_zero f_zero; V3 f_zero f_zero f_one], [(0, 2, 1)])), 1)) None);
   (5, GE [] None (Some (CShape (Some ([], [])), 2)) None); (6, GE [] None (Some (CShape None, 1)) None); (7, GE [] None (Some (CShape (Some ([], [])), 3)) None);
   (8, GE [] None (Some (CCompound [(Iso (Qt (V3 f_zero f_zero f_zero) f_one) (V3 f_one f_zero f_zero), Some ([V3 f_zero f_zero f_zero], []))], 1)) None)]
  {[ 1%positive := tri ]}.
Example C81_ex : (∃ l, run_backend BMesh3d sample_game = Done l ∧ l.*1 = [[]; [f_one]]) ∧
  (∃ l, run_backend BCollider sample_game = Done l ∧ l.*1 = [[f_one]; []]) ∧
  (∃ r, request (Some BMesh3d) sample_game ex_world = Done (inr r)).
Proof. split_and!; eexists; [split; [vm_compute; reflexivity|]; done|split; [vm_compute; reflexivity|]; done|vm_compute; reflexivity]. Qed.

Example C81_ex_parts : ∀ k id e parts b, gm_entities sample_game !! k = Some (id, e) → ge_collider e = Some (CCompound parts, b) →
  static_in sample_game b → Forall part_valid parts.*2 ∧ foldr Z.add 0 (part_size <$> parts.*2) <= 4294967295.
Proof.
  intros k id e parts b H Hc _. cbn [sample_game gm_entities] in H.
  do 8 (destruct k as [|k]; [injection H as <- <-; cbn in Hc; try discriminate Hc|]); [|done].
  injection Hc as <- _. cbn. split; [by repeat constructor|lia].
Qed.

Example C81_ex_hyp : ∃ meshes mats images, w_meshes ex_world = Some meshes ∧ w_mats ex_world = Some mats ∧ w_images ex_world = Some images ∧
  within_u32 meshes ∧ within_u32 mats ∧ within_u32 images ∧ (∀ h m, meshes !! h = Some m → mesh_ok m) ∧ editor_ok ed0.
Proof.
  eexists _, _, _. split; [reflexivity|]. split; [reflexivity|]. split; [reflexivity|]. split; [by vm_compute|]. split; [by vm_compute|].
  split; [by vm_compute|]. split; [|apply C56_ex]. intros h m H. assert (m = tri) as ->; [|apply C56_ex].
  apply lookup_insert_Some in H as [[_ <-]|[_ H]]; [done|]. by apply lookup_singleton_Some in H as [_ <-].
Qed.

Print Assumptions C81_backends.
Print Assumptions C81_no_panic.
Print Assumptions C81_last_backend.
Print Assumptions C81_editor_build.
Print Assumptions C81_mesh_build.
Print Assumptions C81_areas_refuted.
