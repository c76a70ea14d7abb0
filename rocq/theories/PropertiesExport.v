(** Properties of the editor integration and of the generation queue: C49, C50,
    C56, C57. *)
From Verif Require Import Base ModelMath ModelTriMesh ModelExport SpecExport ExportProofs.
From stdpp Require Import gmap.
Local Open Scope Z_scope.

(** ** C49: the exported indices *)

(** bevy's asset indices are [u32], so there are at most [2^32] assets of a kind. *)
Definition within_u32 {T} (a : gmap positive T) : Prop := Z.of_nat (size a) <= 4294967296.

Theorem C49_export :
  ∀ w r meshes mats images, get_navmesh_input false w = inr r →
  w_meshes w = Some meshes → w_mats w = Some mats → w_images w = Some images →
  within_u32 meshes → within_u32 mats → within_u32 images →
  ∃ fm ft fi, describes meshes mats images (w_entities w) fm ft fi r.
Proof. intros w r meshes mats images H E1 E2 E3 S1 S2 S3. by eapply (export_describes w r H). Qed.

(** In particular every index is in range, and two entities get the same mesh
    index exactly if they have the same mesh handle (the same for materials). *)
Theorem C49_indices :
  ∀ w r meshes mats images, get_navmesh_input false w = inr r →
  w_meshes w = Some meshes → w_mats w = Some mats → w_images w = Some images →
  within_u32 meshes → within_u32 mats → within_u32 images →
  (∀ v, v ∈ rs_vis r → (0 <= vi_mesh v < Z.of_nat (length (rs_meshes r))) ∧
                       (∀ i, vi_mat v = Some i → 0 <= i < Z.of_nat (length (rs_mats r)))) ∧
  (∀ s i, s ∈ rs_mats r → Some i ∈ st_tex s → 0 <= i < Z.of_nat (length (rs_imgs r))) ∧
  (∀ j k en en' v v', filter (shown meshes) (w_entities w) !! j = Some en → filter (shown meshes) (w_entities w) !! k = Some en' →
     rs_vis r !! j = Some v → rs_vis r !! k = Some v' →
     (vi_mesh v = vi_mesh v' ↔ en_mesh en = en_mesh en') ∧
     (∀ i i', vi_mat v = Some i → vi_mat v' = Some i' → (i = i' ↔ en_mat en = en_mat en'))).
Proof.
  intros w r meshes mats images H E1 E2 E3 S1 S2 S3.
  destruct (export_describes w r H meshes mats images E1 E2 E3 S1 S2 S3) as (fm & ft & fi & D).
  pose proof (de_visuals _ _ _ _ _ _ _ _ D) as DV. destruct (de_meshes _ _ _ _ _ _ _ _ D) as (M1 & M2 & _).
  destruct (de_mats _ _ _ _ _ _ _ _ D) as (T1 & T2 & T3). destruct (de_images _ _ _ _ _ _ _ _ D) as (N1 & N2 & _).
  split; [|split].
  - intros v Hv. apply elem_of_list_lookup in Hv as (k & Hk). apply Forall2_flip in DV.
    destruct (Forall2_lookup_l _ _ _ _ _ DV Hk) as (en & _ & (_ & X2 & X3)). split.
    + symmetry in X2. by eapply M1.
    + intros i Hi. rewrite Hi in X3. destruct (en_mat en) as [h|]; [|done]. symmetry in X3. by eapply T1.
  - intros s i Hs Hi. apply elem_of_list_lookup in Hs as (k & Hk).
    destruct (T3 (Z.of_nat k)) as [h Hh]; [apply lookup_lt_Some in Hk; lia|].
    destruct (de_mat _ _ _ _ _ _ _ _ D h _ Hh) as (m & s' & _ & Hs' & (En & _)). rewrite Nat2Z.id, Hk in Hs'. injection Hs' as <-.
    apply elem_of_list_lookup in Hi as (q & Hq). apply Forall2_flip in En.
    destruct (Forall2_lookup_l _ _ _ _ _ En Hq) as (t & _ & Hq'). destruct t as [h'|]; [|done]. destruct Hq' as [Hq' _].
    symmetry in Hq'. by eapply N1.
  - intros j k en en' v v' Hj Hk Hv Hv'.
    destruct (Forall2_lookup_lr _ _ _ _ _ _ DV Hj Hv) as (_ & X2 & X3).
    destruct (Forall2_lookup_lr _ _ _ _ _ _ DV Hk Hv') as (_ & X2' & X3'). split; [split|].
    + intros E. rewrite E in X2. by eapply M2; symmetry.
    + intros E. rewrite E, <- X2' in X2. by injection X2.
    + intros i i' Hi Hi'. rewrite Hi in X3. rewrite Hi' in X3'. destruct (en_mat en) as [h|]; [|done]. destruct (en_mat en') as [h'|]; [|done].
      cbn in X3, X3'. split.
      * intros <-. f_equal. by eapply T2; symmetry.
      * intros [= <-]. congruence.
Qed.

(** A scene with a shared mesh, a hidden entity, a mesh that is not loaded, a
    material that is not loaded and one with a texture that is not loaded. *)
Definition tri : bmesh :=
  BM TriangleList {[ 0 := VFloat32x3 [v_zero; v_zero; v_zero]; 2 := VOther VFloat32x2 [0;0;1;0;0;1]; 9 := VOther VUint32 [5;5;5] ]}
     (Some (IU16 [0;1;2])) 1.
Definition pic (n : Z) : image := Im (Some [n; n]) (Some 7) [2;1;1] [4] 0 (Some (IV (Some 3) [1;1])) 2.
Definition ex_world : world :=
  Wd (Some (Some [([], TM [v_zero; v_zero; v_zero] [(0, 1, 2)] [63])]))
     (Some {[ 1%positive := tri; 2%positive := tri ]})
     (Some {[ 1%positive := pic 1; 2%positive := pic 2 ]})
     (Some {[ 1%positive := Mt [Some 1%positive; None; Some 2%positive; Some 1%positive] [Uv0; Uv1] ABlend (PRelief 4) RAuto [8];
              2%positive := Mt [Some 2%positive; Some 9%positive] [Uv0] AOpaque POcclusion RForward [];
              3%positive := Mt [Some 2%positive] [] (AMask f_one) POcclusion RDeferred [] ]})
     [En [f_one] 2%positive true (Some 2%positive); En [] 1%positive false None; En [] 3%positive true None;
      En [] 1%positive true (Some 1%positive); En [] 2%positive true (Some 3%positive); En [] 2%positive true (Some 1%positive);
      En [] 2%positive true (Some 5%positive); En [] 1%positive true None].
Example C49_ex :
  ∃ r, get_navmesh_input false ex_world = inr r ∧
    ((λ v, (vi_mesh v, vi_mat v)) <$> rs_vis r) = [(0, None); (1, Some 0); (0, Some 1); (0, Some 0); (0, None); (1, None)] ∧
    (st_tex <$> rs_mats r) = [[Some 1; None; Some 0; Some 1]; [Some 0]] ∧
    (si_data <$> rs_imgs r) = [Some [2; 2]; Some [1; 1]] ∧ length (rs_meshes r) = 2%nat.
Proof. eexists. split; [vm_compute; reflexivity|]. split_and!; vm_compute; reflexivity. Qed.

(** The images sent need not be used: those of a material that fails to serialize
    stay in the response. *)
Theorem C49_images_used_refuted :
  ∃ w r i, get_navmesh_input false w = inr r ∧ 0 <= i < Z.of_nat (length (rs_imgs r)) ∧
    ∀ s, s ∈ rs_mats r → Some i ∉ st_tex s.
Proof.
  exists (Wd (Some (Some [])) (Some {[ 1%positive := tri ]}) (Some {[ 1%positive := pic 1 ]})
            (Some {[ 1%positive := Mt [Some 1%positive; Some 2%positive] [] AOpaque POcclusion RAuto [] ]})
            [En [] 1%positive true (Some 1%positive)]).
  eexists _, 0. split; [vm_compute; reflexivity|]. split; [vm_compute; done|].
  intros s Hs. vm_compute in Hs. by apply elem_of_nil in Hs.
Qed.

(** ** C57: when the export fails *)
Theorem C57_export_errors :
  ∀ params w, (∃ r, get_navmesh_input params w = inr r) ↔
    params = false ∧ (∃ aff, w_backend w = Some (Some aff)) ∧ is_Some (w_meshes w) ∧ is_Some (w_images w) ∧ is_Some (w_mats w).
Proof.
  intros params w. unfold get_navmesh_input. destruct params.
  { split; [intros [? ?]; done|intros [? _]; done]. }
  destruct (w_backend w) as [[aff|]|]; [|split; [intros [? ?]; done|intros (_ & [? ?] & _); done]..].
  destruct (w_meshes w) as [ms|]; [|split; [intros [? ?]; done|intros (_ & _ & [? ?] & _); done]].
  destruct (w_images w) as [im|]; [|split; [intros [? ?]; done|intros (_ & _ & _ & [? ?] & _); done]].
  destruct (w_mats w) as [mt|]; [|split; [intros [? ?]; done|intros (_ & _ & _ & _ & [? ?]); done]].
  split; [|intros _; by destruct (export_entities _ _ _ _ _); eexists].
  intros _. split; [done|]. split; [by eexists|]. split_and!; by eexists.
Qed.
(** Parameters are reported as such, whatever the world; the affectors are passed
    on unchanged. *)
Theorem C57_params_and_affectors :
  (∀ w, get_navmesh_input true w = inl InvalidParams) ∧
  (∀ w, get_navmesh_input false w ≠ inl InvalidParams) ∧
  (∀ w r, get_navmesh_input false w = inr r → w_backend w = Some (Some (rs_aff r))).
Proof.
  unfold get_navmesh_input. split; [done|split].
  - intros w. destruct (w_backend w) as [[aff|]|], (w_meshes w), (w_images w), (w_mats w); try done.
    by destruct (export_entities _ _ _ _ _).
  - intros w r. destruct (w_backend w) as [[aff|]|], (w_meshes w), (w_images w), (w_mats w); try done.
    destruct (export_entities _ _ _ _ _). by intros [= <-].
Qed.
Example C57_ex : (∃ r, get_navmesh_input false ex_world = inr r) ∧
  get_navmesh_input false (Wd None (Some ∅) (Some ∅) (Some ∅) []) = inl InternalError.
Proof. split; [eexists; vm_compute; reflexivity|reflexivity]. Qed.

(** ** C56: the editor shows the scene *)

(** After export and import, with any contents of the editor's asset stores, no
    panic; the editor's other assets are untouched; one affector per affector of the
    backend, whose mesh reads back as the same triangles; one visual per visible entity
    with a loaded mesh, in order, with its transform, an equal mesh and an equal
    material, or the white material if the entity has none or it could not be sent;
    meshes are shared exactly as in the game. *)
Theorem C56_roundtrip :
  ∀ w r meshes mats images ed, get_navmesh_input false w = inr r →
  w_meshes w = Some meshes → w_mats w = Some mats → w_images w = Some images →
  within_u32 meshes → within_u32 mats → within_u32 images →
  (∀ h m, meshes !! h = Some m → mesh_ok m) → editor_ok ed →
  ∃ affs vis ed', import_response r ed = Done (affs, vis, ed') ∧
    editor_ok ed' ∧ keeps (ed_meshes ed) (ed_meshes ed') ∧ keeps (ed_mats ed) (ed_mats ed') ∧ keeps (ed_images ed) (ed_images ed') ∧
    Forall2 (λ f s, s.1 = f.1 ∧ ∃ m, as_tbl (ed_meshes ed') !! s.2 = Some m ∧
       trimesh_of m = Some (TM (tm_verts f.2) (tm_idx f.2) (repeat 0 (length (tm_idx f.2))))) (rs_aff r) affs ∧
    Forall2 (λ en s, s.1.1 = en_tf en ∧
      (∃ m m', meshes !! en_mesh en = Some m ∧ as_tbl (ed_meshes ed') !! s.1.2 = Some m' ∧ same_mesh m m') ∧
      (match en_mat en ≫= λ h, mats !! h with
       | Some m => (loadable images m ∧ ∃ m', as_tbl (ed_mats ed') !! s.2 = Some m' ∧ same_material images (as_tbl (ed_images ed')) m m') ∨
                   (¬ loadable images m ∧ as_tbl (ed_mats ed') !! s.2 = Some white_material)
       | None => as_tbl (ed_mats ed') !! s.2 = Some white_material
       end)) (filter (shown meshes) (w_entities w)) vis ∧
    (∀ j k en en' s s', filter (shown meshes) (w_entities w) !! j = Some en → filter (shown meshes) (w_entities w) !! k = Some en' →
       vis !! j = Some s → vis !! k = Some s' → (s.1.2 = s'.1.2 ↔ en_mesh en = en_mesh en')).
Proof.
  intros w r meshes mats images ed H E1 E2 E3 S1 S2 S3 Hok Hed.
  destruct (export_describes w r H meshes mats images E1 E2 E3 S1 S2 S3) as (fm & ft & fi & D).
  by apply (roundtrip meshes mats images (w_entities w) fm ft fi r ed D Hok Hed).
Qed.
Definition ed0 : editor := Ed (As 3 {[ 2%positive := tri ]}) (As 1 ∅) (As 5 ∅).
Example C56_ex :
  editor_ok ed0 ∧ mesh_ok tri ∧ ¬ loadable {[ 1%positive := pic 1 ]} (Mt [Some 9%positive] [] AOpaque POcclusion RAuto []) ∧
  ∃ r affs vis ed', get_navmesh_input false ex_world = inr r ∧ import_response r ed0 = Done (affs, vis, ed') ∧
    affs = [([], 3%positive)] ∧
    vis = [([f_one], 4%positive, 1%positive); ([], 5%positive, 2%positive); ([], 4%positive, 3%positive);
           ([], 4%positive, 2%positive); ([], 4%positive, 1%positive); ([], 5%positive, 1%positive)] ∧
    (mt_tex <$> as_tbl (ed_mats ed') !! 2%positive) = Some [Some 5%positive; None; Some 6%positive; Some 5%positive].
Proof.
  split; [|split; [|split]].
  - split_and!; intros h x; cbn; rewrite ?lookup_empty; try done. intros H. apply lookup_singleton_Some in H as [<- _]. lia.
  - intros id v H. cbn in H. repeat (apply lookup_insert_Some in H as [[<- <-]|[_ H]]; [done|]). by apply lookup_singleton_Some in H as [<- <-].
  - intros H. specialize (H 9%positive ltac:(by left)). by destruct H.
  - eexists _, _, _, _. split; [vm_compute; reflexivity|]. split; [vm_compute; reflexivity|]. split_and!; vm_compute; reflexivity.
Qed.

(** What a mesh with triangles gives the navmesh generator is the same in the
    editor as in the game. *)
Theorem C56_mesh_trip :
  ∀ m, mesh_ok m → ∃ m', deser_mesh (ser_mesh m) = Done m' ∧ same_mesh m m' ∧ trimesh_of m' = trimesh_of m.
Proof.
  intros m Hok. destruct (mesh_trip m Hok) as (m' & E & H). exists m'. split; [done|split; [done|by apply same_mesh_trimesh]].
Qed.
Example C56_mesh_ex : mesh_ok tri ∧ is_Some (trimesh_of tri).
Proof.
  split; [|vm_compute; by eexists].
  intros id v H. cbn in H. repeat (apply lookup_insert_Some in H as [[<- <-]|[_ H]]; [done|]). by apply lookup_singleton_Some in H as [<- <-].
Qed.

(** Everything the editor loads stays readable in the main world (bit 0, as building a
    navmesh needs) and is rendered (bit 1). *)
Definition in_both_worlds (usage : Z) : Prop := Z.testbit usage 0 = true ∧ Z.testbit usage 1 = true.
Theorem C56_loaded_in_both_worlds :
  (∀ s m, deser_mesh s = Done m → in_both_worlds (bm_usage m)) ∧
  (∀ s, in_both_worlds (im_usage (deser_image s))) ∧
  (∀ t, in_both_worlds (bm_usage (affector_mesh t))).
Proof.
  assert (in_both_worlds USAGE_ALL) as H3 by by split.
  split_and!; [|done|done]. intros s m E. unfold deser_mesh in E.
  apply obind_done in E as (m' & E & [= <-]). cbn [bm_usage].
  assert (∀ l m0, in_both_worlds (bm_usage m0) → foldM (λ '(id, v) m, if known_id id then insert_attribute m id (vvalues_of v) else Done m) l m0 = Done m' →
    in_both_worlds (bm_usage m')) as H.
  { clear E. induction l as [|[id v] l IH]; intros m0 H0 E; cbn in E; [by injection E as <-|].
    apply obind_done in E as (m1 & E1 & E). apply (IH m1); [|done].
    destruct (known_id id); [|by injection E1 as <-]. unfold insert_attribute in E1. destruct (format_ok _ _); [|done].
    by injection E1 as <-. }
  exact (H _ (BM _ _ _ _) H3 E).
Qed.
Example C56_loaded_ex : ∃ s m, deser_mesh s = Done m ∧ sm_attrs s ≠ [].
Proof. exists (SM STriangleList [(0, svalues_of (VFloat32x3 [V3 f_one f_one f_one]))] None). eexists. split; [vm_compute; reflexivity|done]. Qed.
Print Assumptions C56_loaded_in_both_worlds.

(** Attributes with other ids, such as those of custom shaders, are lost. *)
Theorem C56_custom_attributes_refuted :
  ∃ m m', mesh_ok m ∧ deser_mesh (ser_mesh m) = Done m' ∧ bm_attrs m' ≠ bm_attrs m.
Proof.
  exists tri. eexists. split; [apply C56_mesh_ex|]. split; [vm_compute; reflexivity|].
  intros H. apply (f_equal (lookup 9)) in H. vm_compute in H. done.
Qed.
(** bevy lets users declare an attribute of their own with the id of a standard one
    and another format; importing such a mesh panics. *)
Theorem C56_reused_id_refuted : ∃ m, deser_mesh (ser_mesh m) = Panicked.
Proof. exists (BM TriangleList {[ 0 := VOther VFloat32x2 [0; 0] ]} None 3). vm_compute. done. Qed.

(** ** C50: the queue *)

(** The requests among the operations, each with the handle it returned. *)
Definition requests {C N} (l : list (gen_op C N)) (hs : list (option positive)) : list (positive * C) :=
  omap (λ p, match p with (OGenerate c, Some h) => Some (h, c) | _ => None end) (zip l hs).

Lemma gen_run_spec {C N} (l : list (gen_op C N)) : ∀ g, assets_ok (gn_assets g) →
  let x := gen_run l g in
  length x.1 = length l ∧
  gn_queue x.2 = gn_queue g ++ requests l x.1 ∧
  (as_next (gn_assets g) <= as_next (gn_assets x.2))%positive ∧
  (∀ h, Some h ∈ x.1 → (as_next (gn_assets g) <= h < as_next (gn_assets x.2))%positive) ∧
  NoDup (omap id x.1) ∧
  (∀ j c, l !! j = Some (OGenerate c) → ∃ h, x.1 !! j = Some (Some h)) ∧
  (∀ h, (h < as_next (gn_assets g))%positive → as_tbl (gn_assets g) !! h = None → as_tbl (gn_assets x.2) !! h = None) ∧
  (∀ h, h ∈ (requests l x.1).*1 → as_tbl (gn_assets x.2) !! h = None).
Proof.
  induction l as [|o l IH]; intros g Hg; cbn [gen_run].
  - cbn. split; [done|]. split; [by rewrite app_nil_r|]. split; [lia|]. split; [intros h H; by apply elem_of_nil in H|].
    split; [constructor|]. split; [done|]. split; [done|]. intros h H. by apply elem_of_nil in H.
  - destruct (gen_step o g) as [h g1] eqn:E.
    assert (Hg1 : assets_ok (gn_assets g1)).
    { destruct o; cbn in E; injection E as <- <-; cbn.
      - intros k y H. apply Hg in H. cbn. lia.
      - intros k y H. apply Hg in H. cbn. lia.
      - apply (as_add_ok (gn_assets g) n Hg).
      - intros k y H. cbn in H. apply lookup_delete_Some in H as [_ H]. by apply Hg in H. }
    destruct (IH g1 Hg1) as (A1 & A2 & A3 & A4 & A5 & A6 & A7 & A8).
    destruct (gen_run l g1) as [hs g2]; cbn [fst snd] in *.
    assert (Hs : match h with Some k => k = as_next (gn_assets g) ∧ as_next (gn_assets g1) = Pos.succ k
                 | None => as_next (gn_assets g1) = as_next (gn_assets g) end).
    { destruct o; cbn in E; injection E as <- <-; cbn; done. }
    assert (Hq : gn_queue g1 = gn_queue g ++ match o, h with OGenerate c, Some h => [(h, c)] | _, _ => [] end).
    { destruct o; cbn in E; injection E as <- <-; cbn; by rewrite ?app_nil_r. }
    assert (Ht : ∀ k, (k < as_next (gn_assets g))%positive → as_tbl (gn_assets g) !! k = None → as_tbl (gn_assets g1) !! k = None).
    { intros k Hk Hn. destruct o; cbn in E; injection E as <- <-; cbn; try done.
      - rewrite lookup_insert_ne; [done|lia].
      - apply lookup_delete_None. by right. }
    split; [cbn; lia|]. split; [|split; [|split; [|split; [|split; [|split]]]]].
    + rewrite A2, Hq, <- app_assoc. f_equal. unfold requests. cbn [zip zip_with omap list_omap]. destruct o, h; done.
    + destruct h; lia.
    + intros k Hk. apply elem_of_cons in Hk as [<-|Hk]; [lia|]. apply A4 in Hk. destruct h; lia.
    + destruct h as [k|]; cbn; [|done]. constructor; [|done]. intros Hk. apply elem_of_list_omap in Hk as ([k'|] & Hk & Hk'); [|done].
      cbn in Hk'. injection Hk' as ->. apply A4 in Hk. lia.
    + intros [|j] c Hj; [|by apply A6 with c]. cbn in Hj. injection Hj as ->. cbn in E. injection E as <- <-. by eexists.
    + intros k Hk Hn. apply A7; [|by apply Ht]. destruct h; lia.
    + intros k Hk. unfold requests in Hk. cbn [zip zip_with omap list_omap] in Hk.
      destruct o as [c| |n|k']; try (apply A8; by destruct h).
      cbn in E. injection E as <- <-. apply elem_of_cons in Hk as [->|Hk]; [|by apply A8].
      cbn [fst]. apply A7; cbn; [lia|]. destruct (as_tbl (gn_assets g) !! as_next (gn_assets g)) as [y|] eqn:Ey; [|done].
      apply Hg in Ey. lia.
Qed.

(** From the app's start (empty queue), along any sequence of requests and other
    uses of the asset store: every request gets an entry in the queue with its own
    configuration and the handle it returned, in request order and nothing else; all
    handles ever returned are distinct. *)
Theorem C50_queue :
  ∀ (C N : Type) (l : list (gen_op C N)) a, assets_ok a →
  let x := gen_run l (Gn a []) in
  gn_queue x.2 = requests l x.1 ∧
  (∀ j c, l !! j = Some (OGenerate c) → ∃ h, x.1 !! j = Some (Some h) ∧ (h, c) ∈ gn_queue x.2) ∧
  (∀ j k h, x.1 !! j = Some (Some h) → x.1 !! k = Some (Some h) → j = k) ∧
  (∀ h, Some h ∈ x.1 → as_tbl a !! h = None).
Proof.
  intros C N l a Ha x. destruct (gen_run_spec l (Gn a []) Ha) as (A1 & A2 & A3 & A4 & A5 & A6 & _). fold x in A1, A2, A3, A4, A5, A6.
  cbn [gn_queue gn_assets app] in *.
  split; [done|]. split; [|split].
  - intros j c Hj. destruct (A6 j c Hj) as [h Hh]. exists h. split; [done|].
    rewrite A2. apply elem_of_list_omap. exists (OGenerate c, Some h). split; [|done].
    apply elem_of_list_lookup. exists j. apply lookup_zip_with_Some. eexists _, _. done.
  - intros j k h Hj Hk. clear -A5 Hj Hk. revert j k Hj Hk. induction (x.1) as [|o hs IH]; intros j k Hj Hk; [done|].
    destruct o as [h'|]; cbn in A5.
    + apply NoDup_cons in A5 as [Hni A5]. destruct j as [|j], k as [|k]; cbn in Hj, Hk; [done| | |].
      * injection Hj as ->. exfalso. apply Hni. apply elem_of_list_omap. exists (Some h). split; [by eapply elem_of_list_lookup_2|done].
      * injection Hk as ->. exfalso. apply Hni. apply elem_of_list_omap. exists (Some h). split; [by eapply elem_of_list_lookup_2|done].
      * f_equal. by apply IH.
    + destruct j as [|j], k as [|k]; cbn in Hj, Hk; try done. f_equal. by apply IH.
  - intros h Hh. apply A4 in Hh. destruct (as_tbl a !! h) as [n|] eqn:En; [|done]. apply Ha in En. lia.
Qed.

(** The documentation of [generate] says that a navmesh will be generated. At this
    commit nothing takes entries out of the queue: whatever the app does, no navmesh is
    ever loaded under a handle that a request returned. *)
Theorem C50_never_generated :
  ∀ (C N : Type) (l : list (gen_op C N)) a, assets_ok a →
  let x := gen_run l (Gn a []) in
  ∀ j c h, l !! j = Some (OGenerate c) → x.1 !! j = Some (Some h) → as_tbl (gn_assets x.2) !! h = None.
Proof.
  intros C N l a Ha x j c h Hj Hh. destruct (gen_run_spec l (Gn a []) Ha) as (A1 & A2 & A3 & A4 & A5 & A6 & A7 & A8). fold x in A8.
  apply A8. apply elem_of_list_fmap. exists (h, c). split; [done|]. apply elem_of_list_omap. exists (OGenerate c, Some h). split; [|done].
  apply elem_of_list_lookup. exists j. apply lookup_zip_with_Some. eexists _, _. done.
Qed.
Example C50_ex :
  let x := gen_run [OGenerate 10; OAdd 7; OGenerate 20; ORemove 6%positive; OReserve; OGenerate 10] (Gn (As 5 {[ 2%positive := 1 ]}) []) in
  gn_queue x.2 = [(5%positive, 10); (7%positive, 20); (9%positive, 10)].
Proof. vm_compute. done. Qed.

Print Assumptions C49_export.
Print Assumptions C49_indices.
Print Assumptions C49_images_used_refuted.
Print Assumptions C50_queue.
Print Assumptions C50_never_generated.
Print Assumptions C56_roundtrip.
Print Assumptions C56_mesh_trip.
Print Assumptions C56_custom_attributes_refuted.
Print Assumptions C56_reused_id_refuted.
Print Assumptions C57_export_errors.
Print Assumptions C57_params_and_affectors.
