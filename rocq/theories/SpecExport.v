(** What the editor may rely on in an exported scene, and what it shows after an
    import. *)
From Verif Require Import Base ModelMath ModelTriMesh ModelExport.
From stdpp Require Import gmap.
Local Open Scope Z_scope.

(** A numbering of handles: one number per handle, no number twice, and exactly
    the numbers below [n]. *)
Definition numbering (f : gmap positive Z) (n : nat) : Prop :=
  (∀ h i, f !! h = Some i → 0 <= i < Z.of_nat n) ∧
  (∀ h h' i, f !! h = Some i → f !! h' = Some i → h = h') ∧
  (∀ i, 0 <= i < Z.of_nat n → ∃ h, f !! h = Some i).

(** An entity is sent if it is visible and its mesh is loaded. *)
Definition shown (meshes : gmap positive bmesh) (en : entity) : Prop :=
  en_visible en = true ∧ is_Some (meshes !! en_mesh en).
Global Instance shown_dec meshes en : Decision (shown meshes en).
Proof. unfold shown. apply _. Defined.
(** A material can be sent if every texture it uses is loaded. *)
Definition loadable (images : gmap positive image) (m : material) : Prop :=
  ∀ h, Some h ∈ mt_tex m → is_Some (images !! h).

(** The serialized material [s] stands for [m], textures being numbered by [f]. *)
Definition encodes (f : gmap positive Z) (m : material) (s : smaterial) : Prop :=
  Forall2 (λ t i, match t with None => i = None | Some h => i = f !! h ∧ is_Some i end) (mt_tex m) (st_tex s) ∧
  mt_uv m = uv_of <$> st_uv s ∧ mt_alpha m = alpha_of (st_alpha s) ∧ mt_par m = par_of (st_par s) ∧
  mt_rend m = rend_of (st_rend s) ∧ mt_rest m = st_rest s.

(** The response [r] describes the entities [ens]: meshes, materials and images are
    numbered by [fm], [ft] and [fi]. *)
Record describes (meshes : gmap positive bmesh) (mats : gmap positive material) (images : gmap positive image)
    (ens : list entity) (fm ft fi : gmap positive Z) (r : response) : Prop := {
  de_meshes : numbering fm (length (rs_meshes r));
  de_mats : numbering ft (length (rs_mats r));
  de_images : numbering fi (length (rs_imgs r));
  (* every number stands for the asset with that handle *)
  de_mesh : ∀ h i, fm !! h = Some i → ∃ m, meshes !! h = Some m ∧ rs_meshes r !! Z.to_nat i = Some (ser_mesh m);
  de_mat : ∀ h i, ft !! h = Some i → ∃ m s, mats !! h = Some m ∧ rs_mats r !! Z.to_nat i = Some s ∧ encodes fi m s;
  de_image : ∀ h i, fi !! h = Some i → ∃ im, images !! h = Some im ∧ rs_imgs r !! Z.to_nat i = Some (ser_image im);
  (* the meshes are those of the entities sent, the materials those that can be sent *)
  de_mesh_used : ∀ h, is_Some (fm !! h) ↔ ∃ en, en ∈ ens ∧ shown meshes en ∧ en_mesh en = h;
  de_mat_used : ∀ h, is_Some (ft !! h) ↔
    ∃ en m, en ∈ ens ∧ shown meshes en ∧ en_mat en = Some h ∧ mats !! h = Some m ∧ loadable images m;
  de_image_used : ∀ h, is_Some (fi !! h) →
    ∃ en k m, en ∈ ens ∧ shown meshes en ∧ en_mat en = Some k ∧ mats !! k = Some m ∧ Some h ∈ mt_tex m;
  (* one visual per entity sent, in order *)
  de_visuals : Forall2 (λ en v, vi_tf v = en_tf en ∧ Some (vi_mesh v) = fm !! en_mesh en ∧
                                vi_mat v = en_mat en ≫= λ h, ft !! h)
                       (filter (shown meshes) ens) (rs_vis r)
}.

(** The part of a mesh that survives the trip: topology, indices and the eight
    standard attributes. *)
Definition same_mesh (m m' : bmesh) : Prop :=
  bm_topo m' = bm_topo m ∧ bm_idx m' = bm_idx m ∧
  (∀ id, bm_attrs m' !! id = if known_id id then bm_attrs m !! id else None).
(** The part of an image that survives: data, sampler and descriptors without
    labels and view formats. *)
Definition same_image (i i' : image) : Prop :=
  im_data i' = im_data i ∧ im_desc i' = im_desc i ∧ im_sampler i' = im_sampler i ∧
  (iv_rest <$> im_view i') = (iv_rest <$> im_view i).
(** The same material, textures compared by content. *)
Definition same_material (images images' : gmap positive image) (m m' : material) : Prop :=
  Forall2 (λ t t', match t, t' with
                   | None, None => True
                   | Some h, Some h' => ∃ i i', images !! h = Some i ∧ images' !! h' = Some i' ∧ same_image i i'
                   | _, _ => False
                   end) (mt_tex m) (mt_tex m') ∧
  mt_uv m' = mt_uv m ∧ mt_alpha m' = mt_alpha m ∧ mt_par m' = mt_par m ∧ mt_rend m' = mt_rend m ∧ mt_rest m' = mt_rest m.

(** A bevy mesh as bevy lets users build it with the standard attributes: their
    values have the declared format. *)
Definition mesh_ok (m : bmesh) : Prop :=
  ∀ id v, bm_attrs m !! id = Some v → known_id id = true → format_ok id v = true.

(** No loaded asset has an id the allocator has not handed out yet. *)
Definition assets_ok {T} (a : assets T) : Prop := ∀ h x, as_tbl a !! h = Some x → (h < as_next a)%positive.
Definition editor_ok (e : editor) : Prop := assets_ok (ed_meshes e) ∧ assets_ok (ed_mats e) ∧ assets_ok (ed_images e).
(** Assets of [a] are still there, unchanged, in [a']. *)
Definition keeps {T} (a a' : assets T) : Prop := ∀ h x, as_tbl a !! h = Some x → as_tbl a' !! h = Some x.
