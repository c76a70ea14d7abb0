(** Model of the editor integration: what the game sends
    (bevy_rerecast_editor_integration/src/brp.rs and transmission/), what the
    editor makes of it (bevy_rerecast_editor/src/get_navmesh_input.rs) and the
    generation queue (bevy_rerecast_core/src/generator.rs). *)
From Verif Require Import Base ModelMath ModelHeightfield ModelTriMesh.
From stdpp Require Import gmap.
Local Open Scope Z_scope.

(** ** Bevy's assets *)

(** bevy [Handle<T>]: compared by asset id, which is all that is modelled of it. *)
Notation handle := positive (only parsing).
(** bevy [Assets<T>]: the loaded assets and the allocator of asset indices.
    Recycled indices carry a new generation in bevy, so an id is never handed out
    twice; here the allocator just counts. *)
Record assets (T : Type) : Type := As { as_next : positive; as_tbl : gmap positive T }.
Arguments As {T}.
Arguments as_next {T}.
Arguments as_tbl {T}.
Definition as_get {T} (a : assets T) (h : handle) : option T := as_tbl a !! h.
Definition as_reserve {T} (a : assets T) : handle * assets T :=
  (as_next a, As (Pos.succ (as_next a)) (as_tbl a)).
Definition as_add {T} (a : assets T) (x : T) : handle * assets T :=
  (as_next a, As (Pos.succ (as_next a)) (<[as_next a := x]> (as_tbl a))).
Definition as_remove {T} (a : assets T) (h : handle) : assets T := As (as_next a) (delete h (as_tbl a)).

(** ** Meshes *)

(** bevy [VertexAttributeValues] without [Float32x3], which has its own
    constructor below. *)
Inductive vformat : Type :=
  | VFloat32 | VSint32 | VUint32 | VFloat32x2 | VSint32x2 | VUint32x2 | VSint32x3 | VUint32x3 | VFloat32x4 | VSint32x4 | VUint32x4 | VSint16x2 | VSnorm16x2 | VUint16x2 | VUnorm16x2 | VSint16x4 | VSnorm16x4 | VUint16x4 | VUnorm16x4 | VSint8x2 | VSnorm8x2 | VUint8x2 | VUnorm8x2 | VSint8x4 | VSnorm8x4 | VUint8x4 | VUnorm8x4.
(** bevy [VertexAttributeValues]: [Float32x3] with its vectors, every other
    format with the bytes of its vector (uninterpreted). *)
Inductive vvalues : Type := VFloat32x3 (l : list vec3) | VOther (f : vformat) (raw : list Z).
(** serialized_mesh.rs:149-178 [SerializedVertexAttributeValues]. *)
Inductive svformat : Type :=
  | SFloat32 | SSint32 | SUint32 | SFloat32x2 | SSint32x2 | SUint32x2 | SSint32x3 | SUint32x3 | SFloat32x4 | SSint32x4 | SUint32x4 | SSint16x2 | SSnorm16x2 | SUint16x2 | SUnorm16x2 | SSint16x4 | SSnorm16x4 | SUint16x4 | SUnorm16x4 | SSint8x2 | SSnorm8x2 | SUint8x2 | SUnorm8x2 | SSint8x4 | SSnorm8x4 | SUint8x4 | SUnorm8x4.
Inductive svalues : Type := SVFloat32x3 (l : list vec3) | SVOther (f : svformat) (raw : list Z).

(** serialized_mesh.rs:180-213 [From<VertexAttributeValues> for
    SerializedVertexAttributeValues]. *)
Definition sv_of_v (f : vformat) : svformat :=
  match f with
  | VFloat32 => SFloat32
  | VSint32 => SSint32
  | VUint32 => SUint32
  | VFloat32x2 => SFloat32x2
  | VSint32x2 => SSint32x2
  | VUint32x2 => SUint32x2
  | VSint32x3 => SSint32x3
  | VUint32x3 => SUint32x3
  | VFloat32x4 => SFloat32x4
  | VSint32x4 => SSint32x4
  | VUint32x4 => SUint32x4
  | VSint16x2 => SSint16x2
  | VSnorm16x2 => SSnorm16x2
  | VUint16x2 => SUint16x2
  | VUnorm16x2 => SUnorm16x2
  | VSint16x4 => SSint16x4
  | VSnorm16x4 => SSnorm16x4
  | VUint16x4 => SUint16x4
  | VUnorm16x4 => SUnorm16x4
  | VSint8x2 => SSint8x2
  | VSnorm8x2 => SSnorm8x2
  | VUint8x2 => SUint8x2
  | VUnorm8x2 => SUnorm8x2
  | VSint8x4 => SSint8x4
  | VSnorm8x4 => SSnorm8x4
  | VUint8x4 => SUint8x4
  | VUnorm8x4 => SUnorm8x4
  end.
Definition svalues_of (v : vvalues) : svalues :=
  match v with VFloat32x3 l => SVFloat32x3 l | VOther f r => SVOther (sv_of_v f) r end.
(** serialized_mesh.rs:215-248 [From<SerializedVertexAttributeValues> for
    VertexAttributeValues]. *)
Definition v_of_sv (f : svformat) : vformat :=
  match f with
  | SFloat32 => VFloat32
  | SSint32 => VSint32
  | SUint32 => VUint32
  | SFloat32x2 => VFloat32x2
  | SSint32x2 => VSint32x2
  | SUint32x2 => VUint32x2
  | SSint32x3 => VSint32x3
  | SUint32x3 => VUint32x3
  | SFloat32x4 => VFloat32x4
  | SSint32x4 => VSint32x4
  | SUint32x4 => VUint32x4
  | SSint16x2 => VSint16x2
  | SSnorm16x2 => VSnorm16x2
  | SUint16x2 => VUint16x2
  | SUnorm16x2 => VUnorm16x2
  | SSint16x4 => VSint16x4
  | SSnorm16x4 => VSnorm16x4
  | SUint16x4 => VUint16x4
  | SUnorm16x4 => VUnorm16x4
  | SSint8x2 => VSint8x2
  | SSnorm8x2 => VSnorm8x2
  | SUint8x2 => VUint8x2
  | SUnorm8x2 => VUnorm8x2
  | SSint8x4 => VSint8x4
  | SSnorm8x4 => VSnorm8x4
  | SUint8x4 => VUint8x4
  | SUnorm8x4 => VUnorm8x4
  end.
Definition vvalues_of (v : svalues) : vvalues :=
  match v with SVFloat32x3 l => VFloat32x3 l | SVOther f r => VOther (v_of_sv f) r end.

(** bevy [Indices] and serialized_mesh.rs:250-274 [SerializedIndices] with both
    conversions. *)
Inductive bindices : Type := IU16 (l : list Z) | IU32 (l : list Z).
Inductive sindices : Type := SU16 (l : list Z) | SU32 (l : list Z).
Definition sindices_of (i : bindices) : sindices := match i with IU16 l => SU16 l | IU32 l => SU32 l end.
Definition bindices_of (i : sindices) : bindices := match i with SU16 l => IU16 l | SU32 l => IU32 l end.

(** bevy [PrimitiveTopology] and serialized_mesh.rs:276-311
    [SerializedPrimitiveTopology] with both conversions. *)
Inductive topology : Type := PointList | LineList | LineStrip | TriangleList | TriangleStrip.
Inductive stopology : Type := SPointList | SLineList | SLineStrip | STriangleList | STriangleStrip.
Definition stopology_of (t : topology) : stopology :=
  match t with PointList => SPointList | LineList => SLineList | LineStrip => SLineStrip
             | TriangleList => STriangleList | TriangleStrip => STriangleStrip end.
Definition topology_of (t : stopology) : topology :=
  match t with SPointList => PointList | SLineList => LineList | SLineStrip => LineStrip
             | STriangleList => TriangleList | STriangleStrip => TriangleStrip end.

(** bevy [Mesh]: topology, attributes keyed by the [u64] attribute id (a
    [BTreeMap] in bevy), indices, and the [RenderAssetUsages] bits. Morph targets
    and skinning bounds are left out: the code never reads them. *)
Record bmesh : Type := BM {
  bm_topo : topology;
  bm_attrs : gmap Z vvalues;
  bm_idx : option bindices;
  bm_usage : Z
}.
(** bevy [RenderAssetUsages::all()]. *)
Definition USAGE_ALL : Z := 3.

(** The formats of [Mesh::ATTRIBUTE_POSITION] (0), [NORMAL] (1), [UV_0] (2), [UV_1]
    (3), [TANGENT] (4), [COLOR] (5), [JOINT_WEIGHT] (6), [JOINT_INDEX] (7), bevy_mesh
    constants; [None] for every other id. *)
Definition known_id (id : Z) : bool := (0 <=? id) && (id <=? 7).
Definition format_ok (id : Z) (v : vvalues) : bool :=
  match v with
  | VFloat32x3 _ => (id =? 0) || (id =? 1)
  | VOther VFloat32x2 _ => (id =? 2) || (id =? 3)
  | VOther VFloat32x4 _ => (id =? 4) || (id =? 5) || (id =? 6)
  | VOther VUint16x4 _ => id =? 7
  | VOther _ _ => false
  end.
(** bevy [Mesh::insert_attribute] for one of those attributes: a value of another
    format panics. *)
Definition insert_attribute (m : bmesh) (id : Z) (v : vvalues) : outcome bmesh :=
  if format_ok id v then Done (BM (bm_topo m) (<[id := v]> (bm_attrs m)) (bm_idx m) (bm_usage m)) else Panicked.

(** serialized_mesh.rs:12-21 [SerializedMesh]. *)
Record smesh : Type := SM {
  sm_topo : stopology;
  sm_attrs : list (Z * svalues);
  sm_idx : option sindices
}.
(** serialized_mesh.rs:23-44 [SerializedMesh::from_mesh]; the id conversion of lines
    98-123 keeps the number and fails on ids above 7. The attributes come in the
    order of the map. *)
Definition ser_mesh (m : bmesh) : smesh :=
  SM (stopology_of (bm_topo m))
     (omap (λ '(id, v), if known_id id then Some (id, svalues_of v) else None) (map_to_list (bm_attrs m)))
     (sindices_of <$> bm_idx m).
(** serialized_mesh.rs:46-77 [SerializedMesh::into_mesh]: unknown ids are skipped
    with a warning. *)
Definition deser_mesh (s : smesh) : outcome bmesh :=
  let! m := foldM (λ '(id, v) m, if known_id id then insert_attribute m id (vvalues_of v) else Done m)
                  (sm_attrs s) (BM (topology_of (sm_topo s)) ∅ None USAGE_ALL) in
  Done (BM (bm_topo m) (bm_attrs m)
           (match sm_idx s with Some i => Some (bindices_of i) | None => bm_idx m end) (bm_usage m)).

(** bevy_rerecast_core/src/mesh.rs:47-69 [TriMesh::from_mesh] on a bevy mesh. *)
Definition index_list (i : bindices) : list Z := match i with IU16 l | IU32 l => l end.
Definition as_float3 (v : vvalues) : option (list vec3) := match v with VFloat32x3 l => Some l | _ => None end.
Definition trimesh_of (m : bmesh) : option trimesh :=
  from_mesh (match bm_topo m with TriangleList => true | _ => false end)
            (bm_attrs m !! 0 ≫= as_float3) (index_list <$> bm_idx m).

(** ** Images *)

(** bevy [Image]: [im_desc] stands for the descriptor fields that are copied
    (size, mip level and sample count, dimension, format, usage), [iv_rest] for those
    of the view descriptor. *)
Record iview : Type := IV { iv_label : option Z; iv_rest : list Z }.
Record image : Type := Im {
  im_data : option (list Z);
  im_label : option Z;
  im_desc : list Z;
  im_formats : list Z;
  im_sampler : Z;
  im_view : option iview;
  im_usage : Z
}.
(** serialized_image.rs:25-44 [SerializedImage], [SerializedTextureViewDescriptor]. *)
Record simage : Type := SI {
  si_data : option (list Z);
  si_desc : list Z;
  si_sampler : Z;
  si_view : option (list Z)
}.
(** serialized_image.rs:80-99 [SerializedImage::from_image]. *)
Definition ser_image (i : image) : simage :=
  SI (im_data i) (im_desc i) (im_sampler i) (iv_rest <$> im_view i).
(** serialized_image.rs:102-121 [SerializedImage::into_image]. *)
Definition deser_image (s : simage) : image :=
  Im (si_data s) None (si_desc s) [] (si_sampler s) (IV None <$> si_view s) USAGE_ALL.

(** ** Materials *)

(** bevy [StandardMaterial]: the texture slots in the order in which
    serialized_standard_material.rs:152-263 reads them (how many there are depends on
    the crate features), the UV channels, the three enumerations, and the remaining
    fields, which are copied as they are ([mt_rest], uninterpreted). *)
Inductive uvchannel : Type := Uv0 | Uv1.
Inductive alphamode : Type := AOpaque | AMask (t : f32) | ABlend | APremultiplied | AToCoverage | AAdd | AMultiply.
Inductive parallax : Type := POcclusion | PRelief (steps : Z).
Inductive renderer : Type := RForward | RDeferred | RAuto.
Record material : Type := Mt {
  mt_tex : list (option handle);
  mt_uv : list uvchannel;
  mt_alpha : alphamode;
  mt_par : parallax;
  mt_rend : renderer;
  mt_rest : list Z
}.
(** serialized_standard_material.rs:14-113, 369-473: the serialized counterparts. *)
Inductive suvchannel : Type := SUv0 | SUv1.
Inductive salphamode : Type := SOpaque | SMask (t : f32) | SBlend | SPremultiplied | SToCoverage | SAdd | SMultiply.
Inductive sparallax : Type := SOcclusion | SRelief (steps : Z).
Inductive srenderer : Type := SForward | SDeferred | SAuto.
Record smaterial : Type := SMt {
  st_tex : list (option Z);
  st_uv : list suvchannel;
  st_alpha : salphamode;
  st_par : sparallax;
  st_rend : srenderer;
  st_rest : list Z
}.
Definition suv_of (c : uvchannel) : suvchannel := match c with Uv0 => SUv0 | Uv1 => SUv1 end.
Definition uv_of (c : suvchannel) : uvchannel := match c with SUv0 => Uv0 | SUv1 => Uv1 end.
Definition salpha_of (a : alphamode) : salphamode :=
  match a with AOpaque => SOpaque | AMask t => SMask t | ABlend => SBlend | APremultiplied => SPremultiplied
             | AToCoverage => SToCoverage | AAdd => SAdd | AMultiply => SMultiply end.
Definition alpha_of (a : salphamode) : alphamode :=
  match a with SOpaque => AOpaque | SMask t => AMask t | SBlend => ABlend | SPremultiplied => APremultiplied
             | SToCoverage => AToCoverage | SAdd => AAdd | SMultiply => AMultiply end.
Definition spar_of (p : parallax) : sparallax := match p with POcclusion => SOcclusion | PRelief n => SRelief n end.
Definition par_of (p : sparallax) : parallax := match p with SOcclusion => POcclusion | SRelief n => PRelief n end.
Definition srend_of (r : renderer) : srenderer := match r with RForward => SForward | RDeferred => SDeferred | RAuto => SAuto end.
Definition rend_of (r : srenderer) : renderer := match r with SForward => RForward | SDeferred => RDeferred | SAuto => RAuto end.

(** The image cache of the export: handles with their indices, and the images. *)
Notation icache := (gmap positive Z * list simage)%type (only parsing).

(** serialized_standard_material.rs:131-151, the closure [serialize_image]. The
    outer [option] is the [Result]: [None] stands for [ImageNotFound]. Indices are
    [u32]: [len() as u32] wraps. *)
Definition ser_slot (images : gmap positive image) (t : option handle) (c : icache) : option (option Z) * icache :=
  match t with
  | None => (Some None, c)
  | Some h =>
      match c.1 !! h with
      | Some i => (Some (Some i), c)
      | None =>
          match images !! h with
          | None => (None, c)
          | Some im =>
              let i := wrap_u32 (Z.of_nat (length c.2)) in
              (Some (Some i), (<[h := i]> c.1, c.2 ++ [ser_image im]))
          end
      end
  end.
(** serialized_standard_material.rs:152-263: the fields are evaluated in order, [?]
    leaves at the first texture that is not loaded; images pushed before that
    stay. *)
Fixpoint ser_slots (images : gmap positive image) (l : list (option handle)) (c : icache) :
    option (list (option Z)) * icache :=
  match l with
  | [] => (Some [], c)
  | t :: l =>
      match ser_slot images t c with
      | (None, c) => (None, c)
      | (Some i, c) =>
          match ser_slots images l c with
          | (None, c) => (None, c)
          | (Some is, c) => (Some (i :: is), c)
          end
      end
  end.
(** serialized_standard_material.rs:124-264 [try_from_standard_material]. *)
Definition ser_material (images : gmap positive image) (m : material) (c : icache) : option smaterial * icache :=
  match ser_slots images (mt_tex m) c with
  | (None, c) => (None, c)
  | (Some is, c) =>
      (Some (SMt is (suv_of <$> mt_uv m) (salpha_of (mt_alpha m)) (spar_of (mt_par m)) (srend_of (mt_rend m)) (mt_rest m)), c)
  end.

(** ** The game side *)

(** The components of an entity with [EditorVisible] that brp.rs:72-77 queries.
    [GlobalTransform] is its numbers. *)
Record entity : Type := En {
  en_tf : list f32;
  en_mesh : handle;
  en_visible : bool;
  en_mat : option handle
}.
(** The resources that brp.rs:39-101 reads. [w_backend]: [None] without a backend,
    [Some None] if running it fails. *)
Record world : Type := Wd {
  w_backend : option (option (list (list f32 * trimesh)));
  w_meshes : option (gmap positive bmesh);
  w_images : option (gmap positive image);
  w_mats : option (gmap positive material);
  w_entities : list entity
}.
(** brp.rs:190-210 [VisualMesh], brp.rs:174-187 [NavmeshInputResponse]. *)
Record visual : Type := Vi { vi_tf : list f32; vi_mesh : Z; vi_mat : option Z }.
Record response : Type := Rs {
  rs_aff : list (list f32 * trimesh);
  rs_vis : list visual;
  rs_mats : list smaterial;
  rs_meshes : list smesh;
  rs_imgs : list simage
}.
(** The error codes used by [get_navmesh_input]. *)
Inductive brp_error : Type := InvalidParams | InternalError.

(** brp.rs:103-108: the caches and the lists under construction. *)
Record export : Type := Ex {
  ex_imgs : gmap positive Z * list simage;
  ex_mats : gmap positive Z * list smaterial;
  ex_meshes : gmap positive Z * list smesh
}.

(** brp.rs:117-125: the index of the mesh; [None] leaves the closure. *)
Definition export_mesh (meshes : gmap positive bmesh) (h : handle) (c : gmap positive Z * list smesh) :
    option Z * (gmap positive Z * list smesh) :=
  match c.1 !! h with
  | Some i => (Some i, c)
  | None =>
      match meshes !! h with
      | None => (None, c)
      | Some m =>
          let i := wrap_u32 (Z.of_nat (length c.2)) in
          (Some i, (<[h := i]> c.1, c.2 ++ [ser_mesh m]))
      end
  end.
(** brp.rs:126-152: the index of the material. *)
Definition export_mat (mats : gmap positive material) (images : gmap positive image) (t : option handle) (e : export) :
    option Z * export :=
  match t with
  | None => (None, e)
  | Some h =>
      match (ex_mats e).1 !! h with
      | Some i => (Some i, e)
      | None =>
          match mats !! h with
          | None => (None, e)
          | Some m =>
              let i := wrap_u32 (Z.of_nat (length (ex_mats e).2)) in
              match ser_material images m (ex_imgs e) with
              | (Some s, c) => (Some i, Ex c (<[h := i]> (ex_mats e).1, (ex_mats e).2 ++ [s]) (ex_meshes e))
              | (None, c) => (None, Ex c (ex_mats e) (ex_meshes e))
              end
          end
      end
  end.
(** brp.rs:112-159: the closure of [filter_map] on one entity. *)
Definition export_entity (meshes : gmap positive bmesh) (mats : gmap positive material) (images : gmap positive image)
    (en : entity) (e : export) : option visual * export :=
  if negb (en_visible en) then (None, e)
  else
    match export_mesh meshes (en_mesh en) (ex_meshes e) with
    | (None, c) => (None, Ex (ex_imgs e) (ex_mats e) c)
    | (Some i, c) =>
        let '(j, e) := export_mat mats images (en_mat en) (Ex (ex_imgs e) (ex_mats e) c) in
        (Some (Vi (en_tf en) i j), e)
    end.
Fixpoint export_entities (meshes : gmap positive bmesh) (mats : gmap positive material) (images : gmap positive image)
    (l : list entity) (e : export) : list visual * export :=
  match l with
  | [] => ([], e)
  | en :: l =>
      let '(v, e) := export_entity meshes mats images en e in
      let '(vs, e) := export_entities meshes mats images l e in
      (match v with Some v => v :: vs | None => vs end, e)
  end.
(** brp.rs:37-170 [get_navmesh_input] up to the encoding of the response (bincode,
    gzip, base64), which is not modelled. [params]: whether parameters were given. *)
Definition get_navmesh_input (params : bool) (w : world) : brp_error + response :=
  if params then inl InvalidParams
  else
    match w_backend w, w_meshes w, w_images w, w_mats w with
    | Some (Some aff), Some meshes, Some images, Some mats =>
        let '(vis, e) := export_entities meshes mats images (w_entities w) (Ex (∅, []) (∅, []) (∅, [])) in
        inr (Rs aff vis (ex_mats e).2 (ex_meshes e).2 (ex_imgs e).2)
    | _, _, _, _ => inl InternalError
    end.

(** ** The editor side *)

(** The editor's asset stores and the caches of get_navmesh_input.rs:94-96. *)
Record editor : Type := Ed {
  ed_meshes : assets bmesh;
  ed_mats : assets material;
  ed_images : assets image
}.
Record import : Type := Ip {
  ip_ed : editor;
  ip_images : gmap Z positive;
  ip_mats : gmap Z positive;
  ip_meshes : gmap Z positive
}.

(** serialized_standard_material.rs:273-285, the closure [deserialize_image]. *)
Definition deser_slot (simages : list simage) (t : option Z) (c : gmap Z positive * assets image) :
    outcome (option handle * (gmap Z positive * assets image)) :=
  match t with
  | None => Done (None, c)
  | Some i =>
      match c.1 !! i with
      | Some h => Done (Some h, c)
      | None =>
          let! s := get simages (Z.to_nat i) in
          let '(h, a) := as_add c.2 (deser_image s) in
          Done (Some h, (<[i := h]> c.1, a))
      end
  end.
Fixpoint deser_slots (simages : list simage) (l : list (option Z)) (c : gmap Z positive * assets image) :
    outcome (list (option handle) * (gmap Z positive * assets image)) :=
  match l with
  | [] => Done ([], c)
  | t :: l =>
      let! r := deser_slot simages t c in
      let! rs := deser_slots simages l r.2 in
      Done (r.1 :: rs.1, rs.2)
  end.
(** serialized_standard_material.rs:267-365 [into_standard_material]. *)
Definition deser_material (simages : list simage) (s : smaterial) (c : gmap Z positive * assets image) :
    outcome (material * (gmap Z positive * assets image)) :=
  let! r := deser_slots simages (st_tex s) c in
  Done (Mt r.1 (uv_of <$> st_uv s) (alpha_of (st_alpha s)) (par_of (st_par s)) (rend_of (st_rend s)) (st_rest s), r.2).

(** get_navmesh_input.rs:99-108. *)
Definition import_mesh (r : response) (i : Z) (p : import) : outcome (handle * import) :=
  match ip_meshes p !! i with
  | Some h => Done (h, p)
  | None =>
      let! s := get (rs_meshes r) (Z.to_nat i) in
      let! m := deser_mesh s in
      let '(h, a) := as_add (ed_meshes (ip_ed p)) m in
      Done (h, Ip (Ed a (ed_mats (ip_ed p)) (ed_images (ip_ed p))) (ip_images p) (ip_mats p) (<[i := h]> (ip_meshes p)))
  end.
(** get_navmesh_input.rs:110-127. *)
Definition import_mat (r : response) (fallback : handle) (t : option Z) (p : import) : outcome (handle * import) :=
  match t with
  | None => Done (fallback, p)
  | Some i =>
      match ip_mats p !! i with
      | Some h => Done (h, p)
      | None =>
          let! s := get (rs_mats r) (Z.to_nat i) in
          let! d := deser_material (rs_imgs r) s (ip_images p, ed_images (ip_ed p)) in
          let '(h, a) := as_add (ed_mats (ip_ed p)) d.1 in
          Done (h, Ip (Ed (ed_meshes (ip_ed p)) a d.2.2) d.2.1 (<[i := h]> (ip_mats p)) (ip_meshes p))
      end
  end.
(** get_navmesh_input.rs:98-134: the entities spawned for the visual meshes, each
    with its transform ([compute_transform], which splits the matrix into translation,
    rotation and scale, is not modelled), mesh and material. *)
Fixpoint import_visuals (r : response) (fallback : handle) (l : list visual) (p : import) :
    outcome (list (list f32 * handle * handle) * import) :=
  match l with
  | [] => Done ([], p)
  | v :: l =>
      let! a := import_mesh r (vi_mesh v) p in
      let! b := import_mat r fallback (vi_mat v) a.2 in
      let! rest := import_visuals r fallback l b.2 in
      Done ((vi_tf v, a.1, b.1) :: rest.1, rest.2)
  end.
(** bevy [StandardMaterial::from(Color::WHITE)]; its scalar fields are not
    interpreted. *)
Definition white_material : material := Mt [] [] AOpaque POcclusion RAuto [].
(** get_navmesh_input.rs:65-77: the mesh of an affector. *)
Definition affector_mesh (t : trimesh) : bmesh :=
  BM TriangleList {[ 0 := VFloat32x3 (tm_verts t) ]}
     (Some (IU32 (concat ((λ i : Z * Z * Z, [i.1.1; i.1.2; i.2]) <$> tm_idx t)))) USAGE_ALL.
Fixpoint import_affectors (l : list (list f32 * trimesh)) (a : assets bmesh) : list (list f32 * handle) * assets bmesh :=
  match l with
  | [] => ([], a)
  | (tf, t) :: l =>
      let '(h, a) := as_add a (affector_mesh t) in
      let '(rest, a) := import_affectors l a in
      ((tf, h) :: rest, a)
  end.
(** get_navmesh_input.rs:20-138 [fetch_navmesh_input] from the decoded response on;
    despawning the old entities and clearing gizmos only concerns earlier imports.
    Result: the affector entities, the visual entities, the asset stores. *)
Definition import_response (r : response) (ed : editor) :
    outcome (list (list f32 * handle) * list (list f32 * handle * handle) * editor) :=
  let '(affs, meshes) := import_affectors (rs_aff r) (ed_meshes ed) in
  let '(fb, mats) := as_add (ed_mats ed) white_material in
  let! v := import_visuals r fb (rs_vis r) (Ip (Ed meshes mats (ed_images ed)) ∅ ∅ ∅) in
  Done (affs, v.1, ip_ed v.2).

(** ** The generation queue *)

(** generator.rs:17-41: [Assets<Navmesh>] and [NavmeshQueue], a [VecDeque] of handles
    with configurations. [C], [N]: configurations and navmeshes. *)
Record generator (C N : Type) : Type := Gn { gn_assets : assets N; gn_queue : list (handle * C) }.
Arguments Gn {C N}.
Arguments gn_assets {C N}.
Arguments gn_queue {C N}.
(** generator.rs:33-37 [NavmeshGenerator::generate]. *)
Definition generate {C N} (g : generator C N) (c : C) : handle * generator C N :=
  let '(h, a) := as_reserve (gn_assets g) in
  (h, Gn a (gn_queue g ++ [(h, c)])).
(** Everything an app does with the two resources: requests through the generator
    and bevy's own [Assets::reserve_handle], [Assets::add] and [Assets::remove]. The
    queue's type is private to the module (generator.rs:40-41) and the module has no
    system (generator.rs:13-15), so nothing else touches the queue. *)
Inductive gen_op (C N : Type) : Type := OGenerate (c : C) | OReserve | OAdd (n : N) | ORemove (h : handle).
Arguments OGenerate {C N}.
Arguments OReserve {C N}.
Arguments OAdd {C N}.
Arguments ORemove {C N}.
(** One operation; the result is the handle it returns. *)
Definition gen_step {C N} (o : gen_op C N) (g : generator C N) : option handle * generator C N :=
  match o with
  | OGenerate c => let '(h, g) := generate g c in (Some h, g)
  | OReserve => let '(h, a) := as_reserve (gn_assets g) in (Some h, Gn a (gn_queue g))
  | OAdd n => let '(h, a) := as_add (gn_assets g) n in (Some h, Gn a (gn_queue g))
  | ORemove h => (None, Gn (as_remove (gn_assets g) h) (gn_queue g))
  end.
Fixpoint gen_run {C N} (l : list (gen_op C N)) (g : generator C N) : list (option handle) * generator C N :=
  match l with
  | [] => ([], g)
  | o :: l =>
      let '(h, g) := gen_step o g in
      let '(hs, g) := gen_run l g in
      (h :: hs, g)
  end.
