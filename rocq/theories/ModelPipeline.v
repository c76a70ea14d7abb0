(** Model of crates/bevy_rerecast_editor/src/build.rs: the whole build, from the
    meshes of a scene to the navmesh. *)
From Verif Require Import Base ModelMath ModelHeightfield ModelFilters ModelTriMesh ModelRasterize ModelCompact
  ModelDistance ModelRegions ModelContours ModelPoly ModelDetail ModelExport ModelConfig.
Local Open Scope Z_scope.

(** An affector: its mesh, if the asset exists, and the effect of its global
    transform on points (build.rs:41-44, [compute_transform], [transform_point]),
    any function here. *)
Definition affector : Type := option bmesh * (vec3 → vec3).

(** build.rs:33-46: the triangles of all affectors whose mesh can be read. *)
Definition add_affector (a : affector) (m : trimesh) : outcome trimesh :=
  match a.1 ≫= trimesh_of with
  | None => Done m
  | Some t => extend m (TM (a.2 <$> tm_verts t) (tm_idx t) (tm_areas t))
  end.
Definition gather (affs : list affector) : outcome trimesh := foldM add_affector affs tm_default.

(** The error paths of the build. *)
Inductive build_error : Type :=
| EmptyScene | FieldTooLarge | RasterError | TooManyLayers | TooManyRegions | MeshError (e : perr).
Inductive bresult (A : Type) : Type := BOk (a : A) | BErr (e : build_error).
Arguments BOk {_} _.
Arguments BErr {_} _.

(** The navmesh (build.rs:111-114), and the intermediate results, named so that
    theorems can speak of them. *)
Record run : Type := Run {
  r_tris : trimesh;     (** marked triangles *)
  r_empty : hfield;     (** the field before rasterization *)
  r_solid : hfield;     (** after rasterization *)
  r_field : hfield;     (** after the three filters *)
  r_open : chf;         (** the compact field *)
  r_eroded : chf;       (** after erosion *)
  r_dist : chf;         (** with distances *)
  r_regions : chf;      (** with regions *)
  r_contours : contour_set;
  r_mesh : pmesh;
  r_detail : dmesh
}.

(** [?] on the options the model uses for errors. *)
Definition or_err {A B} (m : outcome (option A)) (e : build_error) (k : A → outcome (bresult B)) : outcome (bresult B) :=
  let! r := m in match r with Some a => k a | None => Done (BErr e) end.

(** build.rs:24-117 [build_navmesh]. [cosf] is the platform's cosine; [f1] and [f2]
    are the fuels of vertex removal and of the detail mesh. *)
Definition build_navmesh (cosf : f32 → f32) (f1 f2 : nat) (c : cfg) (affs : list affector) : outcome (bresult run) :=
  let! m := gather affs in
  match aabb_of (tm_verts m) with
  | None => Done (BErr EmptyScene)
  | Some (lo, hi) =>
    let! m := mark_walkable m (cosf (cf_slope c)) in
    or_err (build_heightfield (Geo lo hi (cf_cs c) (cf_ch c))) FieldTooLarge (λ hf0,
    or_err (rasterize_triangles hf0 m (cf_climb c)) RasterError (λ hf1,
    let! hf2 := run_filters (cf_wh c) (cf_climb c) hf1 in
    or_err (into_compact hf2 (cf_wh c) (cf_climb c)) TooManyLayers (λ ch0,
    let! ch1 := erode_walkable_area ch0 (cf_radius c) in
    let! ch2 := build_distance_field ch1 in
    or_err (build_regions ch2 (cf_border c) (cf_min_area c) (cf_merge_area c)) TooManyRegions (λ ch3,
    let! ks := build_contours ch3 (cf_edge_err c) (cf_edge_len c) (cf_wall c) (cf_areas c) in
    let! r := into_polygon_mesh f1 (Z.to_nat (cf_nvp c)) ks in
    match r with
    | Err e => Done (BErr (MeshError e))
    | Ok pm =>
      let! dm := detail_new f2 pm ch3 (cf_sample_dist c) (cf_sample_err c) in
      Done (BOk (Run m hf0 hf1 hf2 ch0 ch1 ch2 ch3 ks pm dm))
    end))))
  end.
