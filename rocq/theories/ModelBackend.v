(** Model of the backends that collect the geometry of a game:
    crates/bevy_rerecast_core/src/backend.rs, mesh.rs:24-37 and
    crates/avian_rerecast/src/lib.rs. *)
From Verif Require Import Base ModelMath ModelTriMesh ModelExport ModelPipeline.
Local Open Scope Z_scope.

(** avian [RigidBody]. *)
Inductive body : Type := BDynamic | BStatic | BKinematic.
Definition is_static (b : body) : bool := match b with BStatic => true | _ => false end.

(** avian [Collider] as its [TypedShape]: a compound of placed shapes, or a shape
    with parry's tessellation ([None] if unsupported), which is not modelled. *)
Definition tess : Type := option (list vec3 * list (Z * Z * Z)).
Inductive collider : Type := CShape (s : tess) | CCompound (parts : list (iso * tess)).

(** collider_to_trimesh.rs:37-90 [to_trimesh]. *)
Definition collider_trimesh (c : collider) : outcome (option trimesh) :=
  match c with
  | CShape s => Done (shape_mesh s)
  | CCompound parts => let! m := compound_trimesh parts in Done (Some m)
  end.

(** An entity of the game with the components that the backends query. Entities are
    named by numbers; [ColliderOf] names the entity with the body. *)
Record gentity : Type := GE {
  ge_tf : list f32;
  ge_mesh : option handle;              (** [Mesh3d] *)
  ge_collider : option (collider * Z);  (** [Collider] and [ColliderOf] *)
  ge_body : option body                 (** [RigidBody] *)
}.
Record game : Type := Gm {
  gm_entities : list (Z * gentity);
  gm_meshes : gmap positive bmesh
}.

(** core/mesh.rs:24-37 [mesh3d_backend]. Queries go through entities in the order of
    the list; bevy fixes no order. *)
Definition mesh3d_backend (g : game) : list (list f32 * trimesh) :=
  omap (λ e : Z * gentity,
    h ← ge_mesh e.2; m ← gm_meshes g !! h; t ← trimesh_of m; Some (ge_tf e.2, t)) (gm_entities g).

(** avian/lib.rs:26-42 [collider_backend]. *)
Definition body_of (g : game) (id : Z) : option body :=
  e ← list_find (λ e : Z * gentity, e.1 = id) (gm_entities g); ge_body e.2.2.
Fixpoint collect_colliders (g : game) (l : list (Z * gentity)) : outcome (list (list f32 * trimesh)) :=
  match l with
  | [] => Done []
  | e :: l =>
      let! x := match ge_collider e.2 with
                | None => Done None
                | Some (c, b) =>
                    match body_of g b with
                    | Some bd => if negb (is_static bd) then Done None
                                 else let! m := collider_trimesh c in Done ((ge_tf e.2,.) <$> m)
                    | None => Done None
                    end
                end in
      let! r := collect_colliders g l in
      Done (match x with Some x => x :: r | None => r end)
  end.
Definition collider_backend (g : game) : outcome (list (list f32 * trimesh)) := collect_colliders g (gm_entities g).

(** backend.rs:9-30: the registered backend. A backend of the user's own is any
    function of the game. *)
Inductive backend : Type :=
| BMesh3d | BCollider | BCustom (f : game → list (list f32 * trimesh)).
Definition set_backend (b : backend) (r : option backend) : option backend := Some b.
Definition run_backend (b : backend) (g : game) : outcome (list (list f32 * trimesh)) :=
  match b with
  | BMesh3d => Done (mesh3d_backend g)
  | BCollider => collider_backend g
  | BCustom f => Done (f g)
  end.

(** brp.rs:37-70: the request runs the backend first; [rest] are the other resources
    that it reads. Running the backend does not fail here other than by a panic. *)
Definition request (r : option backend) (g : game) (rest : world) : outcome (brp_error + response) :=
  match r with
  | None => Done (get_navmesh_input false (Wd None (w_meshes rest) (w_images rest) (w_mats rest) (w_entities rest)))
  | Some b =>
      let! affs := run_backend b g in
      Done (get_navmesh_input false (Wd (Some (Some affs)) (w_meshes rest) (w_images rest) (w_mats rest) (w_entities rest)))
  end.

(** build.rs:33-44: the affector entities of the editor as the build reads them. [eff]
    is the effect of a transform on points: [compute_transform] in
    get_navmesh_input.rs:80, bevy's propagation, and [transform_point]. *)
Definition affectors_of (eff : list f32 → vec3 → vec3) (ed : editor) (affs : list (list f32 * handle)) : list affector :=
  (λ a : list f32 * handle, (as_tbl (ed_meshes ed) !! a.2, eff a.1)) <$> affs.
