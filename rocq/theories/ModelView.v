(** Model of crates/bevy_rerecast_editor/src/visualization.rs, with the observers of
    ui.rs and get_navmesh_input.rs that change what is shown. *)
From Verif Require Import Base ModelMath ModelHeightfield ModelContours ModelPoly ModelTriMesh ModelDetail ModelExport.
Local Open Scope Z_scope.

(** ** Pictures *)

(** visualization.rs:150-151, 154-161: a grid vertex of the polygon mesh in world
    units. *)
Definition to_world (m : pmesh) (v : vtx) : vec3 :=
  let g := pm_geo m in
  V3 (f_add (v_x (g_min g)) (f_mul (f_of_Z (vx v)) (g_cs g)))
     (f_add (v_y (g_min g)) (f_mul (f_of_Z (vy v)) (g_ch g)))
     (f_add (v_z (g_min g)) (f_mul (f_of_Z (vz v)) (g_cs g))).
Definition index_pos (m : pmesh) (i : Z) : outcome vec3 :=
  let! v := get (pm_verts m) (Z.to_nat i) in Done (to_world m v).

(** visualization.rs:164, 245, 309: back to the first vertex. *)
Definition close_strip (l : list vec3) : outcome (list vec3) := let! a := get l 0 in Done (l ++ [a]).

(** visualization.rs:152-167: the outlines of the polygons. The colour of lines is
    left out everywhere. *)
Definition poly_strip (m : pmesh) (row : list Z) : outcome (list vec3) :=
  let! l := mapM_o (index_pos m) (filter (λ i, i ≠ NO_INDEX) row) in close_strip l.
Definition poly_lines (m : pmesh) : outcome (list (list vec3)) := mapM_o (poly_strip m) (pm_polys m).

(** A bevy mesh with positions and [u32] indices: [visual_verts] and
    [visual_indices]. *)
Record surface : Type := Sf { sf_pos : list vec3; sf_idx : list Z }.
Definition sf_len (s : surface) : Z := wrap_u32 (Z.of_nat (length (sf_pos s))).

(** visualization.rs:180-196: one window of the fan. *)
Definition fan_window (m : pmesh) (ai : Z) (w : Z * Z) (s : surface) : outcome surface :=
  if (w.1 =? NO_INDEX) || (w.2 =? NO_INDEX) then Done s
  else
    let! b := index_pos m w.1 in
    let! c := index_pos m w.2 in
    let s1 := Sf (sf_pos s ++ [b]) (sf_idx s) in
    let s2 := Sf (sf_pos s1 ++ [c]) (sf_idx s) in
    Done (Sf (sf_pos s2) (sf_idx s ++ [ai; sf_len s; sf_len s1])).
(** visualization.rs:173-197: one polygon; [poly[1..nvp].windows(2)]. *)
Definition fan_poly (m : pmesh) (row : list Z) (s : surface) : outcome surface :=
  let! i := get row 0 in
  let! a := index_pos m i in
  foldM (fan_window m (sf_len s)) (zip (drop 1 row) (drop 2 row)) (Sf (sf_pos s ++ [a]) (sf_idx s)).
Definition poly_surface (m : pmesh) : outcome surface := foldM (fan_poly m) (pm_polys m) (Sf [] []).

(** [&l[base..][..count]]. *)
Definition slice {A} (l : list A) (base count : Z) : outcome (list A) :=
  let! r := if (length l <? Z.to_nat base)%nat then Panicked else Done (drop (Z.to_nat base) l) in
  if (length r <? Z.to_nat count)%nat then Panicked else Done (take (Z.to_nat count) r).
Definition tri_ids (t : nat * nat * nat) : list nat := [t.1.1; t.1.2; t.2].

(** visualization.rs:233-249: the outlines of the detail triangles. *)
Definition tri_strip (vs : list vec3) (t : nat * nat * nat) : outcome (list vec3) :=
  let! l := mapM_o (get vs) (tri_ids t) in close_strip l.
Definition submesh_lines (d : dmesh) (s : submesh) : outcome (list (list vec3)) :=
  let! vs := slice (dm_verts d) (sm_vbase s) (sm_vcount s) in
  let! ts := slice (dm_tris d) (sm_tbase s) (sm_tcount s) in
  mapM_o (tri_strip vs) ts.
Definition detail_lines (d : dmesh) : outcome (list (list vec3)) :=
  let! l := mapM_o (submesh_lines d) (dm_meshes d) in Done (concat l).

(** visualization.rs:255-267: the detail triangles as a surface. *)
Definition submesh_surface (d : dmesh) (m : submesh) (s : surface) : outcome surface :=
  let! vs := slice (dm_verts d) (sm_vbase m) (sm_vcount m) in
  let! ts := slice (dm_tris d) (sm_tbase m) (sm_tcount m) in
  let! idx := foldM (λ i acc, let! j := chk_u32 (Z.of_nat i + sf_len s) in Done (acc ++ [j])) (concat (tri_ids <$> ts)) (sf_idx s) in
  Done (Sf (sf_pos s ++ vs) idx).
Definition detail_surface (d : dmesh) : outcome surface := foldM (submesh_surface d) (dm_meshes d) (Sf [] []).

(** visualization.rs:302-312: the outlines of an affector's triangles. [unwrap] on
    the conversion panics if it fails. *)
Definition affector_lines (b : bmesh) : outcome (list (list vec3)) :=
  let! t := unwrap (trimesh_of b) in
  mapM_o (λ i : Z * Z * Z,
    let! l := mapM_o (λ j, get (tm_verts t) (Z.to_nat j)) [i.1.1; i.1.2; i.2] in close_strip l) (tm_idx t).

(** ** The editor session *)

(** visualization.rs:61-67. *)
Inductive gizmo : Type := GVisual | GAffector | GPoly | GDetail.
Global Instance gizmo_dec : EqDecision gizmo.
Proof. solve_decision. Defined.
Definition upd (f : gizmo → bool) (g : gizmo) (b : bool) : gizmo → bool := λ g', if decide (g' = g) then b else f g'.

(** The entity that shows a mesh (visualization.rs:95-129): its visibility, the
    lines of its gizmo, and its surface. *)
Record view : Type := Vw { vw_visible : bool; vw_lines : list (list vec3); vw_surface : option surface }.

(** The part of the app that visualization.rs reads and writes.
    Simplifications: bevy's change ticks are replaced by what they decide, whether a
    run condition sees a change of a resource, that is, whether the resource was
    changed after the condition last ran; a resource counts as changed when the app
    starts. Assets of the gizmos always exist. *)
Record session : Type := Ses {
  ses_on : gizmo → bool;               (** [GizmosToDraw] *)
  ses_mesh : option (pmesh * dmesh);   (** [Navmesh] *)
  ses_new : gizmo → bool;              (** [resource_changed::<Navmesh>] of a drawing system *)
  ses_ton : gizmo → bool;              (** the change seen by [toggled_gizmo_on] *)
  ses_toff : gizmo → bool;             (** the change seen by [toggled_gizmo_off] *)
  ses_poly : view;
  ses_detail : view;
  ses_affs : list (bmesh * list (list vec3));  (** affectors: mesh, lines of the gizmo *)
  ses_vis : list (visual * bool)       (** visual meshes and their visibility *)
}.

(** visualization.rs:85-93, 101-129: the app after startup. *)
Definition session0 : session :=
  Ses (λ g, match g with GDetail | GVisual => true | _ => false end) None (λ _, true) (λ _, true) (λ _, true)
    (Vw false [] None) (Vw false [] None) [] [].

(** The systems of visualization.rs:16-40. *)
Inductive sys : Type := SDraw (g : gizmo) | SHide (g : gizmo).

Definition set_poly (s : session) (v : view) : session :=
  Ses (ses_on s) (ses_mesh s) (ses_new s) (ses_ton s) (ses_toff s) v (ses_detail s) (ses_affs s) (ses_vis s).
Definition set_detail (s : session) (v : view) : session :=
  Ses (ses_on s) (ses_mesh s) (ses_new s) (ses_ton s) (ses_toff s) (ses_poly s) v (ses_affs s) (ses_vis s).
Definition set_affs (s : session) (l : list (bmesh * list (list vec3))) : session :=
  Ses (ses_on s) (ses_mesh s) (ses_new s) (ses_ton s) (ses_toff s) (ses_poly s) (ses_detail s) l (ses_vis s).
Definition set_vis (s : session) (l : list (visual * bool)) : session :=
  Ses (ses_on s) (ses_mesh s) (ses_new s) (ses_ton s) (ses_toff s) (ses_poly s) (ses_detail s) (ses_affs s) l.
(** A run condition has run. *)
Definition seen_new (s : session) (g : gizmo) : session :=
  Ses (ses_on s) (ses_mesh s) (upd (ses_new s) g false) (ses_ton s) (ses_toff s) (ses_poly s) (ses_detail s) (ses_affs s) (ses_vis s).
Definition seen_on (s : session) (g : gizmo) : session :=
  Ses (ses_on s) (ses_mesh s) (ses_new s) (upd (ses_ton s) g false) (ses_toff s) (ses_poly s) (ses_detail s) (ses_affs s) (ses_vis s).
Definition seen_off (s : session) (g : gizmo) : session :=
  Ses (ses_on s) (ses_mesh s) (ses_new s) (ses_ton s) (upd (ses_toff s) g false) (ses_poly s) (ses_detail s) (ses_affs s) (ses_vis s).

(** visualization.rs:22-31: [resource_exists.and(enabled.and(changed.or(toggled_on)))].
    bevy's combinators run the second condition only if needed. *)
Definition mesh_condition (g : gizmo) (s : session) : bool * session :=
  match ses_mesh s with
  | None => (false, s)
  | Some _ =>
    if negb (ses_on s g) then (false, s)
    else if ses_new s g then (true, seen_new s g)
    else (ses_ton s g && ses_on s g, seen_on (seen_new s g) g)
  end.

(** visualization.rs:131-168, 199-213 and 216-249, 268-282: drawing a mesh clears
    the gizmo, makes the entity visible and replaces its surface. *)
Definition draw_view (lines : outcome (list (list vec3))) (sf : outcome surface) : outcome view :=
  let! l := lines in let! f := sf in Done (Vw true l (Some f)).

(** One system with its run condition. *)
Definition run_sys (y : sys) (s : session) : outcome session :=
  match y with
  | SDraw GPoly =>
    let '(go, s) := mesh_condition GPoly s in
    match go, ses_mesh s with
    | true, Some n => let! v := draw_view (poly_lines n.1) (poly_surface n.1) in Done (set_poly s v)
    | _, _ => Done s
    end
  | SDraw GDetail =>
    let '(go, s) := mesh_condition GDetail s in
    match go, ses_mesh s with
    | true, Some n => let! v := draw_view (detail_lines n.2) (detail_surface n.2) in Done (set_detail s v)
    | _, _ => Done s
    end
  | SDraw GAffector =>
    (** visualization.rs:32, 285-314 *)
    let go := ses_ton s GAffector && ses_on s GAffector in
    let s := seen_on s GAffector in
    if go then
      let! l := mapM_o (λ a : bmesh * list (list vec3), let! ls := affector_lines a.1 in Done (a.1, ls)) (ses_affs s) in
      Done (set_affs s l)
    else Done s
  | SDraw GVisual =>
    (** visualization.rs:33, 316-320 *)
    let go := ses_ton s GVisual && ses_on s GVisual in
    let s := seen_on s GVisual in
    if go then Done (set_vis s ((λ v : visual * bool, (v.1, true)) <$> ses_vis s)) else Done s
  | SHide g =>
    (** visualization.rs:34-37, 322-365 *)
    let go := ses_toff s g && negb (ses_on s g) in
    let s := seen_off s g in
    if go then
      Done (match g with
            | GPoly => set_poly s (Vw false [] (vw_surface (ses_poly s)))
            | GDetail => set_detail s (Vw false [] (vw_surface (ses_detail s)))
            | GAffector => set_affs s ((λ a : bmesh * list (list vec3), (a.1, [])) <$> ses_affs s)
            | GVisual => set_vis s ((λ v : visual * bool, (v.1, false)) <$> ses_vis s)
            end)
    else Done s
  end.

(** What happens in the app: a checkbox is clicked (ui.rs:205-211,
    visualization.rs:48-59), a build succeeds (build.rs:111-114; a failing build
    changes nothing), a scene is loaded (get_navmesh_input.rs:55-135), or a system
    runs. *)
Inductive event : Type := EToggle (g : gizmo) | EBuild (n : pmesh * dmesh) | ELoad (r : response) | ERun (y : sys).

Definition no_lines (v : view) : view := Vw (vw_visible v) [] (vw_surface v).
Definition handle_event (e : event) (s : session) : outcome session :=
  match e with
  | EToggle g =>
    Done (Ses (upd (ses_on s) g (negb (ses_on s g))) (ses_mesh s) (ses_new s) (λ _, true) (λ _, true)
      (ses_poly s) (ses_detail s) (ses_affs s) (ses_vis s))
  | EBuild n =>
    Done (Ses (ses_on s) (Some n) (λ _, true) (ses_ton s) (ses_toff s) (ses_poly s) (ses_detail s) (ses_affs s) (ses_vis s))
  | ELoad r =>
    (** The old affectors and visual meshes are despawned, all gizmos cleared, and
        the new entities spawned: affectors with an empty gizmo, visual meshes with the
        default visibility. What they refer to is [import_response] in
        ModelExport.v. *)
    Done (Ses (ses_on s) (ses_mesh s) (ses_new s) (ses_ton s) (ses_toff s) (no_lines (ses_poly s)) (no_lines (ses_detail s))
      ((λ a : list f32 * trimesh, (affector_mesh a.2, [])) <$> rs_aff r) ((λ v, (v, true)) <$> rs_vis r))
  | ERun y => run_sys y s
  end.
Definition history (es : list event) (s : session) : outcome session := foldM handle_event es s.
