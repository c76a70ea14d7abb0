(** Specification vocabulary for what the editor shows. *)
From Verif Require Import Base ModelMath ModelHeightfield ModelContours ModelPoly ModelTriMesh ModelDetail SpecPoly ModelExport ModelView.
Local Open Scope Z_scope.

(** A triangle in the world. *)
Definition tri3 : Type := vec3 * vec3 * vec3.

(** Where the vertex with index [i] of a polygon mesh is, as poly_mesh.rs:40-66
    documents it: the minimum of the bounding box plus the grid coordinates in cells. *)
Definition vertex_at (m : pmesh) (i : Z) (p : vec3) : Prop :=
  ∃ v, pm_verts m !! Z.to_nat i = Some v ∧
    p = V3 (f_add (v_x (g_min (pm_geo m))) (f_mul (f_of_Z (vx v)) (g_cs (pm_geo m))))
           (f_add (v_y (g_min (pm_geo m))) (f_mul (f_of_Z (vy v)) (g_ch (pm_geo m))))
           (f_add (v_z (g_min (pm_geo m))) (f_mul (f_of_Z (vz v)) (g_cs (pm_geo m)))).
(** A triangle of vertex indices and where it is. *)
Definition placed (at_ : Z → vec3 → Prop) (t : Z * Z * Z) (q : tri3) : Prop :=
  at_ t.1.1 q.1.1 ∧ at_ t.1.2 q.1.2 ∧ at_ t.2 q.2.
Definition placed_nat (vs : list vec3) (t : nat * nat * nat) (q : tri3) : Prop :=
  vs !! t.1.1 = Some q.1.1 ∧ vs !! t.1.2 = Some q.1.2 ∧ vs !! t.2 = Some q.2.

(** [l] goes around the closed polygon [ps] and ends where it starts. *)
Definition around (ps l : list vec3) : Prop := ∃ a q, ps = a :: q ∧ l = ps ++ [a].

(** The surface consists of the triangles [ts]: reading its positions at its
    indices gives their corners. *)
Definition consists (s : surface) (ts : list tri3) : Prop :=
  Forall2 (λ i p, 0 <= i ∧ sf_pos s !! Z.to_nat i = Some p) (sf_idx s) (concat (tri_list <$> ts)).

(** Lines and surface of a polygon mesh with [nvp] slots per polygon: every outline
    goes around its polygon, and its triangles triangulate it; they do not fold over
    if the polygon is convex. *)
Definition poly_picture (nvp : nat) (m : pmesh) (lines : list (list vec3)) (s : surface) : Prop :=
  Forall2 (λ row l, ∃ vs ps, padded nvp vs row ∧ Forall2 (vertex_at m) vs ps ∧ around ps l) (pm_polys m) lines ∧
  ∃ tss, consists s (concat tss) ∧
    Forall2 (λ row ts, ∃ vs ids, padded nvp vs row ∧ triangulation vs ids ∧ Forall2 (placed (vertex_at m)) ids ts ∧
      (strictly_convex (place (pm_verts m) <$> vs) →
        Forall (λ t, cross (place (pm_verts m) t.1.1) (place (pm_verts m) t.1.2) (place (pm_verts m) t.2) < 0) ids)) (pm_polys m) tss.

(** Lines and surface of a detail mesh: both show every triangle of every
    sub-mesh, in order. *)
Definition part {A} (l : list A) (base count : Z) : list A := take (Z.to_nat count) (drop (Z.to_nat base) l).
Definition detail_picture (d : dmesh) (lines : list (list vec3)) (s : surface) : Prop :=
  ∃ tss, Forall2 (λ sm ts, Forall2 (placed_nat (part (dm_verts d) (sm_vbase sm) (sm_vcount sm)))
           (part (dm_tris d) (sm_tbase sm) (sm_tcount sm)) ts) (dm_meshes d) tss ∧
    Forall2 (λ q l, around (tri_list q) l) (concat tss) lines ∧ consists s (concat tss).

(** The lines around the triangles of an affector. *)
Definition affector_picture (t : trimesh) (lines : list (list vec3)) : Prop :=
  ∃ ts, Forall2 (placed (λ i p, tm_verts t !! Z.to_nat i = Some p)) (tm_idx t) ts ∧
    Forall2 (λ q l, around (tri_list q) l) ts lines.
