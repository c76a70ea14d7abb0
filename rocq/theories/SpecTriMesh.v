(** Specification of triangle meshes: a mesh is the sequence of its triangles,
    each with the positions of its corners and its area. *)
From Verif Require Import Base ModelMath ModelTriMesh.
Local Open Scope Z_scope.

Definition corner_at (vs : list vec3) (i : Z) : option vec3 := if i <? 0 then None else vs !! Z.to_nat i.
Notation placed_tri := (option vec3 * option vec3 * option vec3 * Z)%type.
Definition soup (m : trimesh) : list placed_tri :=
  zip_with (λ t a, (corner_at (tm_verts m) t.1.1, corner_at (tm_verts m) t.1.2, corner_at (tm_verts m) t.2, a)) (tm_idx m) (tm_areas m).

Definition in_range (n : nat) (t : Z * Z * Z) : Prop :=
  0 <= t.1.1 < Z.of_nat n ∧ 0 <= t.1.2 < Z.of_nat n ∧ 0 <= t.2 < Z.of_nat n.
(** All indices name vertices and there is one area per triangle. *)
Definition valid (m : trimesh) : Prop :=
  Forall (in_range (length (tm_verts m))) (tm_idx m) ∧ length (tm_areas m) = length (tm_idx m).

(** Moving a triangle by a map of points. *)
Definition move (g : vec3 → vec3) (t : placed_tri) : placed_tri := (g <$> t.1.1.1, g <$> t.1.1.2, g <$> t.1.2, t.2).

(** A part of a compound: where it goes and, if its shape is supported, its
    triangles, which are not walkable yet. *)
Definition part_soup (s : option (list vec3 * list (Z * Z * Z))) : list placed_tri :=
  match s with
  | None => []
  | Some (vs, idx) => (λ t, (corner_at vs t.1.1, corner_at vs t.1.2, corner_at vs t.2, 0)) <$> idx
  end.
Definition part_valid (s : option (list vec3 * list (Z * Z * Z))) : Prop :=
  match s with None => True | Some (vs, idx) => Forall (in_range (length vs)) idx end.
Definition part_size (s : option (list vec3 * list (Z * Z * Z))) : Z :=
  match s with None => 0 | Some (vs, _) => Z.of_nat (length vs) end.
(** Where the parts should be. *)
Definition assembled (parts : list (iso * option (list vec3 * list (Z * Z * Z)))) : list placed_tri :=
  concat ((λ p, move (act p.1) <$> part_soup p.2) <$> parts).
(** Where they are: each part is moved by the placement of all later ones. *)
Fixpoint drifted (parts : list (iso * option (list vec3 * list (Z * Z * Z)))) : list placed_tri :=
  match parts with
  | [] => []
  | p :: rest =>
    foldl (λ ts q, match q.2 with None => ts | Some _ => move (act q.1) <$> ts end) (part_soup p.2) rest ++ drifted rest
  end.

(** No NaN. *)
Definition number (x : f32) : Prop := x ≠ S754_nan.
Definition numbers (v : vec3) : Prop := number (v_x v) ∧ number (v_y v) ∧ number (v_z v).
(** [lo] and [hi] bound [x]. *)
Definition between_f (lo hi x : f32) : Prop := f_lt x lo = false ∧ f_lt hi x = false.
