(** Specification for C32 in real numbers: how far a contour vertex is from a segment. *)
From Coq Require Import Reals.
From Verif Require Import Base ModelMath ModelContours SpecContours.
Local Open Scope R_scope.

(** The position of a vertex on the grid. *)
Definition px (v : vtx) : R := IZR (vx v).
Definition pz (v : vtx) : R := IZR (vz v).

(** Some point of the segment from [a] to [b] has a distance of at most [d]
    from [p] in the plane. *)
Definition off_by (p a b : vtx) (d : R) : Prop :=
  ∃ s, 0 <= s <= 1 ∧
    let x := px a + s * (px b - px a) in
    let z := pz a + s * (pz b - pz a) in
    R_sqrt.sqrt ((x - px p) * (x - px p) + (z - pz p) * (z - pz p)) <= d.

(** Every raw vertex on a wall or an area border is at most [d] off the segment
    that replaces it. *)
Definition tolerates (raw : list rawv) (d : R) (j0 : nat) (os : list nat) : Prop :=
  ∀ x e o a b p, successive (length raw) os x e → (x < o < e)%nat →
    at_loop raw (j0 + x) = Some a → at_loop raw (j0 + e) = Some b → at_loop raw (j0 + o) = Some p →
    beyond_region p.2 = 0%Z ∨ area_border p.2 = true →
    off_by p.1 a.1 b.1 d.

(** No coordinate is above [n]. *)
Definition coords_upto (raw : list rawv) (n : Z) : Prop :=
  ∀ p : rawv, p ∈ raw → (0 <= vx p.1 <= n)%Z ∧ (0 <= vz p.1 <= n)%Z.

(** The edges of a contour keep within [d] of its walls and area borders: every
    raw vertex there is at most [d] off some edge. *)
Definition follows_walls (ct : contour) (d : R) : Prop :=
  ∀ p : rawv, p ∈ ct_raw ct → beyond_region p.2 = 0%Z ∨ area_border p.2 = true →
    ∃ k u v, ct_verts ct !! k = Some u ∧ ct_verts ct !! ((k + 1) mod length (ct_verts ct))%nat = Some v ∧
      off_by p.1 u.1 v.1 d.
