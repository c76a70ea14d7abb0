(** Specification of rasterization in exact arithmetic. *)
From Coq Require Import QArith Qround.
From Verif Require Import Base ModelRasterize.
Local Open Scope Q_scope.

(** ** Points, half-spaces, polygons *)

(** An affine functional of points; [ev g p <= 0] is a half-space. *)
Record aff : Type := Aff { g_a : Q; g_b : Q; g_c : Q; g_d : Q }.
Definition ev (g : aff) (p : pt Q) : Q := g_a g * px p + g_b g * py p + g_c g * pz p + g_d g.

(** A point is in the convex hull of others if it is in every half-space that
    contains them. *)
Definition in_hull (l : list (pt Q)) (p : pt Q) : Prop := ∀ g, (∀ q, q ∈ l → ev g q <= 0) → ev g p <= 0.

(** How often a closed sequence changes between true and false. *)
Fixpoint changes (b : bool) (l : list bool) : nat :=
  match l with [] => 0 | a :: l' => (if eqb b a then 0 else 1) + changes a l' end%nat.
Definition turns (l : list bool) : nat := changes (List.last l false) l.
Definition above (g : aff) (p : pt Q) : bool := negb (Qle_bool (ev g p) 0).
(** A convex polygon: its boundary crosses no plane more than twice. *)
Definition convex (l : list (pt Q)) : Prop := ∀ g, (turns (above g <$> l) <= 2)%nat.

(** ** Triangles and cells *)

Notation tri3 := (pt Q * pt Q * pt Q)%type.
(** A weighted mean of the corners. *)
Definition in_tri (t : tri3) (p : pt Q) : Prop :=
  ∃ u v w, 0 <= u ∧ 0 <= v ∧ 0 <= w ∧ u + v + w == 1 ∧
    px p == u * px t.1.1 + v * px t.1.2 + w * px t.2 ∧
    py p == u * py t.1.1 + v * py t.1.2 + w * py t.2 ∧
    pz p == u * pz t.1.1 + v * pz t.1.2 + w * pz t.2.

(** The k-th grid line. *)
Definition line (lo cs : Q) (k : Z) : Q := lo + inject_Z k * cs.
(** The closed cell, and its interior. *)
Definition in_cell (g : place Q) (x z : Z) (p : pt Q) : Prop :=
  line (px (pl_min g)) (pl_cs g) x <= px p <= line (px (pl_min g)) (pl_cs g) (x + 1) ∧
  line (pz (pl_min g)) (pl_cs g) z <= pz p <= line (pz (pl_min g)) (pl_cs g) (z + 1).
Definition inside_cell (g : place Q) (x z : Z) (p : pt Q) : Prop :=
  line (px (pl_min g)) (pl_cs g) x < px p < line (px (pl_min g)) (pl_cs g) (x + 1) ∧
  line (pz (pl_min g)) (pl_cs g) z < pz p < line (pz (pl_min g)) (pl_cs g) (z + 1).

(** [lo] and [hi] are the least and the greatest height of the triangle over the
    cell. *)
Definition heights_over (g : place Q) (t : tri3) (x z : Z) (lo hi : Q) : Prop :=
  (∀ p, in_tri t p → in_cell g x z p → lo <= py p <= hi) ∧
  (∃ p, in_tri t p ∧ in_cell g x z p ∧ py p == lo) ∧
  (∃ p, in_tri t p ∧ in_cell g x z p ∧ py p == hi).

(** The grid heights of a range of heights inside the field's box: rounded outward,
    at least one high. *)
Definition grid_heights (g : place Q) (lo hi : Q) (a b : Z) : Prop :=
  let bottom := py (pl_min g) in
  let top := py (pl_max g) in
  bottom <= hi ∧ lo <= top ∧
  a = Z.max 0 (Qfloor ((lo - bottom) / pl_ch g)) ∧
  b = Z.max (a + 1) (Z.min (Qceiling ((hi - bottom) / pl_ch g)) (Qceiling ((top - bottom) / pl_ch g))).

(** The triangle has a point over the inside of the cell and not past the far sides of
    the field's box, and over the cell it is neither all below nor all above the box. *)
Definition meets_cell (g : place Q) (t : tri3) (x z : Z) : Prop :=
  (∃ p, in_tri t p ∧ inside_cell g x z p ∧ px p <= px (pl_max g) ∧ pz p <= pz (pl_max g)) ∧
  (∃ p, in_tri t p ∧ in_cell g x z p ∧ py (pl_min g) <= py p) ∧
  (∃ p, in_tri t p ∧ in_cell g x z p ∧ py p <= py (pl_max g)).
