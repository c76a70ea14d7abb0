(** Specification vocabulary for marking areas by a convex volume. *)
From Verif Require Import Base ModelMath ModelHeightfield ModelCompact ModelMarkArea
  SpecHeightfield SpecCompact SpecDistance.
Local Open Scope Z_scope.

(** Does the ray from [p] in direction +x pass through the edge from [b] to [a]
    ([f32] arithmetic)? *)
Definition ray_hits (p : vec2) (e : vec2 * vec2) : Prop :=
  let '(a, b) := e in
  f_lt (p_y p) (p_y a) ≠ f_lt (p_y p) (p_y b) ∧
  f_lt (p_x p) (f_add (f_div (f_mul (f_sub (p_x b) (p_x a)) (f_sub (p_y p) (p_y a)))
                             (f_sub (p_y b) (p_y a))) (p_x a)) = true.
Global Instance ray_hits_dec p e : Decision (ray_hits p e).
Proof. destruct e. unfold ray_hits. apply _. Defined.

(** Every vertex with its cyclic predecessor. *)
Definition edges_of (vs : list vec2) : list (vec2 * vec2) :=
  match last vs with Some l => zip vs (l :: vs) | None => [] end.

(** The even-odd rule. *)
Definition inside_polygon (p : vec2) (vs : list vec2) : Prop :=
  Nat.odd (length (filter (ray_hits p) (edges_of vs))) = true.

(** A coordinate in cells, truncated toward zero; the middle of a cell. *)
Definition cells (lo size v : f32) : Z := f_to_i32 (f_div (f_sub v lo) size).
Definition middle (g : geo) (x z : Z) : vec2 :=
  V2 (f_add (v_x (g_min g)) (f_mul (f_add (f_of_Z x) (f_of_me 1 (-1))) (g_cs g)))
     (f_add (v_z (g_min g)) (f_mul (f_add (f_of_Z z) (f_of_me 1 (-1))) (g_cs g))).

(** The cell [(x, z)] lies in the cell bounds of the polygon's bounding box. *)
Definition in_footprint (g : geo) (lo hi : vec2) (x z : nat) : Prop :=
  cells (v_x (g_min g)) (g_cs g) (p_x lo) ≤ Z.of_nat x ≤ cells (v_x (g_min g)) (g_cs g) (p_x hi) ∧
  cells (v_z (g_min g)) (g_cs g) (p_y lo) ≤ Z.of_nat z ≤ cells (v_z (g_min g)) (g_cs g) (p_y hi).

(** The floor height [y], in cells, lies between the volume's bounds, converted
    to cells with truncation toward zero. *)
Definition in_height (g : geo) (vol : volume) (y : Z) : Prop :=
  cells (v_y (g_min g)) (g_ch g) (vol_min_y vol) ≤ y ≤ cells (v_y (g_min g)) (g_ch g) (vol_max_y vol).

(** Span [i] is covered by the volume. *)
Definition covered (ch : chf) (vol : volume) (i : nat) : Prop :=
  ∃ x z s lo hi, (x < ch_w ch)%nat ∧ (z < ch_h ch)%nat ∧
    in_cell ch (x + z * ch_w ch)%nat i ∧ ch_spans ch !! i = Some s ∧
    ch_areas ch !! i ≠ Some 0 ∧
    aabb2_from_verts (vol_verts vol) = Some (lo, hi) ∧ in_footprint (ch_geo ch) lo hi x z ∧
    in_height (ch_geo ch) vol (cs_y s) ∧
    inside_polygon (middle (ch_geo ch) (Z.of_nat x) (Z.of_nat z)) (vol_verts vol).
