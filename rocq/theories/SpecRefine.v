(** Specification for C60 in real numbers: how far a point in space is from a segment. *)
From Coq Require Import Reals.
From Verif Require Import Base ModelMath ModelTriMesh FloatReal.
Local Open Scope R_scope.

(** Some point of the segment from [a] to [b] has a distance of at most [d]
    from [p]. *)
Definition off_seg (p a b : vec3) (d : R) : Prop :=
  ∃ s, 0 <= s <= 1 ∧
    let x := f_R (v_x a) + s * (f_R (v_x b) - f_R (v_x a)) - f_R (v_x p) in
    let y := f_R (v_y a) + s * (f_R (v_y b) - f_R (v_y a)) - f_R (v_y p) in
    let z := f_R (v_z a) + s * (f_R (v_z b) - f_R (v_z a)) - f_R (v_z p) in
    R_sqrt.sqrt (x * x + y * y + z * z) <= d.

(** The [n]+1 samples, of which the points [mid] are kept besides the first and
    the last, are all within [d] of the line through the kept ones. *)
Definition line_follows (samples mid : list vec3) (d : R) : Prop :=
  ∃ first last, head samples = Some first ∧ list.last samples = Some last ∧
    ∀ v, v ∈ samples → ∃ i a b, (first :: mid ++ [last]) !! i = Some a ∧ (first :: mid ++ [last]) !! S i = Some b ∧ off_seg v a b d.

(** Sample [k] of [n] of the side from [a] to [b], in the plane. *)
Definition spaced (a b : vec3) (n k : nat) (slack : R) (v : vec3) : Prop :=
  Rabs (f_R (v_x v) - (f_R (v_x a) + INR k / INR n * (f_R (v_x b) - f_R (v_x a)))) <= slack ∧
  Rabs (f_R (v_z v) - (f_R (v_z a) + INR k / INR n * (f_R (v_z b) - f_R (v_z a)))) <= slack.

(** The length of the side from [a] to [b], in the plane. *)
Definition plan_len (a b : vec3) : R :=
  R_sqrt.sqrt ((f_R (v_x b) - f_R (v_x a)) * (f_R (v_x b) - f_R (v_x a)) + (f_R (v_z b) - f_R (v_z a)) * (f_R (v_z b) - f_R (v_z a))).

(** The point [p] is straight above or below the triangle, at a height of [h] over it
    (negative if below). *)
Definition over_tri (p a b c : vec3) (h : R) : Prop :=
  ∃ s t, 0 <= s ∧ 0 <= t ∧ s + t <= 1 ∧
    f_R (v_x p) = f_R (v_x a) + s * (f_R (v_x b) - f_R (v_x a)) + t * (f_R (v_x c) - f_R (v_x a)) ∧
    f_R (v_z p) = f_R (v_z a) + s * (f_R (v_z b) - f_R (v_z a)) + t * (f_R (v_z c) - f_R (v_z a)) ∧
    f_R (v_y p) = f_R (v_y a) + s * (f_R (v_y b) - f_R (v_y a)) + t * (f_R (v_y c) - f_R (v_y a)) + h.

(** The point [p] is at most [h] from the triangle vertically, for a point of the triangle
    that is at most [pos] away in x and in z; the triangle is taken to be a bit
    larger, by [w] of its sides. *)
Definition near_tri (p a b c : vec3) (w pos h : R) : Prop :=
  ∃ s t, - w <= s ∧ - w <= t ∧ s + t <= 1 + w ∧
    Rabs (f_R (v_x a) + s * (f_R (v_x b) - f_R (v_x a)) + t * (f_R (v_x c) - f_R (v_x a)) - f_R (v_x p)) <= pos ∧
    Rabs (f_R (v_z a) + s * (f_R (v_z b) - f_R (v_z a)) + t * (f_R (v_z c) - f_R (v_z a)) - f_R (v_z p)) <= pos ∧
    Rabs (f_R (v_y a) + s * (f_R (v_y b) - f_R (v_y a)) + t * (f_R (v_y c) - f_R (v_y a)) - f_R (v_y p)) <= h.

(** Seen from above, [p] is in the triangle, and away from its sides by the share [w]. *)
Definition well_over (p a b c : vec3) (w : R) : Prop :=
  ∃ s t, w <= s ∧ w <= t ∧ s + t <= 1 - w ∧
    f_R (v_x p) = f_R (v_x a) + s * (f_R (v_x b) - f_R (v_x a)) + t * (f_R (v_x c) - f_R (v_x a)) ∧
    f_R (v_z p) = f_R (v_z a) + s * (f_R (v_z b) - f_R (v_z a)) + t * (f_R (v_z c) - f_R (v_z a)).

(** [p] is at most [S] from [a], in x and in z. *)
Definition spread (S : R) (a p : vec3) : Prop := Rabs (f_R (v_x p) - f_R (v_x a)) <= S ∧ Rabs (f_R (v_z p) - f_R (v_z a)) <= S.
(** Twice the area of the triangle, squared, is a [K]th of [S]^4 or more. *)
Definition fat (K S : R) (a b c : vec3) : Prop :=
  let area := (f_R (v_x c) - f_R (v_x a)) * (f_R (v_z b) - f_R (v_z a)) - (f_R (v_x b) - f_R (v_x a)) * (f_R (v_z c) - f_R (v_z a)) in
  S * S * (S * S) <= K * (area * area).
