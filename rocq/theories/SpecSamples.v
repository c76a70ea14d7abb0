(** Points in the plane of x and z, and the even-odd rule: C91. *)
From Coq Require Import Reals.
From Verif Require Import Base ModelMath FloatReal.
Local Open Scope R_scope.

Definition point : Type := R * R.
Definition plan (v : vec3) : point := (f_R (v_x v), f_R (v_z v)).

(** The line through [p] along x meets the side from [a] to [b], and where. *)
Definition met (p a b : point) : Prop := (p.2 < a.2 ∧ ¬ p.2 < b.2) ∨ (p.2 < b.2 ∧ ¬ p.2 < a.2).
Definition meets_at (p a b : point) : R := a.1 + (b.1 - a.1) * (p.2 - a.2) / (b.2 - a.2).
(** To the right of [p]. *)
Definition hit (p a b : point) : Prop := met p a b ∧ p.1 < meets_at p a b.

(** Whether the number of sides hit is odd. *)
Inductive parity (p : point) : list (point * point) → bool → Prop :=
| parity_none : parity p [] false
| parity_hit a b l c : hit p a b → parity p l c → parity p ((a, b) :: l) (negb c)
| parity_miss a b l c : ¬ hit p a b → parity p l c → parity p ((a, b) :: l) c.

(** The sides of a polygon, each corner with the one before it. *)
Definition sides {A} (l : list A) : list (A * A) := match last l with Some e => zip l (e :: l) | None => [] end.
Definition inside (p : point) (l : list point) : Prop := parity p (sides l) true.
(** A side is at most [e] to the left or to the right of [p]. *)
Definition beside (e : R) (p : point) (l : list point) : Prop := ∃ a b, (a, b) ∈ sides l ∧ met p a b ∧ Rabs (p.1 - meets_at p a b) <= e.

(** [q] is a position of the grid with the given distance, up to [e]. *)
Definition on_grid (dist e : R) (q : point) : Prop := ∃ i j : nat, Rabs (q.1 - INR i * dist) <= e ∧ Rabs (q.2 - INR j * dist) <= e.
Definition close (e : R) (p q : point) : Prop := Rabs (p.1 - q.1) <= e ∧ Rabs (p.2 - q.2) <= e.
