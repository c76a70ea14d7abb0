(** Specification vocabulary for what a navigation mesh covers. *)
From Verif Require Import Base ModelMath ModelHeightfield SpecHeightfield SpecPipeline.
Local Open Scope Z_scope.

(** [n] moves lead from [p] to [q]. *)
Inductive moves (hf : hfield) (wh climb : Z) : nat → spot → spot → Prop :=
| mv_nil p : moves hf wh climb 0 p p
| mv_cons n d p q s : (d < 4)%nat → move hf wh climb d p q → moves hf wh climb n q s → moves hf wh climb (S n) p s.

(** There is room around [p] for an agent of the given radius: wherever [n] moves
    lead, with 3n + 1 less than four times the radius, it can go on in all four
    directions. *)
Definition roomy (hf : hfield) (wh climb radius : Z) (p : spot) : Prop :=
  spot_in hf p ∧
  ∀ n q d, moves hf wh climb n p q → 3 * Z.of_nat n + 1 < 4 * radius → (d < 4)%nat → ∃ q', move hf wh climb d q q'.

(** A place with room whose four neighbours have room too. *)
Definition wide (hf : hfield) (wh climb radius : Z) (p : spot) : Prop :=
  roomy hf wh climb radius p ∧
  ∀ d, (d < 4)%nat → ∃ q, move hf wh climb d p q ∧ roomy hf wh climb radius q.

(** Moves that stay among the places [L]. *)
Inductive ways (hf : hfield) (wh climb : Z) (L : list spot) : spot → spot → Prop :=
| ws_nil p : p ∈ L → ways hf wh climb L p p
| ws_cons d p q s : (d < 4)%nat → p ∈ L → move hf wh climb d p q → ways hf wh climb L q s → ways hf wh climb L p s.

(** A patch of places: no place twice, and moves inside it lead everywhere. *)
Definition patch (hf : hfield) (wh climb : Z) (L : list spot) (p : spot) : Prop :=
  NoDup L ∧ p ∈ L ∧ ∀ q, q ∈ L → spot_in hf q ∧ ways hf wh climb L p q.

(** At least [b] cells away from the sides of the field. *)
Definition inside (hf : hfield) (b : Z) (p : spot) : Prop :=
  b ≤ Z.of_nat (sp_x p) < Z.of_nat (hf_w hf) - b ∧ b ≤ Z.of_nat (sp_z p) < Z.of_nat (hf_h hf) - b.
