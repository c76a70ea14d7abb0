(** Specification vocabulary for heightfields, independent of the algorithms:
    what it means to read a column by following links, and what a good column
    looks like. *)
From Verif Require Import Base ModelMath ModelHeightfield.
Local Open Scope Z_scope.

(** What a caller sees of a span: floor, ceiling, area. *)
Record cell : Type := Cell { c_min : Z; c_max : Z; c_area : Z }.

(** [links m o l e]: following [next] links from [o] visits the spans [l] (with
    their keys) and arrives at link [e]. *)
Fixpoint links (m : gmap key span) (o : option key) (l : list (key * cell))
    (e : option key) : Prop :=
  match l with
  | [] => o = e
  | (k, c) :: l' =>
    o = Some k ∧ ∃ nx, m !! k = Some (mkSpan (c_min c) (c_max c) (c_area c) nx) ∧
                       links m nx l' e
  end.

(** The keys and spans of column [c], bottom-up, ending at [None]. *)
Definition column_keys (hf : hfield) (c : nat) (l : list (key * cell)) : Prop :=
  ∃ o, hf_cols hf !! c = Some o ∧ links (hf_alloc hf) o l None.

(** The spans of column [c], bottom-up. *)
Definition is_column (hf : hfield) (c : nat) (l : list cell) : Prop :=
  ∃ kl, column_keys hf c kl ∧ kl.*2 = l.

(** Floors below ceilings, and strictly separated from the next span. *)
Definition good_column (l : list cell) : Prop :=
  (∀ i a, l !! i = Some a → 0 ≤ c_min a ≤ c_max a ∧ c_max a ≤ 65535) ∧
  (∀ i a b, l !! i = Some a → l !! S i = Some b → c_max a < c_min b).

(** Height level [y] is solid in a column. *)
Definition solid (l : list cell) (y : Z) : Prop :=
  ∃ a, a ∈ l ∧ c_min a ≤ y ≤ c_max a.

(** The floors and ceilings of a column. *)
Definition geometry (l : list cell) : list (Z * Z) :=
  (λ a, (c_min a, c_max a)) <$> l.

(** ** What the filters should do, one span at a time *)

Definition walkable (a : cell) : Prop := c_area a ≠ 0.

(** The ceiling of the open space above span [i] of a column. *)
Definition open_top (g : list (Z * Z)) (i : nat) : Z :=
  match g !! S i with Some (mn, _) => mn | None => 65535 end.

(** The ceiling of the open space under the lowest span. *)
Definition open_bottom (g : list (Z * Z)) : Z :=
  match g with (mn, _) :: _ => mn | [] => 65535 end.

(** The open gaps above the spans of a column: floor and ceiling. *)
Definition gap (g : list (Z * Z)) (fl ce : Z) : Prop :=
  ∃ i mn, g !! i = Some (mn, fl) ∧ ce = open_top g i.

(** The column geometries of a field by integer coordinates; [None] outside. *)
Definition column_map (w h : nat) (G : list (list (Z * Z))) (x z : Z)
  : option (list (Z * Z)) :=
  if decide (0 ≤ x < Z.of_nat w ∧ 0 ≤ z < Z.of_nat h)
  then G !! (Z.to_nat x + Z.to_nat z * w)%nat else None.

(** [g] is the column next to [(x, z)] in direction [d]. *)
Definition neighbour (cm : Z → Z → option (list (Z * Z))) (x z : nat) (d : nat)
  : option (list (Z * Z)) :=
  cm (Z.of_nat x + nth d [-1; 0; 1; 0] 0) (Z.of_nat z + nth d [0; 1; 0; -1] 0).

(** Floors an agent standing at [fl] below [ce] can step to within [climb],
    including its own floor. *)
Definition step_floor (cm : Z → Z → option (list (Z * Z))) (wh climb : Z)
    (x z : nat) (fl ce nf : Z) : Prop :=
  nf = fl ∨
  ∃ d g nc, (d < 4)%nat ∧ neighbour cm x z d = Some g ∧ gap g nf nc ∧
    wh ≤ Z.min ce nc - Z.max fl nf ∧ Z.abs (nf - fl) ≤ climb.

(** The declarative meaning of "is a ledge". *)
Definition is_ledge (cm : Z → Z → option (list (Z * Z))) (wh climb : Z)
    (x z : nat) (fl ce : Z) : Prop :=
  (∃ d, (d < 4)%nat ∧ neighbour cm x z d = None) ∨
  (∃ d g, (d < 4)%nat ∧ neighbour cm x z d = Some g ∧
     wh ≤ Z.min ce (open_bottom g) - fl) ∨
  (∃ d g nf nc, (d < 4)%nat ∧ neighbour cm x z d = Some g ∧ gap g nf nc ∧
     wh ≤ Z.min ce nc - Z.max fl nf ∧ nf < fl - climb) ∨
  (∃ f1 f2, step_floor cm wh climb x z fl ce f1 ∧ step_floor cm wh climb x z fl ce f2 ∧
     f1 - f2 > climb).

(** Two spans share a height level. *)
Definition overlaps (a b : cell) : Prop := c_min a ≤ c_max b ∧ c_min b ≤ c_max a.

(** The geometries of all columns of a heightfield. *)
Definition field_geometry (hf : hfield) (G : list (list (Z * Z))) : Prop :=
  length G = (hf_w hf * hf_h hf)%nat ∧
  ∀ c g, G !! c = Some g → ∃ l, is_column hf c l ∧ geometry l = g.

(** [a'] is [a] with only the area changed. *)
Definition same_extent (a a' : cell) : Prop := c_min a' = c_min a ∧ c_max a' = c_max a.
