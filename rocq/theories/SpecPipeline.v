(** Specification vocabulary for whole builds: places to stand in a heightfield
    and ways between them. *)
From Verif Require Import Base ModelMath ModelHeightfield SpecHeightfield.
Local Open Scope Z_scope.

(** A place in a column: a floor and the ceiling of the open space above it. *)
Record spot : Type := Spot { sp_x : nat; sp_z : nat; sp_floor : Z; sp_top : Z }.

(** The field has a walkable span with its surface there. *)
Definition spot_in (hf : hfield) (p : spot) : Prop :=
  (sp_x p < hf_w hf)%nat ∧ (sp_z p < hf_h hf)%nat ∧
  ∃ l k a, is_column hf (sp_x p + sp_z p * hf_w hf) l ∧ l !! k = Some a ∧ walkable a ∧
    sp_floor p = c_max a ∧ sp_top p = open_top (geometry l) k.

(** An agent [wh] high that climbs [climb] gets from [p] to [q], the next cell
    in direction [d]. *)
Definition move (hf : hfield) (wh climb : Z) (d : nat) (p q : spot) : Prop :=
  spot_in hf q ∧
  Z.of_nat (sp_x q) = Z.of_nat (sp_x p) + nth d [-1; 0; 1; 0] 0 ∧
  Z.of_nat (sp_z q) = Z.of_nat (sp_z p) + nth d [0; 1; 0; -1] 0 ∧
  wh ≤ Z.min (sp_top p) (sp_top q) - Z.max (sp_floor p) (sp_floor q) ∧
  Z.abs (sp_floor q - sp_floor p) ≤ climb.

(** It can go on for [n] cells. *)
Fixpoint clear (hf : hfield) (wh climb : Z) (d n : nat) (p : spot) : Prop :=
  match n with
  | O => True
  | S n => ∃ q, move hf wh climb d p q ∧ clear hf wh climb d n q
  end.

(** [p] is a place for an agent of the given measures: in the field, high
    enough, not at a ledge of the geometry [G], and with room around it. *)
Definition stands (hf : hfield) (G : list (list (Z * Z))) (wh climb radius : Z) (p : spot) : Prop :=
  spot_in hf p ∧ wh ≤ sp_top p - sp_floor p ∧
  ¬ is_ledge (column_map (hf_w hf) (hf_h hf) G) wh climb (sp_x p) (sp_z p) (sp_floor p) (sp_top p) ∧
  ∀ d, (d < 4)%nat → clear hf wh climb d (Z.to_nat radius) p.
