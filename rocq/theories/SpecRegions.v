(** Specification vocabulary for region building. *)
From Verif Require Import Base ModelMath ModelHeightfield SpecHeightfield ModelCompact SpecCompact
  SpecDistance.
Local Open Scope Z_scope.

(** The region id of span [i]. *)
Definition region_of (ch : chf) (i : nat) : option Z := cs_reg <$> ch_spans ch !! i.

(** Ids from 0x8000 on carry the border flag. *)
Definition border_flag (r : Z) : Prop := 32768 ≤ r.

(** Two spans are joined inside a set of spans: a chain of connections, each
    followed in either sense, that does not leave the set. *)
Definition adjacent (ch : chf) (i j : nat) : Prop :=
  ∃ d, (d < 4)%nat ∧ (step ch i d j ∨ step ch j d i).
Inductive joined (ch : chf) (In : nat → Prop) : nat → nat → Prop :=
| j_nil i : In i → joined ch In i i
| j_cons i j k : In i → adjacent ch i j → joined ch In j k → joined ch In i k.

(** Span [i] lies within [b] cells of the edge of the field. *)
Definition near_edge (ch : chf) (b : Z) (i : nat) : Prop :=
  ∃ x z, (x < ch_w ch)%nat ∧ (z < ch_h ch)%nat ∧ in_cell ch (x + z * ch_w ch) i ∧
    (Z.of_nat x < b ∨ Z.of_nat (ch_w ch) ≤ Z.of_nat x + b ∨
     Z.of_nat z < b ∨ Z.of_nat (ch_h ch) ≤ Z.of_nat z + b).

Definition walkable_span (ch : chf) (i : nat) : Prop :=
  ∃ a, ch_areas ch !! i = Some a ∧ a ≠ 0.

(** The two fields agree on everything but the region ids, [max_region] and
    [border_size]. *)
Definition same_but_regions (ch ch' : chf) : Prop :=
  ch_w ch' = ch_w ch ∧ ch_h ch' = ch_h ch ∧ ch_wh ch' = ch_wh ch ∧ ch_wc ch' = ch_wc ch ∧
  ch_maxdist ch' = ch_maxdist ch ∧ ch_geo ch' = ch_geo ch ∧ ch_cells ch' = ch_cells ch ∧
  ch_dist ch' = ch_dist ch ∧ ch_areas ch' = ch_areas ch ∧
  length (ch_spans ch') = length (ch_spans ch) ∧
  ∀ i s, ch_spans ch !! i = Some s → ∃ r, ch_spans ch' !! i = Some (CS (cs_y s) r (cs_data s)).

(** A field whose distance field has been built: one [u16] per span. *)
Definition has_distances (ch : chf) : Prop :=
  length (ch_dist ch) = length (ch_spans ch) ∧ 0 ≤ ch_maxdist ch.
