(** Specification vocabulary for height patches, independent of the algorithms of
    the model. *)
From Verif Require Import Base ModelMath ModelHeightfield ModelCompact SpecCompact SpecDistance SpecRegions SpecContours.
Local Open Scope Z_scope.

(** A rectangle of [w] by [h] columns of a compact heightfield, from column
    ([x0], [z0]). The field's columns are numbered row by row. *)
Record frame : Type := Frame { fr_x : nat; fr_z : nat; fr_w : nat; fr_h : nat }.
Definition frame_fits (ch : chf) (f : frame) : Prop :=
  (fr_x f + fr_w f ≤ ch_w ch)%nat ∧ (fr_z f + fr_h f ≤ ch_h ch)%nat.
Definition frame_column (ch : chf) (f : frame) (x z : nat) : nat := (fr_x f + x + (fr_z f + z) * ch_w ch)%nat.
Definition in_frame (ch : chf) (f : frame) (c : nat) : Prop :=
  ∃ x z, (x < fr_w f)%nat ∧ (z < fr_h f)%nat ∧ c = frame_column ch f x z.

(** The lowest span of region [r] in column [c]. *)
Definition lowest_of (ch : chf) (r : Z) (c i : nat) : Prop :=
  in_cell ch c i ∧ region_of ch i = Some r ∧ ∀ j, in_cell ch c j → region_of ch j = Some r → (i ≤ j)%nat.
(** One can get from a span of region [r] to span [i] without leaving the frame. *)
Definition reached_from (ch : chf) (f : frame) (r : Z) (i : nat) : Prop :=
  ∃ i0 c0, in_cell ch c0 i0 ∧ in_frame ch f c0 ∧ region_of ch i0 = Some r ∧
    rtc (λ a b, ∃ d c, (d < 4)%nat ∧ step ch a d b ∧ in_cell ch c b ∧ in_frame ch f c) i0 i.

(** [own x z] is the span whose floor a patch shows at ([x], [z]), if any: the
    lowest span of the region where the column has one, elsewhere some span one
    can get to from the region; and it is missing only where no shown span leads. *)
Record shows_region (ch : chf) (f : frame) (r : Z) (own : nat → nat → option nat) : Prop := ShowsRegion {
  sr_column : ∀ x z i, own x z = Some i → (x < fr_w f)%nat ∧ (z < fr_h f)%nat ∧ in_cell ch (frame_column ch f x z) i;
  sr_region : ∀ x z i, (x < fr_w f)%nat → (z < fr_h f)%nat → lowest_of ch r (frame_column ch f x z) i → own x z = Some i;
  sr_reached : ∀ x z i, own x z = Some i → reached_from ch f r i;
  sr_closed : ∀ x z i d j x' z', own x z = Some i → (d < 4)%nat → step ch i d j →
    (x' < fr_w f)%nat → (z' < fr_h f)%nat → in_cell ch (frame_column ch f x' z') j → own x' z' ≠ None;
}.
(** The row-major heights of the patch. *)
Definition shows (ch : chf) (f : frame) (own : nat → nat → option nat) (data : list Z) : Prop :=
  ∀ x z, (x < fr_w f)%nat → (z < fr_h f)%nat →
    data !! (x + z * fr_w f)%nat = match own x z with Some i => floor_of ch i | None => Some 65535 end.
