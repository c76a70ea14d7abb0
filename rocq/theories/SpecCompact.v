(** Specification vocabulary for compact heightfields. *)
From Verif Require Import Base ModelMath ModelHeightfield SpecHeightfield ModelCompact.
Local Open Scope Z_scope.

(** ** Open spans of a column *)

(** The walkable spans of a column with their positions, bottom-up. *)
Definition walkable_at (l : list cell) : list (nat * cell) :=
  filter (λ p, c_area p.2 ≠ 0) (imap pair l).

(** The open space above a walkable span: floor, height (at most 255), area. *)
Record ospan : Type := Open { o_y : Z; o_h : Z; o_area : Z }.
Definition opens (l : list cell) : list ospan :=
  (λ p, Open (c_max p.2) (Z.min 255 (open_top (geometry l) p.1 - c_max p.2)) (c_area p.2))
  <$> walkable_at l.

(** The open spans of all columns of a heightfield. *)
Definition field_opens (hf : hfield) (O : list (list ospan)) : Prop :=
  length O = (hf_w hf * hf_h hf)%nat ∧
  ∀ c o, O !! c = Some o → ∃ l, is_column hf c l ∧ opens l = o.

(** Position of the first open span of column [c] in row-major order. *)
Definition first_index (O : list (list ospan)) (c : nat) : nat := length (concat (take c O)).

(** A compact heightfield lists exactly the open spans [O]. *)
Record lists_opens (ch : chf) (O : list (list ospan)) : Prop := ListsOpens {
  lo_cells : length (ch_cells ch) = (ch_w ch * ch_h ch)%nat;
  lo_cols : length O = (ch_w ch * ch_h ch)%nat;
  lo_spans : length (ch_spans ch) = length (concat O);
  lo_areas : length (ch_areas ch) = length (concat O);
  lo_cell : ∀ c o, O !! c = Some o → ∃ cell, ch_cells ch !! c = Some cell ∧
    cc_count cell = length o ∧ (o ≠ [] → cc_index cell = first_index O c);
  lo_span : ∀ i p, concat O !! i = Some p → ∃ s, ch_spans ch !! i = Some s ∧
    cs_y s = o_y p ∧ cs_height s = o_h p ∧ ch_areas ch !! i = Some (o_area p)
}.

(** ** Neighbours *)

(** The column next to [(x, z)] in direction [d], if inside the field. *)
Definition nb_col (w h : nat) (x z : nat) (d : nat) : option nat :=
  let nx := Z.of_nat x + nth d [-1; 0; 1; 0] 0 in
  let nz := Z.of_nat z + nth d [0; 1; 0; -1] 0 in
  if decide (0 ≤ nx < Z.of_nat w ∧ 0 ≤ nz < Z.of_nat h)
  then Some (Z.to_nat nx + Z.to_nat nz * w)%nat else None.

(** One can move between two open spans: their common opening is at least
    [wh] high and the floors differ by at most [wc]. *)
Definition traversable (wh wc : Z) (p q : ospan) : Prop :=
  wh ≤ Z.min (o_y p + o_h p) (o_y q + o_h q) - Z.max (o_y p) (o_y q) ∧
  Z.abs (o_y q - o_y p) ≤ wc.

(** [k] is the lowest open span of [o] traversable from [p]. *)
Definition lowest_traversable (wh wc : Z) (p : ospan) (o : list ospan) (k : nat) : Prop :=
  (∃ q, o !! k = Some q ∧ traversable wh wc p q) ∧
  ∀ j q, (j < k)%nat → o !! j = Some q → ¬ traversable wh wc p q.

(** ** Well-formed compact heightfields *)

(** The number of spans in the cells before cell [c]. *)
Definition cell_start (cells : list ccell) (c : nat) : nat :=
  sum_list (cc_count <$> take c cells).

Definition connection (s : cspan) (d : nat) : option Z := con_bits (cs_data s) d.

(** Cells list the spans contiguously in row-major order, and connections stay
    inside the neighbouring cell. *)
Record wf_chf (ch : chf) : Prop := WfChf {
  wf_cells : length (ch_cells ch) = (ch_w ch * ch_h ch)%nat;
  wf_areas : length (ch_areas ch) = length (ch_spans ch);
  wf_start : ∀ c cell, ch_cells ch !! c = Some cell → (0 < cc_count cell)%nat →
    cc_index cell = cell_start (ch_cells ch) c;
  wf_total : cell_start (ch_cells ch) (length (ch_cells ch)) = length (ch_spans ch);
  wf_con : ∀ x z cell i s d k, (x < ch_w ch)%nat → (z < ch_h ch)%nat →
    ch_cells ch !! (x + z * ch_w ch)%nat = Some cell → i ∈ index_range cell →
    ch_spans ch !! i = Some s → (d < 4)%nat → connection s d = Some k →
    ∃ c' cell', nb_col (ch_w ch) (ch_h ch) x z d = Some c' ∧
      ch_cells ch !! c' = Some cell' ∧ (Z.to_nat k < cc_count cell')%nat
}.

(** Span [s] is number [k] of cell [c]. *)
Definition span_in (ch : chf) (c k : nat) (s : cspan) : Prop :=
  ∃ cell, ch_cells ch !! c = Some cell ∧ (k < cc_count cell)%nat ∧
    ch_spans ch !! (cc_index cell + k)%nat = Some s.

(** Span [k] of cell [c] is connected in direction [d] to span [k'] of the
    neighbouring cell [c']. *)
Definition linked (ch : chf) (c k d c' k' : nat) : Prop :=
  ∃ s, span_in ch c k s ∧ connection s d = Some (Z.of_nat k') ∧
    nb_col (ch_w ch) (ch_h ch) (c mod ch_w ch) (c / ch_w ch) d = Some c'.

(** Every connection can be followed back. *)
Definition symmetric (ch : chf) : Prop :=
  ∀ c k d c' k', (d < 4)%nat → linked ch c k d c' k' → linked ch c' k' ((d + 2) mod 4) c k.

(** Connections are the lowest traversable neighbours among the first 62 layers. *)
Definition connects (ch : chf) (wh wc : Z) (O : list (list ospan)) : Prop :=
  ∀ c o k p d s, O !! c = Some o → o !! k = Some p → (d < 4)%nat →
    ch_spans ch !! (first_index O c + k)%nat = Some s →
    ∀ v, connection s d = Some v ↔
      0 ≤ v < 62 ∧ ∃ c' o', nb_col (ch_w ch) (ch_h ch) (c mod ch_w ch) (c / ch_w ch) d = Some c' ∧
        O !! c' = Some o' ∧ lowest_traversable wh wc p o' (Z.to_nat v).

(** A traversable neighbour at layer 63 or above and none below layer 62. *)
Definition overflows (wh wc : Z) (p : ospan) (o : list ospan) : Prop :=
  (∃ j q, o !! j = Some q ∧ traversable wh wc p q ∧ (63 ≤ j)%nat) ∧
  (∀ j q, o !! j = Some q → traversable wh wc p q → (62 ≤ j)%nat).

Definition too_many_layers (hf : hfield) (wh wc : Z) (O : list (list ospan)) : Prop :=
  ∃ c o k p d c' o', O !! c = Some o ∧ o !! k = Some p ∧ (d < 4)%nat ∧
    nb_col (hf_w hf) (hf_h hf) (c mod hf_w hf) (c / hf_w hf) d = Some c' ∧
    O !! c' = Some o' ∧ overflows wh wc p o'.

(** At most 255 walkable spans per column and fewer than 2^32 in total. *)
Definition countable (O : list (list ospan)) : Prop :=
  Forall (λ o, length o ≤ 255)%nat O ∧ Z.of_nat (length (concat O)) < 2 ^ 32.
