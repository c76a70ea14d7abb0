(** Specification vocabulary for erosion and the distance field: weighted paths
    over the span graph. *)
From Verif Require Import Base ModelMath ModelHeightfield SpecHeightfield ModelCompact SpecCompact.
Local Open Scope Z_scope.

(** Span [i] belongs to cell [c]. *)
Definition in_cell (ch : chf) (c i : nat) : Prop :=
  ∃ cell, ch_cells ch !! c = Some cell ∧ i ∈ index_range cell.

(** Span [i] is connected to span [j] in direction [d]. *)
Definition step (ch : chf) (i d j : nat) : Prop :=
  ∃ c k c' k' cell cell', linked ch c k d c' k' ∧
    ch_cells ch !! c = Some cell ∧ ch_cells ch !! c' = Some cell' ∧
    i = (cc_index cell + k)%nat ∧ j = (cc_index cell' + k')%nat.

(** Chamfer moves of one sweep: axis steps weigh 2, diagonal steps 3. The
    diagonal from [d1] turns into [d2]. *)
Definition corner (ch : chf) (d1 d2 : nat) (i j : nat) (w : Z) : Prop :=
  (step ch i d1 j ∧ w = 2) ∨ (∃ m, step ch i d1 m ∧ step ch m d2 j ∧ w = 3).

(** Moves towards earlier cells: (-1,0) (-1,-1) (0,-1) (1,-1). *)
Definition backward (ch : chf) (i j : nat) (w : Z) : Prop :=
  corner ch 0 3 i j w ∨ corner ch 3 2 i j w.
(** Moves towards later cells: (1,0) (1,1) (0,1) (-1,1). *)
Definition forward (ch : chf) (i j : nat) (w : Z) : Prop :=
  corner ch 2 1 i j w ∨ corner ch 1 0 i j w.

(** Paths with their total weight. *)
Inductive wpath (mv : nat → nat → Z → Prop) : nat → nat → Z → Prop :=
| wp_nil i : wpath mv i i 0
| wp_cons i j k w w' : mv i j w → wpath mv j k w' → wpath mv i k (w + w').

(** Two-sweep paths: forward moves, then backward moves, ending in [goal]. *)
Definition chamfer (ch : chf) (goal : nat → Prop) (i : nat) (w : Z) : Prop :=
  ∃ m b w1 w2, wpath (forward ch) i m w1 ∧ wpath (backward ch) m b w2 ∧ goal b ∧ w = w1 + w2.

(** A span that is unwalkable or lacks a walkable neighbour in some direction. *)
Definition rim (ch : chf) (i : nat) : Prop :=
  (i < length (ch_spans ch))%nat ∧
  (ch_areas ch !! i = Some 0 ∨
   ∃ d, (d < 4)%nat ∧ ∀ j, step ch i d j → ch_areas ch !! j = Some 0).

(** A span that lacks a neighbour of its own area in some direction. *)
Definition area_border (ch : chf) (i : nat) : Prop :=
  (i < length (ch_spans ch))%nat ∧
  ∃ d, (d < 4)%nat ∧ ∀ j, step ch i d j → ch_areas ch !! j ≠ ch_areas ch !! i.

(** Smoothing. What direction [d] of span [i] contributes: the neighbour [a] and
    the span [b] reached from [a] by turning; a missing one counts as [cd]. *)
Definition ring (ch : chf) (D : nat → Z) (cd : Z) (i d : nat) (v : Z) : Prop :=
  ((∀ a, ¬ step ch i d a) ∧ v = 2 * cd) ∨
  (∃ a, step ch i d a ∧
     (((∀ b, ¬ step ch a ((d + 1) mod 4) b) ∧ v = D a + cd) ∨
      (∃ b, step ch a ((d + 1) mod 4) b ∧ v = D a + D b))).

(** The rounded average over the span and its eight surrounding spans; spans
    next to the boundary keep their value. *)
Definition smoothed (ch : chf) (D : nat → Z) (i : nat) (v : Z) : Prop :=
  (D i ≤ 2 ∧ v = D i) ∨
  (2 < D i ∧ ∃ v0 v1 v2 v3,
     ring ch D (D i) i 0 v0 ∧ ring ch D (D i) i 1 v1 ∧
     ring ch D (D i) i 2 v2 ∧ ring ch D (D i) i 3 v3 ∧
     v = (D i + v0 + v1 + v2 + v3 + 5) / 9).

(** [v] is the least weight of a two-sweep path from [i] to [goal]. *)
Definition least_weight (ch : chf) (goal : nat → Prop) (i : nat) (v : Z) : Prop :=
  chamfer ch goal i v ∧ ∀ w, chamfer ch goal i w → v ≤ w.

(** Width and height are [u16] in the code; the model's are unbounded. *)
Definition fits_u16 (ch : chf) : Prop :=
  Z.of_nat (ch_w ch) ≤ 65535 ∧ Z.of_nat (ch_h ch) ≤ 65535.

(** The two fields agree on everything but areas, or but the distance field. *)
Definition same_but_areas (ch ch' : chf) : Prop :=
  ch_w ch' = ch_w ch ∧ ch_h ch' = ch_h ch ∧ ch_wh ch' = ch_wh ch ∧ ch_wc ch' = ch_wc ch ∧
  ch_border ch' = ch_border ch ∧ ch_maxdist ch' = ch_maxdist ch ∧ ch_maxreg ch' = ch_maxreg ch ∧
  ch_geo ch' = ch_geo ch ∧ ch_cells ch' = ch_cells ch ∧ ch_spans ch' = ch_spans ch ∧
  ch_dist ch' = ch_dist ch ∧ length (ch_areas ch') = length (ch_areas ch).
Definition same_but_distances (ch ch' : chf) : Prop :=
  ch_w ch' = ch_w ch ∧ ch_h ch' = ch_h ch ∧ ch_wh ch' = ch_wh ch ∧ ch_wc ch' = ch_wc ch ∧
  ch_border ch' = ch_border ch ∧ ch_maxreg ch' = ch_maxreg ch ∧
  ch_geo ch' = ch_geo ch ∧ ch_cells ch' = ch_cells ch ∧ ch_spans ch' = ch_spans ch ∧
  ch_areas ch' = ch_areas ch.
