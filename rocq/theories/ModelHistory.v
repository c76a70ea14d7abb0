(** Histories of public operations on a heightfield. *)
From Verif Require Import Base ModelMath ModelHeightfield ModelFilters.
Local Open Scope Z_scope.

(** The mutating calls of the public [Heightfield] API: heightfield.rs:113
    [add_span], pre_filter.rs:9, 44 and 166 (the three filters). *)
Inductive hf_op : Type :=
| OpInsert (i : insertion)
| OpLowHanging (climb : Z)
| OpLedge (wh climb : Z)
| OpLowHeight (wh : Z).

(** One call. A rejected insertion returns an error before touching anything
    (heightfield.rs:115-120), so the caller keeps the old state. *)
Definition run_op (op : hf_op) (hf : hfield) : outcome hfield :=
  match op with
  | OpInsert i =>
    let! r := add_span hf i in
    Done (match r with Some hf' => hf' | None => hf end)
  | OpLowHanging climb => filter_low_hanging climb hf
  | OpLedge wh climb => filter_ledge wh climb hf
  | OpLowHeight wh => filter_low_height wh hf
  end.

Definition run_ops (ops : list hf_op) (hf : hfield) : outcome hfield :=
  foldM run_op ops hf.

(** Arguments a caller can construct: [u16] floor and ceiling in order (span.rs:45-61
    [SpanBuilder] does not check this; rasterize.rs:158-171 guarantees it), [u8] area, unsigned parameters. *)
Definition valid_insertion (i : insertion) : Prop :=
  0 ≤ s_min (in_span i) ≤ s_max (in_span i) ∧ s_max (in_span i) ≤ 65535 ∧
  0 ≤ s_area (in_span i) ≤ 255 ∧ 0 ≤ in_thr i ≤ 65535.
Definition valid_op (op : hf_op) : Prop :=
  match op with
  | OpInsert i => valid_insertion i
  | OpLowHanging climb => 0 ≤ climb ≤ 65535
  | OpLedge wh climb => 0 ≤ wh ≤ 65535 ∧ 0 ≤ climb ≤ 65535
  | OpLowHeight wh => 0 ≤ wh ≤ 65535
  end.

(** Heightfields a program can build. *)
Definition reachable (hf : hfield) : Prop :=
  ∃ w h g ops, Forall valid_op ops ∧ run_ops ops (new_hf w h g) = Done hf.
