(** Model of crates/rerecast/src/span.rs and heightfield.rs (span storage). *)
From Verif Require Import Base ModelMath.
Local Open Scope Z_scope.

(** span.rs:130-143 [AreaType]: a [u8]; 0 is not walkable. *)
Definition NOT_WALKABLE : Z := 0.
Definition DEFAULT_WALKABLE : Z := 255.
Definition is_walkable (area : Z) : bool := negb (area =? NOT_WALKABLE).

(** span.rs:12-15 [SpanKey]. Simplification: the slotmap's versioned keys are
    positive numbers handed out in increasing order and never reused. *)
Definition key : Type := positive.

(** span.rs:69-84 [Span]. *)
Record span : Type := mkSpan {
  s_min : Z;
  s_max : Z;
  s_area : Z;
  s_next : option key
}.

(** heightfield.rs:55-73 [Heightfield]. [hf_fresh] is the next slotmap key. *)
Record hfield : Type := mkHf {
  hf_w : nat;
  hf_h : nat;
  hf_geo : geo;
  hf_cols : list (option key);
  hf_alloc : gmap key span;
  hf_fresh : key
}.

Definition hf_set_cols (hf : hfield) (c : list (option key)) : hfield :=
  mkHf (hf_w hf) (hf_h hf) (hf_geo hf) c (hf_alloc hf) (hf_fresh hf).
Definition hf_set_alloc (hf : hfield) (m : gmap key span) : hfield :=
  mkHf (hf_w hf) (hf_h hf) (hf_geo hf) (hf_cols hf) m (hf_fresh hf).

(** heightfield.rs:183-185 [column_index]. *)
Definition column_index (hf : hfield) (x z : nat) : nat := (x + z * hf_w hf)%nat.

(** heightfield.rs:188-191 [contains]. *)
Definition contains (hf : hfield) (x z : Z) : bool :=
  (0 <=? x) && (x <? Z.of_nat (hf_w hf)) && (0 <=? z) && (z <? Z.of_nat (hf_h hf)).

(** heightfield.rs:196-203 [span_key_at]. *)
Definition span_key_at (hf : hfield) (x z : nat) : option key :=
  match hf_cols hf !! column_index hf x z with
  | Some o => o
  | None => None
  end.

(** heightfield.rs:231-233 [span]: panics on an unknown key. *)
Definition span_get (hf : hfield) (k : key) : outcome span :=
  unwrap (hf_alloc hf !! k).

(** heightfield.rs:208-214 [span_at]. *)
Definition span_at (hf : hfield) (x z : nat) : outcome (option span) :=
  match span_key_at hf x z with
  | None => Done None
  | Some k => let! s := span_get hf k in Done (Some s)
  end.

(** heightfield.rs:239-241 [span_mut] followed by an assignment. *)
Definition span_put (hf : hfield) (k : key) (s : span) : outcome hfield :=
  let! _ := span_get hf k in
  Done (hf_set_alloc hf (<[k := s]> (hf_alloc hf))).

Definition with_next (s : span) (n : option key) : span :=
  mkSpan (s_min s) (s_max s) (s_area s) n.
Definition with_area (s : span) (a : Z) : span :=
  mkSpan (s_min s) (s_max s) a (s_next s).

(** Assigning the link that points at the insertion place: the previous span's
    [next] if there is one, else the column head. heightfield.rs:155-159. *)
Definition set_link (hf : hfield) (col : nat) (prev : option key) (n : option key)
  : outcome hfield :=
  match prev with
  | Some p => let! s := span_get hf p in span_put hf p (with_next s n)
  | None => let! cols := put (hf_cols hf) col n in Done (hf_set_cols hf cols)
  end.

(** heightfield.rs:133-149: the new span after absorbing an overlapping one.
    The area of the new span is raised only if the ceilings are close. *)
Definition merge_span (thr : Z) (new cur : span) : span :=
  let mn := if s_min cur <? s_min new then s_min cur else s_min new in
  let mx := if s_max new <? s_max cur then s_max cur else s_max new in
  let ar := if Z.abs (mx - s_max cur) <=? thr
            then Z.max (s_area new) (s_area cur) else s_area new in
  mkSpan mn mx ar (s_next new).

(** heightfield.rs:122-161: the [while let] loop of [add_span]. Returns the
    heightfield, the grown span and the key of the span before it. *)
Fixpoint add_span_loop (fuel : nat) (hf : hfield) (col : nat) (thr : Z) (new : span)
    (prev cur : option key) {struct fuel} : outcome (hfield * span * option key) :=
  match cur with
  | None => Done (hf, new, prev)
  | Some k =>
    match fuel with
    | O => OutOfFuel
    | S fuel' =>
      let! c := span_get hf k in
      if s_max new <? s_min c then Done (hf, new, prev)
      else if s_max c <? s_min new then
        add_span_loop fuel' hf col thr new (Some k) (s_next c)
      else
        let new' := merge_span thr new c in
        let hf1 := hf_set_alloc hf (delete k (hf_alloc hf)) in
        let! hf2 := set_link hf1 col prev (s_next c) in
        add_span_loop fuel' hf2 col thr new' prev (s_next c)
    end
  end.

(** [SlotMap::insert]. *)
Definition slot_insert (hf : hfield) (s : span) : hfield * key :=
  (mkHf (hf_w hf) (hf_h hf) (hf_geo hf) (hf_cols hf)
        (<[hf_fresh hf := s]> (hf_alloc hf)) (Pos.succ (hf_fresh hf)),
   hf_fresh hf).

(** heightfield.rs:305-315 [SpanInsertion]. *)
Record insertion : Type := mkIns {
  in_x : nat;
  in_z : nat;
  in_thr : Z;
  in_span : span
}.

(** heightfield.rs:113-180 [add_span]. [Done None] is the returned error. *)
Definition add_span (hf : hfield) (i : insertion) : outcome (option hfield) :=
  let col := column_index hf (in_x i) (in_z i) in
  if (length (hf_cols hf) <=? col)%nat then Done None
  else
    let! head := get (hf_cols hf) col in
    let! (hf1, new, prev) :=
      add_span_loop (S (size (hf_alloc hf))) hf col (in_thr i) (in_span i) None head in
    match prev with
    | Some p =>
      let! sp := span_get hf1 p in
      let '(hf2, k) := slot_insert hf1 (with_next new (s_next sp)) in
      let! sp' := span_get hf2 p in
      let! hf3 := span_put hf2 p (with_next sp' (Some k)) in
      Done (Some hf3)
    | None =>
      let! lowest := get (hf_cols hf1) col in
      let '(hf2, k) := slot_insert hf1 (with_next new lowest) in
      let! cols := put (hf_cols hf2) col (Some k) in
      Done (Some (hf_set_cols hf2 cols))
    end.

(** heightfield.rs:266-276: the state built by [HeightfieldBuilder::build] for
    given dimensions (the computation of the dimensions is in ModelRasterize.v). *)
Definition new_hf (w h : nat) (g : geo) : hfield :=
  mkHf w h g (repeat None (w * h)) ∅ 1%positive.
