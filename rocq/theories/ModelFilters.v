(** Model of crates/rerecast/src/pre_filter.rs. *)
From Verif Require Import Base ModelMath ModelHeightfield.
Local Open Scope Z_scope.

(** pre_filter.rs:163 [MAX_HEIGHTFIELD_HEIGHT]. *)
Definition MAX_HEIGHT : Z := 65535.

(** The floor of the span behind a [next] link, or the top of the world
    (pre_filter.rs:60-63, 91-93, 104-107, 176-179). *)
Definition next_floor (hf : hfield) (n : option key) : outcome Z :=
  match n with
  | None => Done MAX_HEIGHT
  | Some k => let! s := span_get hf k in Done (s_min s)
  end.

(** pre_filter.rs:18-38: the loop over one column. [prev] carries
    [previous_span]'s ceiling (the only part the code reads), the flag
    [previous_was_walkable] and [previous_area_id]. *)
Fixpoint low_hanging_col (fuel : nat) (climb : Z) (hf : hfield)
    (prev : option (Z * bool * Z)) (cur : option key) {struct fuel} : outcome hfield :=
  match cur with
  | None => Done hf
  | Some k =>
    match fuel with
    | O => OutOfFuel
    | S fuel' =>
      let! s := span_get hf k in
      let walkable := is_walkable (s_area s) in
      let area' :=
        match prev with
        | Some (pmax, pwalk, parea) =>
          if negb walkable && pwalk && (s_max s - pmax <=? climb) then parea
          else s_area s
        | None => s_area s
        end in
      let! hf' := span_put hf k (with_area s area') in
      low_hanging_col fuel' climb hf' (Some (s_max s, walkable, area')) (s_next s)
    end
  end.

(** pre_filter.rs:9-41 [filter_low_hanging_walkable_obstacles]. *)
Definition filter_low_hanging (climb : Z) (hf : hfield) : outcome hfield :=
  for_cells (hf_w hf) (hf_h hf) (λ x z hf,
    low_hanging_col (S (size (hf_alloc hf))) climb hf None (span_key_at hf x z)) hf.

(** State of the ledge search: [lowest_neighbor_floor_difference],
    [lowest_traversable_neighbor_floor], [highest_traversable_neighbor_floor]
    (pre_filter.rs:68-73). *)
Record ledge_st : Type := mkLedge { l_diff : Z; l_lo : Z; l_hi : Z }.

(** pre_filter.rs:102-138: the loop over one neighbour column. *)
Fixpoint ledge_nbr (fuel : nat) (hf : hfield) (wh climb floor ceiling : Z)
    (st : ledge_st) (cur : option key) {struct fuel} : outcome ledge_st :=
  match cur with
  | None => Done st
  | Some k =>
    match fuel with
    | O => OutOfFuel
    | S fuel' =>
      let! s := span_get hf k in
      let nfloor := s_max s in
      let! nceil := next_floor hf (s_next s) in
      if Z.min ceiling nceil - Z.max floor nfloor <? wh then
        ledge_nbr fuel' hf wh climb floor ceiling st (s_next s)
      else
        let d := nfloor - floor in
        let diff' := Z.min (l_diff st) d in
        if Z.abs d <=? climb then
          ledge_nbr fuel' hf wh climb floor ceiling
            (mkLedge diff' (Z.min (l_lo st) nfloor) (Z.max (l_hi st) nfloor)) (s_next s)
        else if d <? - climb then Done (mkLedge diff' (l_lo st) (l_hi st))
        else ledge_nbr fuel' hf wh climb floor ceiling
               (mkLedge diff' (l_lo st) (l_hi st)) (s_next s)
    end
  end.

(** pre_filter.rs:75-139: the loop over the four directions, with its breaks. *)
Fixpoint ledge_dirs (dirs : list nat) (hf : hfield) (wh climb : Z) (x z : nat)
    (floor ceiling : Z) (st : ledge_st) : outcome ledge_st :=
  match dirs with
  | [] => Done st
  | d :: dirs' =>
    let nx := Z.of_nat x + dir_offset_x d in
    let nz := Z.of_nat z + dir_offset_z d in
    if negb (contains hf nx nz) then Done (mkLedge (- climb - 1) (l_lo st) (l_hi st))
    else
      let nkey := span_key_at hf (Z.to_nat nx) (Z.to_nat nz) in
      let! nceil := next_floor hf nkey in
      if wh <=? Z.min ceiling nceil - floor
      then Done (mkLedge (- climb - 1) (l_lo st) (l_hi st))
      else
        let! st' := ledge_nbr (S (size (hf_alloc hf))) hf wh climb floor ceiling st nkey in
        ledge_dirs dirs' hf wh climb x z floor ceiling st'
  end.

(** pre_filter.rs:49-157: the loop over one column. *)
Fixpoint ledge_col (fuel : nat) (wh climb : Z) (x z : nat) (hf : hfield)
    (cur : option key) {struct fuel} : outcome hfield :=
  match cur with
  | None => Done hf
  | Some k =>
    match fuel with
    | O => OutOfFuel
    | S fuel' =>
      let! s := span_get hf k in
      if negb (is_walkable (s_area s)) then ledge_col fuel' wh climb x z hf (s_next s)
      else
        let floor := s_max s in
        let! ceiling := next_floor hf (s_next s) in
        let! st := ledge_dirs (seq 0 4) hf wh climb x z floor ceiling
                     (mkLedge MAX_HEIGHT floor floor) in
        let filtered :=
          if l_diff st <? - climb then true else climb <? l_hi st - l_lo st in
        let! hf' := if filtered then span_put hf k (with_area s NOT_WALKABLE)
                    else Done hf in
        ledge_col fuel' wh climb x z hf' (s_next s)
    end
  end.

(** pre_filter.rs:44-160 [filter_ledge_spans]. *)
Definition filter_ledge (wh climb : Z) (hf : hfield) : outcome hfield :=
  for_cells (hf_w hf) (hf_h hf) (λ x z hf,
    ledge_col (S (size (hf_alloc hf))) wh climb x z hf (span_key_at hf x z)) hf.

(** pre_filter.rs:172-189: the loop over one column. *)
Fixpoint low_height_col (fuel : nat) (wh : Z) (hf : hfield)
    (cur : option key) {struct fuel} : outcome hfield :=
  match cur with
  | None => Done hf
  | Some k =>
    match fuel with
    | O => OutOfFuel
    | S fuel' =>
      let! s := span_get hf k in
      let! ceiling := next_floor hf (s_next s) in
      let! hf' := if ceiling - s_max s <? wh
                  then span_put hf k (with_area s NOT_WALKABLE) else Done hf in
      low_height_col fuel' wh hf' (s_next s)
    end
  end.

(** pre_filter.rs:166-192 [filter_walkable_low_height_spans]. *)
Definition filter_low_height (wh : Z) (hf : hfield) : outcome hfield :=
  for_cells (hf_w hf) (hf_h hf) (λ x z hf,
    low_height_col (S (size (hf_alloc hf))) wh hf (span_key_at hf x z)) hf.

(** heightfield.rs:102-107: the filter passes at the end of
    [populate_from_trimesh]. *)
Definition run_filters (wh climb : Z) (hf : hfield) : outcome hfield :=
  let! hf1 := filter_low_hanging climb hf in
  let! hf2 := filter_ledge wh climb hf1 in
  filter_low_height wh hf2.
