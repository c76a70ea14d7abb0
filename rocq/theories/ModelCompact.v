(** Model of compact_span.rs, compact_cell.rs and compact_heightfield.rs. *)
From Verif Require Import Base ModelMath ModelHeightfield ModelFilters.
Local Open Scope Z_scope.

(** ** compact_span.rs *)

(** compact_span.rs:13-21 [CompactSpan]: floor, region id, packed data (24 bits
    of connections, 8 bits of height). *)
Record cspan : Type := CS { cs_y : Z; cs_reg : Z; cs_data : Z }.
Definition cs_default : cspan := CS 0 0 0.

(** compact_span.rs:24 [NOT_CONNECTED]. *)
Definition NOT_CONNECTED : Z := 63.

(** compact_span.rs:28-34 [set_con], on the packed word. *)
Definition set_con_bits (data : Z) (dir : nat) (nb : option Z) : Z :=
  let shift := Z.of_nat dir * 6 in
  let value := Z.land (match nb with Some v => v | None => NOT_CONNECTED end) NOT_CONNECTED in
  Z.lor (Z.ldiff data (wrap_u32 (Z.shiftl 63 shift))) (wrap_u32 (Z.shiftl value shift)).

(** Shifting a [u32] by 32 or more panics. *)
Definition set_con (s : cspan) (dir : nat) (nb : option Z) : outcome cspan :=
  if (6 <=? dir)%nat then Panicked
  else Done (CS (cs_y s) (cs_reg s) (set_con_bits (cs_data s) dir nb)).

(** compact_span.rs:38-46 [con]. *)
Definition con_bits (data : Z) (dir : nat) : option Z :=
  let value := Z.land (Z.shiftr data (Z.of_nat dir * 6)) NOT_CONNECTED in
  if value =? NOT_CONNECTED then None else Some value.
Definition con (s : cspan) (dir : nat) : outcome (option Z) :=
  if (6 <=? dir)%nat then Panicked else Done (con_bits (cs_data s) dir).

(** compact_span.rs:49-51 [height]. *)
Definition height_bits (data : Z) : Z := wrap_u8 (Z.shiftr data 24).
Definition cs_height (s : cspan) : Z := height_bits (cs_data s).

(** compact_span.rs:54-56 [set_height]. *)
Definition set_height_bits (data h : Z) : Z :=
  Z.lor (Z.land data 16777215) (wrap_u32 (Z.shiftl h 24)).
Definition set_height (s : cspan) (h : Z) : cspan :=
  CS (cs_y s) (cs_reg s) (set_height_bits (cs_data s) h).

(** ** compact_cell.rs *)

(** compact_cell.rs:12-19 [CompactCell]. *)
Record ccell : Type := CC { cc_index : nat; cc_count : nat }.
Definition cc_default : ccell := CC 0 0.

(** compact_cell.rs:33-35 [set_index] after the caller's [as u32] cast. *)
Definition cast_u32 (i : nat) : nat := Z.to_nat (wrap_u32 (Z.of_nat i)).

(** compact_cell.rs:43-45 [inc_count]: the [u8] counter overflows at 256. *)
Definition inc_count (c : ccell) : outcome ccell :=
  if (255 <=? cc_count c)%nat then Panicked else Done (CC (cc_index c) (cc_count c + 1)).

(** compact_cell.rs:48-50 [index_range]. *)
Definition index_range (c : ccell) : list nat := seq (cc_index c) (cc_count c).

(** ** compact_heightfield.rs *)

(** compact_heightfield.rs:81-113 [CompactHeightfield]. *)
Record chf : Type := mkChf {
  ch_w : nat;
  ch_h : nat;
  ch_wh : Z;
  ch_wc : Z;
  ch_border : Z;
  ch_maxdist : Z;
  ch_maxreg : Z;
  ch_geo : geo;
  ch_cells : list ccell;
  ch_spans : list cspan;
  ch_dist : list Z;
  ch_areas : list Z
}.

Definition ch_set_spans (c : chf) (s : list cspan) : chf :=
  mkChf (ch_w c) (ch_h c) (ch_wh c) (ch_wc c) (ch_border c) (ch_maxdist c) (ch_maxreg c)
    (ch_geo c) (ch_cells c) s (ch_dist c) (ch_areas c).
Definition ch_set_areas (c : chf) (a : list Z) : chf :=
  mkChf (ch_w c) (ch_h c) (ch_wh c) (ch_wc c) (ch_border c) (ch_maxdist c) (ch_maxreg c)
    (ch_geo c) (ch_cells c) (ch_spans c) (ch_dist c) a.

(** compact_heightfield.rs:255-257, 271-273 [column_index] and [cell_at]. *)
Definition ch_column_index (c : chf) (x z : nat) : nat := (x + z * ch_w c)%nat.
Definition cell_at (c : chf) (x z : nat) : outcome ccell :=
  get (ch_cells c) (ch_column_index c x z).

(** compact_heightfield.rs:298-304 [con_indices]. Simplification: the [i32]
    arithmetic is exact (widths are below 2^16, so the cell index only exceeds
    [i32] for fields of more than 2^31 cells). A negative cell index cast to
    [usize] is out of range. *)
Definition con_indices (c : chf) (x z : Z) (dir : nat) (cn : Z) : outcome (Z * Z * nat) :=
  let ax := x + dir_offset_x dir in
  let az := z + dir_offset_z dir in
  let ci := ax + az * Z.of_nat (ch_w c) in
  if ci <? 0 then Panicked
  else
    let! cell := get (ch_cells c) (Z.to_nat ci) in
    Done (ax, az, (cc_index cell + Z.to_nat cn)%nat).

(** State of the first loop of [into_compact]: cells, spans, areas and
    [cell_index] (compact_heightfield.rs:145-186). *)
Record fill_st : Type := Fill {
  fl_cells : list ccell;
  fl_spans : list cspan;
  fl_areas : list Z;
  fl_next : nat
}.

(** compact_heightfield.rs:167-184: one column. The cell under construction is
    carried along and written back by the caller. *)
Fixpoint fill_col (fuel : nat) (hf : hfield) (cell : ccell) (spans : list cspan)
    (areas : list Z) (n : nat) (cur : option key) {struct fuel}
  : outcome (ccell * list cspan * list Z * nat) :=
  match cur with
  | None => Done (cell, spans, areas, n)
  | Some k =>
    match fuel with
    | O => OutOfFuel
    | S fuel' =>
      let! s := span_get hf k in
      if negb (is_walkable (s_area s)) then fill_col fuel' hf cell spans areas n (s_next s)
      else
        let bot := s_max s in
        let! top := next_floor hf (s_next s) in
        let! c0 := get spans n in
        let h := Z.min (Z.max 0 (top - bot)) 255 in
        let! spans' := put spans n (set_height (CS (Z.min (Z.max bot 0) 65535) (cs_reg c0) (cs_data c0)) h) in
        let! areas' := put areas n (s_area s) in
        let! cell' := inc_count cell in
        fill_col fuel' hf cell' spans' areas' (n + 1) (s_next s)
    end
  end.

(** compact_heightfield.rs:156-184. *)
Definition fill_cell (hf : hfield) (x z : nat) (st : fill_st) : outcome fill_st :=
  match span_key_at hf x z with
  | None => Done st
  | Some k =>
    let ci := column_index hf x z in
    let! _ := get (fl_cells st) ci in
    let! (cell, spans, areas, n) :=
      fill_col (S (size (hf_alloc hf))) hf (CC (cast_u32 (fl_next st)) 0)
        (fl_spans st) (fl_areas st) (fl_next st) (Some k) in
    let! cells := put (fl_cells st) ci cell in
    Done (Fill cells spans areas n)
  end.

(** compact_heightfield.rs:189 [MAX_LAYERS]. *)
Definition MAX_LAYERS : Z := NOT_CONNECTED - 1.

(** compact_heightfield.rs:215-238: the search for a neighbour over the indices
    [ks]; state is the span table and [max_layer_index]. [si] is
    [span_clone]. Simplification: [layer_index] is computed exactly instead of
    through [i32] casts. *)
Fixpoint link_search (ks : list nat) (nidx i dir : nat) (wh wc : Z) (si : cspan)
    (spans : list cspan) (maxl : Z) : outcome (list cspan * Z) :=
  match ks with
  | [] => Done (spans, maxl)
  | k :: ks' =>
    let! sk := get spans k in
    let bot := Z.max (cs_y si) (cs_y sk) in
    let! t1 := chk_u16 (cs_y si + cs_height si) in
    let! t2 := chk_u16 (cs_y sk + cs_height sk) in
    let top := Z.min t1 t2 in
    if negb (wh <=? top - bot) || negb (Z.abs (cs_y sk - cs_y si) <=? wc)
    then link_search ks' nidx i dir wh wc si spans maxl
    else
      let layer := Z.of_nat k - Z.of_nat nidx in
      if (layer <? 0) || (MAX_LAYERS <=? layer)
      then link_search ks' nidx i dir wh wc si spans (Z.max maxl layer)
      else
        let! s0 := get spans i in
        let! s1 := set_con s0 dir (Some (wrap_u8 layer)) in
        let! spans' := put spans i s1 in
        Done (spans', maxl)
  end.

(** compact_heightfield.rs:198-238: one span, one direction. *)
Definition link_dir (hf : hfield) (cells : list ccell) (wh wc : Z) (x z i : nat) (dir : nat)
    (st : list cspan * Z) : outcome (list cspan * Z) :=
  let '(spans, maxl) := st in
  let! s0 := get spans i in
  let! s1 := set_con s0 dir None in
  let! spans1 := put spans i s1 in
  let nx := Z.of_nat x + dir_offset_x dir in
  let nz := Z.of_nat z + dir_offset_z dir in
  if negb (contains hf nx nz) then Done (spans1, maxl)
  else
    let! ncell := get cells (column_index hf (Z.to_nat nx) (Z.to_nat nz)) in
    let! si := get spans1 i in
    link_search (index_range ncell) (cc_index ncell) i dir wh wc si spans1 maxl.

(** compact_heightfield.rs:193-240. *)
Definition link_cell (hf : hfield) (cells : list ccell) (wh wc : Z) (x z : nat)
    (st : list cspan * Z) : outcome (list cspan * Z) :=
  let! cell := get cells (x + z * hf_w hf)%nat in
  foldM (λ i, foldM (link_dir hf cells wh wc x z i) (seq 0 4)) (index_range cell) st.

(** compact_heightfield.rs:128-132: the number of walkable spans. *)
Definition walkable_span_count (hf : hfield) : nat :=
  length (filter (λ p, is_walkable (s_area p.2) = true) (map_to_list (hf_alloc hf))).

(** compact_heightfield.rs:150: the bounds grow by the walkable height. *)
Definition grow_geo (g : geo) (wh : Z) : geo :=
  Geo (g_min g) (V3 (v_x (g_max g))
                    (f_add (v_y (g_max g)) (f_mul (f_of_Z wh) (g_ch g)))
                    (v_z (g_max g))) (g_cs g) (g_ch g).

(** compact_heightfield.rs:123-250 [into_compact]. [Done None] is the
    [TooManyLayers] error. *)
Definition into_compact (hf : hfield) (wh wc : Z) : outcome (option chf) :=
  let n := walkable_span_count hf in
  let! st := for_cells (hf_w hf) (hf_h hf) (fill_cell hf)
               (Fill (repeat cc_default (hf_w hf * hf_h hf)) (repeat cs_default n)
                     (repeat NOT_WALKABLE n) 0) in
  let! (spans, maxl) := for_cells (hf_w hf) (hf_h hf)
               (link_cell hf (fl_cells st) wh wc) (fl_spans st, 0) in
  if MAX_LAYERS <? maxl then Done None
  else Done (Some (mkChf (hf_w hf) (hf_h hf) wh wc 0 0 0 (grow_geo (hf_geo hf) wh)
                     (fl_cells st) spans [] (fl_areas st))).
