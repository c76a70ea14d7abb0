(** Model of mark_convex_poly_area.rs. *)
From Verif Require Import Base ModelMath ModelHeightfield ModelCompact.
Local Open Scope Z_scope.

Record vec2 : Type := V2 { p_x : f32; p_y : f32 }.

(** mark_convex_poly_area.rs:90-99 [ConvexVolume]. *)
Record volume : Type := Volume {
  vol_verts : list vec2;
  vol_min_y : f32;
  vol_max_y : f32;
  vol_area : Z
}.

(** [f32::MAX], [f32::MIN]. *)
Definition f_max_value : f32 := S754_finite false 16777215 104.
Definition f_min_value : f32 := S754_finite true 16777215 104.

(** glam's componentwise [min] and [max] on scalar vectors (outside /repo):
    [if a < b { a } else { b }] and [if a > b { a } else { b }]. *)
Definition f_min (a b : f32) : f32 := if f_lt a b then a else b.
Definition f_max (a b : f32) : f32 := if f_lt b a then a else b.

(** math.rs:73-84 [Aabb2d::from_verts]. *)
Definition aabb2_from_verts (l : list vec2) : option (vec2 * vec2) :=
  match l with
  | [] => None
  | _ => Some (foldl (λ acc v, V2 (f_min (p_x acc) (p_x v)) (f_min (p_y acc) (p_y v)))
                 (V2 f_max_value f_max_value) l,
               foldl (λ acc v, V2 (f_max (p_x acc) (p_x v)) (f_max (p_y acc) (p_y v)))
                 (V2 f_min_value f_min_value) l)
  end.

(** mark_convex_poly_area.rs:79-80: does edge [vi vj] cross the ray from
    [p] in direction +x? *)
Definition edge_crosses (p vi vj : vec2) : bool :=
  negb (Bool.eqb (f_lt (p_y p) (p_y vi)) (f_lt (p_y p) (p_y vj))) &&
  f_lt (p_x p) (f_add (f_div (f_mul (f_sub (p_x vj) (p_x vi)) (f_sub (p_y p) (p_y vi)))
                             (f_sub (p_y vj) (p_y vi))) (p_x vi)).

(** mark_convex_poly_area.rs:71-87 [point_in_poly]; [vertices.len() - 1]
    underflows for an empty list. *)
Definition point_in_poly (p : vec2) (vs : list vec2) : outcome bool :=
  if (length vs =? 0)%nat then Panicked
  else
    let! r := foldM (λ i st, let '(inside, j) := (st : bool * nat) in
      let! vi := get vs i in
      let! vj := get vs j in
      Done (if edge_crosses p vi vj then negb inside else inside, i))
      (seq 0 (length vs)) (false, (length vs - 1)%nat) in
    Done r.1.

(** The integers [lo..=hi]. *)
Definition z_range (lo hi : Z) : list Z := (λ k, lo + Z.of_nat k) <$> seq 0 (Z.to_nat (hi - lo + 1)).

(** mark_convex_poly_area.rs:58-61: the centre of cell [(x, z)]. *)
Definition cell_centre (g : geo) (x z : Z) : vec2 :=
  V2 (f_add (v_x (g_min g)) (f_mul (f_add (f_of_Z x) (f_of_me 1 (-1))) (g_cs g)))
     (f_add (v_z (g_min g)) (f_mul (f_add (f_of_Z z) (f_of_me 1 (-1))) (g_cs g))).

(** mark_convex_poly_area.rs:45-65: one span. *)
Definition mark_span (ch : chf) (vol : volume) (miny maxy x z : Z) (i : nat) (A : list Z)
  : outcome (list Z) :=
  let! s := get (ch_spans ch) i in
  let! a := get A i in
  if negb (is_walkable a) then Done A
  else if (cs_y s <? miny) || (maxy <? cs_y s) then Done A
  else
    let! b := point_in_poly (cell_centre (ch_geo ch) x z) (vol_verts vol) in
    if b then put A i (vol_area vol) else Done A.

(** mark_convex_poly_area.rs:42-66: one cell; the index arithmetic is [i32]. *)
Definition mark_cell (ch : chf) (vol : volume) (miny maxy x z : Z) (A : list Z) : outcome (list Z) :=
  let! zw := chk_i32 (z * Z.of_nat (ch_w ch)) in
  let! ci := chk_i32 (x + zw) in
  let! cell := if ci <? 0 then Panicked else get (ch_cells ch) (Z.to_nat ci) in
  foldM (mark_span ch vol miny maxy x z) (index_range cell) A.

(** mark_convex_poly_area.rs:16-25: world bounds to cell bounds. *)
Definition to_cell (lo cs v : f32) : Z := f_to_i32 (f_div (f_sub v lo) cs).

(** mark_convex_poly_area.rs:7-68 [mark_convex_poly_area]. *)
Definition mark_convex_poly_area (ch : chf) (vol : volume) : outcome chf :=
  match aabb2_from_verts (vol_verts vol) with
  | None => Done ch
  | Some (lo, hi) =>
    let g := ch_geo ch in
    let minx := to_cell (v_x (g_min g)) (g_cs g) (p_x lo) in
    let miny := to_cell (v_y (g_min g)) (g_ch g) (vol_min_y vol) in
    let minz := to_cell (v_z (g_min g)) (g_cs g) (p_y lo) in
    let maxx := to_cell (v_x (g_min g)) (g_cs g) (p_x hi) in
    let maxy := to_cell (v_y (g_min g)) (g_ch g) (vol_max_y vol) in
    let maxz := to_cell (v_z (g_min g)) (g_cs g) (p_y hi) in
    if (maxx <? 0) || (Z.of_nat (ch_w ch) <=? minx) || (maxz <? 0) || (Z.of_nat (ch_h ch) <=? minz)
    then Done ch
    else
      let minx := Z.max minx 0 in
      let maxx := Z.min maxx (Z.of_nat (ch_w ch) - 1) in
      let minz := Z.max minz 0 in
      let maxz := Z.min maxz (Z.of_nat (ch_h ch) - 1) in
      let! A := foldM (λ z, foldM (λ x, mark_cell ch vol miny maxy x z) (z_range minx maxx))
                  (z_range minz maxz) (ch_areas ch) in
      Done (ch_set_areas ch A)
  end.
