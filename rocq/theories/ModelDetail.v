(** Model of crates/rerecast/src/detail_mesh.rs, with the point-to-segment
    distances of math.rs.

    Simplifications, throughout: [tracing] output is left out; [usize] arithmetic
    on sizes of live arrays is exact; the scratch [edges], [samples] and queue
    buffers, which every use clears first, are local values here. *)
From Verif Require Import Base ModelMath ModelHeightfield ModelCompact ModelContours ModelPoly ModelTriMesh ModelMarkArea.
Local Open Scope Z_scope.

(** ** f32 helpers *)

(** f32 literals of the file, rounded to nearest. *)
Definition c_0_01 : f32 := f_of_me 10737418 (-30).
Definition c_1em6 : f32 := f_of_me 8796093 (-43).
Definition c_1em5 : f32 := f_of_me 10995116 (-40).
Definition c_1em4 : f32 := f_of_me 13743895 (-37).
Definition c_1em3 : f32 := f_of_me 8589935 (-33).
Definition c_0_1 : f32 := f_of_me 13421773 (-27).
Definition c_0_5 : f32 := f_of_me 1 (-1).
Definition f_two : f32 := f_of_Z 2.
Definition f_abs : f32 → f32 := SFabs.
Definition f_neg : f32 → f32 := SFopp.
Definition is_nan (x : f32) : bool := match x with S754_nan => true | _ => false end.
(** [f32::min] and [f32::max] ignore a NaN operand. Simplification: of two zeros
    the second is returned, the standard library leaves the choice open. *)
Definition fmin (a b : f32) : f32 := if is_nan a then b else if is_nan b then a else if f_lt a b then a else b.
Definition fmax (a b : f32) : f32 := if is_nan a then b else if is_nan b then a else if f_lt b a then a else b.

(** glam [Vec3A::xz] and [Vec2] arithmetic. *)
Definition xz (v : vec3) : f32 * f32 := (v_x v, v_z v).
Definition sub2 (a b : f32 * f32) : f32 * f32 := (f_sub a.1 b.1, f_sub a.2 b.2).
Definition dot2 (a b : f32 * f32) : f32 := f_add (f_mul a.1 b.1) (f_mul a.2 b.2).
Definition dist2 (a b : f32 * f32) : f32 := let d := sub2 a b in f_sqrt (dot2 d d).

(** math.rs:182-197 [distance_squared_between_point_and_line_vec2]. *)
Definition seg_dist2 (pt p q : f32 * f32) : f32 :=
  let pq := sub2 q p in
  let dt := sub2 pt p in
  let d := dot2 pq pq in
  let t := dot2 pq dt in
  let t := f_clamp01 (if f_lt f_zero d then f_div t d else t) in
  let e := sub2 (f_add p.1 (f_mul t pq.1), f_add p.2 (f_mul t pq.2)) pt in
  dot2 e e.

(** math.rs:199-217 [distance_squared_between_point_and_line_vec3]. *)
Definition seg_dist3 (pt p q : vec3) : f32 :=
  let pq := v_sub q p in
  let dt := v_sub pt p in
  let d := v_dot pq pq in
  let t := v_dot pq dt in
  let t := f_clamp01 (if f_lt f_zero d then f_div t d else t) in
  let e := v_sub (v_add p (v_scale pq t)) pt in
  v_dot e e.

(** detail_mesh.rs:1201-1220 [poly_min_extent_squared]. *)
Definition poly_min_extent_sq (verts : list vec3) (nverts : nat) : outcome f32 :=
  foldM (λ i mind,
    let! ni := next_idx i nverts in
    let! p1 := get verts i in
    let! p2 := get verts ni in
    let maxd := foldl (λ m '(j, v),
      if ((j =? i) || (j =? ni))%nat then m else fmax m (seg_dist2 (xz v) (xz p1) (xz p2)))
      f_zero (imap (λ j v, (j, v)) (take nverts verts)) in
    Done (fmin mind maxd)) (seq 0 nverts) F32_MAX.

(** ** Height patches *)

(** detail_mesh.rs:1225-1232 [HeightPatch]; [u16] fields. *)
Record hpatch : Type := HP { hp_data : list Z; hp_xmin : Z; hp_zmin : Z; hp_w : Z; hp_h : Z }.
Definition hp_set_data (hp : hpatch) (d : list Z) : hpatch := HP d (hp_xmin hp) (hp_zmin hp) (hp_w hp) (hp_h hp).

(** detail_mesh.rs:1508 [RC_UNSET_HEIGHT]. *)
Definition UNSET : Z := 65535.

(** detail_mesh.rs:1492-1505 [data_len], [data_at], [data_at_mut]: the index is
    computed in [i32] and cast to [usize]; a negative one is out of range. *)
Definition data_len (hp : hpatch) : nat := Z.to_nat (hp_w hp * hp_h hp).
Definition data_idx (hp : hpatch) (x z : Z) : outcome nat :=
  let! r := chk_i32 (z * hp_w hp) in
  let! i := chk_i32 (x + r) in
  if i <? 0 then Panicked else Done (Z.to_nat i).
Definition data_at (hp : hpatch) (x z : Z) : outcome Z := let! i := data_idx hp x z in get (hp_data hp) i.
Definition data_put (hp : hpatch) (x z v : Z) : outcome hpatch :=
  let! i := data_idx hp x z in
  let! d := put (hp_data hp) i v in
  Done (hp_set_data hp d).
(** detail_mesh.rs:1248-1250, 1413-1414, 1486: [self.data[..data_len].fill(v)]. *)
Definition data_fill (hp : hpatch) (v : Z) : outcome hpatch :=
  if (length (hp_data hp) <? data_len hp)%nat then Panicked
  else Done (hp_set_data hp (repeat v (data_len hp) ++ drop (data_len hp) (hp_data hp))).

(** [i32::clamp] panics if the bounds are reversed. *)
Definition clamp_i32 (lo hi v : Z) : outcome Z := if hi <? lo then Panicked else Done (Z.max lo (Z.min hi v)).

(** detail_mesh.rs:1140-1196: the spiral walk of [get_height], from iteration
    [i] with [n] iterations left. Simplification: the [i32] coordinates and [u32]
    counters of the walk are exact (the [u32] bound on [max_iter] keeps them
    below 2^18 and 2^32). *)
Record spiral_st : Type := SpSt { sp_x : Z; sp_z : Z; sp_dx : Z; sp_dz : Z; sp_start : Z; sp_iters : Z; sp_dmin : f32; sp_h : Z }.
Definition spiral0 (h : Z) : spiral_st := SpSt 1 0 1 0 8 16 F32_MAX h.
Definition spiral_visit (hp : hpatch) (ix iz : Z) (ch fy : f32) (st : spiral_st) : outcome spiral_st :=
  let nx := ix + sp_x st in
  let nz := iz + sp_z st in
  if (0 <=? nx) && (0 <=? nz) && (nx <? hp_w hp) && (nz <? hp_h hp) then
    let! nh := data_at hp nx nz in
    if negb (nh =? UNSET) then
      let d := f_abs (f_sub (f_mul (f_of_Z nh) ch) fy) in
      if f_lt d (sp_dmin st) then
        Done (SpSt (sp_x st) (sp_z st) (sp_dx st) (sp_dz st) (sp_start st) (sp_iters st) d nh)
      else Done st
    else Done st
  else Done st.
Definition spiral_turn (st : spiral_st) : spiral_st :=
  let '(x, z) := (sp_x st, sp_z st) in
  let '(dx, dz) :=
    if (x =? z) || ((x <? 0) && (x =? - z)) || ((0 <? x) && (x =? 1 - z))
    then (- sp_dz st, sp_dx st) else (sp_dx st, sp_dz st) in
  SpSt (x + dx) (z + dz) dx dz (sp_start st) (sp_iters st) (sp_dmin st) (sp_h st).
Fixpoint spiral (n : nat) (i : Z) (hp : hpatch) (ix iz : Z) (ch fy : f32) (st : spiral_st) : outcome Z :=
  match n with
  | O => Done (sp_h st)
  | S n' =>
    let! st := spiral_visit hp ix iz ch fy st in
    if (i + 1 =? sp_start st) then
      if negb (sp_h st =? UNSET) then Done (sp_h st)
      else
        spiral n' (i + 1) hp ix iz ch fy
          (spiral_turn (SpSt (sp_x st) (sp_z st) (sp_dx st) (sp_dz st)
                          (sp_start st + sp_iters st) (sp_iters st + 8) (sp_dmin st) (sp_h st)))
    else spiral n' (i + 1) hp ix iz ch fy (spiral_turn st)
  end.

(** detail_mesh.rs:1130-1199 [get_height]. *)
Definition get_height (f : vec3) (ics ch : f32) (radius : Z) (hp : hpatch) : outcome Z :=
  let ix := f_cast f_floor_Z I32_MIN I32_MAX (f_add (f_mul (v_x f) ics) c_0_01) in
  let iz := f_cast f_floor_Z I32_MIN I32_MAX (f_add (f_mul (v_z f) ics) c_0_01) in
  let! ix := chk_i32 (ix - hp_xmin hp) in
  let! ix := clamp_i32 0 (hp_w hp - 1) ix in
  let! iz := chk_i32 (iz - hp_zmin hp) in
  let! iz := clamp_i32 0 (hp_h hp - 1) iz in
  let! h := data_at hp ix iz in
  if negb (h =? UNSET) then Done h
  else
    let! m := chk_u32 (radius * 2) in
    let! m := chk_u32 (m + 1) in
    let! q := chk_u32 (m * m) in
    spiral (Z.to_nat (q - 1)) 0 hp ix iz ch (v_y f) (spiral0 h).

(** A queued cell: column and span index, in coordinates with the border. *)
Notation seed := (Z * Z * nat)%type.

(** detail_mesh.rs:1265-1267: the first span of the column in [region]. *)
Fixpoint region_span (ch : chf) (region : Z) (is : list nat) : outcome (option (nat * cspan)) :=
  match is with
  | [] => Done None
  | i :: r =>
    let! s := get (ch_spans ch) i in
    if cs_reg s =? region then Done (Some (i, s)) else region_span ch region r
  end.

(** detail_mesh.rs:1274-1285: whether some linked neighbour is of another region. *)
Fixpoint region_border (ch : chf) (region x z : Z) (s : cspan) (ds : list nat) : outcome bool :=
  match ds with
  | [] => Done false
  | d :: r =>
    let! c := con s d in
    match c with
    | None => region_border ch region x z s r
    | Some cn =>
      let! (_, _, ai) := con_indices ch x z d cn in
      let! a := get (ch_spans ch) ai in
      if negb (cs_reg a =? region) then Done true else region_border ch region x z s r
    end
  end.

(** detail_mesh.rs:1261-1292: one cell of the region copy. State: patch, queue,
    [empty]. *)
Definition copy_cell (ch : chf) (region bs hz hx : Z) (st : hpatch * list seed * bool) : outcome (hpatch * list seed * bool) :=
  let '(hp, q, empty) := st in
  let! z := chk_u16 (hp_zmin hp + hz) in
  let! z := chk_u16 (z + bs) in
  let! x := chk_u16 (hp_xmin hp + hx) in
  let! x := chk_u16 (x + bs) in
  let! c := get (ch_cells ch) (Z.to_nat x + Z.to_nat z * ch_w ch)%nat in
  let! o := region_span ch region (index_range c) in
  match o with
  | None => Done st
  | Some (i, s) =>
    let! hp := data_put hp hx hz (cs_y s) in
    let! b := region_border ch region x z s (seq 0 4) in
    Done (hp, if b then q ++ [(x, z, i)] else q, false)
  end.

(** detail_mesh.rs:1257-1294. Simplification: the row coordinate is computed in
    each cell of the row rather than once per row, so a patch of width 0 skips
    its overflow check. *)
Definition copy_region (ch : chf) (region bs : Z) (hp : hpatch) : outcome (hpatch * list seed * bool) :=
  for_cells (Z.to_nat (hp_w hp)) (Z.to_nat (hp_h hp))
    (λ hx hz, copy_cell ch region bs (Z.of_nat hz) (Z.of_nat hx)) (hp, [], true).

(** detail_mesh.rs:1318-1340: one step of the fill from a queued
    span in direction [d]. *)
Definition fill_dir (ch : chf) (bs cx cz : Z) (s : cspan) (d : nat) (st : hpatch * list seed) : outcome (hpatch * list seed) :=
  let '(hp, q) := st in
  let! c := con s d in
  match c with
  | None => Done st
  | Some cn =>
    let ax := cx + dir_offset_x d in
    let az := cz + dir_offset_z d in
    let hx := ax - hp_xmin hp - bs in
    let hz := az - hp_zmin hp - bs in
    if (hp_w hp <=? wrap_u16 hx) || (hp_h hp <=? wrap_u16 hz) then Done st
    else
      let! v := data_at hp hx hz in
      if negb (v =? UNSET) then Done st
      else
        let ci := ax + az * Z.of_nat (ch_w ch) in
        if ci <? 0 then Panicked
        else
          let! cell := get (ch_cells ch) (Z.to_nat ci) in
          let ai := (cc_index cell + Z.to_nat cn)%nat in
          let! a := get (ch_spans ch) ai in
          let! hp := data_put hp hx hz (cs_y a) in
          Done (hp, q ++ [(ax, az, ai)])
  end.

(** detail_mesh.rs:1301-1341: the flood fill, with the queue's retraction every
    256 entries. *)
Definition RETRACT : nat := 256.
Fixpoint fill_loop (fuel : nat) (ch : chf) (bs : Z) (head : nat) (hp : hpatch) (q : list seed) : outcome hpatch :=
  match fuel with
  | O => OutOfFuel
  | S fuel =>
    match q !! head with
    | None => Done hp
    | Some (cx, cz, ci) =>
      let head := S head in
      let '(head, q) := if (RETRACT <=? head)%nat then (O, drop RETRACT q) else (head, q) in
      let! s := get (ch_spans ch) ci in
      let! (hp, q) := foldM (fill_dir ch bs cx cz s) (seq 0 4) (hp, q) in
      fill_loop fuel ch bs head hp q
    end
  end.

(** detail_mesh.rs:1355 [OFFSET]. *)
Definition OFFSETS : list (Z * Z) :=
  [(0, 0); (-1, -1); (0, -1); (1, -1); (1, 0); (1, 1); (0, 1); (-1, 1); (-1, 0)].

(** detail_mesh.rs:1382-1391: the spans of a column against the best so far:
    distance and, once found, cell and span. *)
Definition seed_column (ch : chf) (ax ay az : Z) (is : list nat) (st : Z * option (Z * Z * nat)) : outcome (Z * option (Z * Z * nat)) :=
  foldM (λ i '(dmin, best),
    let! s := get (ch_spans ch) i in
    let! d := chk_i32 (ay - cs_y s) in
    let! d := chk_i32 (Z.abs d) in
    Done (if d <? dmin then (d, Some (ax, az, i)) else (dmin, best))) is st.

(** detail_mesh.rs:1366-1392: one offset around one polygon vertex. *)
Definition seed_offset (ch : chf) (bs : Z) (hp : hpatch) (v : vec3) (o : Z * Z) (st : Z * option (Z * Z * nat)) : outcome (Z * option (Z * Z * nat)) :=
  if st.1 <=? 0 then Done st
  else
    let! ax := chk_i32 (f_to_i32 (v_x v) + o.1) in
    let ay := f_to_i32 (v_y v) in
    let! az := chk_i32 (f_to_i32 (v_z v) + o.2) in
    if (ax <? hp_xmin hp) || (hp_xmin hp + hp_w hp <=? ax) || (az <? hp_zmin hp) || (hp_zmin hp + hp_h hp <=? az) then Done st
    else
      let! c := get (ch_cells ch) (Z.to_nat ((ax + bs) + (az + bs) * Z.of_nat (ch_w ch))) in
      seed_column ch ax ay az (index_range c) st.

(** detail_mesh.rs:1357-1396: the span nearest to a polygon vertex, by looking at
    [verts[p]] for the indices [p] of the polygon. The caller passes the buffer
    of detail vertices for [verts]. *)
Definition seed_start (ch : chf) (bs : Z) (hp : hpatch) (row : list Z) (verts : list vec3) : outcome (option (Z * Z * nat)) :=
  let! st := foldM (λ p st,
    if st.1 <=? 0 then Done st
    else
      let! v := get verts (Z.to_nat p) in
      foldM (seed_offset ch bs hp v) OFFSETS st) row (UNSET, None) in
  Done st.2.

(** detail_mesh.rs:1397-1406: the sum of the truncated coordinates, divided. *)
Definition seed_centre (row : list Z) (verts : list vec3) : outcome (Z * Z) :=
  let! (sx, sz) := foldM (λ p '(sx, sz),
    let! v := get verts (Z.to_nat p) in
    let! sx := chk_i32 (sx + f_to_i32 (v_x v)) in
    let! sz := chk_i32 (sz + f_to_i32 (v_z v)) in
    Done (sx, sz)) row (0, 0) in
  if (length row =? 0)%nat then Panicked
  else Done (Z.quot sx (Z.of_nat (length row)), Z.quot sz (Z.of_nat (length row))).

(** [slice::swap]. *)
Definition swap_at {A} (l : list A) (i j : nat) : outcome (list A) :=
  let! a := get l i in
  let! b := get l j in
  Done (<[j := a]> (<[i := b]> l)).

(** detail_mesh.rs:1453-1475: one direction of the search towards the centre. *)
Definition walk_dir (ch : chf) (bs cx cz : Z) (s : cspan) (d : nat) (st : hpatch * list seed) : outcome (hpatch * list seed) :=
  let '(hp, stack) := st in
  let! c := con s d in
  match c with
  | None => Done st
  | Some cn =>
    let nx := cx + dir_offset_x d in
    let nz := cz + dir_offset_z d in
    let px := nx - hp_xmin hp in
    let pz := nz - hp_zmin hp in
    if (px <? 0) || (hp_w hp <=? px) || (pz <? 0) || (hp_h hp <=? pz) then Done st
    else
      let! v := data_at hp px pz in
      if negb (v =? 0) then Done st
      else
        let! hp := data_put hp px pz 1 in
        let! cell := get (ch_cells ch) (Z.to_nat ((nx + bs) + (nz + bs) * Z.of_nat (ch_w ch))) in
        Done (hp, (nx, nz, (cc_index cell + Z.to_nat cn)%nat) :: stack)
  end.

(** detail_mesh.rs:1408-1477: the depth-first search; the stack's top is the
    head of the list. [last] is the cell popped last. *)
Fixpoint walk_loop (fuel : nat) (ch : chf) (bs pcx pcz : Z) (hp : hpatch) (stack : list seed) (last : option seed) : outcome (option seed) :=
  match fuel with
  | O => OutOfFuel
  | S fuel =>
    match stack with
    | [] => Done last
    | (cx, cz, ci) :: stack =>
      if (cx =? pcx) && (cz =? pcz) then Done (Some (cx, cz, ci))
      else
        let! dd := if cx =? pcx then dir_offset 0 (if cz <? pcz then 1 else -1)
                   else dir_offset (if cx <? pcx then 1 else -1) 0 in
        let! dirs := swap_at [0; 1; 2; 3]%nat (Z.to_nat dd) 3 in
        let! s := get (ch_spans ch) ci in
        let! (hp, stack) := foldM (walk_dir ch bs cx cz s) dirs (hp, stack) in
        walk_loop fuel ch bs pcx pcz hp stack (Some (cx, cz, ci))
    end
  end.

(** detail_mesh.rs:1344-1490 [seed_array_with_poly_center]. *)
Definition seed_poly_center (ch : chf) (row : list Z) (verts : list vec3) (bs : Z) (hp : hpatch) : outcome (hpatch * list seed) :=
  let! start := seed_start ch bs hp row verts in
  let! start := unwrap start in
  let! (pcx, pcz) := seed_centre row verts in
  let! hp := data_fill hp 0 in
  let! last := walk_loop (data_len hp + 2) ch bs pcx pcz hp [start] None in
  let! (cx, cz, ci) := unwrap last in
  let! hp := data_fill hp UNSET in
  let! s := get (ch_spans ch) ci in
  let! hp := data_put hp (cx - hp_xmin hp) (cz - hp_zmin hp) (cs_y s) in
  Done (hp, [(cx + bs, cz + bs, ci)]).

(** detail_mesh.rs:1235-1342 [get_height_data]. [fuel] bounds the flood fill. *)
Definition get_height_data (fuel : nat) (ch : chf) (row : list Z) (verts : list vec3) (bs region : Z) (hp : hpatch) : outcome hpatch :=
  let! hp := data_fill hp UNSET in
  let! (hp, q, empty) := if region =? 0 then Done (hp, [], true) else copy_region ch region bs hp in
  let! (hp, q) := if empty : bool then seed_poly_center ch row verts bs hp else Done (hp, q) in
  fill_loop fuel ch bs 0 hp q.

(** ** Triangulating one polygon *)

(** A triangle of a sub-mesh: three [u8] local vertex indices. *)
Notation dtri := (nat * nat * nat)%type.
Definition as_u8 (i : nat) : nat := (i mod 256)%nat.
Definition mk_dtri (hull : list nat) (a b c : nat) : outcome dtri :=
  let! a := get hull a in
  let! b := get hull b in
  let! c := get hull c in
  Done (as_u8 a, as_u8 b, as_u8 c).

(** The position of hull entry [k], in the plane. *)
Definition hull_xz (verts : list vec3) (hull : list nat) (k : nat) : outcome (f32 * f32) :=
  let! h := get hull k in
  let! v := get verts h in
  Done (xz v).

(** detail_mesh.rs:1073-1097: the ear with the shortest perimeter. State: start,
    left, right, dmin. *)
Definition first_ear (verts : list vec3) (nhull : nat) (hull : list nat) (nin : nat) : outcome (nat * nat * nat * f32) :=
  if (nhull =? 0)%nat then Panicked
  else
  foldM (λ i '(st, lf, rt, dmin),
    let! h := get hull i in
    if (nin <=? h)%nat then Done (st, lf, rt, dmin)
    else
      let! pi := prev_idx i nhull in
      let! ni := next_idx i nhull in
      let! pv := hull_xz verts hull pi in
      let! cv := hull_xz verts hull i in
      let! nv := hull_xz verts hull ni in
      let d := f_add (f_add (dist2 pv cv) (dist2 cv nv)) (dist2 nv pv) in
      Done (if f_lt d dmin then (i, ni, pi, d) else (st, lf, rt, dmin)))
    (seq 0 nhull) (0, 1, nhull - 1, F32_MAX)%nat.

(** detail_mesh.rs:1103-1127: closing the polygon between [left] and [right]. *)
Fixpoint strip_loop (fuel : nat) (verts : list vec3) (nhull : nat) (hull : list nat) (lf rt : nat) (tris : list dtri) : outcome (list dtri) :=
  match fuel with
  | O => OutOfFuel
  | S fuel =>
    let! nleft := next_idx lf nhull in
    if (nleft =? rt)%nat then Done tris
    else
      let! nright := prev_idx rt nhull in
      let! cvleft := hull_xz verts hull lf in
      let! nvleft := hull_xz verts hull nleft in
      let! cvright := hull_xz verts hull rt in
      let! nvright := hull_xz verts hull nright in
      let dleft := f_add (dist2 cvleft nvleft) (dist2 nvleft cvright) in
      let dright := f_add (dist2 cvright nvright) (dist2 cvleft nvright) in
      if f_lt dleft dright then
        let! t := mk_dtri hull lf nleft rt in
        strip_loop fuel verts nhull hull nleft rt (tris ++ [t])
      else
        let! t := mk_dtri hull lf nright rt in
        strip_loop fuel verts nhull hull lf nright (tris ++ [t])
  end.

(** detail_mesh.rs:1065-1128 [triangulate_hull], on empty [tris] and [flags]
    (both callers clear them first). The flags pushed are zeros, one for each
    triangle. *)
Definition triangulate_hull (verts : list vec3) (nhull : nat) (hull : list nat) (nin : nat) : outcome (list dtri) :=
  let! (st, lf, rt, _) := first_ear verts nhull hull nin in
  let! t := mk_dtri hull st lf rt in
  strip_loop (S nhull) verts nhull hull lf rt [t].

(** detail_mesh.rs:1050-1063 [on_hull]: [j] is the hull entry before [i]. *)
Fixpoint on_hull_loop (a b : nat) (hull : list nat) (is : list nat) (j : nat) : outcome bool :=
  match is with
  | [] => Done false
  | i :: r =>
    let! hj := get hull j in
    if (a =? hj)%nat then
      let! hi := get hull i in
      if (b =? hi)%nat then Done true else on_hull_loop a b hull r i
    else on_hull_loop a b hull r i
  end.
Definition on_hull (a b nhull : nat) (hull : list nat) : outcome bool :=
  if ((nhull <=? a) || (nhull <=? b))%nat then Done false
  else on_hull_loop a b hull (seq 0 nhull) (nhull - 1).

(** detail_mesh.rs:1024-1048 [set_tri_flags]: bits 0, 2 and 4 for the edges AB,
    BC and CA. *)
Definition tri_flags (nhull : nat) (hull : list nat) (t : dtri) : outcome Z :=
  let '(a, b, c) := t in
  let! ab := on_hull a b nhull hull in
  let! bc := on_hull b c nhull hull in
  let! ca := on_hull c a nhull hull in
  Done (Z.lor (Z.lor (if ab : bool then 1 else 0) (Z.shiftl (if bc : bool then 1 else 0) 2))
          (Z.shiftl (if ca : bool then 1 else 0) 4)).
Definition set_tri_flags (nhull : nat) (hull : list nat) (tris : list dtri) : outcome (list Z) :=
  mapM_o (tri_flags nhull hull) tris.

(** *** Delaunay triangulation *)

(** detail_mesh.rs:910-915 [Edge]. *)
Inductive ev : Type := ERegular (i : nat) | EUndefined | EHull.
Definition ev_eqb (a b : ev) : bool :=
  match a, b with
  | ERegular i, ERegular j => (i =? j)%nat
  | EUndefined, EUndefined | EHull, EHull => true
  | _, _ => false
  end.
Definition ev_undef (a : ev) : bool := match a with EUndefined => true | _ => false end.
(** detail_mesh.rs:924-930 [Edge::unwrap]. *)
Definition ev_unwrap (a : ev) : outcome nat := match a with ERegular i => Done i | _ => Panicked end.

(** detail_mesh.rs:890-894 [Edges]: end points, face of one side, face of the
    other side. *)
Record quad : Type := Q4 { q_0 : ev; q_1 : ev; q_2 : ev; q_3 : ev }.
Definition quad0 : quad := Q4 (ERegular 0) (ERegular 0) (ERegular 0) (ERegular 0).
Definition quad_undef : quad := Q4 EUndefined EUndefined EUndefined EUndefined.

(** detail_mesh.rs:879-888 [find_edge]. *)
Definition find_dedge (edges : list quad) (nedges : nat) (s t : ev) : option nat :=
  fst <$> list_find (λ e, (ev_eqb (q_0 e) s && ev_eqb (q_1 e) t) || (ev_eqb (q_0 e) t && ev_eqb (q_1 e) s) = true) (take nedges edges).

(** detail_mesh.rs:846-877 [add_edge]; the returned edge is not used. *)
Definition add_dedge (max_edges : nat) (s t l r : ev) (st : list quad * nat) : outcome (list quad * nat) :=
  let '(edges, nedges) := st in
  if (max_edges <=? nedges)%nat then Done st
  else match find_dedge edges nedges s t with
       | None =>
         let! edges := put edges nedges (Q4 s t l r) in
         Done (edges, S nedges)
       | Some _ => Done st
       end.

(** detail_mesh.rs:772-781 [update_left_face]. *)
Definition update_left_face (s t f : ev) (e : quad) : quad :=
  if ev_eqb (q_0 e) s && ev_eqb (q_1 e) t && ev_undef (q_2 e) then Q4 (q_0 e) (q_1 e) f (q_3 e)
  else if ev_eqb (q_1 e) s && ev_eqb (q_0 e) t && ev_undef (q_3 e) then Q4 (q_0 e) (q_1 e) (q_2 e) f
  else e.
Definition update_face_at (edges : list quad) (k : nat) (s t f : ev) : outcome (list quad) :=
  let! e := get edges k in
  put edges k (update_left_face s t f e).

(** detail_mesh.rs:839-844 [cross2]. *)
Definition cross2 (p1 p2 p3 : f32 * f32) : f32 :=
  let a := sub2 p2 p1 in
  let b := sub2 p3 p1 in
  f_sub (f_mul a.1 b.2) (f_mul a.2 b.1).

(** detail_mesh.rs:801-813 [overlap_seg_seg2]. *)
Definition overlap_seg (a b c d : f32 * f32) : bool :=
  let a1 := cross2 a b d in
  let a2 := cross2 a b c in
  if f_lt (f_mul a1 a2) f_zero then
    let a3 := cross2 c d a in
    let a4 := f_sub (f_add a3 a2) a1 in
    f_lt (f_mul a3 a4) f_zero
  else false.

(** detail_mesh.rs:783-799 [overlap_edges]. *)
Fixpoint overlap_edges (pts : list vec3) (es : list quad) (s1 t1 : nat) : outcome bool :=
  match es with
  | [] => Done false
  | e :: r =>
    let! s0 := ev_unwrap (q_0 e) in
    let! t0 := ev_unwrap (q_1 e) in
    if ((s0 =? s1) || (s0 =? t1) || (t0 =? s1) || (t0 =? t1))%nat then overlap_edges pts r s1 t1
    else
      let! a := get pts s0 in
      let! b := get pts t0 in
      let! c := get pts s1 in
      let! d := get pts t1 in
      if overlap_seg (xz a) (xz b) (xz c) (xz d) then Done true else overlap_edges pts r s1 t1
  end.

(** detail_mesh.rs:815-837 [circum_circle_squared]: centre and squared radius. *)
Definition circum_circle (p1 p2 p3 : vec3) : vec3 * f32 :=
  let v2 := xz (v_sub p2 p1) in
  let v3 := xz (v_sub p3 p1) in
  let cp := cross2 (f_zero, f_zero) v2 v3 in
  if f_lt c_1em6 (f_abs cp) then
    let q2 := dot2 v2 v2 in
    let q3 := dot2 v3 v3 in
    let cx := f_div (f_add (f_mul q2 v3.2) (f_mul q3 (f_neg v2.2))) (f_mul f_two cp) in
    let cz := f_div (f_add (f_mul q2 (f_neg v3.1)) (f_mul q3 v2.1)) (f_mul f_two cp) in
    let c := V3 cx f_zero cz in
    (v_add c p1, dot2 (xz c) (xz c))
  else (p1, f_zero).

(** detail_mesh.rs:700-744: the best point to the left of [s]-[t]; state: chosen
    point, circle. *)
Definition facet_point (pts : list vec3) (npts : nat) (es : list quad) (s t : nat) : outcome (nat * option (vec3 * f32)) :=
  foldM (λ u '(pt, circle),
    if ((u =? s) || (u =? t))%nat then Done (pt, circle)
    else
      let! ps := get pts s in
      let! pt' := get pts t in
      let! pu := get pts u in
      if negb (f_lt c_1em5 (cross2 (xz ps) (xz pt') (xz pu))) then Done (pt, circle)
      else
        match circle with
        | None => Done (u, Some (circum_circle ps pt' pu))
        | Some (c, rsq) =>
          let d := sub2 (xz c) (xz pu) in
          let dsq := dot2 d d in
          let up := f_add f_one c_1em3 in
          let dn := f_sub f_one c_1em3 in
          if f_lt (f_mul (f_mul rsq up) up) dsq then Done (pt, circle)
          else if f_lt dsq (f_mul (f_mul rsq dn) dn) then Done (u, Some (circum_circle ps pt' pu))
          else
            let! o1 := overlap_edges pts es s u in
            if o1 : bool then Done (pt, circle)
            else
              let! o2 := overlap_edges pts es t u in
              if o2 : bool then Done (pt, circle)
              else Done (u, Some (circum_circle ps pt' pu))
        end)
    (seq 0 npts) (npts, None).

(** detail_mesh.rs:751-765: attach a new triangle's edge [a]-[b]. *)
Definition attach_edge (max_edges nfaces : nat) (a b : nat) (st : list quad * nat) : outcome (list quad * nat) :=
  let '(edges, nedges) := st in
  match find_dedge edges nedges (ERegular a) (ERegular b) with
  | None => add_dedge max_edges (ERegular a) (ERegular b) (ERegular nfaces) EUndefined (edges, nedges)
  | Some k =>
    let! edges := update_face_at edges k (ERegular a) (ERegular b) (ERegular nfaces) in
    Done (edges, nedges)
  end.

(** detail_mesh.rs:676-770 [complete_facet]. State: edges, nedges, nfaces. *)
Definition complete_facet (pts : list vec3) (npts max_edges e : nat) (st : list quad * nat * nat) : outcome (list quad * nat * nat) :=
  let '(edges, nedges, nfaces) := st in
  let! q := get edges e in
  let pick := if ev_undef (q_2 q) then Some (q_0 q, q_1 q)
              else if ev_undef (q_3 q) then Some (q_1 q, q_0 q) else None in
  match pick with
  | None => Done st
  | Some (s, t) =>
    let! s := ev_unwrap s in
    let! t := ev_unwrap t in
    let! (pt, _) := facet_point pts npts (take nedges edges) s t in
    if (pt <? npts)%nat then
      let! edges := update_face_at edges e (ERegular s) (ERegular t) (ERegular nfaces) in
      let! st := attach_edge max_edges nfaces pt s (edges, nedges) in
      let! (edges, nedges) := attach_edge max_edges nfaces t pt st in
      Done (edges, nedges, S nfaces)
    else
      let! edges := update_face_at edges e (ERegular s) (ERegular t) EHull in
      Done (edges, nedges, nfaces)
  end.

(** detail_mesh.rs:590-615: complete every edge, from edge [k]. *)
Fixpoint complete_loop (fuel : nat) (pts : list vec3) (npts max_edges k : nat) (st : list quad * nat * nat) : outcome (list quad * nat * nat) :=
  match fuel with
  | O => OutOfFuel
  | S fuel =>
    if negb (k <? st.1.2)%nat then Done st
    else
      let! q := get st.1.1 k in
      let! st := if ev_undef (q_2 q) then complete_facet pts npts max_edges k st else Done st in
      let! q := get st.1.1 k in
      let! st := if ev_undef (q_3 q) then complete_facet pts npts max_edges k st else Done st in
      complete_loop fuel pts npts max_edges (S k) st
  end.

(** detail_mesh.rs:624-649: enter an edge into its left and right face. *)
Definition enter_left (e : quad) (tris : list quad) : outcome (list quad) :=
  match q_3 e with
  | ERegular f =>
    let! t := get tris f in
    put tris f (if ev_undef (q_0 t) then Q4 (q_0 e) (q_1 e) (q_2 t) (q_3 t)
                else if ev_eqb (q_0 t) (q_1 e) then Q4 (q_0 t) (q_1 t) (q_0 e) (q_3 t)
                else if ev_eqb (q_1 t) (q_0 e) then Q4 (q_0 t) (q_1 t) (q_1 e) (q_3 t)
                else t)
  | _ => Done tris
  end.
Definition enter_right (e : quad) (tris : list quad) : outcome (list quad) :=
  match q_2 e with
  | ERegular f =>
    let! t := get tris f in
    put tris f (if ev_undef (q_0 t) then Q4 (q_1 e) (q_0 e) (q_2 t) (q_3 t)
                else if ev_eqb (q_0 t) (q_0 e) then Q4 (q_0 t) (q_1 t) (q_1 e) (q_3 t)
                else if ev_eqb (q_1 t) (q_1 e) then Q4 (q_0 t) (q_1 t) (q_0 e) (q_3 t)
                else t)
  | _ => Done tris
  end.
Definition enter_edge (e : quad) (tris : list quad) : outcome (list quad) :=
  let! tris := enter_left e tris in
  enter_right e tris.

(** [Vec::swap_remove] of a present element. *)
Definition swap_remove {A} (l : list A) (i : nat) : list A :=
  match last l with
  | Some a => take (length l - 1) (<[i := a]> l)
  | None => l
  end.

(** detail_mesh.rs:650-664: remove the faces with an undefined corner. *)
Definition dangling (t : quad) : bool := ev_undef (q_0 t) || ev_undef (q_1 t) || ev_undef (q_2 t).
Fixpoint drop_dangling (fuel i : nat) (tris : list quad) : outcome (list quad) :=
  match fuel with
  | O => OutOfFuel
  | S fuel =>
    match tris !! i with
    | None => Done tris
    | Some t => if dangling t then drop_dangling fuel i (swap_remove tris i) else drop_dangling fuel (S i) tris
    end
  end.

(** detail_mesh.rs:665-673: one output triangle. *)
Definition face_tri (t : quad) : outcome dtri :=
  let! a := ev_unwrap (q_0 t) in
  let! b := ev_unwrap (q_1 t) in
  let! c := ev_unwrap (q_2 t) in
  Done (as_u8 a, as_u8 b, as_u8 c).

(** detail_mesh.rs:562-674 [delaunay_hull]. The flags it writes are all
    overwritten by [set_tri_flags]; there is one for each triangle. *)
Definition delaunay_hull (npts : nat) (pts : list vec3) (nhull : nat) (hull : list nat) : outcome (list dtri) :=
  let max_edges := (npts * 10)%nat in
  if (nhull =? 0)%nat then Panicked
  else
    let! (_, (edges, nedges)) := foldM (λ i '(j, st),
      let! a := get hull j in
      let! b := get hull i in
      let! st := add_dedge max_edges (ERegular a) (ERegular b) EHull EUndefined st in
      Done (i, st)) (seq 0 nhull) ((nhull - 1)%nat, (repeat quad0 max_edges, 0%nat)) in
    let! (edges, nedges, nfaces) := complete_loop (S max_edges) pts npts max_edges 0 (edges, nedges, 0%nat) in
    let! tris := foldM enter_edge (take nedges edges) (repeat quad_undef nfaces) in
    let! tris := drop_dangling (S nfaces) 0 tris in
    mapM_o face_tri tris.

(** *** Samples *)

(** detail_mesh.rs:968-994 [dist_pt_tri]. *)
Definition dist_pt_tri (p a b c : vec3) : option f32 :=
  let v0 := v_sub c a in
  let v1 := v_sub b a in
  let v2 := v_sub p a in
  let dot00 := dot2 (xz v0) (xz v0) in
  let dot01 := dot2 (xz v0) (xz v1) in
  let dot02 := dot2 (xz v0) (xz v2) in
  let dot11 := dot2 (xz v1) (xz v1) in
  let dot12 := dot2 (xz v1) (xz v2) in
  let inv := f_div f_one (f_sub (f_mul dot00 dot11) (f_mul dot01 dot01)) in
  let u := f_mul (f_sub (f_mul dot11 dot02) (f_mul dot01 dot12)) inv in
  let v := f_mul (f_sub (f_mul dot00 dot12) (f_mul dot01 dot02)) inv in
  if f_le (f_neg c_1em4) u && f_le (f_neg c_1em4) v && f_le (f_add u v) (f_add f_one c_1em4) then
    Some (f_abs (f_sub (f_add (f_add (v_y a) (f_mul (v_y v0) u)) (f_mul (v_y v1) v)) (v_y p)))
  else None.

(** detail_mesh.rs:952-966 [dist_to_tri_mesh]. *)
Definition dist_to_tri_mesh (p : vec3) (verts : list vec3) (tris : list dtri) : outcome (option f32) :=
  let! dmin := foldM (λ '(a, b, c) dmin,
    let! va := get verts a in
    let! vb := get verts b in
    let! vc := get verts c in
    Done (match dist_pt_tri p va vb vc with
          | Some d => if f_lt d dmin then d else dmin
          | None => dmin
          end)) tris F32_MAX in
  Done (if f_eq dmin F32_MAX then None else Some dmin).

(** detail_mesh.rs:996-1002 [get_jitter_x] and [get_jitter_y]. *)
Definition jitter (k : Z) (i : nat) : f32 :=
  f_sub (f_mul (f_div (f_of_Z (Z.land (Z.of_nat i * k) 65535)) (f_of_Z 65535)) f_two) f_one.
Definition jitter_x : nat → f32 := jitter 2376512323.
Definition jitter_y : nat → f32 := jitter 3625334849.

(** detail_mesh.rs:1004-1022 [dist_to_poly]. *)
Definition dist_to_poly (nvert : nat) (verts : list vec3) (p : vec3) : outcome f32 :=
  if (nvert =? 0)%nat then Panicked
  else
    let! (_, c, dmin) := foldM (λ i '(j, c, dmin),
      let! vi := get verts i in
      let! vj := get verts j in
      let cross := negb (eqb (f_lt (v_z p) (v_z vi)) (f_lt (v_z p) (v_z vj)))
        && f_lt (v_x p) (f_add (f_div (f_mul (f_sub (v_x vj) (v_x vi)) (f_sub (v_z p) (v_z vi)))
                                      (f_sub (v_z vj) (v_z vi))) (v_x vi)) in
      Done (i, if cross : bool then negb c else c, fmin dmin (seg_dist2 (xz p) (xz vj) (xz vi))))
      (seq 0 nvert) ((nvert - 1)%nat, false, F32_MAX) in
    Done (if c : bool then f_neg dmin else dmin).

(** *** [build_poly_detail] *)

(** detail_mesh.rs:136-141. *)
Definition MAX_VERTS : nat := 127.
Definition MAX_TRIS : nat := 255.
Definition MAX_EDGE : nat := 32.

(** Parameters of sampling: distance, error, search radius, cell size and cell
    height of the compact heightfield. *)
Record dparams : Type := DP { dp_dist : f32; dp_err : f32; dp_radius : Z; dp_cs : f32; dp_ch : f32 }.
Definition dp_ics (p : dparams) : f32 := f_div f_one (dp_cs p).

(** detail_mesh.rs:354-367: the end points in lexical order. *)
Definition edge_order (vj vi : vec3) : vec3 * vec3 * bool :=
  if f_lt (f_abs (f_sub (v_x vj) (v_x vi))) c_1em6 then
    if f_lt (v_z vi) (v_z vj) then (vi, vj, true) else (vj, vi, false)
  else if f_lt (v_x vi) (v_x vj) then (vi, vj, true) else (vj, vi, false).

(** detail_mesh.rs:368-377: the number of segments of an edge. Before the cap it
    is a [usize] that can reach its maximum, so it is computed in [Z]; the
    subtraction in the second cap panics when negative. *)
Definition U64_MAX : Z := 18446744073709551615.
Definition edge_segments (p : dparams) (nverts : nat) (dij : vec3) : outcome nat :=
  let d := f_sqrt (dot2 (xz dij) (xz dij)) in
  let! nn := chk 0 U64_MAX (1 + f_cast f_floor_Z 0 U64_MAX (f_div d (dp_dist p))) in
  let nn := Z.to_nat (Z.min nn (Z.of_nat MAX_EDGE - 1)) in
  if (MAX_VERTS <=? nverts + nn)%nat then
    if (MAX_VERTS - 1 <? nverts)%nat then Panicked else Done (MAX_VERTS - 1 - nverts)%nat
  else Done nn.

(** detail_mesh.rs:378-383: the samples along an edge, with their heights. The
    buffer holds 33 positions. *)
Definition edge_samples (p : dparams) (hp : hpatch) (vj dij : vec3) (nn : nat) : outcome (list vec3) :=
  mapM_o (λ k,
    let u := f_div (f_of_Z (Z.of_nat k)) (f_of_Z (Z.of_nat nn)) in
    let pos := v_add vj (v_scale dij u) in
    let! h := get_height pos (dp_ics p) (dp_ch p) (dp_radius p) hp in
    Done (V3 (v_x pos) (f_mul (f_of_Z h) (dp_ch p)) (v_z pos))) (seq 0 (S nn)).

(** detail_mesh.rs:394-405: the sample between [a] and [b] farthest from their
    segment. *)
Definition max_deviation3 (edge : list vec3) (a b : nat) : outcome (f32 * option nat) :=
  let! va := get edge a in
  let! vb := get edge b in
  foldM (λ m '(maxd, maxi),
    let! v := get edge m in
    let dev := seg_dist3 v va vb in
    Done (if f_lt maxd dev then (dev, Some m) else (maxd, maxi)))
    (seq (S a) (b - S a)) (f_zero, None).

(** detail_mesh.rs:384-419: simplification; [idx] are the samples kept. The
    array of 32 entries is a list here, with the write to entry [nidx] that its
    shift makes checked against the array's size. *)
Fixpoint edge_simplify (fuel : nat) (err : f32) (edge : list vec3) (idx : list nat) (k : nat) : outcome (list nat) :=
  match fuel with
  | O => OutOfFuel
  | S fuel =>
    if negb (k <? length idx - 1)%nat then Done idx
    else
      let! a := get idx k in
      let! b := get idx (S k) in
      let! (maxd, maxi) := max_deviation3 edge a b in
      match maxi with
      | Some m =>
        if f_lt (f_mul err err) maxd then
          if (MAX_EDGE <=? length idx)%nat then Panicked
          else edge_simplify fuel err edge (take (S k) idx ++ m :: drop (S k) idx) k
        else edge_simplify fuel err edge idx (S k)
      | None => edge_simplify fuel err edge idx (S k)
      end
  end.

(** The vertex buffer of 256 entries with its fill count, and the hull buffer of
    127 entries with its fill count. *)
Record dverts : Type := DVs { dv_verts : list vec3; dv_n : nat; dv_hull : list nat; dv_nh : nat }.

(** [hull[nhull] = i; nhull += 1]. *)
Definition push_hull (i : nat) (st : dverts) : outcome dverts :=
  let! h := put (dv_hull st) (dv_nh st) i in
  Done (DVs (dv_verts st) (dv_n st) h (S (dv_nh st))).
(** detail_mesh.rs:426-429, 433-436: a new vertex on the hull. *)
Definition push_edge_vertex (v : vec3) (st : dverts) : outcome dverts :=
  let! vs := put (dv_verts st) (dv_n st) v in
  let! st' := push_hull (dv_n st) (DVs vs (dv_n st) (dv_hull st) (dv_nh st)) in
  Done (DVs (dv_verts st') (S (dv_n st')) (dv_hull st') (dv_nh st')).

(** detail_mesh.rs:353-440: one polygon edge, from vertex [j] to vertex [i]. *)
Definition tess_edge (p : dparams) (hp : hpatch) (inp : list vec3) (j i : nat) (st : dverts) : outcome dverts :=
  let! vj := get inp j in
  let! vi := get inp i in
  let '(vj, vi, swapped) := edge_order vj vi in
  let dij := v_sub vi vj in
  let! nn := edge_segments p (dv_n st) dij in
  let! edge := edge_samples p hp vj dij nn in
  let! idx := edge_simplify (2 * MAX_EDGE) (dp_err p) edge [0%nat; nn] 0 in
  let! st := push_hull j st in
  let inner := take (length idx - 2) (drop 1 idx) in
  let! vs := mapM_o (get edge) (if swapped : bool then rev inner else inner) in
  foldM push_edge_vertex vs st.

(** detail_mesh.rs:348-441: all edges. *)
Definition tess_outline (p : dparams) (hp : hpatch) (inp : list vec3) (nin : nat) (st : dverts) : outcome dverts :=
  if (nin =? 0)%nat then Panicked
  else
    let! (_, st) := foldM (λ i '(j, st),
      let! st := tess_edge p hp inp j i st in
      Done (i, st)) (seq 0 nin) ((nin - 1)%nat, st) in
    Done st.

(** A sample: grid position and height ([u16] each), and whether it was added. *)
Notation sample := (Z * Z * Z * bool)%type.

(** detail_mesh.rs:464-492: the grid of samples well inside the polygon. *)
Definition aabb_xyz (inp : list vec3) (nin : nat) : outcome (vec3 * vec3) :=
  let! v0 := get inp 0 in
  Done (foldl (λ '(lo, hi) v,
    (V3 (fmin (v_x lo) (v_x v)) (fmin (v_y lo) (v_y v)) (fmin (v_z lo) (v_z v)),
     V3 (fmax (v_x hi) (v_x v)) (fmax (v_y hi) (v_y v)) (fmax (v_z hi) (v_z v)))) (v0, v0) (take nin inp)).
Definition sample_at (p : dparams) (hp : hpatch) (inp : list vec3) (nin : nat) (my : f32) (x z : Z) (acc : list sample) : outcome (list sample) :=
  let pt := V3 (f_mul (f_of_Z x) (dp_dist p)) my (f_mul (f_of_Z z) (dp_dist p)) in
  let! d := dist_to_poly nin inp pt in
  if f_lt (f_div (f_neg (dp_dist p)) f_two) d then Done acc
  else
    let! y := get_height pt (dp_ics p) (dp_ch p) (dp_radius p) hp in
    Done (acc ++ [(wrap_u16 x, y, wrap_u16 z, false)]).
Definition sample_grid (p : dparams) (hp : hpatch) (inp : list vec3) (nin : nat) : outcome (list sample) :=
  let! (lo, hi) := aabb_xyz inp nin in
  let x0 := f_cast f_floor_Z I32_MIN I32_MAX (f_div (v_x lo) (dp_dist p)) in
  let x1 := f_cast f_ceil_Z I32_MIN I32_MAX (f_div (v_x hi) (dp_dist p)) in
  let z0 := f_cast f_floor_Z I32_MIN I32_MAX (f_div (v_z lo) (dp_dist p)) in
  let z1 := f_cast f_ceil_Z I32_MIN I32_MAX (f_div (v_z hi) (dp_dist p)) in
  let my := f_mul (f_add (v_y hi) (v_y lo)) c_0_5 in
  foldM (λ z, foldM (λ x, sample_at p hp inp nin my x z) (z_range x0 (x1 - 1))) (z_range z0 (z1 - 1)) [].

(** detail_mesh.rs:502-526: the sample with the largest error. State: best
    distance, best sample, best position. *)
Definition sample_pos (p : dparams) (i : nat) (s : Z * Z * Z) : vec3 :=
  V3 (f_add (f_mul (f_of_Z s.1.1) (dp_dist p)) (f_mul (f_mul (jitter_x i) (dp_cs p)) c_0_1))
     (f_mul (f_of_Z s.1.2) (dp_ch p))
     (f_add (f_mul (f_of_Z s.2) (dp_dist p)) (f_mul (f_mul (jitter_y i) (dp_cs p)) c_0_1)).
Definition best_sample (p : dparams) (verts : list vec3) (tris : list dtri) (samples : list sample) : outcome (f32 * option (nat * vec3)) :=
  foldM (λ '(i, (s, added)) '(bestd, best),
    if added : bool then Done (bestd, best)
    else
      let pt := sample_pos p i s in
      let! d := dist_to_tri_mesh pt verts tris in
      Done (match d with
            | Some d => if f_lt bestd d then (d, Some (i, pt)) else (bestd, best)
            | None => (bestd, best)
            end)) (imap (λ i s, (i, s)) samples) (f_zero, None).

(** detail_mesh.rs:494-546: adding samples, [n] rounds left. State: vertex
    buffer, its fill count, triangles. *)
Fixpoint add_samples (n : nat) (p : dparams) (nhull : nat) (hull : list nat) (samples : list sample) (verts : list vec3) (nverts : nat) (tris : list dtri)
  : outcome (list vec3 * nat * list dtri) :=
  match n with
  | O => Done (verts, nverts, tris)
  | S n =>
    if (MAX_VERTS <=? nverts)%nat then Done (verts, nverts, tris)
    else
      let! (bestd, best) := best_sample p verts tris samples in
      if f_le bestd (dp_err p) then Done (verts, nverts, tris)
      else match best with
           | None => Done (verts, nverts, tris)
           | Some (i, pt) =>
             let! s := get samples i in
             let samples := <[i := (s.1, true)]> samples in
             let! verts := put verts nverts pt in
             let! tris := delaunay_hull (S nverts) verts nhull hull in
             add_samples n p nhull hull samples verts (S nverts) tris
           end
  end.

(** The result for one polygon: the vertex buffer, its fill count, triangles and
    flags. *)
Record ddetail : Type := DDet { dd_verts : list vec3; dd_n : nat; dd_tris : list dtri; dd_flags : list Z }.

(** detail_mesh.rs:335-337: the polygon's corners into the vertex buffer. *)
Definition copy_corners (inp : list vec3) (nin : nat) (verts : list vec3) : outcome (list vec3) :=
  if (length verts <? nin)%nat || (length inp <? nin)%nat then Panicked
  else Done (take nin inp ++ drop nin verts).

(** detail_mesh.rs:316-560 [build_poly_detail]. Left out: the unreachable test
    for an empty triangulation. *)
Definition build_poly_detail (p : dparams) (hp : hpatch) (inp : list vec3) (nin : nat) (verts : list vec3) : outcome ddetail :=
  let! verts := copy_corners inp nin verts in
  let! mext := poly_min_extent_sq verts nin in
  let sampling := f_lt f_zero (dp_dist p) in
  let st := DVs verts nin (repeat 0%nat MAX_VERTS) 0 in
  let! st := if sampling then tess_outline p hp inp nin st else Done st in
  let '(hull, nhull) := (dv_hull st, dv_nh st) in
  let! tris := triangulate_hull (dv_verts st) nhull hull nin in
  let two := f_mul (dp_dist p) f_two in
  let! (verts, nverts, tris) :=
    if f_lt mext (f_mul two two) || negb sampling then Done (dv_verts st, dv_n st, tris)
    else
      let! samples := sample_grid p hp inp nin in
      add_samples (length samples) p nhull hull samples (dv_verts st) (dv_n st) tris in
  let tris := take MAX_TRIS tris in
  let! flags := set_tri_flags nhull hull tris in
  Done (DDet verts nverts tris flags).

(** ** The detail mesh *)

(** detail_mesh.rs:116-133 [SubMesh], 1510-1516 [Bounds]. *)
Record submesh : Type := SubM { sm_vbase : Z; sm_vcount : Z; sm_tbase : Z; sm_tcount : Z }.
Definition submesh0 : submesh := SubM 0 0 0 0.
Record bounds : Type := Bnds { b_xmin : Z; b_xmax : Z; b_zmin : Z; b_zmax : Z }.

(** detail_mesh.rs:18-114 [DetailNavmesh]. *)
Record dmesh : Type := DMesh { dm_meshes : list submesh; dm_verts : list vec3; dm_tris : list dtri; dm_flags : list Z }.
Definition dmesh0 : dmesh := DMesh [] [] [] [].

(** The vertex indices of a polygon row: up to the first [NO_INDEX]. *)
Fixpoint live_indices (row : list Z) : list Z :=
  match row with
  | [] => []
  | p :: r => if p =? NO_INDEX then [] else p :: live_indices r
  end.

(** detail_mesh.rs:178-203: the cells a polygon may touch. *)
Definition poly_bounds (w h : Z) (verts : list vtx) (row : list Z) : outcome bounds :=
  let! b := foldM (λ p b,
    let! v := get verts (Z.to_nat p) in
    Done (Bnds (Z.min (b_xmin b) (vx v)) (Z.max (b_xmax b) (vx v)) (Z.min (b_zmin b) (vz v)) (Z.max (b_zmax b) (vz v))))
    (live_indices row) (Bnds w 0 h 0) in
  let! xe := chk_u16 (b_xmax b + 1) in
  let! ze := chk_u16 (b_zmax b + 1) in
  Done (Bnds (Z.max 0 (b_xmin b - 1)) (Z.min w xe) (Z.max 0 (b_zmin b - 1)) (Z.min h ze)).

(** detail_mesh.rs:204-210: the largest patch. *)
Definition max_patch (bs : list bounds) : Z * Z :=
  foldl (λ '(mw, mh) b,
    if (b_xmax b <=? b_xmin b) || (b_zmax b <=? b_zmin b) then (mw, mh)
    else (Z.max mw (b_xmax b - b_xmin b), Z.max mh (b_zmax b - b_zmin b))) (0, 0) bs.

(** The growth bookkeeping of one output vector: the tracked capacity ([vcap] or
    [tcap]) and the vector's real capacity, grown as the standard library does:
    to twice the capacity, or the requested size if that is more. *)
Record room : Type := Room { rm_track : nat; rm_cap : nat }.
Definition vec_reserve (cap len add : nat) : nat :=
  if (cap - len <? add)%nat then Nat.max 4 (Nat.max (2 * cap) (len + add)) else cap.
Fixpoint vec_push_n (n cap len : nat) : nat :=
  match n with
  | O => cap
  | S n => vec_push_n n (vec_reserve cap len 1) (S len)
  end.
(** detail_mesh.rs:286-292, 297-303: [while len + n > track { track += 256 }],
    [reserve(track - capacity())]. The subtraction panics when the real capacity
    is larger; without overflow checks [reserve] then panics with a capacity
    overflow. *)
Definition make_room (len n : nat) (r : room) : outcome room :=
  if (len + n <=? rm_track r)%nat then Done (Room (rm_track r) (vec_push_n n (rm_cap r) len))
  else
    let track := (rm_track r + 256 * ((len + n - rm_track r + 255) / 256))%nat in
    if (track <? rm_cap r)%nat then Panicked
    else Done (Room track (vec_push_n n (vec_reserve (rm_cap r) len (track - rm_cap r)) len)).

(** detail_mesh.rs:222-233: a polygon's corners in world units, without the
    border. *)
Definition corner_pos (cs ch : f32) (v : vtx) : vec3 :=
  V3 (f_mul (f_of_Z (vx v)) cs) (f_mul (f_of_Z (vy v)) ch) (f_mul (f_of_Z (vz v)) cs).

(** The state of the main loop: output, vertex buffer, height data, growth
    bookkeeping of vertices and triangles. *)
Record dstate : Type := DSt { ds_out : dmesh; ds_verts : list vec3; ds_data : list Z; ds_vroom : room; ds_troom : room }.

(** detail_mesh.rs:268-309: store the result for one polygon. *)
Definition store_detail (orig : vec3) (ch : f32) (d : ddetail) (st : dstate) : outcome dstate :=
  let o := ds_out st in
  let moved := (λ v, let v := v_add v orig in V3 (v_x v) (f_add (v_y v) ch) (v_z v)) <$> take (dd_n d) (dd_verts d) in
  let sm := SubM (wrap_u32 (Z.of_nat (length (dm_verts o)))) (wrap_u32 (Z.of_nat (dd_n d)))
                 (wrap_u32 (Z.of_nat (length (dm_tris o)))) (wrap_u32 (Z.of_nat (length (dd_tris d)))) in
  let! vr := make_room (length (dm_verts o)) (dd_n d) (ds_vroom st) in
  let! tr := make_room (length (dm_tris o)) (length (dd_tris d)) (ds_troom st) in
  Done (DSt (DMesh (dm_meshes o ++ [sm]) (dm_verts o ++ moved) (dm_tris o ++ dd_tris d) (dm_flags o ++ dd_flags d))
            (moved ++ drop (dd_n d) (dd_verts d)) (ds_data st) vr tr).

(** detail_mesh.rs:219-310: one polygon. Simplification: the corner buffer, of
    which only the entries just written are read, is a local list. [fuel] bounds
    the flood fill. *)
Definition detail_poly (fuel : nat) (m : pmesh) (ch : chf) (dist err : f32) (i : nat) (b : bounds) (st : dstate) : outcome dstate :=
  let! row := get (pm_polys m) i in
  let g := pm_geo m in
  let live := live_indices row in
  let! inp := mapM_o (λ p, let! v := get (pm_verts m) (Z.to_nat p) in Done (corner_pos (g_cs g) (g_ch g) v)) live in
  let! w := chk_u16 (b_xmax b - b_xmin b) in
  let! h := chk_u16 (b_zmax b - b_zmin b) in
  let! reg := get (pm_regs m) i in
  let! hp := get_height_data fuel ch live (ds_verts st) (pm_border m) reg (HP (ds_data st) (b_xmin b) (b_zmin b) w h) in
  let radius := Z.max 1 (f_cast f_ceil_Z 0 U32_MAX (pm_maxerr m)) in
  let p := DP dist err radius (g_cs (ch_geo ch)) (g_ch (ch_geo ch)) in
  let! d := build_poly_detail p hp inp (length inp) (ds_verts st) in
  store_detail (g_min g) (g_ch (ch_geo ch)) d (DSt (ds_out st) (ds_verts st) (hp_data hp) (ds_vroom st) (ds_troom st)).

(** detail_mesh.rs:144-313 [DetailNavmesh::new]. Simplification: polygons are
    rows rather than a flat array; the sub-mesh table is appended to rather than
    allocated in full and overwritten. *)
Definition detail_new (fuel : nat) (m : pmesh) (ch : chf) (dist err : f32) : outcome dmesh :=
  if ((length (pm_verts m) =? 0) || (length (pm_polys m) =? 0))%nat then Done dmesh0
  else
    let! bs := mapM_o (poly_bounds (Z.of_nat (ch_w ch)) (Z.of_nat (ch_h ch)) (pm_verts m)) (pm_polys m) in
    let nv := sum_list ((λ r, length (live_indices r)) <$> pm_polys m) in
    let '(mw, mh) := max_patch bs in
    let vcap := (nv + nv / 2)%nat in
    let! st := foldM (λ '(i, b) st, detail_poly fuel m ch dist err i b st) (imap (λ i b, (i, b)) bs)
      (DSt dmesh0 (repeat v_zero 256) (repeat 0 (Z.to_nat (mw * mh))) (Room vcap vcap) (Room (vcap * 2) (vcap * 2))) in
    Done (ds_out st).
