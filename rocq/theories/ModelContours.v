(** Model of contours.rs. *)
From Verif Require Import Base ModelMath ModelHeightfield ModelFilters ModelCompact ModelDistance ModelRegions.
Local Open Scope Z_scope.

(** ** Data *)

(** [U16Vec3]. *)
Record vtx : Type := V { vx : Z; vy : Z; vz : Z }.
Definition vtx0 : vtx := V 0 0 0.

(** contours.rs:545-565 [RegionVertexId] flags ([u32]). *)
Definition REGION_MASK : Z := 65535.
Definition BORDER_VERTEX : Z := 65536.
Definition AREA_BORDER : Z := 131072.
(** bitflags' [intersects]. *)
Definition bits_meet (a b : Z) : bool := negb (Z.land a b =? 0).
(** bitflags' [contains]. *)
Definition bits_incl (a b : Z) : bool := Z.land a b =? b.

(** A raw contour vertex: position and [RegionVertexId]. *)
Definition rawv : Type := vtx * Z.

(** contours.rs:609-642 [Contour]. *)
Record contour : Type := Ct {
  ct_verts : list (vtx * Z);
  ct_raw : list rawv;
  ct_reg : Z;
  ct_area : Z
}.
Definition ct_default : contour := Ct [] [] 0 0.

(** contours.rs:524-542 [ContourSet]. *)
Record contour_set : Type := CSet {
  ks_contours : list contour;
  ks_geo : geo;
  ks_w : Z;
  ks_h : Z;
  ks_border : Z;
  ks_maxerr : f32
}.

(** ** Marking boundaries *)

(** contours.rs:59-75: one direction; sets bit [dir] of [res] when the
    neighbour has the same region. *)
Definition mark_dir (ch : chf) (x z : nat) (s : cspan) (dir : nat) (res : Z) : outcome Z :=
  let! o := con s dir in
  let! r := match o with
            | None => Done REG_NONE
            | Some v =>
              let! (_, _, ai) := con_indices ch (Z.of_nat x) (Z.of_nat z) dir v in
              let! a := get (ch_spans ch) ai in
              Done (cs_reg a)
            end in
  Done (if r =? cs_reg s then Z.lor res (Z.shiftl 1 (Z.of_nat dir)) else res).

(** contours.rs:45-81: the boundary flags. [contains(BORDER_REGION)] is a
    single-bit test. *)
Definition mark_span (ch : chf) (x z i : nat) (flags : list Z) : outcome (list Z) :=
  let! s := get (ch_spans ch) i in
  if (cs_reg s =? REG_NONE) || is_border (cs_reg s) then put flags i 0
  else
    let! res := foldM (mark_dir ch x z s) (seq 0 4) 0 in
    put flags i (Z.lxor res 15).

Definition mark_boundaries (ch : chf) : outcome (list Z) :=
  for_cells (ch_w ch) (ch_h ch) (λ x z flags,
    let! cell := cell_at ch x z in
    foldM (mark_span ch x z) (index_range cell) flags) (repeat 0 (length (ch_spans ch))).

(** ** Corners *)

(** contours.rs:253-257: region and area of a span in one word. *)
Definition corner_reg (ch : chf) (i : nat) : outcome Z :=
  let! s := get (ch_spans ch) i in
  let! a := get (ch_areas ch) i in
  Done (Z.lor (cs_reg s) (Z.shiftl a 16)).

(** contours.rs:260-271, 272-283: the neighbour in direction [d1] and from
    there the neighbour in direction [d2]: the height so far, and the words of the
    two (if any). *)
Definition corner_side (ch : chf) (x z : nat) (s : cspan) (d1 d2 : nat) (y : Z)
  : outcome (Z * option Z * option Z) :=
  let! o := con s d1 in
  match o with
  | None => Done (y, None, None)
  | Some v =>
    let! (ax, az, ai) := con_indices ch (Z.of_nat x) (Z.of_nat z) d1 v in
    let! a := get (ch_spans ch) ai in
    let y1 := Z.max y (cs_y a) in
    let! ra := corner_reg ch ai in
    let! o2 := con a d2 in
    match o2 with
    | None => Done (y1, Some ra, None)
    | Some v2 =>
      let! (_, _, bi) := con_indices ch ax az d2 v2 in
      let! b := get (ch_spans ch) bi in
      let! rb := corner_reg ch bi in
      Done (Z.max y1 (cs_y b), Some ra, Some rb)
    end
  end.

(** contours.rs:286-311: the border vertex test for one rotation. *)
Definition border_pattern (a b c d : Z) : bool :=
  (a =? b) && bits_incl a BORDER_REGION
  && negb (bits_incl (Z.lor c d) BORDER_REGION)
  && (negb (a =? 0) && negb (b =? 0) && negb (c =? 0) && negb (d =? 0))
  && (Z.shiftr c 16 =? Z.shiftr d 16).

(** contours.rs:239-313 [get_corner_height]. *)
Definition get_corner_height (ch : chf) (x z i dir : nat) : outcome (Z * bool) :=
  let! s := get (ch_spans ch) i in
  let dirp := ((dir + 1) mod 4)%nat in
  let! r0 := corner_reg ch i in
  let! (y1, o1, o2) := corner_side ch x z s dir dirp (cs_y s) in
  let! (y2, o3, o4) := corner_side ch x z s dirp dir y1 in
  let r1 := default 0 o1 in
  let r2 := match o4 with Some r => r | None => default 0 o2 end in
  let r3 := default 0 o3 in
  Done (y2, border_pattern r0 r1 r2 r3 || border_pattern r1 r2 r3 r0
            || border_pattern r2 r3 r0 r1 || border_pattern r3 r0 r1 r2).

(** ** The walk *)

(** contours.rs:167-170: the first marked direction. Shifting the [u8] by 8
    panics. *)
Fixpoint first_dir (f : Z) (ds : list nat) : outcome nat :=
  match ds with
  | [] => Panicked
  | d :: ds' => if Z.testbit f (Z.of_nat d) then Done d else first_dir f ds'
  end.

(** contours.rs:184-195: the corner of side [dir] of cell [(x, z)]. *)
Definition side_corner (x z : Z) (dir : nat) : outcome (Z * Z) :=
  match dir with
  | 0%nat => let! pz := chk_u16 (z + 1) in Done (x, pz)
  | 1%nat => let! px := chk_u16 (x + 1) in let! pz := chk_u16 (z + 1) in Done (px, pz)
  | 2%nat => let! px := chk_u16 (x + 1) in Done (px, z)
  | _ => Done (x, z)
  end.

(** contours.rs:180-212: the raw vertex of a boundary side. *)
Definition side_vertex (ch : chf) (x z i dir : nat) (area : Z) : outcome rawv :=
  let! (py, isb) := get_corner_height ch x z i dir in
  let! (px, pz) := side_corner (Z.of_nat x) (Z.of_nat z) dir in
  let! s := get (ch_spans ch) i in
  let! o := con s dir in
  let! (r, differs) :=
    match o with
    | None => Done (0, false)
    | Some v =>
      let! (_, _, ai) := con_indices ch (Z.of_nat x) (Z.of_nat z) dir v in
      let! a := get (ch_spans ch) ai in
      let! ar := get (ch_areas ch) ai in
      Done (cs_reg a, negb (area =? ar))
    end in
  let r1 := if isb then Z.lor r BORDER_VERTEX else r in
  let r2 := if differs then Z.lor r1 AREA_BORDER else r1 in
  Done (V px py pz, r2).

(** contours.rs:176-236: the loop. It ends after [k] rounds ([for _ in
    0..40_000]), on returning to the start, or when a connection is missing. *)
Fixpoint walk_build_loop (k : nat) (ch : chf) (area : Z) (si sdir : nat) (x z i dir : nat)
    (flags : list Z) (pts : list rawv) : outcome (list Z * list rawv) :=
  match k with
  | O => Done (flags, pts)
  | S k' =>
    let! f := get flags i in
    if Z.testbit f (Z.of_nat dir) then
      let! v := side_vertex ch x z i dir area in
      let! flags' := put flags i (Z.ldiff f (Z.shiftl 1 (Z.of_nat dir))) in
      let dir' := ((dir + 1) mod 4)%nat in
      if (si =? i)%nat && (sdir =? dir')%nat then Done (flags', pts ++ [v])
      else walk_build_loop k' ch area si sdir x z i dir' flags' (pts ++ [v])
    else
      let! s := get (ch_spans ch) i in
      let! o := con s dir in
      match o with
      | None => Done (flags, pts)
      | Some v =>
        let! (nx, nz, ni) := nb_index ch x z dir v in
        let dir' := ((dir + 3) mod 4)%nat in
        if (si =? ni)%nat && (sdir =? dir')%nat then Done (flags, pts)
        else walk_build_loop k' ch area si sdir nx nz ni dir' flags pts
      end
  end.

(** contours.rs:176. *)
Definition MAX_WALK : nat := Z.to_nat 40000.

(** contours.rs:158-237 [walk_contour_build]. *)
Definition walk_contour_build (ch : chf) (x z i : nat) (flags : list Z) : outcome (list Z * list rawv) :=
  let! f := get flags i in
  let! dir := first_dir f (seq 0 8) in
  let! area := get (ch_areas ch) i in
  walk_build_loop MAX_WALK ch area i dir x z i dir flags [].

(** ** Simplification *)

(** math.rs:182-197 [distance_squared_between_point_and_line_vec2] on points
    with [u16] coordinates (math.rs:175-180). *)
Definition f_clamp01 (t : f32) : f32 :=
  let t1 := if f_lt t f_zero then f_zero else t in
  if f_lt (f_of_Z 1) t1 then f_of_Z 1 else t1.
Definition dist_sq_line (px pz : Z) (ax az bx bz : Z) : f32 :=
  let '(x, z) := (f_of_Z px, f_of_Z pz) in
  let '(ax, az) := (f_of_Z ax, f_of_Z az) in
  let '(bx, bz) := (f_of_Z bx, f_of_Z bz) in
  let '(pqx, pqz) := (f_sub bx ax, f_sub bz az) in
  let '(dx, dz) := (f_sub x ax, f_sub z az) in
  let d := f_add (f_mul pqx pqx) (f_mul pqz pqz) in
  let t := f_add (f_mul pqx dx) (f_mul pqz dz) in
  let t := f_clamp01 (if f_lt f_zero d then f_div t d else t) in
  let '(ex, ez) := (f_sub (f_add ax (f_mul t pqx)) x, f_sub (f_add az (f_mul t pqz)) z) in
  f_add (f_mul ex ex) (f_mul ez ez).

(** A simplified vertex under construction: position and raw index.
    Simplification: the index is exact rather than cast to [u32]. *)
Definition simp : Type := vtx * nat.

(** contours.rs:323-339: vertices where the neighbouring region or the area
    border flag changes. *)
Definition portal_points (pts : list rawv) : outcome (list simp) :=
  foldM (λ i acc,
    let! p := get pts i in
    let! q := get pts ((i + 1) mod length pts)%nat in
    if negb (Z.land p.2 REGION_MASK =? Z.land q.2 REGION_MASK)
       || negb (Z.land p.2 AREA_BORDER =? Z.land q.2 AREA_BORDER)
    then Done (acc ++ [(p.1, i)]) else Done acc) (seq 0 (length pts)) [].

(** contours.rs:347-359: the lower-left and upper-right vertices. *)
Definition xz_lt (p q : vtx) : bool := (vx p <? vx q) || ((vx p =? vx q) && (vz p <? vz q)).
Definition extreme_points (pts : list rawv) : outcome (list simp) :=
  let! p0 := get pts 0 in
  let! (ll, ur) := foldM (λ i '(ll, ur),
    let! p := get pts i in
    Done (if xz_lt p.1 ll.1 then (p.1, i) else ll, if xz_lt ur.1 p.1 then (p.1, i) else ur))
    (seq 0 (length pts)) ((p0.1, 0%nat), (p0.1, 0%nat)) in
  Done [ll; ur].

(** contours.rs:315-362. *)
Definition initial_points (pts : list rawv) : outcome (list simp) :=
  let! init := if existsb (λ p, bits_meet p.2 REGION_MASK) pts then portal_points pts else Done [] in
  match init with
  | [] => extreme_points pts
  | _ => Done init
  end.

(** contours.rs:398-407: the largest deviation over the raw vertices from [ci]
    in steps of [cinc] until [endi]. [a] and [b] are the ends in lexicographic
    order. *)
Fixpoint max_deviation (fuel : nat) (pts : list rawv) (a b : vtx) (cinc endi ci : nat)
    (best : f32 * option nat) : outcome (f32 * option nat) :=
  if (ci =? endi)%nat then Done best
  else
    match fuel with
    | O => OutOfFuel
    | S fuel' =>
      let! p := get pts ci in
      let d := dist_sq_line (vx p.1) (vz p.1) (vx a) (vz a) (vx b) (vz b) in
      max_deviation fuel' pts a b cinc endi ((ci + cinc) mod length pts)%nat
        (if f_lt (fst best) d then (d, Some ci) else best)
    end.

(** contours.rs:368-408: the raw vertex of largest deviation for the segment
    from [a] to [b], if the segment is an outer edge or an edge between areas. *)
Definition segment_deviation (pts : list rawv) (a b : simp) : outcome (f32 * option nat) :=
  let n := length pts in
  let fwd := xz_lt a.1 b.1 in
  let cinc := if fwd then 1%nat else (n - 1)%nat in
  let ci := (((if fwd then a.2 else b.2) + cinc) mod n)%nat in
  let endi := if fwd then b.2 else a.2 in
  let! r := get pts ci in
  if negb (bits_meet r.2 REGION_MASK) || bits_meet r.2 AREA_BORDER
  then
    if fwd then max_deviation n pts a.1 b.1 cinc endi ci (f_zero, None)
    else max_deviation n pts b.1 a.1 cinc endi ci (f_zero, None)
  else Done (f_zero, None).

(** contours.rs:416-425, 471-480: [Vec] insertion after position [i]. *)
Definition insert_after {A} (l : list A) (i : nat) (a : A) : list A :=
  take (S i) l ++ a :: drop (S i) l.

(** contours.rs:363-429: refinement. *)
Fixpoint refine_loop (fuel : nat) (pts : list rawv) (max_error : f32) (l : list simp) (i : nat)
  : outcome (list simp) :=
  if (length l <=? i)%nat then Done l
  else
    match fuel with
    | O => OutOfFuel
    | S fuel' =>
      let! a := get l i in
      let! b := get l ((i + 1) mod length l)%nat in
      let! (maxd, maxi) := segment_deviation pts a b in
      match maxi with
      | Some m =>
        if f_lt (f_mul max_error max_error) maxd then
          let! p := get pts m in
          refine_loop fuel' pts max_error (insert_after l i (p.1, m)) i
        else refine_loop fuel' pts max_error l (i + 1)
      | None => refine_loop fuel' pts max_error l (i + 1)
      end
    end.

(** contours.rs:452-473: where to split the segment from [a] to [b], if it is
    to be split. *)
Definition split_point (pts : list rawv) (max_edge_len : Z) (wall areas : bool) (a b : simp)
  : outcome (option nat) :=
  let n := length pts in
  let! r := get pts ((a.2 + 1) mod n)%nat in
  if (wall && negb (bits_meet r.2 REGION_MASK)) || (areas && bits_meet r.2 AREA_BORDER) then
    let dx := vx b.1 - vx a.1 in
    let dz := vz b.1 - vz a.1 in
    let! xx := chk_i32 (dx * dx) in
    let! zz := chk_i32 (dz * dz) in
    let! len := chk_i32 (xx + zz) in
    let! lim := chk_u16 (max_edge_len * max_edge_len) in
    if lim <? len then
      let k := if (b.2 <? a.2)%nat then (b.2 + n - a.2)%nat else (b.2 - a.2)%nat in
      if (1 <? k)%nat then
        Done (Some (if xz_lt a.1 b.1 then (a.2 + k / 2) mod n else (a.2 + (k + 1) / 2) mod n)%nat)
      else Done None
    else Done None
  else Done None.

(** contours.rs:431-485: splitting. [wall] and [areas] are the two flags. *)
Fixpoint split_loop (fuel : nat) (pts : list rawv) (max_edge_len : Z) (wall areas : bool) (l : list simp) (i : nat)
  : outcome (list simp) :=
  if (length l <=? i)%nat then Done l
  else
    match fuel with
    | O => OutOfFuel
    | S fuel' =>
      let! a := get l i in
      let! b := get l ((i + 1) mod length l)%nat in
      let! m := split_point pts max_edge_len wall areas a b in
      match m with
      | Some m =>
        let! p := get pts m in
        split_loop fuel' pts max_edge_len wall areas (insert_after l i (p.1, m)) i
      | None => split_loop fuel' pts max_edge_len wall areas l (i + 1)
      end
    end.

(** contours.rs:486-496: the final value of a simplified vertex. *)
Definition final_vertex (pts : list rawv) (s : simp) : outcome (vtx * Z) :=
  let! a := get pts ((s.2 + 1) mod length pts)%nat in
  let! b := get pts s.2 in
  Done (s.1, Z.lor (Z.land a.2 (Z.lor REGION_MASK AREA_BORDER)) (Z.land b.2 BORDER_VERTEX)).

(** contours.rs:315-497 [simplify_contour]. *)
Definition simplify_contour (pts : list rawv) (max_error : f32) (max_edge_len : Z) (wall areas : bool)
  : outcome (list (vtx * Z)) :=
  let n := length pts in
  let! l0 := initial_points pts in
  let! l1 := refine_loop (4 * n + 4) pts max_error l0 0 in
  let! l2 := if (0 <? max_edge_len) && (wall || areas)
             then split_loop (4 * n + 4) pts max_edge_len wall areas l1 0 else Done l1 in
  mapM_o (final_vertex pts) l2.

(** contours.rs:499-517 [remove_degenerate_segments]. The fuel bounds the
    rounds: every round increases [i]. *)
Fixpoint remove_degenerate_loop (fuel : nat) (l : list (vtx * Z)) (i : nat) : outcome (list (vtx * Z)) :=
  if (length l <=? i)%nat then Done l
  else
    match fuel with
    | O => OutOfFuel
    | S fuel' =>
      let! a := get l i in
      let! b := get l ((i + 1) mod length l)%nat in
      if (vx a.1 =? vx b.1) && (vz a.1 =? vz b.1)
      then remove_degenerate_loop fuel' (take i l ++ drop (S i) l) (i + 1)
      else remove_degenerate_loop fuel' l (i + 1)
    end.
Definition remove_degenerate_segments (l : list (vtx * Z)) : outcome (list (vtx * Z)) :=
  remove_degenerate_loop (length l) l 0.

(** ** The contour set *)

(** contours.rs:124-129, 132-137: removing the border offset
    ([saturating_sub]). *)
Definition unborder (b : Z) (v : vtx * Z) : vtx * Z :=
  if 0 <? b then (V (Z.max 0 (vx v.1 - b)) (vy v.1) (Z.max 0 (vz v.1 - b)), v.2) else v.

(** The state of the loop over spans: flags, contour table, number of contours
    and [max_contours] (contours.rs:37-44). *)
Record cstate : Type := CStt { st_flags : list Z; st_table : list contour; st_count : nat; st_max : Z }.

(** contours.rs:105-122: the table. [truncate] never makes it longer. *)
Definition store_contour (c : contour) (st : cstate) : outcome cstate :=
  let! (table, mx) :=
    if st_max st <=? Z.of_nat (st_count st)
    then let! m := chk_u16 (st_max st * 2) in Done (take (Z.to_nat m) (st_table st), m)
    else Done (st_table st, st_max st) in
  let! table' := put table (st_count st) c in
  Done (CStt (st_flags st) table' (S (st_count st)) mx).

(** contours.rs:88-145: one span. *)
Definition contour_span (ch : chf) (max_error : f32) (max_edge_len : Z) (wall areas : bool) (x z i : nat)
    (st : cstate) : outcome cstate :=
  let! f := get (st_flags st) i in
  if (f =? 0) || (f =? 15) then
    let! flags := put (st_flags st) i 0 in
    Done (CStt flags (st_table st) (st_count st) (st_max st))
  else
    let! s := get (ch_spans ch) i in
    let reg := cs_reg s in
    if (reg =? REG_NONE) || is_border reg then Done st
    else
      let! area := get (ch_areas ch) i in
      let! (flags, raw) := walk_contour_build ch x z i (st_flags st) in
      let! simp := simplify_contour raw max_error max_edge_len wall areas in
      let! verts := remove_degenerate_segments simp in
      let st' := CStt flags (st_table st) (st_count st) (st_max st) in
      if (length verts <? 3)%nat then Done st'
      else store_contour (Ct (unborder (ch_border ch) <$> verts) (unborder (ch_border ch) <$> raw) reg area) st'.

(** contours.rs:17-40: bounds without the border. *)
Definition unborder_geo (g : geo) (b : Z) : geo :=
  if 0 <? b then
    let pad := f_mul (f_of_Z b) (g_cs g) in
    Geo (V3 (f_add (v_x (g_min g)) pad) (v_y (g_min g)) (f_add (v_z (g_min g)) pad))
        (V3 (f_sub (v_x (g_max g)) pad) (v_y (g_max g)) (f_sub (v_z (g_max g)) pad))
        (g_cs g) (g_ch g)
  else g.

(** contours.rs:16-156 [build_contours]. [wall] and [areas] are the build
    flags TESSELLATE_SOLID_WALL_EDGES and TESSELLATE_AREA_EDGES. *)
Definition build_contours (ch : chf) (max_error : f32) (max_edge_len : Z) (wall areas : bool)
  : outcome contour_set :=
  let! b2 := chk_u16 (ch_border ch * 2) in
  let! w := chk_u16 (Z.of_nat (ch_w ch) - b2) in
  let! h := chk_u16 (Z.of_nat (ch_h ch) - b2) in
  let mx := Z.max (ch_maxreg ch) 8 in
  let! flags := mark_boundaries ch in
  let! st := for_cells (ch_w ch) (ch_h ch) (λ x z st,
    let! cell := cell_at ch x z in
    foldM (contour_span ch max_error max_edge_len wall areas x z) (index_range cell) st)
    (CStt flags (repeat ct_default (Z.to_nat mx)) 0 mx) in
  Done (CSet (take (st_count st) (st_table st)) (unborder_geo (ch_geo ch) (ch_border ch)) w h (ch_border ch) max_error).
