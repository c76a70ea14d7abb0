(** Model of crates/rerecast/src/rasterize.rs and of [HeightfieldBuilder::build]
    (heightfield.rs:254-278). *)
From Coq Require Import QArith Qround.
From Verif Require Import Base ModelMath ModelHeightfield ModelFilters ModelTriMesh.
Local Open Scope Z_scope.

(** The number operations rasterization uses. The code is translated once, for any
    such operations: with [f32_arith] it is the code as it runs, with [exact_arith]
    the same code on rational numbers without rounding. *)
Record arith (T : Type) : Type := Arith {
  n_add : T → T → T;
  n_sub : T → T → T;
  n_mul : T → T → T;
  n_div : T → T → T;
  n_le : T → T → bool;
  n_lt : T → T → bool;
  n_eq : T → T → bool;
  n_min : T → T → T;       (* f32::min *)
  n_max : T → T → T;       (* f32::max *)
  n_vmin : T → T → T;      (* a lane of Vec3A::min *)
  n_vmax : T → T → T;      (* a lane of Vec3A::max *)
  n_of_Z : Z → T;          (* as f32 *)
  n_to_i16 : T → Z;        (* as i16 *)
  n_floor_i32 : T → Z;     (* .floor() as i32 *)
  n_ceil_i32 : T → Z       (* .ceil() as i32 *)
}.
Arguments n_add {T}. Arguments n_sub {T}. Arguments n_mul {T}. Arguments n_div {T}. Arguments n_le {T}. Arguments n_lt {T}.
Arguments n_eq {T}. Arguments n_min {T}. Arguments n_max {T}. Arguments n_vmin {T}. Arguments n_vmax {T}. Arguments n_of_Z {T}.
Arguments n_to_i16 {T}. Arguments n_floor_i32 {T}. Arguments n_ceil_i32 {T}.

(** [f32::min] and [f32::max] ignore a NaN operand. Simplification: of two zeros of
    different sign the first is returned (Rust leaves the choice open; the results
    are only compared, multiplied and rounded to integers). *)
Definition f_nan (x : f32) : bool := match x with S754_nan => true | _ => false end.
Definition f32_min (a b : f32) : f32 := if f_nan a then b else if f_nan b then a else if f_lt b a then b else a.
Definition f32_max (a b : f32) : f32 := if f_nan a then b else if f_nan b then a else if f_lt a b then b else a.
Definition f32_arith : arith f32 :=
  Arith f32 f_add f_sub f_mul f_div f_le f_lt f_eq f32_min f32_max f_min f_max f_of_Z f_to_i16
    (f_cast f_floor_Z (-2147483648) 2147483647) (f_cast f_ceil_Z (-2147483648) 2147483647).

(** Exact rationals; the casts still saturate. *)
Definition Q_lt (a b : Q) : bool := negb (Qle_bool b a).
Definition Q_min (a b : Q) : Q := if Q_lt b a then b else a.
Definition Q_max (a b : Q) : Q := if Q_lt a b then b else a.
Definition exact_arith : arith Q :=
  Arith Q Qplus Qminus Qmult Qdiv Qle_bool Q_lt Qeq_bool Q_min Q_max Q_min Q_max inject_Z
    (λ x, sat (-32768) 32767 (Z.quot (Qnum x) (QDen x)))
    (λ x, sat (-2147483648) 2147483647 (Qfloor x)) (λ x, sat (-2147483648) 2147483647 (Qceiling x)).

(** [Vec3A] over any numbers. *)
Record pt (T : Type) : Type := Pt { px : T; py : T; pz : T }.
Arguments Pt {T}. Arguments px {T}. Arguments py {T}. Arguments pz {T}.

(** rasterize.rs:276-280 [DivisionAxis], as an index into a vector. *)
Inductive axis : Type := AxX | AxZ.
Definition on {T} (a : axis) (p : pt T) : T := match a with AxX => px p | AxZ => pz p end.

(** Rust [clamp]: panics if the bounds are in the wrong order. *)
Definition clamp_Z (v lo hi : Z) : outcome Z := if hi <? lo then Panicked else Done (sat lo hi v).

(** [for x in list] with a body that may return early with an error ([Done None]). *)
Fixpoint foldE {A S} (f : A → S → outcome (option S)) (l : list A) (s : S) : outcome (option S) :=
  match l with
  | [] => Done (Some s)
  | a :: l' =>
    let! r := f a s in
    match r with None => Done None | Some s' => foldE f l' s' end
  end.

(** [a..=b]. *)
Definition z_range (a b : Z) : list Z := (λ i : nat, a + Z.of_nat i) <$> seq 0 (Z.to_nat (b - a + 1)).

Section Rasterize.
Context {T : Type} (ar : arith T).
Let zero : T := n_of_Z ar 0.
Let one : T := n_of_Z ar 1.

Definition p_map2 (f : T → T → T) (a b : pt T) : pt T := Pt (f (px a) (px b)) (f (py a) (py b)) (f (pz a) (pz b)).
Definition p_scale (a : pt T) (s : T) : pt T := Pt (n_mul ar (px a) s) (n_mul ar (py a) s) (n_mul ar (pz a) s).

(** rasterize.rs:222-226: the point where the edge from [b] to [a] meets the line. *)
Definition cut_point (a b : pt T) (da db : T) : pt T :=
  p_map2 (n_add ar) b (p_scale (p_map2 (n_sub ar) a b) (n_div ar db (n_sub ar db da))).

(** rasterize.rs:215-258: one round of the loop of [divide_poly]. The state is both
    output buffers with their counts and the previous vertex. *)
Definition divide_step (inv : list (pt T)) (ds : list T) (a : nat) (st : list (pt T) * nat * (list (pt T) * nat) * nat)
  : outcome (list (pt T) * nat * (list (pt T) * nat) * nat) :=
  let '((o1, n1), (o2, n2), b) := st in
  let! da := get ds a in
  let! db := get ds b in
  let! va := get inv a in
  if negb (eqb (n_le ar zero da) (n_le ar zero db)) then
    let! vb := get inv b in
    let x := cut_point va vb da db in
    let! o1 := put o1 n1 x in
    let! o2 := put o2 n2 x in
    if n_lt ar zero da then
      let! o1 := put o1 (S n1) va in Done ((o1, S (S n1)), (o2, S n2), a)
    else if n_lt ar da zero then
      let! o2 := put o2 (S n2) va in Done ((o1, S n1), (o2, S (S n2)), a)
    else Done ((o1, S n1), (o2, S n2), a)
  else if n_le ar zero da then
    let! o1 := put o1 n1 va in
    if negb (n_eq ar da zero) then Done ((o1, S n1), (o2, n2), a)
    else
      let! o2 := put o2 n2 va in Done ((o1, S n1), (o2, S n2), a)
  else
    let! o2 := put o2 n2 va in Done ((o1, n1), (o2, S n2), a).

(** rasterize.rs:186-264 [divide_poly]. Buffers and counts in and out; [Done None]
    is the error for more than 12 vertices. With no vertices at all nothing is
    written, not even the counts. *)
Definition divide_poly (inv : list (pt T)) (n : nat) (o1 : list (pt T)) (n1 : nat) (o2 : list (pt T)) (n2 : nat) (off : T) (ax : axis)
  : outcome (option (list (pt T) * nat * (list (pt T) * nat))) :=
  if (12 <? n)%nat then Done None
  else if (n =? 0)%nat then Done (Some ((o1, n1), (o2, n2)))
  else
    let! ds := mapM_o (λ i, let! v := get inv i in Done (n_sub ar off (on ax v))) (seq 0 n) in
    let! st := foldM (divide_step inv ds) (seq 0 n) ((o1, 0%nat), (o2, 0%nat), (n - 1)%nat) in
    let '((o1, n1), (o2, n2), _) := st in
    Done (Some ((o1, n1), (o2, n2))).

(** The placement of the heightfield: [aabb], [cell_size], [cell_height]. *)
Record place : Type := Place { pl_min : pt T; pl_max : pt T; pl_cs : T; pl_ch : T }.

(** math.rs:113-120 [aabb] of a triangle. *)
Definition tri_min (t : pt T * pt T * pt T) : pt T := p_map2 (n_vmin ar) (p_map2 (n_vmin ar) t.1.1 t.1.2) t.2.
Definition tri_max (t : pt T * pt T * pt T) : pt T := p_map2 (n_vmax ar) (p_map2 (n_vmax ar) t.1.1 t.1.2) t.2.

(** math.rs:54-57 [intersects]. *)
Definition p_le (a b : pt T) : bool := n_le ar (px a) (px b) && n_le ar (py a) (py b) && n_le ar (pz a) (pz b).
Definition intersects (g : place) (lo hi : pt T) : bool := p_le (pl_min g) hi && p_le lo (pl_max g).

(** rasterize.rs:101-106 and 138-143: smallest and largest coordinate of the first
    [n] vertices of a buffer. *)
Definition extent (c : pt T → T) (buf : list (pt T)) (n : nat) : outcome (T * T) :=
  let! v0 := get buf 0 in
  foldM (λ i '(lo, hi), let! v := get buf i in Done (n_min ar lo (c v), n_max ar hi (c v))) (seq 1 (n - 1)) (c v0, c v0).

(** rasterize.rs:137-166: the heights of the span for the polygon clipped to a cell,
    [None] if it is outside the heightfield's box. *)
Definition span_heights (g : place) (p1 : list (pt T)) (nv : nat) : outcome (option (Z * Z)) :=
  let! (lo, hi) := extent py p1 nv in
  let by_ := n_sub ar (py (pl_max g)) (py (pl_min g)) in
  let inv_ch := n_div ar one (pl_ch g) in
  let lo := n_sub ar lo (py (pl_min g)) in
  let hi := n_sub ar hi (py (pl_min g)) in
  if n_lt ar hi zero || n_lt ar by_ lo then Done None
  else
    let lo := n_max ar lo zero in
    let hi := n_min ar hi by_ in
    let! lo_i := clamp_Z (n_floor_i32 ar (n_mul ar lo inv_ch)) 0 65535 in
    let! hi_i := clamp_Z (n_ceil_i32 ar (n_mul ar hi inv_ch)) (lo_i + 1) 65535 in
    Done (Some (lo_i, hi_i)).

Section Emit.
(** What is done with a span: for the code, [add_span]. *)
Context {S : Type} (emit : Z → Z → Z → Z → S → outcome (option S)).

(** rasterize.rs:117-180: one cell of a row. State: [in_row], [nv2], [p1], [nv],
    [p2] and the heightfield. *)
Definition cell_step (g : place) (z x : Z) (st : list (pt T) * nat * (list (pt T) * nat) * list (pt T) * S)
  : outcome (option (list (pt T) * nat * (list (pt T) * nat) * list (pt T) * S)) :=
  let '((in_row, nv2), (p1, nv), p2, s) := st in
  let cx := n_add ar (px (pl_min g)) (n_mul ar (n_of_Z ar x) (pl_cs g)) in
  let! r := divide_poly in_row nv2 p1 nv p2 nv2 (n_add ar cx (pl_cs g)) AxX in
  match r with
  | None => Done None
  | Some ((p1, nv), (p2, nv2)) =>
    if (nv <? 3)%nat || (x <? 0) then Done (Some ((p2, nv2), (p1, nv), in_row, s))
    else
      let! hs := span_heights g p1 nv in
      match hs with
      | None => Done (Some ((p2, nv2), (p1, nv), in_row, s))
      | Some (lo, hi) =>
        let! r := emit x z lo hi s in
        match r with
        | None => Done None
        | Some s => Done (Some ((p2, nv2), (p1, nv), in_row, s))
        end
      end
  end.

(** rasterize.rs:82-181: one row. State: [in_tri], [nv_in], [in_row], [nv_row], [p1],
    [p2] and the heightfield. *)
Definition row_step (g : place) (w z : Z) (st : list (pt T) * nat * (list (pt T) * nat) * (list (pt T) * list (pt T)) * S)
  : outcome (option (list (pt T) * nat * (list (pt T) * nat) * (list (pt T) * list (pt T)) * S)) :=
  let '((in_tri, nv_in), (in_row, nv_row), (p1, p2), s) := st in
  let inv_cs := n_div ar one (pl_cs g) in
  let cell_z := n_add ar (pz (pl_min g)) (n_mul ar (n_of_Z ar z) (pl_cs g)) in
  let! r := divide_poly in_tri nv_in in_row nv_row p1 nv_in (n_add ar cell_z (pl_cs g)) AxZ in
  match r with
  | None => Done None
  | Some ((in_row, nv_row), (p1, nv_in)) =>
    (* swap of in_tri and p1 *)
    let '(in_tri, p1) := (p1, in_tri) in
    if (nv_row <? 3)%nat || (z <? 0) then Done (Some ((in_tri, nv_in), (in_row, nv_row), (p1, p2), s))
    else
      let! (min_x, max_x) := extent px in_row nv_row in
      let x0 := n_to_i16 ar (n_mul ar (n_sub ar min_x (px (pl_min g))) inv_cs) in
      let x1 := n_to_i16 ar (n_mul ar (n_sub ar max_x (px (pl_min g))) inv_cs) in
      if (x1 <? 0) || (w <=? x0) then Done (Some ((in_tri, nv_in), (in_row, nv_row), (p1, p2), s))
      else
        let! wm := chk (-32768) 32767 (w - 1) in
        let! x0 := clamp_Z x0 (-1) wm in
        let! x1 := clamp_Z x1 0 wm in
        let! r := foldE (cell_step g z) (z_range x0 x1) ((in_row, nv_row), (p1, 0%nat), p2, s) in
        match r with
        | None => Done None
        | Some ((in_row, _), (p1, _), p2, s) => Done (Some ((in_tri, nv_in), (in_row, nv_row), (p1, p2), s))
        end
  end.

(** rasterize.rs:35-183 [rasterize_triangle] for a heightfield of [width] times
    [height] cells. *)
Definition rasterize_tri (width height : Z) (g : place) (t : pt T * pt T * pt T) (s : S) : outcome (option S) :=
  let lo := tri_min t in
  let hi := tri_max t in
  if negb (intersects g lo hi) then Done (Some s)
  else
    let inv_cs := n_div ar one (pl_cs g) in
    let w := wrap_i16 width in
    let h := wrap_i16 height in
    let z0 := n_to_i16 ar (n_mul ar (n_sub ar (pz lo) (pz (pl_min g))) inv_cs) in
    let z1 := n_to_i16 ar (n_mul ar (n_sub ar (pz hi) (pz (pl_min g))) inv_cs) in
    let! hm := chk (-32768) 32767 (h - 1) in
    let! z0 := clamp_Z z0 (-1) hm in
    let! z1 := clamp_Z z1 0 hm in
    let buf := repeat (Pt zero zero zero) 7 in
    let in_tri := [t.1.1; t.1.2; t.2] ++ repeat (Pt zero zero zero) 4 in
    let! r := foldE (row_step g w) (z_range z0 z1) ((in_tri, 3%nat), (buf, 0%nat), (buf, buf), s) in
    match r with
    | None => Done None
    | Some (_, _, _, s) => Done (Some s)
    end.
End Emit.
End Rasterize.
Arguments place : clear implicits.
Arguments Place {T}.

(** ** The code as it runs *)

Definition pt_of (v : vec3) : pt f32 := Pt (v_x v) (v_y v) (v_z v).
Definition place_of (g : geo) : place f32 := Place (pt_of (g_min g)) (pt_of (g_max g)) (g_cs g) (g_ch g).

(** rasterize.rs:168-179: the span is added to the heightfield. *)
Definition emit_span (area thr : Z) (x z lo hi : Z) (hf : hfield) : outcome (option hfield) :=
  add_span hf (mkIns (Z.to_nat x) (Z.to_nat z) thr (mkSpan lo hi area None)).

(** rasterize.rs:35-183 [Heightfield::rasterize_triangle]. *)
Definition rasterize_triangle (hf : hfield) (t : pt f32 * pt f32 * pt f32) (area thr : Z) : outcome (option hfield) :=
  rasterize_tri f32_arith (emit_span area thr) (Z.of_nat (hf_w hf)) (Z.of_nat (hf_h hf)) (place_of (hf_geo hf)) t hf.

(** rasterize.rs:16-32 [Heightfield::rasterize_triangles]. *)
Definition rasterize_triangles (hf : hfield) (m : trimesh) (thr : Z) : outcome (option hfield) :=
  foldE (λ '(i, t) hf,
    let! a := vert (tm_verts m) t.1.1 in
    let! b := vert (tm_verts m) t.1.2 in
    let! c := vert (tm_verts m) t.2 in
    let! area := get (tm_areas m) i in
    rasterize_triangle hf (pt_of a, pt_of b, pt_of c) area thr)
    (imap (λ i t, (i, t)) (tm_idx m)) hf.

(** heightfield.rs:84-110 [Heightfield::populate_from_trimesh]: rasterization with the
    climb as merge threshold, then the three filters. *)
Definition populate_from_trimesh (hf : hfield) (m : trimesh) (wh climb : Z) : outcome (option hfield) :=
  let! r := rasterize_triangles hf m climb in
  match r with
  | None => Done None
  | Some hf =>
    let! hf := filter_low_hanging climb hf in
    let! hf := filter_ledge wh climb hf in
    let! hf := filter_low_height wh hf in
    Done (Some hf)
  end.

(** ** Exact arithmetic *)

(** The spans in order of insertion: cell x, cell z, floor and ceiling. *)
Definition emit_list (x z lo hi : Z) (s : list (Z * Z * Z * Z)) : outcome (option (list (Z * Z * Z * Z))) :=
  Done (Some (s ++ [(x, z, lo, hi)])).
Definition rasterize_exact (width height : Z) (g : place Q) (t : pt Q * pt Q * pt Q) : outcome (option (list (Z * Z * Z * Z))) :=
  rasterize_tri exact_arith emit_list width height g t [].

(** ** Building a heightfield *)

Definition USIZE_MAX : Z := 18446744073709551615.

(** heightfield.rs:261-263: a cell count before the cast. *)
Definition cell_count (lo hi cs : f32) : f32 := f_add (f_div (f_sub hi lo) cs) (f_of_me 1 (-1)).
(** heightfield.rs:259-278 [HeightfieldBuilder::build]. [Done None] is the error. The
    product of two [u128] is checked for overflow. Allocation failure is not
    modelled. *)
Definition build_heightfield (g : geo) : outcome (option hfield) :=
  let width := cell_count (v_x (g_min g)) (v_x (g_max g)) (g_cs g) in
  let height := cell_count (v_z (g_min g)) (v_z (g_max g)) (g_cs g) in
  let! n := chk 0 (2 ^ 128 - 1) (f_to_u128 width * f_to_u128 height) in
  if USIZE_MAX <? n then Done None
  else Done (Some (mkHf (Z.to_nat (f_to_u16 width)) (Z.to_nat (f_to_u16 height)) g (repeat None (Z.to_nat n)) ∅ 1%positive)).
