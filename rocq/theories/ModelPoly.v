(** Model of poly_mesh.rs.

    The polygon buffers of the code are flat [u16] arrays in which polygon [i]
    occupies a fixed number of slots. Here they are lists of rows. Simplification:
    this is faithful for [max_vertices_per_polygon] of at least 3; with less the
    three corners of a triangle do not fit the slots of one polygon, and with 0 the
    code always panics (poly_mesh.rs:173, 283). *)
From Verif Require Import Base ModelMath ModelHeightfield ModelCompact ModelRegions ModelContours.
Local Open Scope Z_scope.

(** poly_mesh.rs:154, 157 [NO_INDEX] and [NO_CONNECTION]. *)
Definition NO_INDEX : Z := 65535.

(** poly_mesh.rs:1335-1344 [PolygonNavmeshError], and [Result] with it. *)
Inductive perr : Type := TooManyVertices | TooManyPolygons | InvalidContour.
Inductive presult (A : Type) : Type := Ok (a : A) | Err (e : perr).
Arguments Ok {_} _.
Arguments Err {_} _.
(** The [?] operator. *)
Definition pbind {A B} (m : outcome (presult A)) (k : A → outcome (presult B)) : outcome (presult B) :=
  let! r := m in match r with Ok a => k a | Err e => Done (Err e) end.

(** Short-circuiting operators on conditions that may panic. *)
Definition andO (a b : outcome bool) : outcome bool := let! x := a in if x then b else Done false.
Definition orO (a b : outcome bool) : outcome bool := let! x := a in if x then Done true else b.
Definition notO (a : outcome bool) : outcome bool := let! x := a in Done (negb x).

(** ** Predicates *)

(** poly_mesh.rs:1178-1183 [area2]: [i32] products and difference. The
    differences of [u16] coordinates always fit. *)
Definition area2 (a b c : vtx) : outcome Z :=
  let! p := chk_i32 ((vx b - vx a) * (vz c - vz a)) in
  let! q := chk_i32 ((vx c - vx a) * (vz b - vz a)) in
  chk_i32 (p - q).

(** poly_mesh.rs:1167-1175, 1251-1258 [is_left], [is_left_on], [left],
    [left_on]. *)
Definition left (a b c : vtx) : outcome bool := let! r := area2 a b c in Done (r <? 0).
Definition left_on (a b c : vtx) : outcome bool := let! r := area2 a b c in Done (r <=? 0).

(** poly_mesh.rs:971-975 [uleft]: the same formula. *)
Definition uleft (a b c : vtx) : outcome bool := let! r := area2 a b c in Done (r <? 0).

(** poly_mesh.rs:1244-1246 [collinear]. *)
Definition collinear (a b c : vtx) : outcome bool := let! r := area2 a b c in Done (r =? 0).

(** poly_mesh.rs:1218-1220 [vequal]. *)
Definition vequal (a b : vtx) : bool := (vx a =? vx b) && (vz a =? vz b).

(** poly_mesh.rs:1235-1241 [intersect_prop]. The operands of [^] are both
    evaluated. *)
Definition intersect_prop (a b c d : vtx) : outcome bool :=
  let! e := orO (collinear a b c) (orO (collinear a b d) (orO (collinear c d a) (collinear c d b))) in
  if e then Done false
  else
    andO (let! x := left a b c in let! y := left a b d in Done (xorb x y))
         (let! x := left c d a in let! y := left c d b in Done (xorb x y)).

(** poly_mesh.rs:1263-1273 [between]. *)
Definition between (a b c : vtx) : outcome bool :=
  let! e := collinear a b c in
  if negb e then Done false
  else if negb (vx a =? vx b) then
    Done (((vx a <=? vx c) && (vx c <=? vx b)) || ((vx c <=? vx a) && (vx b <=? vx c)))
  else
    Done (((vz a <=? vz c) && (vz c <=? vz b)) || ((vz c <=? vz a) && (vz b <=? vz c))).

(** poly_mesh.rs:1224-1229 [intersect]. *)
Definition intersect (a b c d : vtx) : outcome bool :=
  orO (intersect_prop a b c d)
    (orO (between a b c) (orO (between a b d) (orO (between c d a) (between c d b)))).

(** ** Triangulation *)

(** An entry of [indices] (poly_mesh.rs:1038): a vertex index with the flag
    CAN_REMOVE. Simplification: indices below 2^28, so the masks 0x0fffffff and
    0x80000000 do not touch the index; only the first [n] entries, the only ones
    that are used, are kept. *)
Notation node := (nat * bool)%type.

(** [verts[indices[k] & INDEX_MASK].0]. *)
Definition node_pos (verts : list vtx) (idx : list node) (k : nat) : outcome vtx :=
  let! e := get idx k in get verts e.1.

(** math.rs:165-173 [next] and [prev] for [n > 0], as in every call here. *)
Definition nx (i n : nat) : nat := ((i + 1) mod n)%nat.
Definition pv (i n : nat) : nat := ((i + n - 1) mod n)%nat.

(** poly_mesh.rs:1150-1164 [in_cone]. *)
Definition in_cone (i j n : nat) (verts : list vtx) (idx : list node) : outcome bool :=
  let! pi := node_pos verts idx i in
  let! pj := node_pos verts idx j in
  let! pi1 := node_pos verts idx (nx i n) in
  let! pin1 := node_pos verts idx (pv i n) in
  let! convex := left_on pin1 pi pi1 in
  if convex then andO (left pi pj pin1) (left pj pi pi1)
  else notO (andO (left_on pi pj pi1) (left_on pj pi pin1)).

(** poly_mesh.rs:1286-1304 [in_cone_loose]. *)
Definition in_cone_loose (i j n : nat) (verts : list vtx) (idx : list node) : outcome bool :=
  let! pi := node_pos verts idx i in
  let! pj := node_pos verts idx j in
  let! pi1 := node_pos verts idx (nx i n) in
  let! pin1 := node_pos verts idx (pv i n) in
  let! convex := left_on pin1 pi pi1 in
  if convex then andO (left_on pi pj pin1) (left_on pj pi pi1)
  else notO (andO (left_on pi pj pi1) (left_on pj pi pin1)).

(** poly_mesh.rs:1197-1212, 1316-1331: the loop over the edges [(k, k+1)], with
    the intersection test [crosses]. *)
Fixpoint no_crossing (crosses : vtx → vtx → vtx → vtx → outcome bool) (i j n : nat) (verts : list vtx)
    (idx : list node) (d0 d1 : vtx) (ks : list nat) : outcome bool :=
  match ks with
  | [] => Done true
  | k :: ks' =>
    let k1 := nx k n in
    if (k =? i)%nat || (k1 =? i)%nat || (k =? j)%nat || (k1 =? j)%nat
    then no_crossing crosses i j n verts idx d0 d1 ks'
    else
      let! p0 := node_pos verts idx k in
      let! p1 := node_pos verts idx k1 in
      if vequal d0 p0 || vequal d1 p0 || vequal d0 p1 || vequal d1 p1
      then no_crossing crosses i j n verts idx d0 d1 ks'
      else
        let! c := crosses d0 d1 p0 p1 in
        if c then Done false else no_crossing crosses i j n verts idx d0 d1 ks'
  end.

(** poly_mesh.rs:1187-1213 [is_diagonal_internal_or_external] and
    poly_mesh.rs:1306-1332 [is_diagonal_internal_or_external_loose]. *)
Definition clear_of_edges (crosses : vtx → vtx → vtx → vtx → outcome bool) (i j n : nat) (verts : list vtx)
    (idx : list node) : outcome bool :=
  let! d0 := node_pos verts idx i in
  let! d1 := node_pos verts idx j in
  no_crossing crosses i j n verts idx d0 d1 (seq 0 n).

(** poly_mesh.rs:1144-1146 [is_diagonal]. *)
Definition is_diagonal (i j n : nat) (verts : list vtx) (idx : list node) : outcome bool :=
  andO (in_cone i j n verts idx) (clear_of_edges intersect i j n verts idx).
(** poly_mesh.rs:1275-1284 [is_diagonal_loose]. *)
Definition is_diagonal_loose (i j n : nat) (verts : list vtx) (idx : list node) : outcome bool :=
  andO (in_cone_loose i j n verts idx) (clear_of_edges intersect_prop i j n verts idx).

(** Setting or clearing the flag of an entry. *)
Definition set_flag (idx : list node) (k : nat) (b : bool) : outcome (list node) :=
  let! e := get idx k in put idx k (e.1, b).

(** poly_mesh.rs:1043-1050. *)
Definition mark_ears (n : nat) (verts : list vtx) (idx : list node) : outcome (list node) :=
  foldM (λ i idx,
    let i1 := nx i n in
    let i2 := nx i1 n in
    let! d := is_diagonal i i2 n verts idx in
    if d then set_flag idx i1 true else Done idx) (seq 0 n) idx.

(** poly_mesh.rs:1060-1061: squared length in [i32], cast to [u16]. *)
Definition len_u16 (p0 p2 : vtx) : outcome Z :=
  let! xx := chk_i32 ((vx p2 - vx p0) * (vx p2 - vx p0)) in
  let! zz := chk_i32 ((vz p2 - vz p0) * (vz p2 - vz p0)) in
  let! s := chk_i32 (xx + zz) in
  Done (wrap_u16 s).

(** poly_mesh.rs:1062-1065, 1086-1089. *)
Definition better (best : option (Z * nat)) (len : Z) (i : nat) : option (Z * nat) :=
  match best with
  | Some (m, _) => if len <? m then Some (len, i) else best
  | None => Some (len, i)
  end.

(** poly_mesh.rs:1052-1067. *)
Definition best_ear (n : nat) (verts : list vtx) (idx : list node) : outcome (option (Z * nat)) :=
  foldM (λ i best,
    let i1 := nx i n in
    let! e := get idx i1 in
    if e.2 then
      let! p0 := node_pos verts idx i in
      let! p2 := node_pos verts idx (nx i1 n) in
      let! len := len_u16 p0 p2 in
      Done (better best len i)
    else Done best) (seq 0 n) None.

(** poly_mesh.rs:1077-1091. *)
Definition best_loose_ear (n : nat) (verts : list vtx) (idx : list node) : outcome (option (Z * nat)) :=
  foldM (λ i best,
    let i1 := nx i n in
    let i2 := nx i1 n in
    let! d := is_diagonal_loose i i2 n verts idx in
    if d then
      let! p0 := node_pos verts idx i in
      let! p2 := node_pos verts idx (nx i2 n) in
      let! len := len_u16 p0 p2 in
      Done (better best len i)
    else Done best) (seq 0 n) None.

(** A triangle of indices, [u16] each. *)
Record tri : Type := Tri { t_x : Z; t_y : Z; t_z : Z }.

(** poly_mesh.rs:1104-1107, 1133-1136: storing a triangle. [cap] is the length
    of [tris]; the slots that are not yet used are not kept. *)
Definition push_tri (cap : nat) (tris : list tri) (idx : list node) (i i1 i2 : nat) : outcome (list tri) :=
  if (length tris <? cap)%nat then
    let! a := get idx i in
    let! b := get idx i1 in
    let! c := get idx i2 in
    Done (tris ++ [Tri (wrap_u16 (Z.of_nat a.1)) (wrap_u16 (Z.of_nat b.1)) (wrap_u16 (Z.of_nat c.1))])
  else Panicked.

(** poly_mesh.rs:1109-1130: removing entry [i1] and updating two flags. [n] is
    the number of entries before the removal. *)
Definition cut_ear (n i1 : nat) (verts : list vtx) (idx : list node) : outcome (list node) :=
  let n' := (n - 1)%nat in
  let idx := delete i1 idx in
  let i1 := if (n' <=? i1)%nat then 0%nat else i1 in
  let i := pv i1 n' in
  let! d := is_diagonal (pv i n') i1 n' verts idx in
  let! idx := set_flag idx i d in
  let! d := is_diagonal i (nx i1 n') n' verts idx in
  set_flag idx i1 d.

(** poly_mesh.rs:1051-1138: the loop; every round removes an entry. *)
Fixpoint ear_loop (fuel n cap : nat) (verts : list vtx) (idx : list node) (tris : list tri)
  : outcome (presult (list tri)) :=
  if (3 <? n)%nat then
    match fuel with
    | O => OutOfFuel
    | S fuel' =>
      let! b := best_ear n verts idx in
      let! b := match b with Some _ => Done b | None => best_loose_ear n verts idx end in
      match b with
      | None => Done (Err InvalidContour)
      | Some (_, i) =>
        let i1 := nx i n in
        let i2 := nx i1 n in
        let! tris := push_tri cap tris idx i i1 i2 in
        let! idx := cut_ear n i1 verts idx in
        ear_loop fuel' (n - 1) cap verts idx tris
      end
    end
  else
    let! tris := push_tri cap tris idx 0 1 2 in
    Done (Ok tris).

(** poly_mesh.rs:1035-1139 [triangulate]. Simplification: the region words of
    the vertices, which it ignores, are not passed. *)
Definition triangulate (verts : list vtx) (indices : list nat) (cap : nat) : outcome (presult (list tri)) :=
  let n := length indices in
  let! idx := mark_ears n verts ((λ i, (i, false)) <$> indices) in
  ear_loop n n cap verts idx [].

(** ** Vertex welding *)

(** poly_mesh.rs:1033. *)
Definition BUCKETS : Z := 4096.
(** poly_mesh.rs:998, 1019-1031 [compute_vertex_hash] of [(x, 0, z)]: [u32]
    arithmetic that wraps. *)
Definition vertex_hash (x z : Z) : Z :=
  Z.land (wrap_u32 (wrap_u32 (2376512323 * x) + wrap_u32 (3407524639 * z))) (BUCKETS - 1).

(** The vertex table: vertices, the number in use, and the hash chains
    (poly_mesh.rs:236, 241-242). *)
Record vtab : Type := VTab { vt_verts : list vtx; vt_n : nat; vt_first : list (option nat); vt_next : list (option nat) }.

(** poly_mesh.rs:1003. *)
Definition same_vertex (v w : vtx) : bool :=
  (vx v =? vx w) && (Z.abs (vy v - vy w) <=? 2) && (vz v =? vz w).

(** poly_mesh.rs:1001-1007. *)
Fixpoint find_vertex (fuel : nat) (t : vtab) (v : vtx) (it : option nat) : outcome (option nat) :=
  match it with
  | None => Done None
  | Some i =>
    match fuel with
    | O => OutOfFuel
    | S fuel' =>
      let! w := get (vt_verts t) i in
      if same_vertex w v then Done (Some i)
      else let! nx := get (vt_next t) i in find_vertex fuel' t v nx
    end
  end.

(** poly_mesh.rs:991-1017 [add_vertex]. *)
Definition add_vertex (v : vtx) (t : vtab) : outcome (nat * vtab) :=
  let b := Z.to_nat (vertex_hash (vx v) (vz v)) in
  let! it := get (vt_first t) b in
  let! f := find_vertex (S (length (vt_verts t))) t v it in
  match f with
  | Some i => Done (i, t)
  | None =>
    let i := vt_n t in
    let! _ := chk_u16 (Z.of_nat i + 1) in
    let! verts := put (vt_verts t) i v in
    let! next := put (vt_next t) i it in
    let! first := put (vt_first t) b (Some i) in
    Done (i, VTab verts (S i) first next)
  end.

(** ** Merging *)

(** poly_mesh.rs:977-982 [count_poly_verts]. *)
Fixpoint count_verts (p : list Z) (nvp : nat) : nat :=
  match nvp, p with
  | O, _ => O
  | S k, v :: p' => if v =? NO_INDEX then O else S (count_verts p' k)
  | S _, [] => nvp
  end.

(** poly_mesh.rs:924-938: the shared edge; only the inner loop is left by
    [break]. *)
Definition sorted (a b : Z) : Z * Z := if a <=? b then (a, b) else (b, a).
Fixpoint find_edge (pb : list Z) (nb : nat) (e : Z * Z) (js : list nat) : outcome (option nat) :=
  match js with
  | [] => Done None
  | j :: js' =>
    let! vb0 := get pb j in
    let! vb1 := get pb (nx j nb) in
    let e' := sorted vb0 vb1 in
    if (e.1 =? e'.1) && (e.2 =? e'.2) then Done (Some j) else find_edge pb nb e js'
  end.
Definition shared_edge (pa pb : list Z) (na nb : nat) : outcome (option (nat * nat)) :=
  foldM (λ i acc,
    let! va0 := get pa i in
    let! va1 := get pa (nx i na) in
    let! f := find_edge pb nb (sorted va0 va1) (seq 0 nb) in
    Done (match f with Some j => Some (i, j) | None => acc end)) (seq 0 na) None.

(** [verts[p[k] as usize]]. *)
Definition vert_of (verts : list vtx) (p : list Z) (k : nat) : outcome vtx :=
  let! v := get p k in get verts (Z.to_nat v).

(** poly_mesh.rs:906-968 [get_poly_merge_value]: squared length, [edge_a],
    [edge_b]. *)
Definition merge_value (pa pb : list Z) (verts : list vtx) (nvp : nat) : outcome (option (Z * nat * nat)) :=
  let na := count_verts pa nvp in
  let nb := count_verts pb nvp in
  if (na + nb <? 2)%nat then Panicked
  else if (nvp <? na + nb - 2)%nat then Done None
  else
    let! e := shared_edge pa pb na nb in
    match e with
    | None => Done None
    | Some (ea, eb) =>
      let! va := vert_of verts pa ((ea + na - 1) mod na) in
      let! vb := vert_of verts pa ea in
      let! vc := vert_of verts pb ((eb + 2) mod nb) in
      let! l1 := uleft va vb vc in
      if negb l1 then Done None
      else
        let! va := vert_of verts pb ((eb + nb - 1) mod nb) in
        let! vb := vert_of verts pb eb in
        let! vc := vert_of verts pa ((ea + 2) mod na) in
        let! l2 := uleft va vb vc in
        if negb l2 then Done None
        else
          let! va := vert_of verts pa ea in
          let! vb := vert_of verts pa ((ea + 1) mod na) in
          let! xx := chk_i32 ((vx va - vx vb) * (vx va - vx vb)) in
          let! zz := chk_i32 ((vz va - vz vb) * (vz va - vz vb)) in
          let! s := chk_i32 (xx + zz) in
          Done (Some (wrap_u32 s, ea, eb))
    end.

(** poly_mesh.rs:876-904 [merge_poly_verts]: the merged row. The temporary row
    is the last of the buffer, so writing past its end panics. *)
Definition merge_rows (pa pb : list Z) (ea eb nvp : nat) : outcome (list Z) :=
  let na := count_verts pa nvp in
  let nb := count_verts pb nvp in
  if (na =? 0)%nat then Panicked
  else
    let! (tmp, n) := foldM (λ i '(tmp, n),
      let! v := get pa ((ea + 1 + i) mod na)%nat in
      let! tmp := put tmp n v in Done (tmp, S n)) (seq 0 (na - 1)) (repeat NO_INDEX nvp, 0%nat) in
    if (nb =? 0)%nat then Panicked
    else
      let! (tmp, n) := foldM (λ i '(tmp, n),
        let! v := get pb ((eb + 1 + i) mod nb)%nat in
        let! tmp := put tmp n v in Done (tmp, S n)) (seq 0 (nb - 1)) (tmp, n) in
      Done tmp.

(** A polygon under construction with a tag: nothing in [into_polygon_mesh],
    region and area in [remove_vertex]. Simplification: of [polys] only the rows in
    use are kept. *)
Notation trow T := (list Z * T)%type.

(** poly_mesh.rs:297-322, 707-728: the best merge: value, [pa], [pb], [ea],
    [eb]. *)
Definition best_merge {T} (polys : list (trow T)) (verts : list vtx) (nvp : nat)
  : outcome (Z * nat * nat * nat * nat) :=
  let np := length polys in
  foldM (λ j best,
    let! pj := get polys j in
    foldM (λ k best,
      let! pk := get polys k in
      let! r := merge_value pj.1 pk.1 verts nvp in
      let '(bv, _, _, _, _) := best in
      Done (match r with
            | Some (v, ea, eb) => if bv <? v then (v, j, k, ea, eb) else best
            | None => best
            end)) (seq (j + 1) (np - (j + 1))) best) (seq 0 (np - 1)) (0, 0%nat, 0%nat, 0%nat, 0%nat).

(** poly_mesh.rs:323-340, 730-753: merging [pb] into [pa] and moving the last
    polygon to [pb]. [join] combines the tags. *)
Definition apply_merge {T} (join : T → T → T) (polys : list (trow T)) (nvp pa pb ea eb : nat) : outcome (list (trow T)) :=
  let! a := get polys pa in
  let! b := get polys pb in
  let! m := merge_rows a.1 b.1 ea eb nvp in
  let! polys := put polys pa (m, join a.2 b.2) in
  let last := (length polys - 1)%nat in
  let! l := get polys last in
  let! polys := put polys pb l in
  Done (take last polys).

(** poly_mesh.rs:295-346, 705-759: merging until no pair merges. *)
Fixpoint merge_loop {T} (fuel : nat) (join : T → T → T) (verts : list vtx) (nvp : nat) (polys : list (trow T))
  : outcome (list (trow T)) :=
  match fuel with
  | O => OutOfFuel
  | S fuel' =>
    let! b := best_merge polys verts nvp in
    let '(v, pa, pb, ea, eb) := b in
    if 0 <? v then
      let! polys := apply_merge join polys nvp pa pb ea eb in
      merge_loop fuel' join verts nvp polys
    else Done polys
  end.
Definition merge_all {T} (join : T → T → T) (verts : list vtx) (nvp : nat) (polys : list (trow T)) : outcome (list (trow T)) :=
  if (3 <? nvp)%nat then merge_loop (S (length polys)) join verts nvp polys else Done polys.

(** A row of [nvp] slots from three corners (poly_mesh.rs:280-286, 679-687). *)
Definition tri_row (nvp : nat) (a b c : Z) : list Z := [a; b; c] ++ repeat NO_INDEX (nvp - 3).

(** ** The mesh under construction *)

(** poly_mesh.rs:12-27 [InternalPolygonNavmesh]; a row of [polygons] is split
    into its vertices and its neighbours. *)
Record imesh : Type := IM {
  im_verts : list vtx;
  im_nv : nat;
  im_polys : list (list Z * list Z);
  im_np : nat;
  im_regs : list Z;
  im_areas : list Z
}.

(** ** Adjacency *)

(** poly_mesh.rs:430-435 [Edge]. *)
Record edge : Type := Edg { e_v0 : Z; e_v1 : Z; e_p0 : Z; e_p1 : Z; e_e0 : Z; e_e1 : Z }.
Definition edge0 : edge := Edg 0 0 0 0 0 0.

(** The edge table: [first_edge[..nvertices]], [first_edge[next_edge_index..]],
    and the edges with their number (poly_mesh.rs:442-447). *)
Record etab : Type := ETab { et_first : list Z; et_next : list Z; et_edges : list edge; et_n : nat }.

(** poly_mesh.rs:454-459, 482-487: the vertex after [j] in a row. *)
Definition next_vert (t : list Z) (nvp j : nat) : outcome Z :=
  if (nvp <=? j + 1)%nat then get t 0
  else let! v := get t (j + 1) in if v =? NO_INDEX then get t 0 else Done v.

(** poly_mesh.rs:450-473: the edges of polygon [i], from slot [j]. [first_edge]
    is one array in the code; a vertex index below [nvertices] selects its first
    part. *)
Fixpoint collect_edges (k : nat) (t : list Z) (nvp i j : nat) (e : etab) : outcome etab :=
  match k with
  | O => Done e
  | S k' =>
    let! v0 := get t j in
    if v0 =? NO_INDEX then Done e
    else
      let! v1 := next_vert t nvp j in
      let! e := if v0 <? v1 then
          let! edges := put (et_edges e) (et_n e)
            (Edg v0 v1 (wrap_u16 (Z.of_nat i)) (wrap_u16 (Z.of_nat i)) (wrap_u16 (Z.of_nat j)) 0) in
          let! f := get (et_first e) (Z.to_nat v0) in
          let! next := put (et_next e) (et_n e) f in
          let! first := put (et_first e) (Z.to_nat v0) (wrap_u16 (Z.of_nat (et_n e))) in
          Done (ETab first next edges (S (et_n e)))
        else Done e in
      collect_edges k' t nvp i (S j) e
  end.

(** poly_mesh.rs:489-498: following the chain of [v1]. *)
Fixpoint match_edge (fuel : nat) (v0 : Z) (i j : nat) (c : Z) (e : etab) : outcome etab :=
  if c =? NO_INDEX then Done e
  else
    match fuel with
    | O => OutOfFuel
    | S fuel' =>
      let! d := get (et_edges e) (Z.to_nat c) in
      if (e_v1 d =? v0) && (e_p0 d =? e_p1 d) then
        let! edges := put (et_edges e) (Z.to_nat c)
          (Edg (e_v0 d) (e_v1 d) (e_p0 d) (wrap_u16 (Z.of_nat i)) (e_e0 d) (wrap_u16 (Z.of_nat j))) in
        Done (ETab (et_first e) (et_next e) edges (et_n e))
      else
        let! c' := get (et_next e) (Z.to_nat c) in
        match_edge fuel' v0 i j c' e
    end.

(** poly_mesh.rs:475-501: the edges of polygon [i] with [v0 > v1]. *)
Definition match_slot (t : list Z) (nvp i j : nat) (e : etab) : outcome etab :=
  let! v0 := get t j in
  let! v1 := next_vert t nvp j in
  if v1 <? v0 then
    let! c := get (et_first e) (Z.to_nat v1) in
    match_edge (S (length (et_edges e))) v0 i j c e
  else Done e.
Definition match_edges (t : list Z) (nvp i : nat) (e : etab) : outcome etab :=
  foldM (match_slot t nvp i) (seq 0 (count_verts t nvp)) e.

(** Writing a slot of the neighbour half of a row. *)
Definition put_nbr (polys : list (list Z * list Z)) (p e : nat) (v : Z) : outcome (list (list Z * list Z)) :=
  let! r := get polys p in
  let! n := put r.2 e v in
  put polys p (r.1, n).

(** poly_mesh.rs:503-513: storing one edge. *)
Definition store_edge (d : edge) (polys : list (list Z * list Z)) : outcome (list (list Z * list Z)) :=
  if e_p0 d =? e_p1 d then Done polys
  else
    let! polys := put_nbr polys (Z.to_nat (e_p0 d)) (Z.to_nat (e_e0 d)) (e_p1 d) in
    put_nbr polys (Z.to_nat (e_p1 d)) (Z.to_nat (e_e1 d)) (e_p0 d).

(** poly_mesh.rs:438-515 [build_mesh_adjacency]. *)
Definition build_adjacency (nvp nv np : nat) (polys : list (list Z * list Z)) : outcome (list (list Z * list Z)) :=
  let cap := (np * nvp)%nat in
  let! e := foldM (λ i e, let! t := get polys i in collect_edges nvp t.1 nvp i 0 e) (seq 0 np)
    (ETab (repeat NO_INDEX nv) (repeat NO_INDEX cap) (repeat edge0 cap) 0) in
  let! e := foldM (λ i e, let! t := get polys i in match_edges t.1 nvp i e) (seq 0 np) e in
  foldM store_edge (take (et_n e) (et_edges e)) polys.

(** ** Removing a vertex *)

(** poly_mesh.rs:562, 825: [(0..nv).zip(nv - 1..)]; [row] is the whole row,
    vertices and neighbours. *)
Definition zip_pairs (nv : nat) : list (nat * nat) := (λ j, (j, nv - 1 + j)%nat) <$> seq 0 nv.

(** The number of occurrences of [rem] among the vertices of a row. *)
Definition count_rem (rem : Z) (nvp : nat) (row : list Z) : nat :=
  length (filter (λ v, v = rem) (take (count_verts row nvp) row)).

(** poly_mesh.rs:838-844: incrementing the share count of the edges to [b]. *)
Definition share_edges (b : Z) (ne : nat) (edges : list (Z * Z * Z)) : outcome (list (Z * Z * Z)) :=
  foldM (λ x edges,
    let! (e0, e1, e2) := get edges x in
    if e1 =? b then let! c := chk_u16 (e2 + 1) in put edges x (e0, e1, c) else Done edges)
    (seq 0 ne) edges.

(** poly_mesh.rs:825-852: the edges of one polygon that touch [rem]. *)
Definition touch_edges (rem : Z) (nvp : nat) (r : list Z * list Z) (st : list (Z * Z * Z) * nat)
  : outcome (list (Z * Z * Z) * nat) :=
  let row := r.1 ++ r.2 in
  let nv := count_verts row nvp in
  if (nv =? 0)%nat then Panicked
  else
    foldM (λ '(j, k) '(edges, ne),
      let! pj := get row j in
      let! pk := get row k in
      if negb ((pj =? rem) || (pk =? rem)) then Done (edges, ne)
      else
        let '(a, b) := if negb (pk =? rem) then (pj, pk) else (pk, pj) in
        if existsb (λ '(_, e1, _), e1 =? b) (take ne edges) then
          let! edges := share_edges b ne edges in Done (edges, ne)
        else
          let! edges := put edges ne (a, b, 1) in Done (edges, S ne))
      (zip_pairs nv) st.

(** poly_mesh.rs:785-859 [can_remove_vertex]. The last count runs over the whole
    buffer of edges, used or not. *)
Definition can_remove (rem : Z) (nvp : nat) (m : imesh) : outcome bool :=
  let rows := take (im_np m) (im_polys m) in
  if (length rows <? im_np m)%nat then Panicked
  else
    let touched := sum_list ((λ r, count_rem rem nvp (r.1 ++ r.2)) <$> rows) in
    let remaining := foldr Z.add 0 ((λ r,
      let c := count_rem rem nvp (r.1 ++ r.2) in
      if (c =? 0)%nat then 0 else Z.of_nat (count_verts (r.1 ++ r.2) nvp) - (Z.of_nat c + 1)) <$> rows) in
    if remaining <=? 2 then Done false
    else
      let! (edges, _) := foldM (touch_edges rem nvp) rows (repeat (0, 0, 0) (touched * 2), 0%nat) in
      Done (length (filter (λ e : Z * Z * Z, (e.2 < 2)%Z) edges) <=? 2)%nat.

(** poly_mesh.rs:533-538: an edge of the hole. *)
Record hedge : Type := HE { he_1 : Z; he_2 : Z; he_reg : Z; he_area : Z }.
Definition hedge0 : hedge := HE 0 0 0 0.

(** poly_mesh.rs:562-572. *)
Definition hole_edges (rem : Z) (nvp : nat) (r : list Z * list Z) (reg area : Z) (st : list hedge * nat)
  : outcome (list hedge * nat) :=
  let row := r.1 ++ r.2 in
  foldM (λ '(j, k) '(edges, ne),
    let! pj := get row j in
    let! pk := get row k in
    if negb (pj =? rem) && negb (pk =? rem) then
      let! edges := put edges ne (HE pk pj reg area) in Done (edges, S ne)
    else Done (edges, ne)) (zip_pairs (count_verts row nvp)) st.

(** poly_mesh.rs:548-583: removing the polygons that touch [rem]. A round either
    advances [i] or removes a polygon. *)
Fixpoint drop_polys (fuel : nat) (rem : Z) (nvp i : nat) (m : imesh) (st : list hedge * nat)
  : outcome (imesh * (list hedge * nat)) :=
  if (i <? im_np m)%nat then
    match fuel with
    | O => OutOfFuel
    | S fuel' =>
      let! r := get (im_polys m) i in
      if (count_rem rem nvp (r.1 ++ r.2) =? 0)%nat then drop_polys fuel' rem nvp (S i) m st
      else
        let! reg := get (im_regs m) i in
        let! area := get (im_areas m) i in
        let! st := hole_edges rem nvp r reg area st in
        let last := (im_np m - 1)%nat in
        let! l := get (im_polys m) last in
        let! polys := put (im_polys m) i (l.1, repeat NO_INDEX nvp) in
        let! lreg := get (im_regs m) last in
        let! regs := put (im_regs m) i lreg in
        let! larea := get (im_areas m) last in
        let! areas := put (im_areas m) i larea in
        drop_polys fuel' rem nvp i (IM (im_verts m) (im_nv m) polys last regs areas) st
    end
  else Done (m, st).

(** poly_mesh.rs:596-610: indices above [rem] move down by one. *)
Definition shift (rem v : Z) : Z := if rem <? v then v - 1 else v.
Definition shift_row (rem : Z) (nvp : nat) (r : list Z * list Z) : list Z * list Z :=
  let nv := count_verts (r.1 ++ r.2) nvp in
  ((shift rem <$> take nv r.1) ++ drop nv r.1, r.2).

(** poly_mesh.rs:585-590. *)
Definition drop_vertex (rem : nat) (m : imesh) : outcome imesh :=
  if (im_nv m =? 0)%nat then Panicked
  else
    let! verts := foldM (λ i verts, let! v := get verts (S i) in put verts i v)
      (seq rem (im_nv m - 1 - rem)) (im_verts m) in
    Done (IM verts (im_nv m - 1) (im_polys m) (im_np m) (im_regs m) (im_areas m)).

(** poly_mesh.rs:862-873 [push_back] and [push_front]; the three arrays [hole],
    [hreg] and [harea] of length [cap] grow together and are kept as one list. *)
Definition push_hole (cap : nat) (front : bool) (x : Z * Z * Z) (hole : list (Z * Z * Z)) : outcome (list (Z * Z * Z)) :=
  if (length hole <? cap)%nat then Done (if front then x :: hole else hole ++ [x]) else Panicked.

(** poly_mesh.rs:623-661: the two nested loops; [i] and [matched] are the
    variables of the inner loop. The removal writes slot [i] after [i] was
    incremented. *)
Fixpoint hole_loop (fuel cap : nat) (edges : list hedge) (ne : nat) (hole : list (Z * Z * Z)) (i : nat) (matched : bool)
  : outcome (list (Z * Z * Z)) :=
  match fuel with
  | O => OutOfFuel
  | S fuel' =>
    if (i <? ne)%nat then
      let! d := get edges i in
      let! h := get hole 0 in
      let! t := get hole (length hole - 1) in
      if h.1.1 =? he_2 d then
        let! hole := push_hole cap true (he_1 d, he_reg d, he_area d) hole in
        let! l := get edges (ne - 1) in
        let! edges := put edges (S i) l in
        hole_loop fuel' cap edges (ne - 1) hole (S i) true
      else if t.1.1 =? he_1 d then
        let! hole := push_hole cap false (he_2 d, he_reg d, he_area d) hole in
        let! l := get edges (ne - 1) in
        let! edges := put edges (S i) l in
        hole_loop fuel' cap edges (ne - 1) hole (S i) true
      else hole_loop fuel' cap edges ne hole i matched
    else if matched && negb (ne =? 0)%nat then hole_loop fuel' cap edges ne hole 0 false
    else Done hole
  end.

(** poly_mesh.rs:679-701: the initial polygons of the hole with region and
    area. *)
Definition hole_polys (nvp : nat) (hole : list (Z * Z * Z)) (tris : list tri) : outcome (list (trow (Z * Z))) :=
  foldM (λ t acc,
    if negb (t_x t =? t_y t) && negb (t_x t =? t_z t) && negb (t_y t =? t_z t) then
      let! (hx, rx, ax) := get hole (Z.to_nat (t_x t)) in
      let! (hy, ry, _) := get hole (Z.to_nat (t_y t)) in
      let! (hz, rz, _) := get hole (Z.to_nat (t_z t)) in
      let reg := if negb (rx =? ry) || negb (ry =? rz) then 0 else rx in
      Done (acc ++ [(tri_row nvp hx hy hz, (reg, ax))])
    else Done acc) tris [].

(** poly_mesh.rs:740-742: the tag of merged hole polygons. *)
Definition join_tag (a b : Z * Z) : Z * Z := if negb (a.1 =? b.1) then (0, a.2) else a.

(** poly_mesh.rs:762-781: storing the hole polygons. *)
Fixpoint store_hole (max_tris nvp : nat) (ps : list (trow (Z * Z))) (m : imesh) : outcome (presult imesh) :=
  match ps with
  | [] => Done (Ok m)
  | (row, (reg, area)) :: ps' =>
    if (max_tris <=? im_np m)%nat then Done (Ok m)
    else
      let! polys := put (im_polys m) (im_np m) (row, repeat NO_INDEX nvp) in
      let! regs := put (im_regs m) (im_np m) reg in
      let! areas := put (im_areas m) (im_np m) area in
      store_hole max_tris nvp ps' (IM (im_verts m) (im_nv m) polys (S (im_np m)) regs areas)
  end.

(** poly_mesh.rs:517-783 [remove_vertex]. [fuel] bounds the loop that orders the
    hole. *)
Definition remove_vertex (fuel : nat) (rem : nat) (max_tris nvp : nat) (m : imesh) : outcome (presult imesh) :=
  let r := Z.of_nat rem in
  let rows := take (im_np m) (im_polys m) in
  if (length rows <? im_np m)%nat then Panicked
  else
    let cap := (sum_list ((λ row, count_rem r nvp (row.1 ++ row.2)) <$> rows) * nvp)%nat in
    let! (m, st) := drop_polys (2 * im_np m + 1) r nvp 0 m (repeat hedge0 cap, 0%nat) in
    let '(edges, ne) := st in
    let! m := drop_vertex rem m in
    let m := IM (im_verts m) (im_nv m)
      ((shift_row r nvp <$> take (im_np m) (im_polys m)) ++ drop (im_np m) (im_polys m)) (im_np m) (im_regs m) (im_areas m) in
    let edges := ((λ e, HE (shift r (he_1 e)) (shift r (he_2 e)) (he_reg e) (he_area e)) <$> take ne edges) ++ drop ne edges in
    if (ne =? 0)%nat then Done (Ok m)
    else
      let! e := get edges 0 in
      let! hole := push_hole cap false (he_1 e, he_reg e, he_area e) [] in
      let! hole := hole_loop fuel cap edges ne hole 0 false in
      let! tverts := mapM_o (λ h : Z * Z * Z, get (im_verts m) (Z.to_nat h.1.1)) hole in
      pbind (triangulate tverts (seq 0 (length hole)) (length hole)) (λ tris,
        let! polys := hole_polys nvp hole tris in
        if (length polys =? 0)%nat then Done (Ok m)
        else
          let! polys := merge_all join_tag (im_verts m) nvp polys in
          store_hole max_tris nvp polys m).

(** ** The whole function *)

(** poly_mesh.rs:214-225: the contours that are not skipped, and the three
    sizes. *)
Definition live_contours (cs : list contour) : list contour := filter (λ c, (3 <= length (ct_verts c))%nat) cs.
Definition max_vertices (cs : list contour) : nat := sum_list ((λ c, length (ct_verts c)) <$> live_contours cs).
Definition max_tris (cs : list contour) : nat := sum_list ((λ c, length (ct_verts c) - 2)%nat <$> live_contours cs).
Definition max_verts_per_cont (cs : list contour) : nat := foldr Nat.max 0%nat ((λ c, length (ct_verts c)) <$> live_contours cs).

(** poly_mesh.rs:264-277: adding the vertices of a contour. *)
Definition add_contour (vs : list rawv) (t : vtab) (flags : list bool) : outcome (list nat * vtab * list bool) :=
  foldM (λ (p : rawv) '(ind, t, flags),
    let! (i, t) := add_vertex p.1 t in
    let! flags := if negb (Z.land p.2 BORDER_VERTEX =? 0) then put flags i true else Done flags in
    Done (ind ++ [i], t, flags)) vs ([], t, flags).

(** poly_mesh.rs:279-292: the initial polygons. *)
Definition init_polys (nvp : nat) (ind : list nat) (tris : list tri) : outcome (list (trow unit)) :=
  foldM (λ t acc,
    if negb (t_x t =? t_y t) && negb (t_x t =? t_z t) && negb (t_y t =? t_z t) then
      let! a := get ind (Z.to_nat (t_x t)) in
      let! b := get ind (Z.to_nat (t_y t)) in
      let! c := get ind (Z.to_nat (t_z t)) in
      Done (acc ++ [(tri_row nvp (Z.of_nat a) (Z.of_nat b) (Z.of_nat c), tt)])
    else Done acc) tris [].

(** poly_mesh.rs:349-363: storing the polygons of a contour. The comparison
    with [max_tris] comes after the writes, which panic first. *)
Definition store_polys (nvp : nat) (reg area : Z) (ps : list (trow unit)) (m : imesh) : outcome imesh :=
  foldM (λ (p : trow unit) m,
    let! r := get (im_polys m) (im_np m) in
    let! polys := put (im_polys m) (im_np m) (p.1, r.2) in
    let! regs := put (im_regs m) (im_np m) reg in
    let! areas := put (im_areas m) (im_np m) area in
    Done (IM (im_verts m) (im_nv m) polys (S (im_np m)) regs areas)) ps m.

(** poly_mesh.rs:249-364: one contour. The vertex table holds [vertices] and
    [nvertices]; [im_verts] and [im_nv] are set at the end. [cap] is
    [max_verts_per_cont]. *)
Definition one_contour (cap nvp : nat) (c : contour) (st : vtab * list bool * imesh) : outcome (presult (vtab * list bool * imesh)) :=
  let '(t, flags, m) := st in
  if (length (ct_verts c) <? 3)%nat then Done (Ok st)
  else
    pbind (triangulate (fst <$> ct_verts c) (seq 0 (length (ct_verts c))) cap) (λ tris,
      let! (ind, t, flags) := add_contour (ct_verts c) t flags in
      let! polys := init_polys nvp ind tris in
      if (length polys =? 0)%nat then Done (Ok (t, flags, m))
      else
        let! polys := merge_all (λ _ _, tt) (vt_verts t) nvp polys in
        let! m := store_polys nvp (ct_reg c) (ct_area c) polys m in
        Done (Ok (t, flags, m))).
Fixpoint all_contours (cap nvp : nat) (cs : list contour) (st : vtab * list bool * imesh) : outcome (presult (vtab * list bool * imesh)) :=
  match cs with
  | [] => Done (Ok st)
  | c :: cs' => pbind (one_contour cap nvp c st) (all_contours cap nvp cs')
  end.

(** poly_mesh.rs:366-384: removing the flagged vertices. [hf] is the fuel of the
    hole loop of each removal. *)
Fixpoint remove_flagged (fuel hf mt nvp : nat) (i : nat) (flags : list bool) (m : imesh) : outcome (presult imesh) :=
  if (i <? im_nv m)%nat then
    match fuel with
    | O => OutOfFuel
    | S fuel' =>
      let! f := get flags i in
      if f then
        let! can := can_remove (Z.of_nat i) nvp m in
        if negb can then remove_flagged fuel' hf mt nvp (S i) flags m
        else
          pbind (remove_vertex hf i mt nvp m) (λ m,
            if (length flags <? im_nv m + 1)%nat || (i =? 0)%nat then Panicked
            else
              let flags := take i flags ++ drop (i + 1) (take (im_nv m + 1) flags) ++ drop (im_nv m) flags in
              remove_flagged fuel' hf mt nvp i flags m)
      else remove_flagged fuel' hf mt nvp (S i) flags m
    end
  else Done (Ok m).

(** poly_mesh.rs:391-420: the portal edges of one polygon. *)
Definition portal (w h : Z) (va vb : vtx) : option Z :=
  if (vx va =? 0) && (vx vb =? 0) then Some BORDER_REGION
  else if (vz va =? h) && (vz vb =? h) then Some (Z.lor BORDER_REGION 1)
  else if (vx va =? w) && (vx vb =? w) then Some (Z.lor BORDER_REGION 2)
  else if (vz va =? 0) && (vz vb =? 0) then Some (Z.lor BORDER_REGION 3)
  else None.
Definition portal_slot (w h : Z) (nvp : nat) (verts : list vtx) (j : nat) (r : list Z * list Z) : outcome (list Z * list Z) :=
  let! v0 := get r.1 j in
  let! nb := get r.2 j in
  if negb (nb =? NO_INDEX) then Done r
  else
    let! v1 := next_vert r.1 nvp j in
    let! va := get verts (Z.to_nat v0) in
    let! vb := get verts (Z.to_nat v1) in
    match portal w h va vb with
    | Some p => let! n := put r.2 j p in Done (r.1, n)
    | None => Done r
    end.
Definition portal_row (w h : Z) (nvp : nat) (verts : list vtx) (r : list Z * list Z) : outcome (list Z * list Z) :=
  foldM (portal_slot w h nvp verts) (seq 0 (count_verts r.1 nvp)) r.
Definition find_portals (w h : Z) (nvp np : nat) (verts : list vtx) (polys : list (list Z * list Z)) : outcome (list (list Z * list Z)) :=
  foldM (λ i polys,
    let! r := get polys i in
    let! r := portal_row w h nvp verts r in
    put polys i r) (seq 0 np) polys.

(** poly_mesh.rs:72-133 [PolygonNavmesh]; [polygons] and [polygon_neighbors]
    row by row. *)
Record pmesh : Type := PMesh {
  pm_verts : list vtx;
  pm_polys : list (list Z);
  pm_nbrs : list (list Z);
  pm_flags : list Z;
  pm_regs : list Z;
  pm_areas : list Z;
  pm_nvp : nat;
  pm_geo : geo;
  pm_border : Z;
  pm_maxerr : f32
}.

(** poly_mesh.rs:167-195 [From<InternalPolygonNavmesh>], with the flags of
    line 423. [regions] is not truncated. *)
Definition finish_mesh (nvp : nat) (ks : contour_set) (m : imesh) : pmesh :=
  let rows := take (im_np m) (im_polys m) in
  PMesh (take (im_nv m) (im_verts m)) (fst <$> rows) (snd <$> rows) (repeat 0 (im_np m))
    (im_regs m) (take (im_np m) (im_areas m)) nvp (ks_geo ks) (ks_border ks) (ks_maxerr ks).

(** poly_mesh.rs:199-427 [ContourSet::into_polygon_mesh]. [hf] is the fuel of
    the loop that orders the hole of a removed vertex. *)
Definition into_polygon_mesh (hf nvp : nat) (ks : contour_set) : outcome (presult pmesh) :=
  let cs := ks_contours ks in
  let mv := max_vertices cs in
  let mt := max_tris cs in
  if 65535 <? Z.of_nat mv then Done (Err TooManyVertices)
  else
    let t0 := VTab (repeat (V 0 0 0) mv) 0 (repeat None (Z.to_nat BUCKETS)) (repeat (Some 0%nat) mv) in
    let m0 := IM [] 0 (repeat (repeat NO_INDEX nvp, repeat NO_INDEX nvp) mt) 0 (repeat 0 mt) (repeat 0 mt) in
    pbind (all_contours (max_verts_per_cont cs) nvp cs (t0, repeat false mv, m0)) (λ '(t, flags, m),
      let m := IM (vt_verts t) (vt_n t) (take (im_np m) (im_polys m)) (im_np m) (im_regs m) (im_areas m) in
      pbind (remove_flagged (2 * im_nv m) hf mt nvp 0 flags m) (λ m,
        let! polys := build_adjacency nvp (im_nv m) (im_np m) (im_polys m) in
        let! polys := if 0 <? ks_border ks
          then find_portals (ks_w ks) (ks_h ks) nvp (im_np m) (im_verts m) polys
          else Done polys in
        Done (Ok (finish_mesh nvp ks (IM (im_verts m) (im_nv m) polys (im_np m) (im_regs m) (im_areas m)))))).
