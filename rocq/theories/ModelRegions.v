(** Model of watershed_build_regions.rs and region.rs. *)
From Verif Require Import Base ModelMath ModelHeightfield ModelFilters ModelCompact ModelDistance.
Local Open Scope Z_scope.

(** ** region.rs *)

(** region.rs:14-27: ids are [u16]; [NONE], [BORDER_REGION], [MAX]. *)
Definition REG_NONE : Z := 0.
Definition BORDER_REGION : Z := 32768.
Definition REG_MAX : Z := 65535.
(** region.rs:15 [RegionId::intersects(BORDER_REGION)] (generated by bitflags). *)
Definition is_border (r : Z) : bool := negb (Z.land r BORDER_REGION =? 0).
(** region.rs:15 [RegionId | BORDER_REGION]. *)
Definition to_border (r : Z) : Z := Z.lor r BORDER_REGION.
(** region.rs:29-40 [RegionId + u16]: checked addition. *)
Definition reg_add (r k : Z) : outcome Z := chk_u16 (r + k).

(** ** Work lists of the watershed *)

(** watershed_build_regions.rs:818-823 [LevelStackEntry]. *)
Record entry : Type := Ent { e_x : nat; e_z : nat; e_i : option nat }.
(** watershed_build_regions.rs:825-830 [DirtyEntry]. *)
Record dirty : Type := Dirt { dt_i : nat; dt_reg : Z; dt_dist : Z }.
(** [src_reg] and [src_dist] (watershed_build_regions.rs:37-38). *)
Record marks : Type := Marks { m_reg : list Z; m_dist : list Z }.

(** watershed_build_regions.rs:624-645 [paint_rect_region]. *)
Definition paint_rect_region (ch : chf) (min_x max_x min_z max_z : nat) (r : Z) (R : list Z)
  : outcome (list Z) :=
  foldM (λ z, foldM (λ x R,
    let! cell := cell_at ch x z in
    foldM (λ i R,
      let! a := get (ch_areas ch) i in
      if is_walkable a then put R i r else Done R) (index_range cell) R)
    (seq min_x (max_x - min_x))) (seq min_z (max_z - min_z)) R.

(** watershed_build_regions.rs:647-684 [sort_cells_by_level], called with 8
    stacks and [log_levels_per_stack = 1]. The stacks are cleared first. *)
Definition sort_cells_by_level (ch : chf) (start_level : Z) (R : list Z) : outcome (list (list entry)) :=
  let start := Z.shiftr start_level 1 in
  for_cells (ch_w ch) (ch_h ch) (λ x z stacks,
    let! cell := cell_at ch x z in
    foldM (λ i stacks,
      let! a := get (ch_areas ch) i in
      let! r := get R i in
      if negb (is_walkable a) || negb (r =? REG_NONE) then Done stacks
      else
        let! d := get (ch_dist ch) i in
        let sid := Z.max 0 (start - Z.shiftr d 1) in
        if 8 <=? sid then Done stacks
        else
          let! st := get stacks (Z.to_nat sid) in
          put stacks (Z.to_nat sid) (st ++ [Ent x z (Some i)]))
      (index_range cell) stacks) (repeat [] 8).

(** watershed_build_regions.rs:802-816 [append_stacks]. *)
Definition append_stacks (src dst : list entry) (R : list Z) : outcome (list entry) :=
  foldM (λ e dst,
    match e_i e with
    | None => Done dst
    | Some i =>
      let! r := get R i in
      if negb (r =? REG_NONE) then Done dst else Done (dst ++ [e])
    end) src dst.

(** watershed_build_regions.rs:745-768: the region and distance a span takes
    over from its neighbours. *)
Definition expand_dir (ch : chf) (M : marks) (x z : nat) (s : cspan) (area : Z) (dir : nat)
    (rd : Z * Z) : outcome (Z * Z) :=
  let! c := con s dir in
  match c with
  | None => Done rd
  | Some v =>
    let! (_, _, ai) := nb_index ch x z dir v in
    let! a := get (ch_areas ch) ai in
    if negb (a =? area) then Done rd
    else
      let! ar := get (m_reg M) ai in
      let! ad := get (m_dist M) ai in
      let! ad2 := chk_u16 (ad + 2) in
      if negb (ar =? REG_NONE) && negb (is_border ar) && (ad2 <? snd rd) then Done (ar, ad2)
      else Done rd
  end.

(** watershed_build_regions.rs:737-780: one entry of one round. The state is
    the rebuilt stack, [failed] and [dirty_entries]. *)
Definition expand_entry (ch : chf) (M : marks) (e : entry)
    (st : list entry * nat * list dirty) : outcome (list entry * nat * list dirty) :=
  let '(stack, failed, dirt) := st in
  match e_i e with
  | None => Done (stack ++ [e], S failed, dirt)
  | Some i =>
    let! r0 := get (m_reg M) i in
    let! area := get (ch_areas ch) i in
    let! s := get (ch_spans ch) i in
    let! (r, d2) := foldM (expand_dir ch M (e_x e) (e_z e) s area) (seq 0 4) (r0, 65535) in
    if negb (r =? REG_NONE)
    then Done (stack ++ [Ent (e_x e) (e_z e) None], failed, dirt ++ [Dirt i r d2])
    else Done (stack ++ [e], S failed, dirt)
  end.

(** watershed_build_regions.rs:782-786. *)
Definition apply_dirty (t : dirty) (M : marks) : outcome marks :=
  let! R := put (m_reg M) (dt_i t) (dt_reg t) in
  let! D := put (m_dist M) (dt_i t) (dt_dist t) in
  Done (Marks R D).

(** watershed_build_regions.rs:731-798: the rounds. *)
Fixpoint expand_loop (fuel : nat) (ch : chf) (max_iter level iter : Z) (M : marks) (stack : list entry)
  : outcome (marks * list entry) :=
  match fuel with
  | O => OutOfFuel
  | S fuel' =>
    match stack with
    | [] => Done (M, stack)
    | _ =>
      let! (stack', failed, dirt) := foldM (expand_entry ch M) stack ([], 0%nat, []) in
      let! M' := foldM apply_dirty dirt M in
      if (failed =? length stack')%nat then Done (M', stack')
      else if 0 <? level then
        if max_iter <=? iter + 1 then Done (M', stack')
        else expand_loop fuel' ch max_iter level (iter + 1) M' stack'
      else expand_loop fuel' ch max_iter level iter M' stack'
    end
  end.

(** watershed_build_regions.rs:695-716: fill the stack with the unassigned
    walkable spans of the level. *)
Definition fill_stack (ch : chf) (level : Z) (R : list Z) : outcome (list entry) :=
  for_cells (ch_w ch) (ch_h ch) (λ x z stack,
    let! cell := cell_at ch x z in
    foldM (λ i stack,
      let! d := get (ch_dist ch) i in
      let! r := get R i in
      let! a := get (ch_areas ch) i in
      if (level <=? d) && (r =? REG_NONE) && is_walkable a
      then Done (stack ++ [Ent x z (Some i)]) else Done stack) (index_range cell) stack) [].

(** watershed_build_regions.rs:717-728: drop entries that have a region. *)
Definition drop_assigned (R : list Z) (stack : list entry) : outcome (list entry) :=
  mapM_o (λ e, match e_i e with
    | None => Done e
    | Some i =>
      let! r := get R i in
      if negb (r =? REG_NONE) then Done (Ent (e_x e) (e_z e) None) else Done e
    end) stack.

(** watershed_build_regions.rs:686-799 [expand_regions]. The number of rounds
    is bounded by the fuel; running out of it would be reported. *)
Definition expand_regions (ch : chf) (max_iter level : Z) (M : marks) (stack : list entry) (fill : bool)
  : outcome (marks * list entry) :=
  let! stack0 := if fill then fill_stack ch level (m_reg M) else drop_assigned (m_reg M) stack in
  expand_loop (S (length stack0)) ch max_iter level 0 M stack0.

(** watershed_build_regions.rs:552-590: the first foreign region next to a
    span; [NONE] when a border neighbour is met first. *)
Fixpoint flood_foreign (ch : chf) (R : list Z) (area region : Z) (x z : nat) (s : cspan) (ds : list nat)
  : outcome Z :=
  match ds with
  | [] => Done REG_NONE
  | d :: ds' =>
    let! c := con s d in
    match c with
    | None => flood_foreign ch R area region x z s ds'
    | Some v =>
      let! (ax, az, ai) := nb_index ch x z d v in
      let! a := get (ch_areas ch) ai in
      if negb (a =? area) then flood_foreign ch R area region x z s ds'
      else
        let! nr := get R ai in
        if is_border nr then Done REG_NONE
        else if negb (nr =? REG_NONE) && negb (nr =? region) then Done nr
        else
          let! sa := get (ch_spans ch) ai in
          let d2 := ((d + 1) mod 4)%nat in
          let! c2 := con sa d2 in
          match c2 with
          | None => flood_foreign ch R area region x z s ds'
          | Some v2 =>
            let! (_, _, bi) := nb_index ch ax az d2 v2 in
            let! a2 := get (ch_areas ch) bi in
            if negb (a2 =? area) then flood_foreign ch R area region x z s ds'
            else
              let! nr2 := get R bi in
              if negb (nr2 =? REG_NONE) && negb (nr2 =? region) then Done nr2
              else flood_foreign ch R area region x z s ds'
          end
    end
  end.

(** watershed_build_regions.rs:600-619: push the unassigned neighbours. *)
Definition flood_dir (ch : chf) (area region level : Z) (x z : nat) (s : cspan) (dir : nat)
    (st : marks * list entry) : outcome (marks * list entry) :=
  let '(M, stack) := st in
  let! c := con s dir in
  match c with
  | None => Done (M, stack)
  | Some v =>
    let! (ax, az, ai) := nb_index ch x z dir v in
    let! a := get (ch_areas ch) ai in
    if negb (a =? area) then Done (M, stack)
    else
      let! d := get (ch_dist ch) ai in
      let! r := get (m_reg M) ai in
      if (level <=? d) && (r =? REG_NONE) then
        let! R := put (m_reg M) ai region in
        let! D := put (m_dist M) ai 0 in
        Done (Marks R D, Ent ax az (Some ai) :: stack)
      else Done (M, stack)
  end.

(** watershed_build_regions.rs:542-620: the flood loop. The head of the list is
    the top of the stack. *)
Fixpoint flood_loop (fuel : nat) (ch : chf) (area region level : Z) (M : marks) (stack : list entry)
    (count : nat) : outcome (marks * nat) :=
  match stack with
  | [] => Done (M, count)
  | e :: stack' =>
    match fuel with
    | O => OutOfFuel
    | S fuel' =>
      match e_i e with
      | None => flood_loop fuel' ch area region level M stack' count
      | Some ci =>
        let! s := get (ch_spans ch) ci in
        let! ar := flood_foreign ch (m_reg M) area region (e_x e) (e_z e) s (seq 0 4) in
        if negb (ar =? REG_NONE) then
          let! R := put (m_reg M) ci REG_NONE in
          flood_loop fuel' ch area region level (Marks R (m_dist M)) stack' count
        else
          let! (M', stack'') :=
            foldM (flood_dir ch area region level (e_x e) (e_z e) s) (seq 0 4) (M, stack') in
          flood_loop fuel' ch area region level M' stack'' (S count)
      end
    end
  end.

(** watershed_build_regions.rs:520-622 [flood_region]. *)
Definition flood_region (ch : chf) (e : entry) (level region : Z) (M : marks) : outcome (marks * bool) :=
  let! i := unwrap (e_i e) in
  let! area := get (ch_areas ch) i in
  let! R := put (m_reg M) i region in
  let! D := put (m_dist M) i 0 in
  let! (M', count) :=
    flood_loop (4 * length (ch_spans ch) + 2) ch area region (Z.max 0 (level - 2)) (Marks R D) [e] 0 in
  Done (M', (0 <? count)%nat).

(** watershed_build_regions.rs:118-137: give new ids to what is left of a
    level. [None]: the region ids are exhausted. *)
Fixpoint mark_new (ch : chf) (level : Z) (stack : list entry) (M : marks) (id : Z)
  : outcome (option (marks * Z)) :=
  match stack with
  | [] => Done (Some (M, id))
  | e :: stack' =>
    match e_i e with
    | None => mark_new ch level stack' M id
    | Some i =>
      let! r := get (m_reg M) i in
      if negb (r =? REG_NONE) then mark_new ch level stack' M id
      else
        let! (M', found) := flood_region ch e level id M in
        if found then
          if id =? REG_MAX then Done None
          else
            let! id' := reg_add id 1 in
            mark_new ch level stack' M' id'
        else mark_new ch level stack' M' id
    end
  end.

(** watershed_build_regions.rs:95-138: the levels. [sid] is [s_id]. *)
Fixpoint level_loop (fuel : nat) (ch : chf) (level sid : Z) (stacks : list (list entry)) (M : marks) (id : Z)
  : outcome (option (marks * Z)) :=
  if 0 <? level then
    match fuel with
    | O => OutOfFuel
    | S fuel' =>
      let level := Z.max 0 (level - 2) in
      let sid := (sid + 1) mod 8 in
      let! stacks1 :=
        if sid =? 0 then sort_cells_by_level ch level (m_reg M)
        else
          let! src := get stacks (Z.to_nat sid - 1) in
          let! dst := get stacks (Z.to_nat sid) in
          let! dst' := append_stacks src dst (m_reg M) in
          put stacks (Z.to_nat sid) dst' in
      let! stack := get stacks1 (Z.to_nat sid) in
      let! (M1, stack') := expand_regions ch 8 level M stack false in
      let! stacks2 := put stacks1 (Z.to_nat sid) stack' in
      let! res := mark_new ch level stack' M1 id in
      match res with
      | None => Done None
      | Some (M2, id') => level_loop fuel' ch level sid stacks2 M2 id'
      end
    end
  else Done (Some (M, id)).

(** watershed_build_regions.rs:50-92: paint the borders. *)
Definition paint_borders (ch : chf) (border : Z) (R : list Z) : outcome (list Z * Z) :=
  if 0 <? border then
    let w := ch_w ch in
    let h := ch_h ch in
    let bw := Z.to_nat (Z.min border (Z.of_nat w)) in
    let bh := Z.to_nat (Z.min border (Z.of_nat h)) in
    let! R1 := paint_rect_region ch 0 bw 0 h (to_border 1) R in
    let! R2 := paint_rect_region ch (w - bw) w 0 h (to_border 2) R1 in
    let! R3 := paint_rect_region ch 0 w 0 bh (to_border 3) R2 in
    let! R4 := paint_rect_region ch 0 w (h - bh) h (to_border 4) R3 in
    Done (R4, 5)
  else Done (R, 1).

(** watershed_build_regions.rs:37-148: painting, the levels and the final
    expansion. *)
Definition watershed (ch : chf) (border : Z) : outcome (option (marks * Z)) :=
  let n := length (ch_spans ch) in
  let! l0 := chk_u16 (ch_maxdist ch + 1) in
  let level := Z.ldiff l0 1 in
  let! (R, id) := paint_borders ch border (repeat REG_NONE n) in
  let! res := level_loop (Z.to_nat level) ch level (-1) (repeat [] 8) (Marks R (repeat 0 n)) id in
  match res with
  | None => Done None
  | Some (M, id') =>
    let! (M', _) := expand_regions ch 64 0 M [] true in
    Done (Some (M', id'))
  end.

(** ** Regions *)

(** watershed_build_regions.rs:832-848 [Region], without the three fields that
    are never read. *)
Record region : Type := Rg {
  rg_count : nat;
  rg_id : Z;
  rg_area : Z;
  rg_remap : bool;
  rg_visited : bool;
  rg_overlap : bool;
  rg_con : list Z;
  rg_floors : list Z
}.
(** watershed_build_regions.rs:850-864 [new]. *)
Definition rg_new (id : Z) : region := Rg 0 id NOT_WALKABLE false false false [] [].

Definition rg_set_id (g : region) (id : Z) : region :=
  Rg (rg_count g) id (rg_area g) (rg_remap g) (rg_visited g) (rg_overlap g) (rg_con g) (rg_floors g).
Definition rg_set_con (g : region) (c : list Z) : region :=
  Rg (rg_count g) (rg_id g) (rg_area g) (rg_remap g) (rg_visited g) (rg_overlap g) c (rg_floors g).
Definition rg_set_count (g : region) (n : nat) : region :=
  Rg n (rg_id g) (rg_area g) (rg_remap g) (rg_visited g) (rg_overlap g) (rg_con g) (rg_floors g).
Definition rg_set_visited (g : region) : region :=
  Rg (rg_count g) (rg_id g) (rg_area g) (rg_remap g) true (rg_overlap g) (rg_con g) (rg_floors g).
Definition rg_set_remap (g : region) (b : bool) : region :=
  Rg (rg_count g) (rg_id g) (rg_area g) b (rg_visited g) (rg_overlap g) (rg_con g) (rg_floors g).
Definition rg_set_floors (g : region) (o : bool) (f : list Z) : region :=
  Rg (rg_count g) (rg_id g) (rg_area g) (rg_remap g) (rg_visited g) o (rg_con g) f.
Definition rg_set_area (g : region) (a : Z) : region :=
  Rg (rg_count g) (rg_id g) a (rg_remap g) (rg_visited g) (rg_overlap g) (rg_con g) (rg_floors g).

(** [Vec::contains]. *)
Definition contains (l : list Z) (v : Z) : bool := existsb (Z.eqb v) l.

(** watershed_build_regions.rs:866-871 [add_unique_floor_region]. *)
Definition add_floor (f : list Z) (id : Z) : list Z := if contains f id then f else f ++ [id].

(** watershed_build_regions.rs:439-444, 452-458, 510-516: the region across
    the edge in direction [dir]. *)
Definition region_across (ch : chf) (R : list Z) (x z i dir : nat) : outcome Z :=
  let! s := get (ch_spans ch) i in
  let! c := con s dir in
  match c with
  | None => Done REG_NONE
  | Some v =>
    let! (_, _, ai) := nb_index ch x z dir v in
    get R ai
  end.

(** watershed_build_regions.rs:508-518 [is_solid_edge]. *)
Definition is_solid_edge (ch : chf) (R : list Z) (x z i dir : nat) : outcome bool :=
  let! r := region_across ch R x z i dir in
  let! ri := get R i in
  Done (negb (r =? ri)).

(** watershed_build_regions.rs:228: the first solid edge. *)
Fixpoint find_edge (ch : chf) (R : list Z) (x z i : nat) (ds : list nat) : outcome (option nat) :=
  match ds with
  | [] => Done None
  | d :: ds' =>
    let! b := is_solid_edge ch R x z i d in
    if b then Done (Some d) else find_edge ch R x z i ds'
  end.

(** watershed_build_regions.rs:448-489: walk around the region. The result says
    whether the loop ended regularly ([false]: the early [return] of line 483). *)
Fixpoint walk_loop (fuel : nat) (ch : chf) (R : list Z) (si sdir : nat) (x z i dir : nat) (cur : Z)
    (cs : list Z) : outcome (list Z * bool) :=
  match fuel with
  | O => Done (cs, true)
  | S fuel' =>
    let! s := get (ch_spans ch) i in
    let! b := is_solid_edge ch R x z i dir in
    if b then
      let! r := region_across ch R x z i dir in
      let cs' := if r =? cur then cs else cs ++ [r] in
      let dir' := ((dir + 1) mod 4)%nat in
      if (si =? i)%nat && (sdir =? dir')%nat then Done (cs', true)
      else walk_loop fuel' ch R si sdir x z i dir' r cs'
    else
      let! c := con s dir in
      match c with
      | None => Done (cs, false)
      | Some v =>
        let! (nx, nz, ni) := nb_index ch x z dir v in
        let dir' := ((dir + 3) mod 4)%nat in
        if (si =? ni)%nat && (sdir =? dir')%nat then Done (cs, true)
        else walk_loop fuel' ch R si sdir nx nz ni dir' cur cs
      end
  end.

(** watershed_build_regions.rs:496-500, 924-928: shift left and pop. *)
Definition remove_at (l : list Z) (i : nat) : list Z := take i l ++ drop (S i) l.

(** watershed_build_regions.rs:492-505 and 918-933 [remove_adjacent_neighbours]:
    remove cyclically adjacent duplicates, starting at [j]. [keep_one]: stop at
    a single element (only line 921 has that test). *)
Fixpoint dedup_loop (fuel : nat) (keep_one : bool) (l : list Z) (j : nat) : outcome (list Z) :=
  match fuel with
  | O => OutOfFuel
  | S fuel' =>
    if (j <? length l)%nat && (negb keep_one || (1 <? length l)%nat) then
      let! a := get l j in
      let! b := get l ((j + 1) mod length l) in
      if a =? b then dedup_loop fuel' keep_one (remove_at l j) j
      else dedup_loop fuel' keep_one l (S j)
    else Done l
  end.

(** watershed_build_regions.rs:425-506 [walk_contour], called with an empty
    list of connections. *)
Definition walk_contour (ch : chf) (R : list Z) (x z i dir : nat) : outcome (list Z) :=
  let! cur := region_across ch R x z i dir in
  let! (cs, ended) := walk_loop (Z.to_nat 40000) ch R i dir x z i dir cur [cur] in
  if ended && (1 <? length cs)%nat then dedup_loop (S (length cs)) false cs 0 else Done cs.

(** watershed_build_regions.rs:205-218: other floors of the cell. *)
Definition floor_step (R : list Z) (nreg r : Z) (i j : nat) (of : bool * list Z)
  : outcome (bool * list Z) :=
  if (i =? j)%nat then Done of
  else
    let! f := get R j in
    if (f =? REG_NONE) || (nreg <=? f) then Done of
    else Done (fst of || (f =? r), add_floor (snd of) f).

(** watershed_build_regions.rs:197-234: one span. *)
Definition collect_span (ch : chf) (R : list Z) (nreg : Z) (x z : nat) (cell : ccell) (i : nat)
    (regs : list region) : outcome (list region) :=
  let! r := get R i in
  if (r =? REG_NONE) || (nreg <=? r) then Done regs
  else
    let! g := get regs (Z.to_nat r) in
    let g1 := rg_set_count g (S (rg_count g)) in
    let! (ov, fl) := foldM (floor_step R nreg r i) (index_range cell) (rg_overlap g1, rg_floors g1) in
    let g2 := rg_set_floors g1 ov fl in
    let! g3 :=
      match rg_con g2 with
      | _ :: _ => Done g2
      | [] =>
        let! a := get (ch_areas ch) i in
        let! nd := find_edge ch R x z i (seq 0 4) in
        match nd with
        | None => Done (rg_set_area g2 a)
        | Some d =>
          let! cs := walk_contour ch R x z i d in
          Done (rg_set_con (rg_set_area g2 a) cs)
        end
      end in
    put regs (Z.to_nat r) g3.

(** watershed_build_regions.rs:186-236. *)
Definition collect_regions (ch : chf) (R : list Z) (nreg : Z) : outcome (list region) :=
  for_cells (ch_w ch) (ch_h ch) (λ x z regs,
    let! cell := cell_at ch x z in
    foldM (collect_span ch R nreg x z cell) (index_range cell) regs)
    ((λ k, rg_new (Z.of_nat k)) <$> seq 0 (Z.to_nat nreg)).

(** [id == NONE || id.intersects(BORDER_REGION)] (lines 243, 277, 306, ...). *)
Definition dead (id : Z) : bool := (id =? REG_NONE) || is_border id.

(** watershed_build_regions.rs:268-285: the neighbours of a visited region. *)
Definition visit_con (c : Z) (st : list region * list nat * bool) : outcome (list region * list nat * bool) :=
  let '(regs, stack, tob) := st in
  if is_border c then Done (regs, stack, true)
  else
    let! g := get regs (Z.to_nat c) in
    if rg_visited g || dead (rg_id g) then Done (regs, stack, tob)
    else
      let! regs' := put regs (Z.to_nat c) (rg_set_visited g) in
      Done (regs', Z.to_nat (rg_id g) :: stack, tob).

(** watershed_build_regions.rs:263-286: the search. The result is the regions,
    the span count, [trace] and [connects_to_border]. Span counts are [usize];
    they cannot exceed the number of spans and are not bounded here. *)
Fixpoint visit_loop (fuel : nat) (regs : list region) (stack : list nat) (cnt : nat) (trace : list nat)
    (tob : bool) : outcome (list region * nat * list nat * bool) :=
  match stack with
  | [] => Done (regs, cnt, trace, tob)
  | ri :: stack' =>
    match fuel with
    | O => OutOfFuel
    | S fuel' =>
      let! g := get regs ri in
      let! (regs', stack'', tob') := foldM visit_con (rg_con g) (regs, stack', tob) in
      visit_loop fuel' regs' stack'' (cnt + rg_count g) (trace ++ [ri]) tob'
    end
  end.

(** watershed_build_regions.rs:294-297. *)
Definition kill (t : nat) (regs : list region) : outcome (list region) :=
  let! g := get regs t in
  put regs t (rg_set_id (rg_set_count g 0) REG_NONE).

(** watershed_build_regions.rs:241-299: remove small islands of regions. *)
Definition prune_region (min_area : Z) (i : nat) (regs : list region) : outcome (list region) :=
  let! g := get regs i in
  if dead (rg_id g) || (rg_count g =? 0)%nat || rg_visited g then Done regs
  else
    let! regs1 := put regs i (rg_set_visited g) in
    let! (regs2, cnt, trace, tob) := visit_loop (S (length regs)) regs1 [i] 0 [] false in
    if (Z.of_nat cnt <? min_area) && negb tob then foldM kill trace regs2 else Done regs2.

Definition prune_regions (min_area : Z) (regs : list region) : outcome (list region) :=
  foldM (prune_region min_area) (seq 0 (length regs)) regs.

(** watershed_build_regions.rs:879-898 [can_merge_with]. *)
Definition can_merge_with (g o : region) : bool :=
  (rg_area g =? rg_area o)
  && (length (filter (λ c, c = rg_id o) (rg_con g)) <=? 1)%nat
  && negb (contains (rg_floors g) (rg_id o)).

(** watershed_build_regions.rs:918-933 [remove_adjacent_neighbours]. *)
Definition remove_adjacent_neighbours (l : list Z) : outcome (list Z) :=
  dedup_loop (S (length l)) true l 0.

(** watershed_build_regions.rs:900-916 [replace_neighbour]. *)
Definition replace_neighbour (g : region) (old new : Z) : outcome region :=
  let sub := λ c, if c =? old then new else c in
  let con' := sub <$> rg_con g in
  let fl' := sub <$> rg_floors g in
  let! con'' := if contains (rg_con g) old then remove_adjacent_neighbours con' else Done con' in
  Done (rg_set_floors (rg_set_con g con'') (rg_overlap g) fl').

(** [Iterator::position]. *)
Fixpoint position (l : list Z) (v : Z) : option nat :=
  match l with
  | [] => None
  | a :: l' => if a =? v then Some 0%nat else S <$> position l' v
  end.

(** watershed_build_regions.rs:964-968, 970-974: the list without position
    [p], starting after it. *)
Definition around (l : list Z) (p : nat) : list Z :=
  (λ i, nth ((p + 1 + i) mod length l) l 0) <$> seq 0 (length l - 1).

(** watershed_build_regions.rs:940-983 [merge_regions]. *)
Definition merge_regions (a b : region) : outcome (option region) :=
  match position (rg_con a) (rg_id b), position (rg_con b) (rg_id a) with
  | Some pa, Some pb =>
    let! con := remove_adjacent_neighbours (around (rg_con a) pa ++ around (rg_con b) pb) in
    let fl := foldl add_floor (rg_floors a) (rg_floors b) in
    Done (Some (rg_set_count (rg_set_floors (rg_set_con a con) (rg_overlap a) fl)
                  (rg_count a + rg_count b)))
  | _, _ => Done None
  end.

(** watershed_build_regions.rs:325-345: the smallest mergeable neighbour.
    [usize::MAX] is represented by [None]. *)
Definition pick_neighbour (g : region) (regs : list region) (c : Z) (best : option nat * Z)
  : outcome (option nat * Z) :=
  if is_border c then Done best
  else
    let! m := get regs (Z.to_nat c) in
    if dead (rg_id m) || rg_overlap m then Done best
    else if (match fst best with None => true | Some b => (rg_count m <? b)%nat end)
         && can_merge_with g m && can_merge_with m g
    then Done (Some (rg_count m), rg_id m) else Done best.

(** watershed_build_regions.rs:355-370: one region of the fix-up. *)
Definition fix_region (old new : Z) (j : nat) (regs : list region) : outcome (list region) :=
  let! g := get regs j in
  if dead (rg_id g) then Done regs
  else
    let g1 := if rg_id g =? old then rg_set_id g new else g in
    let! g2 := replace_neighbour g1 old new in
    put regs j g2.

(** watershed_build_regions.rs:304-374: try to merge region [i]. *)
Definition merge_step (merge_size : Z) (i : nat) (st : list region * nat) : outcome (list region * nat) :=
  let '(regs, merges) := st in
  let! g := get regs i in
  if dead (rg_id g) || rg_overlap g || (rg_count g =? 0)%nat then Done (regs, merges)
  else if (merge_size <? Z.of_nat (rg_count g)) && contains (rg_con g) REG_NONE then Done (regs, merges)
  else
    let! (_, mid) := foldM (pick_neighbour g regs) (rg_con g) (None, rg_id g) in
    if mid =? rg_id g then Done (regs, merges)
    else
      let! t := get regs (Z.to_nat mid) in
      let! merged := merge_regions t g in
      match merged with
      | None => Done (regs, merges)
      | Some t' =>
        let! regs1 := put regs (Z.to_nat mid) t' in
        let! gi := get regs1 i in
        let! regs2 := put regs1 i (rg_set_con (rg_set_count gi 0) []) in
        let! regs3 := foldM (fix_region (rg_id g) mid) (seq 0 (length regs2)) regs2 in
        Done (regs3, S merges)
      end.

(** watershed_build_regions.rs:302-379. *)
Fixpoint merge_loop (fuel : nat) (merge_size : Z) (regs : list region) : outcome (list region) :=
  match fuel with
  | O => OutOfFuel
  | S fuel' =>
    let! (regs', merges) := foldM (merge_step merge_size) (seq 0 (length regs)) (regs, 0%nat) in
    if (merges =? 0)%nat then Done regs' else merge_loop fuel' merge_size regs'
  end.

(** watershed_build_regions.rs:398-403. *)
Definition renumber (old new : Z) (j : nat) (regs : list region) : outcome (list region) :=
  let! g := get regs j in
  if rg_id g =? old then put regs j (rg_set_remap (rg_set_id g new) false) else Done regs.

(** watershed_build_regions.rs:390-404. *)
Definition compress_step (i : nat) (st : list region * Z) : outcome (list region * Z) :=
  let '(regs, gen) := st in
  let! g := get regs i in
  if negb (rg_remap g) then Done (regs, gen)
  else
    let! gen' := chk_u16 (gen + 1) in
    let! regs' := foldM (renumber (rg_id g) gen') (seq i (length regs - i)) regs in
    Done (regs', gen').

(** watershed_build_regions.rs:381-405. *)
Definition compress_ids (regs : list region) : outcome (list region * Z) :=
  let regs0 := (λ g, rg_set_remap g (negb (dead (rg_id g)))) <$> regs in
  foldM compress_step (seq 0 (length regs0)) (regs0, 0).

(** watershed_build_regions.rs:408-412. *)
Definition remap_reg (regs : list region) (r : Z) : outcome Z :=
  if is_border r then Done r
  else
    let! g := get regs (Z.to_nat r) in
    Done (rg_id g).

(** watershed_build_regions.rs:174-423 [merge_and_filter_regions]. The result is
    the new [src_reg], [max_region] and the list of overlapping regions. *)
Definition merge_and_filter_regions (ch : chf) (max_region min_area merge_size : Z) (R : list Z)
  : outcome (list Z * Z * list Z) :=
  let! nreg := chk_u16 (max_region + 1) in
  let! regs0 := collect_regions ch R nreg in
  let! regs1 := prune_regions min_area regs0 in
  let! regs2 := merge_loop (S (length regs1)) merge_size regs1 in
  let! (regs3, gen) := compress_ids regs2 in
  let! R' := mapM_o (remap_reg regs3) R in
  Done (R', gen, rg_id <$> filter (λ g, rg_overlap g = true) regs3).

(** watershed_build_regions.rs:166-169. *)
Definition set_region (s : cspan) (r : Z) : cspan := CS (cs_y s) r (cs_data s).

Definition ch_set_regions (c : chf) (border maxreg : Z) (s : list cspan) : chf :=
  mkChf (ch_w c) (ch_h c) (ch_wh c) (ch_wc c) border (ch_maxdist c) maxreg
    (ch_geo c) (ch_cells c) s (ch_dist c) (ch_areas c).

(** watershed_build_regions.rs:22-172 [build_regions]. [None]: the error
    [RegionIdOverflow] (the partly built field is not returned). Overlapping
    regions are only logged. *)
Definition build_regions (ch : chf) (border min_area merge_size : Z) : outcome (option chf) :=
  let! res := watershed ch border in
  match res with
  | None => Done None
  | Some (M, id) =>
    let! (R, maxreg, _) := merge_and_filter_regions ch id min_area merge_size (m_reg M) in
    let! spans := foldM (λ i spans,
      let! r := get R i in
      let! s := get spans i in
      put spans i (set_region s r)) (seq 0 (length (ch_spans ch))) (ch_spans ch) in
    Done (Some (ch_set_regions ch border maxreg spans))
  end.
