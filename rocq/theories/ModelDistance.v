(** Model of erosion.rs and watershed_distance_field.rs. *)
From Verif Require Import Base ModelMath ModelHeightfield ModelFilters ModelCompact.
Local Open Scope Z_scope.

(** The loops [for z in (0..h).rev() { for x in (0..w).rev() { .. } }]. *)
Definition for_cells_rev {St} (w h : nat) (f : nat → nat → St → outcome St) (s : St)
  : outcome St :=
  foldM (λ z, foldM (λ x, f x z) (rev (seq 0 w))) (rev (seq 0 h)) s.

(** erosion.rs:32-36, 64-66, 75-77 etc. and watershed_distance_field.rs:46-48,
    70-72 etc.: the column and index of the neighbour reached by connection
    [v] in direction [dir]; the coordinates are cast [as u16]. *)
Definition nb_index (ch : chf) (x z dir : nat) (v : Z) : outcome (nat * nat * nat) :=
  let ax := Z.to_nat (wrap_u16 (Z.of_nat x + dir_offset_x dir)) in
  let az := Z.to_nat (wrap_u16 (Z.of_nat z + dir_offset_z dir)) in
  let! cell := cell_at ch ax az in
  Done (ax, az, (cc_index cell + Z.to_nat v)%nat).

(** The two kinds of addition used by the sweeps: erosion.rs:68
    [u8::saturating_add] and the checked [u16] addition of
    watershed_distance_field.rs:74. *)
Definition add_sat_u8 (a b : Z) : outcome Z := Done (Z.min 255 (a + b)).
Definition add_chk_u16 (a b : Z) : outcome Z := chk_u16 (a + b).

(** erosion.rs:68-71, watershed_distance_field.rs:74: lower [dist[i]] to
    [dist[j] + w]. *)
Definition relax (add : Z → Z → outcome Z) (i j : nat) (w : Z) (D : list Z) : outcome (list Z) :=
  let! dj := get D j in
  let! nd := add dj w in
  let! di := get D i in
  put D i (Z.min di nd).

(** erosion.rs:62-83, watershed_distance_field.rs:68-83 (and the other three
    places of the same shape): the neighbour in direction [d1], then from there
    the neighbour in direction [d2]. *)
Definition relax_corner (add : Z → Z → outcome Z) (ch : chf) (x z i d1 d2 : nat) (D : list Z)
  : outcome (list Z) :=
  let! s := get (ch_spans ch) i in
  let! c1 := con s d1 in
  match c1 with
  | None => Done D
  | Some v =>
    let! (ax, az, ai) := nb_index ch x z d1 v in
    let! sa := get (ch_spans ch) ai in
    let! D1 := relax add i ai 2 D in
    let! c2 := con sa d2 in
    match c2 with
    | None => Done D1
    | Some v2 =>
      let! (_, _, bi) := nb_index ch ax az d2 v2 in
      relax add i bi 3 D1
    end
  end.

(** erosion.rs:57-106, 113-162 and watershed_distance_field.rs:64-101, 108-145:
    one cell of a sweep with the two corners [d1 d2] and [e1 e2]. *)
Definition sweep_cell (add : Z → Z → outcome Z) (ch : chf) (d1 d2 e1 e2 : nat) (x z : nat)
    (D : list Z) : outcome (list Z) :=
  let! cell := cell_at ch x z in
  foldM (λ i D,
    let! D1 := relax_corner add ch x z i d1 d2 D in
    relax_corner add ch x z i e1 e2 D1) (index_range cell) D.

(** erosion.rs:54-164, watershed_distance_field.rs:61-147: both sweeps. *)
Definition sweeps (add : Z → Z → outcome Z) (ch : chf) (D : list Z) : outcome (list Z) :=
  let! D1 := for_cells (ch_w ch) (ch_h ch) (sweep_cell add ch 0 3 3 2) D in
  for_cells_rev (ch_w ch) (ch_h ch) (sweep_cell add ch 2 1 1 0) D1.

(** ** erosion.rs *)

(** erosion.rs:27-42: the neighbour count; [break] on a missing or unwalkable
    neighbour. *)
Fixpoint walkable_nbs (ch : chf) (x z : nat) (s : cspan) (ds : list nat) (n : nat) : outcome nat :=
  match ds with
  | [] => Done n
  | d :: ds' =>
    let! c := con s d in
    match c with
    | None => Done n
    | Some v =>
      let! (_, _, ai) := nb_index ch x z d v in
      let! a := get (ch_areas ch) ai in
      if negb (is_walkable a) then Done n else walkable_nbs ch x z s ds' (n + 1)
    end
  end.

(** erosion.rs:20-48: one span of the boundary marking. *)
Definition mark_erosion (ch : chf) (x z i : nat) (D : list Z) : outcome (list Z) :=
  let! a := get (ch_areas ch) i in
  if negb (is_walkable a) then put D i 0
  else
    let! s := get (ch_spans ch) i in
    let! n := walkable_nbs ch x z s (seq 0 4) 0 in
    if (n =? 4)%nat then Done D else put D i 0.

Definition for_spans (ch : chf) (f : nat → nat → nat → list Z → outcome (list Z)) (x z : nat)
    (D : list Z) : outcome (list Z) :=
  let! cell := cell_at ch x z in
  foldM (f x z) (index_range cell) D.

(** erosion.rs:8-177 [erode_walkable_area]. *)
Definition erode_walkable_area (ch : chf) (r : Z) : outcome chf :=
  let D0 := repeat 255 (length (ch_spans ch)) in
  let! D1 := for_cells (ch_w ch) (ch_h ch) (for_spans ch (mark_erosion ch)) D0 in
  let! D2 := sweeps add_sat_u8 ch D1 in
  let! r2 := chk_u16 (r * 2) in
  let t := wrap_u8 r2 in
  let! A := foldM (λ i A,
    let! d := get D2 i in
    if d <? t then put A i NOT_WALKABLE else Done A) (seq 0 (length (ch_spans ch))) (ch_areas ch) in
  Done (ch_set_areas ch A).

(** ** watershed_distance_field.rs *)

(** watershed_distance_field.rs:43-53: neighbours of the same area. *)
Fixpoint same_area_nbs (ch : chf) (x z : nat) (s : cspan) (area : Z) (ds : list nat) (n : nat)
  : outcome nat :=
  match ds with
  | [] => Done n
  | d :: ds' =>
    let! c := con s d in
    match c with
    | None => same_area_nbs ch x z s area ds' n
    | Some v =>
      let! (_, _, ai) := nb_index ch x z d v in
      let! a := get (ch_areas ch) ai in
      same_area_nbs ch x z s area ds' (if area =? a then S n else n)
    end
  end.

(** watershed_distance_field.rs:39-57. *)
Definition mark_distance (ch : chf) (x z i : nat) (D : list Z) : outcome (list Z) :=
  let! s := get (ch_spans ch) i in
  let! area := get (ch_areas ch) i in
  let! n := same_area_nbs ch x z s area (seq 0 4) 0 in
  if (n <? 4)%nat then put D i 0 else Done D.

(** watershed_distance_field.rs:26-150 [calculate_distance_field]. *)
Definition calculate_distance_field (ch : chf) : outcome (list Z) :=
  let D0 := repeat 65535 (length (ch_spans ch)) in
  let! D1 := for_cells (ch_w ch) (ch_h ch) (for_spans ch (mark_distance ch)) D0 in
  sweeps add_chk_u16 ch D1.

(** watershed_distance_field.rs:168-189: the weighted sum over the 3 x 3
    neighbourhood ([u32] arithmetic). *)
Definition blur_dir (ch : chf) (D : list Z) (x z : nat) (s : cspan) (cd : Z) (dir : nat) (d : Z)
  : outcome Z :=
  let! c := con s dir in
  match c with
  | None => let! e := chk_u32 (cd * 2) in chk_u32 (d + e)
  | Some v =>
    let! (ax, az, ai) := nb_index ch x z dir v in
    let! da := get D ai in
    let! d1 := chk_u32 (d + da) in
    let! sa := get (ch_spans ch) ai in
    let dir2 := ((dir + 1) mod 4)%nat in
    let! c2 := con sa dir2 in
    match c2 with
    | None => chk_u32 (d1 + cd)
    | Some v2 =>
      let! (_, _, bi) := nb_index ch ax az dir2 v2 in
      let! db := get D bi in
      chk_u32 (d1 + db)
    end
  end.

(** watershed_distance_field.rs:160-191. *)
Definition blur_span (ch : chf) (D : list Z) (thr : Z) (x z i : nat) (R : list Z)
  : outcome (list Z) :=
  let! s := get (ch_spans ch) i in
  let! cd := get D i in
  if cd <=? thr then put R i cd
  else
    let! d := foldM (blur_dir ch D x z s cd) (seq 0 4) cd in
    let! d5 := chk_u32 (d + 5) in
    put R i (wrap_u16 (d5 / 9)).

(** watershed_distance_field.rs:152-195 [box_blur]. *)
Definition box_blur (ch : chf) (thr : Z) (D : list Z) : outcome (list Z) :=
  let thr2 := Z.min 65535 (thr * 2) in
  for_cells (ch_w ch) (ch_h ch) (for_spans ch (blur_span ch D thr2)) (repeat 0 (length D)).

Definition ch_set_dist (c : chf) (m : Z) (d : list Z) : chf :=
  mkChf (ch_w c) (ch_h c) (ch_wh c) (ch_wc c) (ch_border c) m (ch_maxreg c)
    (ch_geo c) (ch_cells c) (ch_spans c) d (ch_areas c).

(** [Iterator::max]. *)
Definition list_max_opt (l : list Z) : option Z :=
  match l with [] => None | a :: l' => Some (foldr Z.max a l') end.

(** watershed_distance_field.rs:18-24 [build_distance_field]. *)
Definition build_distance_field (ch : chf) : outcome chf :=
  let! D := calculate_distance_field ch in
  let! m := unwrap (list_max_opt D) in
  let! B := box_blur ch 1 D in
  Done (ch_set_dist ch m B).
