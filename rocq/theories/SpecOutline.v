(** Specification vocabulary for the outlines of regions. *)
From Verif Require Import Base ModelMath ModelHeightfield SpecHeightfield ModelCompact SpecCompact
  SpecDistance SpecRegions ModelContours SpecContours.
Local Open Scope Z_scope.

Definition Zsum (l : list Z) : Z := foldr Z.add 0 l.

(** The ray from the centre of cell [(x, z)] towards +x meets the step from [p]
    to [q]: 1 if that goes towards -z, -1 if it goes towards +z. *)
Definition crossing (x z : Z) (p q : Z * Z) : Z :=
  if (x <? fst p) && (fst p =? fst q) then
    if (snd p =? z + 1) && (snd q =? z) then 1
    else if (snd p =? z) && (snd q =? z + 1) then -1 else 0
  else 0.

(** How often a closed loop of unit steps goes round the centre of cell
    [(x, z)], clockwise if +z is up. *)
Definition winding (x z : Z) (l : list (Z * Z)) : Z :=
  Zsum ((λ k, match l !! k, l !! ((k + 1) mod length l)%nat with
    | Some p, Some q => crossing x z p q
    | _, _ => 0
    end) <$> seq 0 (length l)).

(** The number of spans of region [r] in column [c]. *)
Definition layers (ch : chf) (r : Z) (c : nat) : nat :=
  match ch_cells ch !! c with
  | Some cell => length (filter (λ i, region_of ch i = Some r) (index_range cell))
  | None => 0%nat
  end.

(** The loop around a span that has no neighbour in its region. *)
Definition lone (ch : chf) (r : Z) (l : list (Z * Z)) : Prop :=
  ∃ i x z, in_cell ch (x + z * ch_w ch) i ∧ (x < ch_w ch)%nat ∧ region_of ch i = Some r ∧
    (∀ d j, (d < 4)%nat → step ch i d j → region_of ch j ≠ Some r) ∧
    let x := Z.of_nat x in let z := Z.of_nat z in l = [(x, z + 1); (x + 1, z + 1); (x + 1, z); (x, z)].

(** A raw loop that two positions stand for: some of its vertices, in order and
    with all changes of what is beyond, lie at two positions, and no vertex on a wall
    or an area border deviates further from the segments between them than allowed. *)
Definition flat_loop (raw : list rawv) (err2 : f32) : Prop :=
  ∃ j0 os verts p q, subloop raw j0 os verts ∧ os ≠ [] ∧ within raw err2 j0 os ∧
    (has_portal raw → ∀ j v, changes raw j → at_loop raw j = Some v → v.1 ∈ verts) ∧
    ∀ v, v ∈ verts → vpos v = p ∨ vpos v = q.

(** A closed loop of unit steps. *)
Definition unit_loop (l : list (Z * Z)) : Prop :=
  l ≠ [] ∧ ∀ k p q, l !! k = Some p → l !! ((k + 1) mod length l)%nat = Some q → unit_apart p q.

(** The next side of region [r] on from direction [d] of span [i], going round the
    corner from neighbour to neighbour inside the region. *)
Inductive seeks (ch : chf) (r : Z) : nat → nat → nat * nat → Prop :=
| seeks_here i d : side ch r i d → seeks ch r i d (i, d)
| seeks_on i d j t : step ch i d j → region_of ch j = Some r → seeks ch r j ((d + 3) mod 4)%nat t → seeks ch r i d t.
(** The side that comes after side [s] of region [r]. *)
Definition follows (ch : chf) (r : Z) (s t : nat * nat) : Prop := seeks ch r s.1 ((s.2 + 1) mod 4)%nat t.
(** Each side is followed by the next one, the last one by the first. *)
Definition walked (ch : chf) (r : Z) (sides : list (nat * nat)) : Prop :=
  ∀ k s t, sides !! k = Some s → sides !! ((k + 1) mod length sides)%nat = Some t → follows ch r s t.

(** From raw vertex [j] on, the next [m] have the same region beyond, of the same
    area, and the ones before and after have not. *)
Definition portal_run (raw : list rawv) (j m : nat) : Prop :=
  (0 < m)%nat ∧ changes raw j ∧ changes raw (j + m) ∧ (∀ o, (0 < o < m)%nat → ¬ changes raw (j + o)) ∧
  ∃ p, at_loop raw (j + 1) = Some p ∧ beyond_region p.2 ≠ 0 ∧ area_border p.2 = false.
(** Two positions one after the other in a closed loop. *)
Definition adjacent {A} (l : list A) (p q : A) : Prop :=
  ∃ k, l !! k = Some p ∧ l !! ((k + 1) mod length l)%nat = Some q.
(** Each such run has become a single edge, unless it ends where it started. *)
Definition runs_straight (raw : list rawv) (verts : list (vtx * Z)) : Prop :=
  ∀ j m p q, portal_run raw j m → at_loop raw j = Some p → at_loop raw (j + m) = Some q → vpos p.1 ≠ vpos q.1 →
    adjacent ((λ v, vpos v.1) <$> verts) (vpos p.1) (vpos q.1).

(** A boundary of a region: the region, the sides of spans that the boundary
    follows, the corners at the ends of these, in field coordinates, and the contour
    that was made of it, if any. *)
Record outline : Type := Outline {
  ol_reg : Z; ol_sides : list (nat * nat); ol_loop : list (Z * Z); ol_contour : option contour }.

(** A contour has the corners of the boundary as its raw vertices, without the
    border, and what is beyond the sides; its edges along other regions of its area
    lead straight from change to change. A boundary without contour is that of a single span, or flat. *)
Definition outlined (ch : chf) (err2 : f32) (o : outline) : Prop :=
  inner (ol_reg o) ∧ unit_loop (ol_loop o) ∧
  Forall2 (λ s p, side ch (ol_reg o) s.1 s.2 ∧ side_end ch s.1 s.2 p) (ol_sides o) (ol_loop o) ∧
  walked ch (ol_reg o) (ol_sides o) ∧
  match ol_contour o with
  | Some ct => ct_reg ct = ol_reg o ∧
      ol_loop o = (λ v : rawv, (vx v.1 + ch_border ch, vz v.1 + ch_border ch)) <$> ct_raw ct ∧
      Forall2 (λ s v, beyond ch (ct_area ct) s.1 s.2 v.2) (ol_sides o) (ct_raw ct) ∧ has_area ch (ol_reg o) (ct_area ct) ∧
      runs_straight (ct_raw ct) (ct_verts ct) ∧ (3 ≤ length (ct_verts ct))%nat
  | None => lone ch (ol_reg o) (ol_loop o) ∨
      ∃ area raw, has_area ch (ol_reg o) area ∧ ol_loop o = (λ v : rawv, vpos v.1) <$> raw ∧
        Forall2 (λ s v, beyond ch area s.1 s.2 v.2) (ol_sides o) raw ∧ flat_loop raw err2
  end.

(** How often the boundaries of region [r] go round cell [(x, z)]. *)
Definition total_winding (r x z : Z) (LL : list outline) : Z :=
  Zsum ((λ o, winding x z (ol_loop o)) <$> filter (λ o, ol_reg o = r) LL).
