(** Specification vocabulary for contours. *)
From Verif Require Import Base ModelMath ModelHeightfield SpecHeightfield ModelCompact SpecCompact
  SpecDistance SpecRegions ModelContours.
Local Open Scope Z_scope.

(** Two positions are one unit apart along exactly one of x and z. *)
Definition unit_apart (p q : Z * Z) : Prop :=
  (Z.abs (fst p - fst q) = 1 ∧ snd p = snd q) ∨ (fst p = fst q ∧ Z.abs (snd p - snd q) = 1).

Definition vpos (v : vtx) : Z * Z := (vx v, vz v).

(** Consecutive vertices, cyclically, are one unit apart. *)
Definition lattice_loop (l : list rawv) : Prop :=
  l ≠ [] ∧
  ∀ k p q, l !! k = Some p → l !! ((k + 1) mod length l)%nat = Some q → unit_apart (vpos p.1) (vpos q.1).

(** A region a contour can belong to. *)
Definition inner (r : Z) : Prop := r ≠ 0 ∧ ¬ border_flag r.

(** Region ids are [u16] values. *)
Definition regions_u16 (ch : chf) : Prop := ∀ i r, region_of ch i = Some r → 0 ≤ r ≤ 65535.

(** [d] is a boundary side of span [i] of region [r]: beyond it is not [r]. *)
Definition side (ch : chf) (r : Z) (i d : nat) : Prop :=
  (d < 4)%nat ∧ region_of ch i = Some r ∧ ∀ j, step ch i d j → region_of ch j ≠ Some r.

(** The corner at the end of side [d] of the cell of span [i]: sides are walked
    clockwise, starting on the side towards -x. *)
Definition side_end (ch : chf) (i d : nat) (p : Z * Z) : Prop :=
  ∃ x z, (x < ch_w ch)%nat ∧ (z < ch_h ch)%nat ∧ in_cell ch (x + z * ch_w ch) i ∧
    fst p = Z.of_nat x + nth d [0; 1; 1; 0] 0 ∧ snd p = Z.of_nat z + nth d [1; 1; 0; 0] 0.

(** What a raw vertex says about the other side: the region there (0 if there
    is no neighbour), and whether it has another area. *)
Definition beyond (ch : chf) (area : Z) (i d : nat) (r : Z) : Prop :=
  (∀ j, step ch i d j → region_of ch j = Some (Z.land r REGION_MASK) ∧
     (Z.testbit r 17 = true ↔ ch_areas ch !! j ≠ Some area)) ∧
  ((∀ j, ¬ step ch i d j) → Z.land r REGION_MASK = 0 ∧ Z.testbit r 17 = false).

(** One step in direction [d], if there is a span to start from and a connection. *)
Definition goes (ch : chf) (o : option nat) (d : nat) (o' : option nat) : Prop :=
  match o, o' with
  | Some i, Some j => step ch i d j
  | Some i, None => ∀ j, ¬ step ch i d j
  | None, _ => o' = None
  end.

(** The spans around the corner at the end of side [d] of span [i]: [a] beyond the
    side, [b] beyond the next side, and across the corner [c1], by way of [a], and
    [c2], by way of [b]. *)
Definition corner (ch : chf) (i d : nat) (a b c1 c2 : option nat) : Prop :=
  let d' := ((d + 1) mod 4)%nat in
  goes ch (Some i) d a ∧ goes ch (Some i) d' b ∧ goes ch a d' c1 ∧ goes ch b d c2.

(** The highest floor around the corner. *)
Definition floor_of (ch : chf) (i : nat) : option Z := cs_y <$> ch_spans ch !! i.
Definition corner_top (ch : chf) (i d : nat) (y : Z) : Prop :=
  ∃ a b c1 c2, corner ch i d a b c1 c2 ∧
    (∃ o j, o ∈ [Some i; a; b; c1; c2] ∧ o = Some j ∧ floor_of ch j = Some y) ∧
    ∀ j v, Some j ∈ [Some i; a; b; c1; c2] → floor_of ch j = Some v → v ≤ y.

(** Region and area of a span. A span is void if it has neither. *)
Definition tag (ch : chf) (i : nat) : option (Z * Z) := r ← region_of ch i; a ← ch_areas ch !! i; Some (r, a).
(** Of the four spans around a corner, from the [k]-th on: two of one border region
    and one area, then two outside the border that have one area, none of them void. *)
Definition seam (ch : chf) (q : list (option nat)) (k : nat) : Prop :=
  let at_ m := q !! ((k + m) mod 4)%nat in
  ∃ p1 p2 p3 p4 r a r3 r4 a3,
    at_ 0%nat = Some (Some p1) ∧ at_ 1%nat = Some (Some p2) ∧ at_ 2%nat = Some (Some p3) ∧ at_ 3%nat = Some (Some p4) ∧
    tag ch p1 = Some (r, a) ∧ tag ch p2 = Some (r, a) ∧ tag ch p3 = Some (r3, a3) ∧ tag ch p4 = Some (r4, a3) ∧
    border_flag r ∧ ¬ border_flag r3 ∧ ¬ border_flag r4 ∧ (r3, a3) ≠ (0, 0) ∧ (r4, a3) ≠ (0, 0).
Definition border_corner (ch : chf) (i d : nat) : Prop :=
  ∃ a b c1 c2 k, corner ch i d a b c1 c2 ∧ (k < 4)%nat ∧
    seam ch [Some i; a; match c2 with Some _ => c2 | None => c1 end; b] k.

(** The raw vertices are the ends of the given sides of region [r], at the height
    of the highest floor there, and flagged as border vertices where the border is
    seamed. *)
Definition traces (ch : chf) (r area : Z) (sides : list (nat * nat)) (raw : list rawv) : Prop :=
  Forall2 (λ s v, side ch r s.1 s.2 ∧
    side_end ch s.1 s.2 (vx v.1 + ch_border ch, vz v.1 + ch_border ch) ∧ beyond ch area s.1 s.2 v.2 ∧
    corner_top ch s.1 s.2 (vy v.1) ∧ (Z.testbit v.2 16 = true ↔ border_corner ch s.1 s.2)) sides raw.

(** No contoured span lies in the border. *)
Definition border_clear (ch : chf) : Prop :=
  0 ≤ ch_border ch ∧ ∀ i r, region_of ch i = Some r → inner r → ¬ near_edge ch (ch_border ch) i.

(** Regions small enough for the walk's limit of 40000 rounds. *)
Definition region_size (ch : chf) (r : Z) : nat :=
  length (filter (λ i, region_of ch i = Some r) (seq 0 (length (ch_spans ch)))).
Definition regions_small (ch : chf) : Prop :=
  ∀ r, inner r → Z.of_nat (region_size ch r) ≤ 10000.

(** ** Simplification *)

(** The vertex at index [j] of a loop, cyclically. *)
Definition at_loop (raw : list rawv) (j : nat) : option rawv := raw !! (j mod length raw)%nat.

(** [verts] are the vertices of the loop at the increasing offsets [os], all
    less than a turn, counted from [j0]. *)
Definition subloop (raw : list rawv) (j0 : nat) (os : list nat) (verts : list vtx) : Prop :=
  (∀ a b x y, (a < b)%nat → os !! a = Some x → os !! b = Some y → (x < y)%nat) ∧
  (∀ x, x ∈ os → (x < length raw)%nat) ∧
  Forall2 (λ o v, fst <$> at_loop raw (j0 + o) = Some v) os verts.

(** The region beyond a raw vertex and whether it is an area border. *)
Definition beyond_region (r : Z) : Z := Z.land r REGION_MASK.
Definition area_border (r : Z) : bool := Z.testbit r 17.

(** Between raw vertex [j] and the next one the region beyond or the area
    border changes. *)
Definition changes (raw : list rawv) (j : nat) : Prop :=
  ∃ p q, at_loop raw j = Some p ∧ at_loop raw (j + 1) = Some q ∧
    (beyond_region p.2 ≠ beyond_region q.2 ∨ area_border p.2 ≠ area_border q.2).

(** Some raw vertex has a region beyond. *)
Definition has_portal (raw : list rawv) : Prop := ∃ p : rawv, p ∈ raw ∧ beyond_region p.2 ≠ 0.

(** Offsets [x] and [e] of successive vertices, the last one wrapping round. *)
Definition successive (n : nat) (os : list nat) (x e : nat) : Prop :=
  ∃ k, os !! k = Some x ∧
    (os !! (k + 1)%nat = Some e ∨ (k + 1 = length os)%nat ∧ ∃ f, os !! 0%nat = Some f ∧ e = (n + f)%nat).

(** The squared distance of a vertex from a segment, the ends of which are
    taken in lexicographic order, in [f32]. *)
Definition deviation (p a b : vtx) : f32 :=
  if xz_lt a b then dist_sq_line (vx p) (vz p) (vx a) (vz a) (vx b) (vz b)
  else dist_sq_line (vx p) (vz p) (vx b) (vz b) (vx a) (vz a).

(** Every raw vertex on a wall or an area border deviates by at most [err2]
    from the segment that replaces it. *)
Definition within (raw : list rawv) (err2 : f32) (j0 : nat) (os : list nat) : Prop :=
  ∀ x e o a b p, successive (length raw) os x e → (x < o < e)%nat →
    at_loop raw (j0 + x) = Some a → at_loop raw (j0 + e) = Some b → at_loop raw (j0 + o) = Some p →
    beyond_region p.2 = 0 ∨ area_border p.2 = true →
    f_lt err2 (deviation p.1 a.1 b.1) = false.

(** Every segment that starts with a wall (or an area border) is at most [len]
    long or a single raw step. *)
Definition edges_short (raw : list rawv) (len : Z) (wall areas : bool) (j0 : nat) (os : list nat) : Prop :=
  ∀ x e a b p, successive (length raw) os x e →
    at_loop raw (j0 + x) = Some a → at_loop raw (j0 + e) = Some b → at_loop raw (j0 + x + 1) = Some p →
    (wall = true ∧ beyond_region p.2 = 0) ∨ (areas = true ∧ area_border p.2 = true) →
    (e = x + 1)%nat ∨ (vx b.1 - vx a.1) * (vx b.1 - vx a.1) + (vz b.1 - vz a.1) * (vz b.1 - vz a.1) ≤ len * len.

(** Two vertices differ in x or z. *)
Definition spread (raw : list rawv) : Prop := ∃ p q : rawv, p ∈ raw ∧ q ∈ raw ∧ vpos p.1 ≠ vpos q.1.

(** Coordinates whose squared differences fit an [i32]. *)
Definition coords_i16 (raw : list rawv) : Prop :=
  ∀ p : rawv, p ∈ raw → 0 ≤ vx p.1 ≤ 32767 ∧ 0 ≤ vz p.1 ≤ 32767.

(** ** Contour sets *)

(** A closed boundary of region [r], as a list of sides. *)
Definition boundary (ch : chf) (r : Z) (sides : list (nat * nat)) : Prop :=
  inner r ∧ ∃ area raw, traces ch r area sides raw ∧ lattice_loop raw.

(** Some span of region [r] has the given area. *)
Definition has_area (ch : chf) (r area : Z) : Prop :=
  ∃ i, region_of ch i = Some r ∧ ch_areas ch !! i = Some area.

(** A contour follows the given sides of its region, and its vertices are a
    selection of the raw vertices in order that has a vertex at every change. Its
    area is that of a span of its region. *)
Definition outlines (ch : chf) (ct : contour) (sides : list (nat * nat)) : Prop :=
  inner (ct_reg ct) ∧ traces ch (ct_reg ct) (ct_area ct) sides (ct_raw ct) ∧ lattice_loop (ct_raw ct) ∧
  (3 ≤ length (ct_verts ct))%nat ∧
  (∃ j0 os, subloop (ct_raw ct) j0 os (fst <$> ct_verts ct)) ∧
  (has_portal (ct_raw ct) → ∀ j p, changes (ct_raw ct) j → at_loop (ct_raw ct) j = Some p →
     ∃ v, v ∈ ct_verts ct ∧ vpos v.1 = vpos p.1) ∧
  has_area ch (ct_reg ct) (ct_area ct).

(** More than [k] closed boundaries without a common side. *)
Definition more_boundaries (ch : chf) (k : Z) : Prop :=
  ∃ SS : list (list (nat * nat)), k < Z.of_nat (length SS) ∧ NoDup (concat SS) ∧
    ∀ sides, sides ∈ SS → ∃ r, boundary ch r sides.

(** Edges of any length are kept. *)
Definition no_splitting (len : Z) (wall areas : bool) : Prop := len = 0 ∨ (wall = false ∧ areas = false).

(** ** Hypotheses on the field *)
(** What contour building needs of a field: it is well-formed with symmetric
    connections and [u16] region ids, has no contoured spans in its border, and no
    region of more than 10000 spans. *)
Record contourable (ch : chf) : Prop := {
  ca_wf : wf_chf ch;
  ca_fits : fits_u16 ch;
  ca_sym : symmetric ch;
  ca_regions : regions_u16 ch;
  ca_border : border_clear ch;
  ca_small : regions_small ch
}.

(** A simplified vertex keeps the flags of its own raw vertex for being a
    border vertex, and of the following raw vertex for what lies beyond. *)
Definition edge_info (raw : list rawv) (j : nat) (v : vtx * Z) : Prop :=
  ∃ p q, at_loop raw j = Some p ∧ at_loop raw (j + 1) = Some q ∧ v.1 = p.1 ∧
    beyond_region v.2 = beyond_region q.2 ∧ area_border v.2 = area_border q.2 ∧
    Z.testbit v.2 16 = Z.testbit p.2 16.
