(** Specification of the polygon mesh stage, independent of the model: plane
    geometry of closed polygons, welding of vertices, gluing of polygons and
    reciprocity of neighbour tables. Only the type of points is shared. *)
From Verif Require Import Base ModelContours.
Local Open Scope Z_scope.

(** Twice the signed area of a triangle in the xz plane; negative for the
    winding that the navigation mesh uses. *)
Definition cross (a b c : vtx) : Z := (vx b - vx a) * (vz c - vz a) - (vx c - vx a) * (vz b - vz a).

(** The directed edges of a closed polygon. *)
Definition cycle_edges {A} (l : list A) : list (A * A) :=
  match l with [] => [] | a :: l' => zip l (l' ++ [a]) end.
Definition flip {A} (e : A * A) : A * A := (e.2, e.1).
Definition tri_list {A} (t : A * A * A) : list A := [t.1.1; t.1.2; t.2].

Definition sumZ (l : list Z) : Z := foldr Z.add 0 l.

(** Twice the signed area of a closed polygon (shoelace formula). *)
Definition area_term (e : vtx * vtx) : Z := vx e.1 * vz e.2 - vx e.2 * vz e.1.
Definition poly_area (ps : list vtx) : Z := sumZ (area_term <$> cycle_edges ps).

(** All directed edges of some polygons. *)
Definition edges_of {A} (ps : list (list A)) : list (A * A) := concat (cycle_edges <$> ps).

(** However the polygons are divided into two groups, some edge of the one group is
    an edge of the other, in the other direction. *)
Definition connected {A} (ps : list (list A)) : Prop :=
  ∀ g1 g2, ps ≡ₚ g1 ++ g2 → g1 ≠ [] → g2 ≠ [] → ∃ e, e ∈ edges_of g1 ∧ flip e ∈ edges_of g2.

(** [ts] triangulates the closed polygon [l]: its corners are corners of [l], all
    of them are used, and the directed edges of the triangles are those of the
    polygon together with diagonals, each present once in both directions; the
    triangles hang together along diagonals. *)
Record triangulation {A} (l : list A) (ts : list (A * A * A)) : Prop := {
  tr_count : (length ts + 2 = length l)%nat;
  tr_corners : ∀ t x, t ∈ ts → x ∈ tri_list t → x ∈ l;
  tr_covers : ∀ x, x ∈ l → ∃ t, t ∈ ts ∧ x ∈ tri_list t;
  tr_distinct : NoDup l → ∀ t, t ∈ ts → NoDup (tri_list t);
  tr_boundary : ∃ ds, concat ((λ t, cycle_edges (tri_list t)) <$> ts)
                        ≡ₚ cycle_edges l ++ ds ++ (flip <$> ds);
  tr_edges_once : NoDup l → NoDup (concat ((λ t, cycle_edges (tri_list t)) <$> ts));
  tr_connected : connected (tri_list <$> ts)
}.

(** Positions of indices; a missing vertex counts as the origin. *)
Definition at_pos (verts : list vtx) (i : nat) : vtx := default (V 0 0 0) (verts !! i).

(** A strictly convex polygon: every three corners in order wind the right
    way. *)
Definition strictly_convex (ps : list vtx) : Prop :=
  ∀ i j k a b c, (i < j < k)%nat → ps !! i = Some a → ps !! j = Some b → ps !! k = Some c → cross a b c < 0.
(** The corners of a closed polygon: three consecutive points each. Every corner
    turns the right way. *)
Definition corners {A} (l : list A) : list (A * A * A) :=
  match l with a :: b :: l' => zip (zip l (b :: l' ++ [a])) (l' ++ [a; b]) | _ => [] end.
Definition corners_convex (ps : list vtx) : Prop := Forall (λ t, cross t.1.1 t.1.2 t.2 < 0) (corners ps).

(** Coordinates for which the [i32] arithmetic of the predicates cannot
    overflow. *)
Definition small (v : vtx) : Prop := 0 <= vx v <= 32767 ∧ 0 <= vz v <= 32767.

(** Closed polygons up to the choice of the first corner. *)
Definition rotation {A} (l l' : list A) : Prop := ∃ p q, l = p ++ q ∧ l' = q ++ p.

(** Gluing [b] to [a] along an edge that both have, in opposite directions. *)
Definition glued {A} (a b m : list A) : Prop :=
  ∃ x y ra rb, rotation a (x :: y :: ra) ∧ rotation b (y :: x :: rb) ∧ rotation m (y :: ra ++ x :: rb).

(** Two vertices that welding identifies. *)
Definition weldable (v w : vtx) : Prop := vx v = vx w ∧ vz v = vz w ∧ Z.abs (vy v - vy w) <= 2.
(** The newest stored vertex that welds with [v]. *)
Definition newest (tab : list vtx) (v : vtx) (r : option nat) : Prop :=
  match r with
  | Some i => ∃ w, tab !! i = Some w ∧ weldable w v ∧ ∀ j u, (i < j)%nat → tab !! j = Some u → ¬ weldable u v
  | None => ∀ j u, tab !! j = Some u → ¬ weldable u v
  end.

(** Welding a sequence of vertices into a table by linear search. *)
Inductive welds : list vtx → list vtx → list nat → list vtx → Prop :=
| welds_nil tab : welds tab [] [] tab
| welds_old tab v vs i is tab' : newest tab v (Some i) → welds tab vs is tab' → welds tab (v :: vs) (i :: is) tab'
| welds_new tab v vs is tab' : newest tab v None → welds (tab ++ [v]) vs is tab' →
    welds tab (v :: vs) (length tab :: is) tab'.

(** A polygon as the code stores it: its vertices, padded to [nvp] slots. *)
Definition padded (nvp : nat) (vs row : list Z) : Prop :=
  row = vs ++ repeat 65535 (nvp - length vs) ∧ (3 <= length vs <= nvp)%nat ∧ Forall (λ v, 0 <= v < 65535) vs.

Definition dist2 (a b : vtx) : Z := (vx a - vx b) * (vx a - vx b) + (vz a - vz b) * (vz a - vz b).

(** Polygons that together fill the closed polygon [l]: they use its corners,
    no directed edge occurs twice, and their edges are those of [l] together with
    inner edges that occur once in each direction; they hang together along inner
    edges. *)
Record tiling {A} (l : list A) (g : list (list A)) : Prop := {
  tl_corners : ∀ v, v ∈ l ↔ ∃ p, p ∈ g ∧ v ∈ p;
  tl_edges : ∃ ds, edges_of g ≡ₚ cycle_edges l ++ ds ++ (flip <$> ds);
  tl_once : NoDup (edges_of g);
  tl_connected : connected g
}.

(** Edge [e] of polygon [p] goes from [u] to [v]. *)
Definition has_edge {A} (ps : list (list A)) (p e : nat) (u v : A) : Prop :=
  ∃ vs, ps !! p = Some vs ∧ vs !! e = Some u ∧ vs !! ((e + 1) mod length vs)%nat = Some v.
(** Only one polygon has an edge from [u] to [v], and only one such edge. *)
Definition once {A} (ps : list (list A)) (u v : A) : Prop :=
  ∀ p e p' e', has_edge ps p e u v → has_edge ps p' e' u v → p = p' ∧ e = e'.
Definition nbr_at (nbrs : list (list Z)) (p e : nat) : option Z := r ← nbrs !! p; r !! e.
(** The neighbour [q] at edge [e] of polygon [p] is another polygon that has the
    reversed edge and names [p] there. *)
Definition reciprocal {A} (ps : list (list A)) (nbrs : list (list Z)) (p e : nat) (q : Z) : Prop :=
  ∃ u v q' e', q = Z.of_nat q' ∧ q' ≠ p ∧ has_edge ps p e u v ∧ has_edge ps q' e' v u ∧
    nbr_at nbrs q' e' = Some (Z.of_nat p).

(** The polygons [g] that stand for the contour [c]; [ind] are the indices of its
    corners in the vertex list of the mesh. Convex contours give polygons whose
    corners are convex. *)
Definition place (verts : list vtx) (v : Z) : vtx := at_pos verts (Z.to_nat v).
Definition piece : Type := contour * list Z * list (list Z).
Definition piece_ok (nvp : nat) (tab : list vtx) (p : piece) : Prop :=
  let '(c, ind, g) := p in
  Forall2 (λ v i, 0 <= i ∧ ∃ w, tab !! Z.to_nat i = Some w ∧ weldable w v) (fst <$> ct_verts c) ind ∧
  NoDup ind ∧ tiling ind g ∧ Forall (λ vs, (3 <= length vs <= nvp)%nat) g ∧ g ≠ [] ∧ (length g + 2 <= length ind)%nat ∧
  (strictly_convex (fst <$> ct_verts c) → Forall (λ vs, corners_convex (place tab <$> vs)) g).
Definition tags (f : contour → Z) (ps : list piece) : list Z := concat ((λ p : piece, replicate (length p.2) (f p.1.1)) <$> ps).

(** A polygon mesh made from the contours [cs]. *)
Record mesh_of (nvp : nat) (border : Z) (cs : list contour) (verts : list vtx) (polys nbrs : list (list Z))
    (regs areas : list Z) (pieces : list piece) : Prop := {
  mo_contours : (λ p : piece, p.1.1) <$> pieces = cs;
  mo_pieces : Forall (piece_ok nvp verts) pieces;
  mo_rows : Forall2 (λ row vs, padded nvp vs row) polys (concat (snd <$> pieces));
  mo_regs : take (length polys) regs = tags ct_reg pieces;
  mo_areas : areas = tags ct_area pieces;
  mo_nbrs : length nbrs = length polys ∧ Forall (λ r, length r = nvp) nbrs;
  mo_linked : ∀ p e q, nbr_at nbrs p e = Some q → q = 65535 ∨ (0 < border ∧ 32768 <= q <= 32771) ∨ reciprocal (concat (snd <$> pieces)) nbrs p e q;
  mo_links : let ps := concat (snd <$> pieces) in ∀ p e q f u v, has_edge ps p e u v → has_edge ps q f v u → p ≠ q →
    once ps u v → once ps v u → nbr_at nbrs p e = Some (Z.of_nat q);
  mo_welded : (∀ w, w ∈ verts → ∃ c, c ∈ cs ∧ w ∈ fst <$> ct_verts c) ∧
    ∀ i j a b, verts !! i = Some a → verts !! j = Some b → i ≠ j → ¬ weldable a b
}.

(** Side [s] of a field of [w] x [h] cells, in the order of the directions. *)
Definition on_side (w h : Z) (s : nat) (v : vtx) : Prop :=
  nth s [vx v = 0; vz v = h; vx v = w; vz v = 0] False.
