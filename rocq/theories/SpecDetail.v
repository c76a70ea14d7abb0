(** Specification vocabulary for detail meshes, independent of the algorithms of
    the model. *)
From Verif Require Import Base ModelMath ModelHeightfield.
Local Open Scope Z_scope.

(** ** Plane polygons *)

(** Twice the signed area to the left of a chain of points, seen from the
    origin, and of a closed polygon. *)
Definition cross (p q : Z * Z) : Z := p.1 * q.2 - q.1 * p.2.
Fixpoint chain_area (l : list (Z * Z)) : Z :=
  match l with
  | a :: (b :: _) as r => cross a b + chain_area r
  | _ => 0
  end.
Definition polygon_area (l : list (Z * Z)) : Z :=
  match l with
  | [] => 0
  | a :: _ => chain_area (l ++ [a])
  end.

Definition corners (t : nat * nat * nat) : list nat := let '(a, b, c) := t in [a; b; c].
Definition zsum (l : list Z) : Z := foldr Z.add 0 l.

(** The triangles cover the polygon [outline] exactly: wherever its vertices are
    placed, the signed areas add up to that of the polygon. (Placing one vertex
    at (1,0), one at (0,1) and the others at the origin shows that this counts
    directed edges: every outline edge belongs to one triangle more in its own
    direction than in reverse, every other edge to as many in one as in the
    other.) *)
Definition covers (outline : list nat) (tris : list (nat * nat * nat)) : Prop :=
  ∀ place : nat → Z * Z,
    zsum ((λ t, polygon_area (place <$> corners t)) <$> tris) = polygon_area (place <$> outline).

(** [b] follows [a] on the closed outline. *)
Definition follows (outline : list nat) (a b : nat) : Prop :=
  ∃ i, outline !! i = Some a ∧ outline !! (S i mod length outline)%nat = Some b.

(** The documented flag layout: two bits for each of the edges AB, BC and CA,
    nonzero exactly for the edges of the outline. *)
Definition edge_flag (f : Z) (k : Z) : bool := negb (Z.land (Z.shiftr f (2 * k)) 3 =? 0).
Definition flags_exact (outline : list nat) (t : nat * nat * nat) (f : Z) : Prop :=
  0 ≤ f < 64 ∧
  let '(a, b, c) := t in
  (edge_flag f 0 = true ↔ follows outline a b) ∧
  (edge_flag f 1 = true ↔ follows outline b c) ∧
  (edge_flag f 2 = true ↔ follows outline c a).

(** ** Outlines with extra vertices *)

(** The documented vertex order of a sub-mesh: the polygon's corners, then the
    extra vertices. [E] lists the extra vertices of every polygon edge, starting
    with the edge that ends in corner 0; they are numbered from [off]. The
    outline walks corner [j], the extra vertices of the edge to corner [i],
    corner [i], and so on. *)
Fixpoint outline_from {A} (j i off : nat) (E : list (list A)) : list nat :=
  match E with
  | [] => []
  | e :: E' => (j :: seq off (length e)) ++ outline_from i (S i) (off + length e) E'
  end.
Definition outline {A} (E : list (list A)) : list nat := outline_from (length E - 1) 0 (length E) E.

(** ** Detail along an edge *)

(** [keep] selects samples, from the first to the last in order, so that no
    sample is far from the segment between the selected ones around it. *)
Definition simplified (far : vec3 → vec3 → vec3 → Prop) (samples : list vec3) (keep : list nat) : Prop :=
  keep !! 0%nat = Some 0%nat ∧ (2 ≤ length keep)%nat ∧ keep !! (length keep - 1)%nat = Some (length samples - 1)%nat ∧
  (∀ i a b, keep !! i = Some a → keep !! S i = Some b → (a < b)%nat ∨ length samples = 1%nat) ∧
  ∀ i a b m v va vb, keep !! i = Some a → keep !! S i = Some b → (a < m < b)%nat →
    samples !! m = Some v → samples !! a = Some va → samples !! b = Some vb → ¬ far v va vb.

(** All but the first and the last. *)
Definition inner {A} (l : list A) : list A := take (length l - 2) (drop 1 l).

(** The extra vertices [e] of an edge: at most 32 samples [pos n k] for [k] from 0 to
    [n], where [n] is as [count] says, simplified, without the two end points. *)
Definition edge_detail (far : vec3 → vec3 → vec3 → Prop) (pos : nat → nat → vec3 → Prop) (count : nat → Prop) (e : list vec3) : Prop :=
  ∃ n samples keep, (n ≤ 31)%nat ∧ count n ∧ length samples = S n ∧ (∀ k v, samples !! k = Some v → pos n k v) ∧
    simplified far samples keep ∧ Forall2 (λ k v, samples !! k = Some v) (inner keep) e.

(** ** Sub-mesh tables *)

(** Part of a list. *)
Definition segment {A} (l : list A) (base count : Z) : list A := take (Z.to_nat count) (drop (Z.to_nat base) l).
(** The ranges (base, count) follow each other without gap from [from] to [to]. *)
Fixpoint tiles (from : Z) (rs : list (Z * Z)) (to : Z) : Prop :=
  match rs with
  | [] => from = to
  | (b, c) :: r => b = from ∧ 0 ≤ c ∧ tiles (from + c) r to
  end.

(** ** Looking up heights *)

(** The height stored for cell ([x], [z]) of a patch, in a row-major array with
    65535 for "not set". *)
Definition stored (data : list Z) (w h x z : Z) (v : Z) : Prop :=
  0 ≤ x < w ∧ 0 ≤ z < h ∧ data !! Z.to_nat (x + z * w) = Some v ∧ v ≠ 65535.

(** Distance of cells: the number of rings around the first to reach the second. *)
Definition rings (x z x' z' : Z) : Z := Z.max (Z.abs (x' - x)) (Z.abs (z' - z)).

(** [v] is the answer to a height query at cell ([x], [z]): a height from the
    nearest ring that has any within [radius], of those one with the least
    [cost]; 65535 if there is none. [ok] says which heights are comparable. *)
Definition nearest_height (data : list Z) (w h x z radius : Z) (ok : Z → Prop) (better : Z → Z → Prop) (v : Z) : Prop :=
  let at_ring k u := ∃ x' z', rings x z x' z' = k ∧ stored data w h x' z' u in
  stored data w h x z v ∨
  (∀ u, ¬ stored data w h x z u) ∧
  ((∃ k, 1 ≤ k ≤ radius ∧ at_ring k v ∧ ok v ∧
         (∀ k' u, 0 ≤ k' < k → at_ring k' u → ¬ ok u) ∧
         ∀ u, at_ring k u → ok u → ¬ better u v)
   ∨ v = 65535 ∧ ∀ k u, 1 ≤ k ≤ radius → at_ring k u → ¬ ok u).

(** ** Where vertices end up *)

(** The vertices of a polygon row, which is padded with 65535. *)
Definition live (row l : list Z) : Prop :=
  ∃ rest, row = l ++ rest ∧ 65535 ∉ l ∧ (rest = [] ∨ ∃ r, rest = 65535 :: r).
(** Vertices are shifted by the mesh's origin and raised by one cell height. *)
Definition shifted (orig : vec3) (ch : f32) (v : vec3) : vec3 :=
  V3 (f_add (v_x v) (v_x orig)) (f_add (f_add (v_y v) (v_y orig)) ch) (f_add (v_z v) (v_z orig)).
(** A grid vertex in units of the world, relative to the origin. *)
Definition scaled (cs ch : f32) (x y z : Z) : vec3 := V3 (f_mul (f_of_Z x) cs) (f_mul (f_of_Z y) ch) (f_mul (f_of_Z z) cs).
