(** Polygon meshes: theorems C35 to C40, C51. *)
From Verif Require Import Base ModelMath ModelRegions ModelContours ModelPoly SpecPoly FlowProofs TriangulateProofs ConvexProofs
  WeldProofs MergeProofs MergeLoopProofs AdjacencyProofs MeshProofs HoleProofs.
Local Open Scope Z_scope.

(** ** C35 *)

Definition corner_nats (t : tri) : Z * Z * Z := (t_x t, t_y t, t_z t).
Definition nat_corners (t : nat * nat * nat) : Z * Z * Z := (Z.of_nat t.1.1, Z.of_nat t.1.2, Z.of_nat t.2).

Lemma area_flip (pos : nat → vtx) e : area_term (pos (flip e).1, pos (flip e).2) = - area_term (pos e.1, pos e.2).
Proof. unfold area_term, flip. cbn. ring. Qed.

(** A triangulation that succeeds has [n - 2] triangles whose edges are those of
    the polygon and diagonals used once in each direction; the signed areas add
    up. *)
Theorem C35_triangulation :
  ∀ verts indices cap tris, Forall (λ i, Z.of_nat i < 65536) indices →
  triangulate verts indices cap = Done (Ok tris) →
  ∃ ts, corner_nats <$> tris = nat_corners <$> ts ∧ triangulation indices ts ∧
    sumZ ((λ t, poly_area (at_pos verts <$> tri_list t)) <$> ts) = poly_area (at_pos verts <$> indices).
Proof.
  intros verts indices cap tris Hi E.
  pose proof (triangulate_ends verts True indices cap) as H. rewrite E in H.
  destruct H as (ts & -> & Hc); [auto..|]. apply cuts_triangulation in Hc as T.
  exists ts. split; [|split; [done|]].
  - cbn [app]. rewrite <- list_fmap_compose. apply list_fmap_ext. intros k t Ht. unfold compose, corner_nats, to_tri, nat_corners. cbn.
    assert (∀ x, x ∈ tri_list t → Z.of_nat x < 65536) as Hx.
    { intros x Hx. apply elem_of_list_lookup_2 in Ht. rewrite Forall_forall in Hi. apply Hi. by eapply (tr_corners _ _ T). }
    unfold tri_list in Hx. rewrite !wrap_small; [done|..]; (split; [lia|]; apply Hx; set_solver).
  - unfold poly_area.
    pose proof (triangulation_sum (λ e : nat * nat, area_term (at_pos verts e.1, at_pos verts e.2)) indices ts (area_flip _) T) as Hs.
    rewrite cycle_fmap, <- list_fmap_compose. exact Hs.
Qed.

(** With in-range indices and coordinates below 32768 it does not panic, and it
    fails only by reporting an invalid contour. *)
Theorem C35_total :
  ∀ verts indices cap, (∀ i, i ∈ indices → ∃ v, verts !! i = Some v ∧ small v) → (3 ≤ length indices ≤ cap + 2)%nat →
  ∃ r, triangulate verts indices cap = Done r ∧ (r = Err InvalidContour ∨ ∃ tris, r = Ok tris).
Proof.
  intros verts indices cap Hv [H3 Hc].
  pose proof (triangulate_ends verts False indices cap) as H.
  destruct (triangulate verts indices cap) as [r| |]; cbn in H; [..|by destruct H; auto|by destruct H; auto].
  exists r. split; [done|]. destruct r as [tris|e]; [eauto|]. left. f_equal. apply H; auto.
Qed.

(** Strictly convex polygons are always triangulated. *)
Theorem C35_convex_polygons_succeed :
  ∀ verts indices cap, (∀ i, i ∈ indices → ∃ v, verts !! i = Some v ∧ small v) → (3 ≤ length indices ≤ cap + 2)%nat →
  strictly_convex (at_pos verts <$> indices) → ∃ tris, triangulate verts indices cap = Done (Ok tris).
Proof.
  intros verts indices cap Hv [H3 Hc] Hs.
  pose proof (convex_triangulate verts False indices cap) as H.
  destruct (triangulate verts indices cap) as [r| |]; cbn in H.
  - destruct H as [tris ->]; auto. by exists tris.
  - destruct H; auto.
  - destruct H; auto.
Qed.

(** Larger coordinates, which the type of vertices allows, overflow. *)
Theorem C35_large_coordinates_refuted :
  ∃ verts, length verts = 3%nat ∧ Forall (λ v, 0 ≤ vx v ≤ 65535 ∧ 0 ≤ vz v ≤ 65535) verts ∧
    poly_area verts ≠ 0 ∧ triangulate verts [0; 1; 2]%nat 3 = Panicked.
Proof.
  exists [V 0 0 0; V 65535 0 0; V 0 0 65535]. split; [done|]. split; [repeat constructor; cbn; lia|].
  split; [by vm_compute|]. by vm_compute.
Qed.

Definition ell : list vtx := [V 0 0 0; V 0 0 8; V 4 0 8; V 4 0 4; V 8 0 4; V 8 0 0].
Example C35_ex : ∃ tris, triangulate ell (seq 0 6) 6 = Done (Ok tris) ∧ length tris = 4%nat.
Proof. eexists. split; [vm_compute; reflexivity|done]. Qed.
Example C35_ex_small : ∀ i, i ∈ seq 0 6 → ∃ v, ell !! i = Some v ∧ small v.
Proof.
  intros i Hi%elem_of_seq. destruct (lookup_lt_is_Some_2 ell i) as [v Hv]; [cbn; lia|]. exists v. split; [done|].
  assert (Forall small ell) as H by (unfold ell, small; repeat constructor; cbn; lia). rewrite Forall_lookup in H. by eapply H.
Qed.
Definition pentagon : list vtx := [V 0 0 0; V 0 0 4; V 2 0 6; V 4 0 4; V 4 0 0].
Example C35_ex_convex : strictly_convex (at_pos pentagon <$> seq 0 5).
Proof.
  intros i j k a b c Hijk Ha Hb Hc. apply lookup_lt_Some in Hc as Hk. rewrite fmap_length, seq_length in Hk.
  destruct i as [|[|[|i]]]; [..|lia]; (destruct j as [|[|[|[|j]]]]; [lia || idtac..|lia]);
    (destruct k as [|[|[|[|[|k]]]]]; [lia || idtac..|lia]); try lia;
    injection Ha as <-; injection Hb as <-; injection Hc as <-; by vm_compute.
Qed.
(** A square of the wrong winding is reported as invalid; a self-crossing one is
    not. *)
Example C35_ex_invalid : triangulate [V 0 0 0; V 4 0 0; V 4 0 4; V 0 0 4] (seq 0 4) 4 = Done (Err InvalidContour).
Proof. by vm_compute. Qed.

(** ** C36 *)

Definition empty_table (cap : nat) : vtab :=
  VTab (repeat (V 0 0 0) cap) 0 (repeat None (Z.to_nat BUCKETS)) (repeat (Some 0%nat) cap).
Definition stored (t : vtab) : list vtx := take (vt_n t) (vt_verts t).

(** Adding any sequence of vertices to the hash table is the same as welding
    them by linear search from the newest stored vertex. *)
Theorem C36_linear_search :
  ∀ cap vs, (length vs ≤ cap)%nat → Z.of_nat cap ≤ 65535 →
  ∃ is t, add_all vs (empty_table cap) = Done (is, t) ∧ welds [] vs is (stored t).
Proof.
  intros cap vs Hl Hc. pose proof (add_all_welds cap vs (empty_table cap) [] [] (empty_rep cap)) as H.
  unfold add_all. destruct (foldM _ vs _) as [[is t]| |]; [|by destruct H; cbn; auto..].
  destruct H as (tab & is' & R & -> & W); [cbn; lia|done|]. exists is', t. split; [done|].
  unfold stored. rewrite (vr_n _ _ _ R), (vr_verts _ _ _ R). done.
Qed.

(** Every returned index names a vertex with the same x and z and a y within 2,
    no two stored vertices could be welded, and stored vertices never change. *)
Theorem C36_welded :
  ∀ vs is tab, welds [] vs is tab →
  Forall2 (λ v i, ∃ w, tab !! i = Some w ∧ vx w = vx v ∧ vz w = vz v ∧ Z.abs (vy w - vy v) ≤ 2) vs is ∧
  (∀ i j a b, tab !! i = Some a → tab !! j = Some b → i ≠ j → vx a = vx b → vz a = vz b → 2 < Z.abs (vy a - vy b)) ∧
  (∀ w, w ∈ tab → w ∈ vs).
Proof.
  intros vs is tab W. split; [|split].
  - apply (welds_same _ _ _ _ W).
  - assert (apart tab) as Ha by (apply (welds_apart _ _ _ _ W); intros i j a b Hi; done).
    intros i j a b Hi Hj Hij Hx Hz. destruct (Z.lt_ge_cases 2 (Z.abs (vy a - vy b))) as [|Hle]; [done|]. exfalso.
    by apply (Ha i j a b).
  - intros w Hw. apply (welds_from _ _ _ _ _ W) in Hw as [Hw|Hw]; [by apply elem_of_nil in Hw|done].
Qed.
Theorem C36_stable :
  ∀ tab vs is tab', welds tab vs is tab' → ∀ i v, tab !! i = Some v → tab' !! i = Some v.
Proof. intros tab vs is tab' W i v Hi. destruct (welds_prefix _ _ _ _ W) as [l ->]. by apply lookup_app_l_Some. Qed.

(** Welding depends on the order: the relation "within 2" is not transitive. *)
Theorem C36_order_matters_refuted :
  ∃ vs vs', vs ≡ₚ vs' ∧ ∃ is t is' t', add_all vs (empty_table 3) = Done (is, t) ∧ add_all vs' (empty_table 3) = Done (is', t') ∧
    length (stored t) ≠ length (stored t').
Proof.
  exists [V 1 0 1; V 1 2 1; V 1 4 1], [V 1 2 1; V 1 0 1; V 1 4 1]. split; [apply Permutation_swap|].
  eexists _, _, _, _. split; [vm_compute; reflexivity|]. split; [vm_compute; reflexivity|]. by vm_compute.
Qed.
Example C36_ex : ∃ is t, add_all [V 1 0 1; V 7 0 1; V 1 2 1; V 1 3 1; V 7 1 1] (empty_table 5) = Done (is, t) ∧
  is = [0; 1; 0; 2; 1]%nat ∧ stored t = [V 1 0 1; V 7 0 1; V 1 3 1].
Proof. eexists _, _. split; [vm_compute; reflexivity|]. by vm_compute. Qed.

(** ** C37 *)

Lemma areaZ_flip (pos : Z → vtx) e : area_term (pos (flip e).1, pos (flip e).2) = - area_term (pos e.1, pos e.2).
Proof. unfold area_term, flip. cbn. ring. Qed.
Lemma area_edges (pos : Z → vtx) l : poly_area (pos <$> l) = sumZ ((λ e, area_term (pos e.1, pos e.2)) <$> cycle_edges l).
Proof. unfold poly_area. rewrite cycle_fmap, <- list_fmap_compose. done. Qed.

(** When the two polygons do not have an edge in the same direction, merging
    glues them: no vertex is lost, the areas add up, and strictly convex corners
    stay strictly convex. *)
Theorem C37_merge :
  ∀ verts nvp a ra b rb v ea eb, padded nvp a ra → padded nvp b rb →
  (∀ e, e ∈ cycle_edges a → e ∉ cycle_edges b) →
  merge_value ra rb verts nvp = Done (Some (v, ea, eb)) →
  ∃ m row, merge_rows ra rb ea eb nvp = Done row ∧ padded nvp m row ∧ glued a b m ∧
    (length m + 2 = length a + length b)%nat ∧
    (∀ x, x ∈ m ↔ x ∈ a ∨ x ∈ b) ∧
    poly_area (place verts <$> m) = poly_area (place verts <$> a) + poly_area (place verts <$> b) ∧
    (corners_convex (place verts <$> a) → corners_convex (place verts <$> b) → corners_convex (place verts <$> m)).
Proof.
  intros verts nvp a ra b rb v ea eb Pa Pb Hdis E.
  assert (∀ l, Forall (okv verts True) l) as Hok by (intros l; apply Forall_true; intros; by right).
  pose proof (merge_value_ends verts True nvp a ra b rb Pa Pb (Hok a) (Hok b)) as H. rewrite E in H.
  specialize (H v ea eb eq_refl).
  assert (3 <= length a)%nat as La by apply Pa. assert (3 <= length b)%nat as Lb by apply Pb.
  destruct (merge_ok_glue verts nvp a b ea eb La Lb H) as (x & y & la & lb & Era & Erb & Hconv).
  { intros e He He'. by apply (Hdis e). }
  destruct H as (Hea & Heb & Hn & _).
  destruct (merge_rows_done nvp a ra b rb ea eb x (y :: la) y (x :: lb)) as (row & Hrow & Prow); [done..|].
  exists ((y :: la) ++ x :: lb), row.
  pose proof (rot_rotation ea a) as Ra. rewrite Era in Ra. pose proof (rot_rotation eb b) as Rb. rewrite Erb in Rb.
  split; [done|]. split; [done|]. split; [|split; [|split; [|split]]].
  - exists x, y, la, lb. split; [done|]. split; [done|]. apply rotation_refl.
  - apply rotation_perm, Permutation_length in Ra, Rb. cbn in *. rewrite app_length. cbn. lia.
  - intros z. rewrite (rotation_perm _ _ Ra), (rotation_perm _ _ Rb). cbn [app]. rewrite !elem_of_cons, elem_of_app, elem_of_cons. tauto.
  - rewrite !area_edges. set (f := λ e : Z * Z, area_term (place verts e.1, place verts e.2)).
    pose proof (glued_edges a b _ x y la lb Ra Rb (rotation_refl _)) as Hp.
    apply (fmap_Permutation f), sumZ_perm in Hp. rewrite fmap_app, sumZ_app in Hp. rewrite Hp.
    rewrite !fmap_cons. unfold sumZ. cbn [foldr app].
    assert (f (y, x) = - f (x, y)) as -> by (unfold f, area_term; cbn; ring). lia.
  - exact Hconv.
Qed.

(** Comparing two polygons never panics when their vertices exist and have small
    coordinates. *)
Theorem C37_total :
  ∀ verts nvp a ra b rb, padded nvp a ra → padded nvp b rb →
  (∀ v, v ∈ a ++ b → ∃ p, verts !! Z.to_nat v = Some p ∧ small p) →
  ∃ r, merge_value ra rb verts nvp = Done r.
Proof.
  intros verts nvp a ra b rb Pa Pb Hv.
  assert (Forall (okv verts False) a ∧ Forall (okv verts False) b) as [Oa Ob].
  { split; apply Forall_forall; intros v H; left; apply Hv, elem_of_app; auto. }
  pose proof (merge_value_ends verts False nvp a ra b rb Pa Pb Oa Ob) as H.
  destruct (merge_value ra rb verts nvp); [eauto|done..].
Qed.

(** Merging a set of polygons until nothing more can be merged keeps their
    corners, their total area and their outline. *)
Theorem C37_merge_all :
  ∀ verts nvp (rows : list (trow unit)) vss,
  Forall2 (λ r vs, padded nvp vs r.1) rows vss → NoDup (edges_of vss) →
  (∀ vs v, vs ∈ vss → v ∈ vs → ∃ p, verts !! Z.to_nat v = Some p ∧ small p) →
  ∃ rows' vss', merge_all (λ _ _, tt) verts nvp rows = Done rows' ∧ Forall2 (λ r vs, padded nvp vs r.1) rows' vss' ∧
    (∀ x, (∃ p, p ∈ vss ∧ x ∈ p) ↔ ∃ p, p ∈ vss' ∧ x ∈ p) ∧
    (∃ ds, edges_of vss ≡ₚ edges_of vss' ++ ds ++ (flip <$> ds)) ∧
    sumZ ((λ p, poly_area (place verts <$> p)) <$> vss') = sumZ ((λ p, poly_area (place verts <$> p)) <$> vss) ∧
    (Forall (λ p, corners_convex (place verts <$> p)) vss → Forall (λ p, corners_convex (place verts <$> p)) vss').
Proof.
  intros verts nvp rows vss HF Hnd Hv.
  assert (rows_ok verts False nvp rows vss) as HR.
  { apply Forall2_same_length_lookup. split; [by eapply Forall2_length|]. intros i r vs Hr Hvs.
    rewrite Forall2_lookup in HF. specialize (HF i). rewrite Hr, Hvs in HF. inversion HF; subst. split; [done|].
    apply Forall_forall. intros v Hin. left. apply (Hv vs); [by eapply elem_of_list_lookup_2|done]. }
  pose proof (merge_all_ends verts False nvp (λ _ _, tt) rows vss HR Hnd) as H.
  destruct (merge_all _ verts nvp rows) as [rows'| |]; [|done..]. destruct H as (vss' & HR' & G).
  exists rows', vss'. split; [done|]. split; [eapply Forall2_impl; [exact HR'|]; by intros r vs [? _]|].
  split; [intros x; by eapply gluing_members|].
  destruct (gluing_edges _ _ _ G) as [ds Hds]. split; [by exists ds|]. split.
  - assert (∀ l : list (list Z), sumZ ((λ p, poly_area (place verts <$> p)) <$> l) =
      sumZ ((λ e, area_term (place verts e.1, place verts e.2)) <$> edges_of l)) as Hsum.
    { intros l. induction l as [|p l IH]; [done|]. unfold edges_of in *. rewrite !fmap_cons. cbn [concat].
      rewrite fmap_app, sumZ_app, <- IH, <- area_edges. done. }
    rewrite !Hsum. set (f := λ e : Z * Z, area_term (place verts e.1, place verts e.2)).
    apply (fmap_Permutation f), sumZ_perm in Hds. rewrite !fmap_app, !sumZ_app in Hds. rewrite Hds.
    assert (sumZ (f <$> (flip <$> ds)) = - sumZ (f <$> ds)) as Hf; [|lia].
    clear Hds. induction ds as [|e ds IH]; [done|]. rewrite !fmap_cons. unfold sumZ in *. cbn [foldr].
    unfold f at 1 3. rewrite areaZ_flip. lia.
  - by apply gluing_convex.
Qed.

(** Two polygons with the same edge in the same direction (overlapping polygons)
    are merged too, and then a vertex is lost. *)
Theorem C37_same_direction_refuted :
  ∃ verts a ra v ea eb row, padded 6 a ra ∧ merge_value ra ra verts 6 = Done (Some (v, ea, eb)) ∧
    merge_rows ra ra ea eb 6 = Done row ∧ ∃ x, x ∈ a ∧ x ∉ row.
Proof.
  exists [V 0 0 0; V 0 0 4; V 4 0 4; V 4 0 0], [0; 1; 2; 3], [0; 1; 2; 3; 65535; 65535]. eexists _, _, _, _.
  split; [split; [done|]; split; [cbn; lia|]; repeat constructor; lia|].
  split; [vm_compute; reflexivity|]. split; [vm_compute; reflexivity|]. exists 3. split; [do 3 right; left|].
  intros H. repeat (apply elem_of_cons in H as [H|H]; [discriminate|]). by apply elem_of_nil in H.
Qed.

Definition two_tris : list (trow unit) := [([0; 1; 2; 65535; 65535; 65535], tt); ([2; 3; 0; 65535; 65535; 65535], tt)].
Definition square : list vtx := [V 0 0 0; V 0 0 4; V 4 0 4; V 4 0 0].
Example C37_ex : merge_value [0; 1; 2; 65535; 65535; 65535] [2; 3; 0; 65535; 65535; 65535] square 6 = Done (Some (32, 2%nat, 2%nat)) ∧
  merge_all (λ _ _, tt) square 6 two_tris = Done [([0; 1; 2; 3; 65535; 65535], tt)].
Proof. split; by vm_compute. Qed.
Example C37_ex_hyp : Forall2 (λ (r : trow unit) vs, padded 6 vs r.1) two_tris [[0; 1; 2]; [2; 3; 0]] ∧
  NoDup (edges_of [[0; 1; 2]; [2; 3; 0]]) ∧ Forall (λ p, corners_convex (place square <$> p)) [[0; 1; 2]; [2; 3; 0]] ∧
  (∀ e, e ∈ cycle_edges [0; 1; 2] → e ∉ cycle_edges [2; 3; 0]).
Proof.
  split; [repeat constructor; cbn; lia|]. split; [by apply (bool_decide_eq_true_1 (NoDup (edges_of [[0; 1; 2]; [2; 3; 0]]))); vm_compute|].
  split; [repeat constructor|].
  intros e He. cbn in He. rewrite !elem_of_cons in He. cbn. rewrite !elem_of_cons.
  destruct He as [->|[->|[->|He]]]; [..|by apply elem_of_nil in He]; intros [E|[E|[E|E]]]; try discriminate E; by apply elem_of_nil in E.
Qed.

(** ** C38 *)

(** If an edge names a neighbour, that neighbour has the reversed edge and names
    the polygon back; an edge whose directed copies are unique in the mesh is
    linked to every polygon with the reversed edge. *)
Theorem C38_symmetric :
  ∀ nvp nv rows vss,
  Forall2 (λ (r : list Z * list Z) vs, padded nvp vs r.1 ∧ r.2 = repeat 65535 nvp) rows vss →
  (∀ vs v, vs ∈ vss → v ∈ vs → v < Z.of_nat nv) →
  Z.of_nat (length vss) ≤ 65535 → Z.of_nat nvp ≤ 65536 →
  Z.of_nat (length (filter (λ e : Z * Z, e.1 < e.2) (edges_of vss))) ≤ 65535 →
  ∃ rows', build_adjacency nvp nv (length vss) rows = Done rows' ∧ rows'.*1 = rows.*1 ∧
    (∀ p e q, nbr_at (rows'.*2) p e = Some q → q = 65535 ∨ reciprocal vss (rows'.*2) p e q) ∧
    (∀ p e q f u v, has_edge vss p e u v → has_edge vss q f v u → p ≠ q → once vss u v → once vss v u →
       nbr_at (rows'.*2) p e = Some (Z.of_nat q)).
Proof.
  intros nvp nv rows vss HF Hv Hnp Hnvp Hasc.
  assert (length (ascs (all_slots vss (length vss))) = length (filter (λ e : Z * Z, e.1 < e.2) (edges_of vss))) as Hl.
  { unfold edges_of. pose proof (all_slots_edges vss (length vss) (le_n _)) as E. rewrite firstn_all in E. rewrite <- E.
    generalize (all_slots vss (length vss)) as l. intros l. unfold ascs. induction l as [|s l IH]; [done|].
    rewrite fmap_cons, !filter_cons. unfold asc at 1. cbn [fst snd].
    repeat case_decide; cbn [length]; try (rewrite IH; done); lia. }
  assert (runs (build_adjacency nvp nv (length vss) rows) (λ rows', rows'.*1 = rows.*1 ∧
    (∀ p e q, nbr_at (rows'.*2) p e = Some q → q = 65535 ∨ reciprocal vss (rows'.*2) p e q) ∧
    (∀ p e q f u v, has_edge vss p e u v → has_edge vss q f v u → p ≠ q → once vss u v → once vss v u →
       nbr_at (rows'.*2) p e = Some (Z.of_nat q)))) as H;
    [|by destruct (build_adjacency nvp nv (length vss) rows) as [rows'| |]; [exists rows'|destruct H..]].
  eapply runs_mono; [apply (adjacency_runs nv nvp rows vss)|].
  - apply Forall2_same_length_lookup. split; [by eapply Forall2_length|]. intros i r vs Hr Hvs.
    rewrite Forall2_lookup in HF. specialize (HF i). rewrite Hr, Hvs in HF. inversion HF as [? ? [? ?]|]; subst. split; [done|].
    apply Forall_forall. intros v Hin. apply (Hv vs); [by eapply elem_of_list_lookup_2|done].
  - apply Forall_forall. intros r Hr. apply elem_of_list_lookup in Hr as [i Hi].
    by destruct (Forall2_lookup_l _ _ _ _ _ HF Hi) as (vs & _ & _ & ?).
  - done.
  - done.
  - by rewrite Hl.
  - intros rows' (E & _ & Hs & Hc). split; [done|]. split.
    + intros p e q Hq. rewrite <- nbr_nbr_at in Hq.
      destruct (Hs p e q Hq) as [->|(s & t & Hs1 & Ht & <- & <- & -> & [O1 O2] & Hne & Hback)]; [by left|right].
      exists (su s), (sv s), (sp t), (se t). split; [done|]. split; [congruence|]. split; [by apply at_slot_edge|].
      split; [|by rewrite <- nbr_nbr_at]. apply at_slot_edge in Ht. by rewrite O1, O2.
    + intros p e q f u v H1 H2 Hpq U1 U2. rewrite <- nbr_nbr_at.
      apply (Hc (Sl p e u v) (Sl q f v u) U1 U2); [by apply at_slot_edge..| |done]. done.
Qed.

Example C38_ex : build_adjacency 4 6 2 [([0; 1; 2; 3], repeat 65535 4); ([3; 2; 5; 4], repeat 65535 4)] =
  Done [([0; 1; 2; 3], [65535; 65535; 1; 65535]); ([3; 2; 5; 4], [0; 65535; 65535; 65535])].
Proof. by vm_compute. Qed.
Example C38_ex_hyp : NoDup (edges_of [[0; 1; 2; 3]; [3; 2; 5; 4]]) ∧ has_edge [[0; 1; 2; 3]; [3; 2; 5; 4]] 0 2 2 3 ∧
  Forall2 (λ (r : list Z * list Z) vs, padded 4 vs r.1 ∧ r.2 = repeat 65535 4)
    [([0; 1; 2; 3], repeat 65535 4); ([3; 2; 5; 4], repeat 65535 4)] [[0; 1; 2; 3]; [3; 2; 5; 4]].
Proof.
  split; [by apply (bool_decide_eq_true_1 (NoDup (edges_of [[0; 1; 2; 3]; [3; 2; 5; 4]]))); vm_compute|].
  split; [by exists [0; 1; 2; 3]|]. repeat constructor; cbn; lia.
Qed.

(** ** Contours for the examples *)

Definition contour_of (l : list (Z * Z)) (b : list Z) : contour :=
  Ct ((λ p : (Z * Z) * Z, (V p.1.1 0 p.1.2, p.2)) <$> zip l b) [] 1 63.
Definition set_of (cs : list contour) : contour_set := CSet cs geo0 10 10 1 f_zero.
Definition sq1 : contour := contour_of [(0, 0); (0, 4); (4, 4); (4, 0)] [0; 0; 0; 0].
Definition sq2 : contour := contour_of [(4, 0); (4, 4); (8, 4); (8, 0)] [0; 0; 0; 0].
Definition flagged_pentagon : contour := contour_of [(0, 0); (0, 4); (2, 6); (4, 4); (4, 0)] [0; BORDER_VERTEX; 0; 0; 0].

(** ** C51 *)

(** Contours whose corners are distinct in the plane, not flagged as border
    vertices, and have coordinates below 32768. *)
Definition plain_contour (c : contour) : Prop :=
  Forall (λ p : vtx * Z, Z.land p.2 BORDER_VERTEX = 0) (ct_verts c) ∧
  NoDup ((λ p : vtx * Z, (vx p.1, vz p.1)) <$> ct_verts c) ∧
  Forall (λ p : vtx * Z, small p.1) (ct_verts c).
Definition drawn (cs : list contour) : list contour := filter (λ c, (3 <= length (ct_verts c))%nat) cs.
Definition fits (nvp : nat) (cs : list contour) : Prop :=
  (3 <= nvp)%nat ∧ Z.of_nat nvp <= 65535 ∧ 3 * sumZ ((λ c, Z.of_nat (length (ct_verts c)) - 2) <$> drawn cs) <= 65535.

Lemma sum_nat l : sumZ (Z.of_nat <$> l) = Z.of_nat (sum_list l).
Proof. induction l as [|x l IH]; [done|]. rewrite fmap_cons. unfold sumZ in *. cbn [foldr]. rewrite IH. cbn. lia. Qed.
Lemma fits_tris nvp cs : fits nvp cs → Z.of_nat (3 * max_tris cs) <= 65535.
Proof.
  intros (_ & _ & H). unfold max_tris. change (live_contours cs) with (drawn cs).
  assert (sumZ ((λ c, Z.of_nat (length (ct_verts c)) - 2) <$> drawn cs) = Z.of_nat (sum_list ((λ c, length (ct_verts c) - 2)%nat <$> drawn cs))) as E; [|lia].
  rewrite <- sum_nat. f_equal. rewrite <- list_fmap_compose. apply list_fmap_ext. intros i c Hc. apply elem_of_list_lookup_2 in Hc.
  apply elem_of_list_filter in Hc as [Hc _]. unfold compose. lia.
Qed.
Lemma plain_good (B : Prop) cs : Forall plain_contour (drawn cs) → Forall (good_contour B) (live_contours cs).
Proof. intros H. eapply Forall_impl; [exact H|]. intros c (H1 & H2 & H3). split; [done|]. split; [done|]. by left. Qed.

(** Building a mesh from such contours returns; it fails only with an invalid
    contour, which is then not strictly convex. Otherwise every contour is tiled
    by polygons of at most [nvp] corners whose corners stand for those of the
    contour, region and area are those of the contour, and neighbours are
    reciprocal or portals. *)
Theorem C51_mesh :
  ∀ hf nvp ks, fits nvp (ks_contours ks) → Forall plain_contour (drawn (ks_contours ks)) →
  ∃ r, into_polygon_mesh hf nvp ks = Done r ∧
    match r with
    | Err e => e = InvalidContour ∧ ∃ c, c ∈ drawn (ks_contours ks) ∧ ¬ strictly_convex (fst <$> ct_verts c)
    | Ok pm => ∃ pieces, mesh_of nvp (ks_border ks) (drawn (ks_contours ks)) (pm_verts pm) (pm_polys pm) (pm_nbrs pm)
                 (pm_regs pm) (pm_areas pm) pieces
    end.
Proof.
  intros hf nvp ks Hf Hp. pose proof (fits_tris _ _ Hf) as Ht. destruct Hf as (H3 & Hn & _).
  pose proof (into_polygon_mesh_ends False hf nvp ks H3 Hn Ht (plain_good _ _ Hp)) as H.
  destruct (into_polygon_mesh hf nvp ks) as [r| |]; [|done..]. exists r. split; [done|]. destruct r as [pm|e]; [|done].
  destruct H as (pieces & H & _). by exists pieces.
Qed.

(** Strictly convex contours always give a mesh, with strictly convex polygons. *)
Theorem C51_convex :
  ∀ hf nvp ks, fits nvp (ks_contours ks) → Forall plain_contour (drawn (ks_contours ks)) →
  Forall (λ c, strictly_convex (fst <$> ct_verts c)) (drawn (ks_contours ks)) →
  ∃ pm vss, into_polygon_mesh hf nvp ks = Done (Ok pm) ∧ Forall2 (λ row vs, padded nvp vs row) (pm_polys pm) vss ∧
    Forall (λ vs, corners_convex (place (pm_verts pm) <$> vs)) vss.
Proof.
  intros hf nvp ks Hf Hp Hc. destruct (C51_mesh hf nvp ks Hf Hp) as (r & E & H). destruct r as [pm|e].
  - destruct H as [pieces H]. exists pm, (concat (snd <$> pieces)). split; [done|]. split; [apply H|].
    apply Forall_forall. intros vs Hvs. apply elem_of_concat in Hvs as (g & Hvs & Hg).
    apply elem_of_list_fmap in Hg as (p & -> & Hpc). pose proof (mo_pieces _ _ _ _ _ _ _ _ _ H) as Hok.
    rewrite Forall_forall in Hok. specialize (Hok p Hpc).
    assert (p.1.1 ∈ drawn (ks_contours ks)) as Hd by (rewrite <- (mo_contours _ _ _ _ _ _ _ _ _ H); by apply (elem_of_list_fmap_1 (λ p : piece, p.1.1))).
    rewrite Forall_forall in Hc. specialize (Hc _ Hd). destruct p as [[c ind] g]. cbn in *.
    destruct Hok as (_ & _ & _ & _ & _ & _ & Hcv). specialize (Hcv Hc). rewrite Forall_forall in Hcv. by apply Hcv.
  - destruct H as (_ & c & Hd & Hn). rewrite Forall_forall in Hc. by destruct Hn; apply Hc.
Qed.

(** The area of the mesh is the area of the contours. *)
Lemma area_same ps qs : Forall2 (λ a b, vx a = vx b ∧ vz a = vz b) ps qs → poly_area ps = poly_area qs.
Proof.
  intros HF. set (xz := λ v : vtx, (vx v, vz v)).
  assert (∀ l, poly_area l = sumZ ((λ e : (Z * Z) * (Z * Z), e.1.1 * e.2.2 - e.2.1 * e.1.2) <$> cycle_edges (xz <$> l))) as H.
  { intros l. unfold poly_area. rewrite cycle_fmap, <- list_fmap_compose. done. }
  rewrite !H. do 3 f_equal. clear H. induction HF as [|a b ps qs [H1 H2] _ IH]; [done|].
  rewrite !fmap_cons, IH. unfold xz. by rewrite H1, H2.
Qed.
Theorem C51_area :
  ∀ nvp border cs verts polys nbrs regs areas pieces, mesh_of nvp border cs verts polys nbrs regs areas pieces →
  ∃ vss, Forall2 (λ row vs, padded nvp vs row) polys vss ∧
    sumZ ((λ vs, poly_area (place verts <$> vs)) <$> vss) = sumZ ((λ c, poly_area (fst <$> ct_verts c)) <$> cs).
Proof.
  intros nvp border cs verts polys nbrs regs areas pieces H. exists (concat (snd <$> pieces)). split; [apply H|].
  rewrite <- (mo_contours _ _ _ _ _ _ _ _ _ H). pose proof (mo_pieces _ _ _ _ _ _ _ _ _ H) as Hok. clear H.
  induction Hok as [|[[c ind] g] pieces Hok _ IH]; [done|]. rewrite !fmap_cons. cbn [concat fst snd].
  rewrite fmap_app, sumZ_app, IH. unfold sumZ at 3. cbn [foldr]. f_equal.
  destruct Hok as (Hw & _ & T & _).
  pose proof (tiling_sum (λ e : Z * Z, area_term (place verts e.1, place verts e.2)) ind g (areaZ_flip _) T) as Hs.
  transitivity (poly_area (place verts <$> ind)).
  - rewrite area_edges. etransitivity; [|exact Hs]. f_equal. apply list_fmap_ext. intros k vs _. apply area_edges.
  - symmetry. apply area_same. apply Forall2_fmap_r. eapply Forall2_impl; [exact Hw|].
    intros v i (Hi & w & Hw' & Hx & Hz & _). unfold compose, place, at_pos. rewrite Hw'. cbn. by rewrite Hx, Hz.
Qed.

Example C51_ex : ∃ pm, into_polygon_mesh 0 6 (set_of [sq1; sq2]) = Done (Ok pm) ∧
  pm_polys pm = [[0; 1; 2; 3; 65535; 65535]; [3; 2; 4; 5; 65535; 65535]] ∧
  pm_nbrs pm = [[32768; 65535; 1; 32771; 65535; 65535]; [0; 65535; 65535; 32771; 65535; 65535]] ∧
  length (pm_verts pm) = 6%nat.
Proof. eexists. split; [vm_compute; reflexivity|]. by vm_compute. Qed.
Lemma convex_b (ps : list vtx) :
  forallb (λ i, forallb (λ j, forallb (λ k, negb ((i <? j)%nat && (j <? k)%nat) || (cross (at_pos ps i) (at_pos ps j) (at_pos ps k) <? 0))
    (seq 0 (length ps))) (seq 0 (length ps))) (seq 0 (length ps)) = true → strictly_convex ps.
Proof.
  intros H i j k a b c Hijk Ha Hb Hc.
  apply lookup_lt_Some in Ha as La. apply lookup_lt_Some in Hb as Lb. apply lookup_lt_Some in Hc as Lc.
  rewrite forallb_forall in H. specialize (H i). rewrite forallb_forall in H. specialize (fun x => H x j).
  assert (∀ x n, (x < n)%nat → In x (seq 0 n)) as Hin by (intros; apply in_seq; lia).
  specialize (H (Hin _ _ La) (Hin _ _ Lb)). rewrite forallb_forall in H. specialize (H k (Hin _ _ Lc)).
  unfold at_pos in H. rewrite Ha, Hb, Hc in H. cbn [from_option id] in H.
  destruct (i <? j)%nat eqn:E1; [|lia]. destruct (j <? k)%nat eqn:E2; [|lia]. cbn [negb andb orb] in H. by apply Z.ltb_lt in H.
Qed.
Example C51_ex_hyp : fits 6 [sq1; sq2] ∧ Forall plain_contour (drawn [sq1; sq2]) ∧
  Forall (λ c, strictly_convex (fst <$> ct_verts c)) (drawn [sq1; sq2]).
Proof.
  change (drawn [sq1; sq2]) with [sq1; sq2]. split; [|split].
  - split; [lia|]. split; [lia|]. by vm_compute.
  - repeat constructor; cbn; try lia; try set_solver.
  - repeat constructor; by apply convex_b.
Qed.

(** ** C39 *)

(** One flag, area and neighbour row for every polygon, and the regions of all
    polygons. *)
Theorem C39_lengths :
  ∀ hf nvp ks pm, fits nvp (ks_contours ks) → Forall plain_contour (drawn (ks_contours ks)) →
  into_polygon_mesh hf nvp ks = Done (Ok pm) →
  length (pm_flags pm) = length (pm_polys pm) ∧ length (pm_areas pm) = length (pm_polys pm) ∧
  length (pm_nbrs pm) = length (pm_polys pm) ∧ (length (pm_polys pm) <= length (pm_regs pm))%nat ∧
  Z.of_nat (length (pm_regs pm)) = sumZ ((λ c, Z.of_nat (length (ct_verts c)) - 2) <$> drawn (ks_contours ks)).
Proof.
  intros hf nvp ks pm Hf Hp E. pose proof (fits_tris _ _ Hf) as Ht. destruct Hf as (H3 & Hn & _).
  pose proof (into_polygon_mesh_ends False hf nvp ks H3 Hn Ht (plain_good _ _ Hp)) as H. rewrite E in H.
  destruct H as (pieces & H & Hl & Hr).
  assert (∀ f, length (tags f pieces) = length (pm_polys pm)) as Htags.
  { intros f. rewrite (Forall2_length _ _ _ (mo_rows _ _ _ _ _ _ _ _ _ H)). unfold tags. clear.
    induction pieces as [|p ps IH]; [done|]. rewrite !fmap_cons. cbn [concat]. rewrite !app_length, replicate_length, IH. done. }
  split; [done|]. split; [by rewrite (mo_areas _ _ _ _ _ _ _ _ _ H)|]. split; [apply H|]. split.
  - pose proof (mo_regs _ _ _ _ _ _ _ _ _ H) as Hg. apply (f_equal length) in Hg. rewrite take_length, Htags in Hg. lia.
  - rewrite Hr. unfold max_tris. change (live_contours (ks_contours ks)) with (drawn (ks_contours ks)).
    rewrite <- sum_nat. f_equal. rewrite <- list_fmap_compose. apply list_fmap_ext. intros i c Hc. apply elem_of_list_lookup_2 in Hc.
    apply elem_of_list_filter in Hc as [Hc _]. unfold compose. lia.
Qed.
(** The regions are not cut to the number of polygons. *)
Theorem C39_regions_refuted :
  ∃ ks pm, into_polygon_mesh 0 6 ks = Done (Ok pm) ∧ fits 6 (ks_contours ks) ∧ Forall plain_contour (drawn (ks_contours ks)) ∧
    length (pm_regs pm) ≠ length (pm_polys pm).
Proof.
  exists (set_of [sq1; sq2]). eexists. split; [vm_compute; reflexivity|]. split; [apply C51_ex_hyp|]. split; [apply C51_ex_hyp|].
  by vm_compute.
Qed.

(** ** C40 *)

(** Without border vertices there is nothing to remove, and building the mesh
    always ends, whatever the coordinates. *)
Theorem C40_ends_without_border_vertices :
  ∀ hf nvp ks, fits nvp (ks_contours ks) →
  Forall (λ c, Forall (λ p : vtx * Z, Z.land p.2 BORDER_VERTEX = 0) (ct_verts c) ∧
               NoDup ((λ p : vtx * Z, (vx p.1, vz p.1)) <$> ct_verts c)) (drawn (ks_contours ks)) →
  into_polygon_mesh hf nvp ks ≠ OutOfFuel.
Proof.
  intros hf nvp ks Hf Hp E. pose proof (fits_tris _ _ Hf) as Ht. destruct Hf as (H3 & Hn & _).
  pose proof (into_polygon_mesh_ends True hf nvp ks H3 Hn Ht) as H. rewrite E in H. apply H.
  eapply Forall_impl; [exact Hp|]. intros c [H1 H2]. split; [done|]. split; [done|]. by right.
Qed.

(** The hole that is left by removing a border vertex is not closed for any
    number of steps: a pentagon with one border vertex never returns. *)
Theorem C40_terminates_refuted :
  ∃ ks, (∀ c, c ∈ ks_contours ks → strictly_convex (fst <$> ct_verts c) ∧ Forall (λ p : vtx * Z, small p.1) (ct_verts c)) ∧
    ∀ hf, into_polygon_mesh hf 6 ks = OutOfFuel.
Proof.
  exists (set_of [flagged_pentagon]). split.
  { intros c Hc. apply elem_of_list_singleton in Hc as ->. split; [by apply convex_b|].
    repeat constructor; cbn; lia. }
  intros hf. eapply mesh_oof; [by vm_compute|vm_compute; reflexivity|].
  eapply flagged_skip; [vm_compute; lia|by vm_compute|].
  eapply flagged_oof; [vm_compute; lia|by vm_compute|by vm_compute|].
  eapply remove_vertex_oof; [vm_compute; lia|vm_compute; reflexivity|vm_compute; reflexivity|vm_compute; reflexivity|vm_compute; reflexivity|
    vm_compute; lia|vm_compute; reflexivity|vm_compute; reflexivity|].
  eapply hole_append; [|vm_compute; reflexivity|vm_compute; reflexivity|vm_compute; reflexivity|by vm_compute|by vm_compute|
    vm_compute; reflexivity|vm_compute; reflexivity|vm_compute; reflexivity|]; [vm_compute; lia|].
  intros fuel. eapply hole_stuck; [|vm_compute; reflexivity|vm_compute; reflexivity|vm_compute; reflexivity|by vm_compute|by vm_compute].
  vm_compute. lia.
Qed.

Print Assumptions C35_triangulation.
Print Assumptions C35_total.
Print Assumptions C35_convex_polygons_succeed.
Print Assumptions C35_large_coordinates_refuted.
Print Assumptions C36_linear_search.
Print Assumptions C36_welded.
Print Assumptions C36_stable.
Print Assumptions C36_order_matters_refuted.
Print Assumptions C37_merge.
Print Assumptions C37_total.
Print Assumptions C37_merge_all.
Print Assumptions C37_same_direction_refuted.
Print Assumptions C38_symmetric.
Print Assumptions C39_lengths.
Print Assumptions C39_regions_refuted.
Print Assumptions C40_ends_without_border_vertices.
Print Assumptions C40_terminates_refuted.
Print Assumptions C51_mesh.
Print Assumptions C51_convex.
Print Assumptions C51_area.
