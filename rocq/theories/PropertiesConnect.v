(** The polygons of a contour hang together through their neighbours: C80. *)
From Verif Require Import Base ModelMath ModelRegions ModelContours ModelPoly SpecPoly TriangulateProofs AdjacencyProofs MeshProofs
  PropertiesPoly PropertiesMesh.
Local Open Scope Z_scope.

(** ** Chains of polygons *)

(** Two polygons share an edge, which they run through in opposite directions. *)
Definition shares {A} (ps : list (list A)) (p q : nat) : Prop :=
  ∃ e f u v, has_edge ps p e u v ∧ has_edge ps q f v u.

Lemma has_edge_mem (ps : list (list Z)) p vs u v : ps !! p = Some vs → (u, v) ∈ cycle_edges vs ↔ ∃ e, has_edge ps p e u v.
Proof.
  intros Hp. rewrite <- (poly_slots_edges p vs), elem_of_list_fmap. split.
  - intros (s & E & Hs). exists (se s). assert (s ∈ all_slots ps (S p)) as Ha.
    { rewrite all_slots_S, (list_lookup_total_correct _ _ _ Hp). apply elem_of_app. by right. }
    apply all_slots_in in Ha as [_ Ha]; [|by eapply lookup_lt_Some].
    unfold poly_slots in Hs. apply elem_of_list_fmap in Hs as (j & -> & Hj).
    apply at_slot_edge in Ha. cbn in *. injection E as -> ->. done.
  - intros [e He]. exists (Sl p e u v). split; [done|].
    assert (Sl p e u v ∈ all_slots ps (S p)) as Ha.
    { apply all_slots_in; [by eapply lookup_lt_Some|]. split; [cbn; lia|done]. }
    rewrite all_slots_S, (list_lookup_total_correct _ _ _ Hp) in Ha. apply elem_of_app in Ha as [Ha|Ha]; [|done].
    apply all_slots_in in Ha as [Ha _]; [cbn in Ha; lia|]. apply lookup_lt_Some in Hp. lia.
Qed.

(** Polygons that cannot be divided without cutting through an edge of both parts
    are joined by chains of shared edges. *)
Lemma connected_grow (g : list (list Z)) i : connected g → (i < length g)%nat →
  ∀ k, (1 <= k <= length g)%nat → ∃ S, NoDup S ∧ length S = k ∧ ∀ x, x ∈ S → (x < length g)%nat ∧ rtc (shares g) i x.
Proof.
  intros C Hi k. induction k as [|k IH]; [lia|]. intros Hk. destruct (decide (k = 0%nat)) as [->|Hk0].
  { exists [i]. split; [apply NoDup_singleton|]. split; [done|]. intros x ->%elem_of_list_singleton. split; [done|]. apply rtc_refl. }
  destruct IH as (S & HN & HL & HS); [lia|]. set (S' := filter (λ x, x ∉ S) (seq 0 (length g))).
  assert (seq 0 (length g) ≡ₚ S ++ S') as P.
  { apply NoDup_Permutation.
    - apply NoDup_seq.
    - apply NoDup_app. split; [done|]. split; [|apply NoDup_filter, NoDup_seq]. intros x Hx Hx'. unfold S' in Hx'. by apply elem_of_list_filter in Hx' as [? _].
    - intros x. rewrite elem_of_app. unfold S'. rewrite elem_of_list_filter. destruct (decide (x ∈ S)) as [Hx|Hx].
      + split; [by left|]. intros _. apply elem_of_seq. destruct (HS x Hx). lia.
      + naive_solver. }
  assert (g = (g !!!.) <$> seq 0 (length g)) as Eg.
  { apply list_eq. intros j. rewrite list_lookup_fmap. destruct (decide (j < length g)%nat) as [Hj|Hj].
    - rewrite lookup_seq_lt by done. cbn. by apply list_lookup_lookup_total_lt.
    - rewrite lookup_ge_None_2, lookup_seq_ge by lia. done. }
  destruct (C ((g !!!.) <$> S) ((g !!!.) <$> S')) as ([u v] & He & Hf).
  - rewrite Eg at 1. rewrite P, fmap_app. done.
  - intros E. apply (f_equal length) in E. rewrite fmap_length in E. cbn in E. lia.
  - intros E. apply (f_equal length) in E. rewrite fmap_length in E. cbn in E.
    apply Permutation_length in P. rewrite seq_length, app_length in P. lia.
  - apply edges_of_mem in He as (p & (x & -> & Hx)%elem_of_list_fmap & He).
    apply edges_of_mem in Hf as (q & (y & -> & Hy)%elem_of_list_fmap & Hf).
    unfold S' in Hy. apply elem_of_list_filter in Hy as [Hny Hy]. apply elem_of_seq in Hy as [_ Hy]. cbn in Hy.
    destruct (HS x Hx) as [Hxl Hrx].
    apply (has_edge_mem g x) in He as [e He]; [|by apply list_lookup_lookup_total_lt].
    apply (has_edge_mem g y) in Hf as [f Hf]; [|by apply list_lookup_lookup_total_lt].
    exists (y :: S). split; [by constructor|]. split; [cbn; lia|]. intros z Hz. apply elem_of_cons in Hz as [->|Hz]; [|by apply HS].
    split; [done|]. eapply rtc_r; [exact Hrx|]. by exists e, f, u, v.
Qed.
Lemma connected_chain (g : list (list Z)) i j : connected g → (i < length g)%nat → (j < length g)%nat → rtc (shares g) i j.
Proof.
  intros C Hi Hj. destruct (connected_grow g i C Hi (length g)) as (S & HN & HL & HS); [lia|].
  apply HS. assert (S ≡ₚ seq 0 (length g)) as ->; [|apply elem_of_seq; lia].
  apply submseteq_Permutation_length_eq; [by rewrite seq_length, HL|].
  apply NoDup_submseteq; [done|]. intros x Hx. apply elem_of_seq. destruct (HS x Hx). lia.
Qed.

(** ** C80 *)

(** The polygon [q] is the neighbour of [p] at one of its edges. *)
Definition linked (nbrs : list (list Z)) (p q : nat) : Prop := ∃ e, nbr_at nbrs p e = Some (Z.of_nat q).
(** All polygons of some pieces, one piece after the other. *)
Definition polygons (pieces : list piece) : list (list Z) := concat (snd <$> pieces).
(** Polygon [p] of the mesh belongs to contour [k]. *)
Definition of_contour (pieces : list piece) (k p : nat) : Prop :=
  ∃ pc i, pieces !! k = Some pc ∧ (i < length pc.2)%nat ∧ p = (length (polygons (take k pieces)) + i)%nat.

Lemma polygons_split pieces k pc : pieces !! k = Some pc →
  polygons pieces = polygons (take k pieces) ++ pc.2 ++ polygons (drop (S k) pieces).
Proof.
  intros Hk. unfold polygons. rewrite <- (take_drop_middle _ _ _ Hk) at 1. rewrite fmap_app, concat_app. done.
Qed.
Lemma polygons_lookup pieces k pc i : pieces !! k = Some pc → (i < length pc.2)%nat →
  polygons pieces !! (length (polygons (take k pieces)) + i)%nat = pc.2 !! i.
Proof. intros Hk Hi. rewrite (polygons_split _ _ _ Hk). rewrite lookup_app_r, lookup_app_l by lia. f_equal. lia. Qed.
Lemma has_edge_shift pieces k pc i e u v : pieces !! k = Some pc → has_edge pc.2 i e u v →
  has_edge (polygons pieces) (length (polygons (take k pieces)) + i) e u v.
Proof.
  intros Hk (vs & Hi & He). exists vs. split; [|done]. rewrite (polygons_lookup _ _ _ _ Hk); [done|]. by eapply lookup_lt_Some.
Qed.

(** Any two polygons of one contour are joined by a chain of polygons of which
    each shares an edge with the next. *)
Theorem C80_chain :
  ∀ nvp border cs verts polys nbrs regs areas pieces, mesh_of nvp border cs verts polys nbrs regs areas pieces →
  ∀ k p q, of_contour pieces k p → of_contour pieces k q → rtc (shares (polygons pieces)) p q.
Proof.
  intros nvp border cs verts polys nbrs regs areas pieces M k p q (pc & i & Hk & Hi & ->) (pc' & j & Hk' & Hj & ->).
  rewrite Hk in Hk'. injection Hk' as <-.
  pose proof (mo_pieces _ _ _ _ _ _ _ _ _ M) as Hok. rewrite Forall_lookup in Hok. specialize (Hok k pc Hk).
  assert (connected pc.2) as C. { destruct pc as [[c ind] g]. destruct Hok as (_ & _ & T & _). apply T. }
  eapply (rtc_congruence (λ i, (length (polygons (take k pieces)) + i)%nat)); [|by apply (connected_chain pc.2)].
  intros x y (e & f & u & v & H1 & H2). exists e, f, u, v. split; by eapply has_edge_shift.
Qed.

(** If no two polygons of the mesh run through an edge in the same direction,
    sharing an edge means being neighbours. *)
Lemma shares_linked nvp border cs verts polys nbrs regs areas pieces p q :
  mesh_of nvp border cs verts polys nbrs regs areas pieces → NoDup (edges_of (polygons pieces)) →
  shares (polygons pieces) p q → p = q ∨ linked nbrs p q.
Proof.
  intros M U (e & f & u & v & H1 & H2). destruct (decide (p = q)) as [->|Hne]; [by left|right]. exists e.
  eapply (mo_links _ _ _ _ _ _ _ _ _ M); [exact H1|exact H2|done|by apply NoDup_once..].
Qed.
Lemma chain_linked nvp border cs verts polys nbrs regs areas pieces p q :
  mesh_of nvp border cs verts polys nbrs regs areas pieces → NoDup (edges_of (polygons pieces)) →
  rtc (shares (polygons pieces)) p q → rtc (linked nbrs) p q.
Proof.
  intros M U. induction 1 as [p|p q r H _ IH]; [apply rtc_refl|].
  destruct (shares_linked _ _ _ _ _ _ _ _ _ _ _ M U H) as [->|H']; [done|]. by eapply rtc_l.
Qed.

(** The corners of a stored polygon. *)
Definition used (row : list Z) : list Z := filter (λ v, v ≠ 65535) row.
Lemma used_padded nvp vs row : padded nvp vs row → used row = vs.
Proof.
  intros (-> & _ & H). unfold used. rewrite filter_app.
  assert (filter (λ v, v ≠ 65535) (repeat 65535 (nvp - length vs)) = []) as ->.
  { induction (nvp - length vs)%nat as [|n IH]; [done|]. cbn [repeat]. rewrite filter_cons_False by lia. done. }
  rewrite app_nil_r. induction H as [|v vs Hv H IH]; [done|]. rewrite filter_cons_True by lia. by rewrite IH.
Qed.
Lemma used_rows nvp polys vss : Forall2 (λ row vs, padded nvp vs row) polys vss → used <$> polys = vss.
Proof. induction 1 as [|row vs polys vss H _ IH]; [done|]. rewrite fmap_cons, IH. f_equal. by eapply used_padded. Qed.

(** The tags of a polygon come from its contour. *)
Lemma tags_length f pieces : length (tags f pieces) = length (polygons pieces).
Proof.
  unfold tags, polygons. induction pieces as [|pc ps IH]; [done|]. rewrite !fmap_cons. cbn [concat].
  rewrite !app_length, replicate_length, IH. done.
Qed.
Lemma tags_lookup f pieces p r : tags f pieces !! p = Some r →
  ∃ k pc, pieces !! k = Some pc ∧ of_contour pieces k p ∧ f pc.1.1 = r.
Proof.
  revert p. induction pieces as [|pc ps IH]; intros p H; [done|].
  unfold tags in H. rewrite fmap_cons in H. cbn [concat] in H. apply lookup_app_Some in H as [H|[Hp H]].
  - apply lookup_replicate in H as [-> Hp]. exists 0%nat, pc. split; [done|]. split; [|done]. exists pc, p. done.
  - rewrite replicate_length in Hp, H. destruct (IH _ H) as (k & pc' & Hk & (pc'' & i & Hk' & Hi & E) & Hr).
    exists (S k), pc'. split; [done|]. split; [|done]. exists pc'', i. split; [done|]. split; [done|].
    cbn [take]. unfold polygons in *. rewrite fmap_cons. cbn [concat]. rewrite app_length. lia.
Qed.

(** From any polygon of a region one can walk to every other polygon of that
    region, going from polygons to their neighbours: given contours of different
    regions, plain as for C51, and no directed edge twice in the mesh. *)
Theorem C80_regions_hang_together :
  ∀ hf nvp ks pm, fits nvp (ks_contours ks) → Forall plain_contour (drawn (ks_contours ks)) →
  NoDup (ct_reg <$> drawn (ks_contours ks)) → into_polygon_mesh hf nvp ks = Done (Ok pm) →
  NoDup (edges_of (used <$> pm_polys pm)) →
  ∀ p q r, (p < length (pm_polys pm))%nat → (q < length (pm_polys pm))%nat →
  pm_regs pm !! p = Some r → pm_regs pm !! q = Some r → rtc (linked (pm_nbrs pm)) p q.
Proof.
  intros hf nvp ks pm Hf Hp Hr E U p q r Hlp Hlq Hpr Hqr.
  destruct (C51_mesh hf nvp ks Hf Hp) as (x & E' & H). rewrite E in E'. injection E' as <-. destruct H as [pieces M].
  rewrite (used_rows _ _ _ (mo_rows _ _ _ _ _ _ _ _ _ M)) in U. fold (polygons pieces) in U.
  pose proof (mo_regs _ _ _ _ _ _ _ _ _ M) as G.
  assert (∀ p, (p < length (pm_polys pm))%nat → pm_regs pm !! p = Some r →
    ∃ k pc, pieces !! k = Some pc ∧ of_contour pieces k p ∧ ct_reg pc.1.1 = r) as HG.
  { intros p' Hl H. apply tags_lookup. rewrite <- G, lookup_take by done. done. }
  destruct (HG p Hlp Hpr) as (k & pc & Hk & Hop & Er). destruct (HG q Hlq Hqr) as (k' & pc' & Hk' & Hoq & Er').
  assert (k = k') as <-.
  { apply (NoDup_lookup _ k k' r Hr); rewrite <- (mo_contours _ _ _ _ _ _ _ _ _ M), <- list_fmap_compose, list_lookup_fmap.
    - apply fmap_Some. exists pc. by rewrite <-Er.
    - apply fmap_Some. exists pc'. by rewrite <-Er'. }
  eapply chain_linked; [exact M|done|]. by eapply C80_chain.
Qed.

(** Where the boundaries of two contours have an edge in common, one can walk
    from any polygon of the one to any polygon of the other. *)
Theorem C80_across :
  ∀ nvp border cs verts polys nbrs regs areas pieces, mesh_of nvp border cs verts polys nbrs regs areas pieces →
  NoDup (edges_of (polygons pieces)) →
  ∀ k l c ind g c' ind' g' u v, pieces !! k = Some (c, ind, g) → pieces !! l = Some (c', ind', g') →
  (u, v) ∈ cycle_edges ind → (v, u) ∈ cycle_edges ind' →
  ∀ p q, of_contour pieces k p → of_contour pieces l q → rtc (linked nbrs) p q.
Proof.
  intros nvp border cs verts polys nbrs regs areas pieces M U k l c ind g c' ind' g' u v Hk Hl Hu Hv p q Hp Hq.
  assert (∀ k c ind g u v, pieces !! k = Some (c, ind, g) → (u, v) ∈ cycle_edges ind →
    ∃ p e, of_contour pieces k p ∧ has_edge (polygons pieces) p e u v) as H.
  { clear -M. intros k c ind g u v Hk Hu. pose proof (mo_pieces _ _ _ _ _ _ _ _ _ M) as Hok. rewrite Forall_lookup in Hok.
    destruct (Hok k _ Hk) as (_ & _ & T & _). destruct (tl_edges _ _ T) as [ds D].
    assert ((u, v) ∈ edges_of g) as Hg by (rewrite D; apply elem_of_app; by left).
    apply edges_of_mem in Hg as (vs & Hvs & He). apply elem_of_list_lookup in Hvs as [i Hi].
    apply (has_edge_mem g i) in He as [e He]; [|done]. exists (length (polygons (take k pieces)) + i)%nat, e. split.
    - exists (c, ind, g), i. split; [done|]. split; [|done]. by eapply lookup_lt_Some.
    - by apply (has_edge_shift pieces k (c, ind, g)). }
  destruct (H _ _ _ _ _ _ Hk Hu) as (p' & e & Hp' & He). destruct (H _ _ _ _ _ _ Hl Hv) as (q' & f & Hq' & Hf).
  eapply (chain_linked _ _ _ _ _ _ _ _ _ _ _ M U). etransitivity; [by eapply C80_chain|].
  eapply rtc_l; [by exists e, f, u, v|]. by eapply C80_chain.
Qed.

(** Two contours with several polygons each, and a common boundary. *)
Definition ell1 : contour := Ct (ct_verts (contour_of [(0, 0); (0, 8); (4, 8); (4, 4); (8, 4); (8, 0)] (repeat 0 6))) [] 1 63.
Definition ell2 : contour := Ct (ct_verts (contour_of [(4, 4); (4, 8); (0, 8); (0, 12); (12, 12); (12, 4); (8, 4)] (repeat 0 7))) [] 2 63.
Example C80_ex : ∃ pm, into_polygon_mesh 0 4 (set_of [ell1; ell2]) = Done (Ok pm) ∧ fits 4 [ell1; ell2] ∧
  Forall plain_contour (drawn [ell1; ell2]) ∧ NoDup (ct_reg <$> drawn [ell1; ell2]) ∧ NoDup (edges_of (used <$> pm_polys pm)) ∧
  length (pm_polys pm) = 6%nat ∧ take 6 (pm_regs pm) = [1; 1; 2; 2; 2; 2].
Proof.
  eexists. split; [vm_compute; reflexivity|]. split; [split; [lia|]; split; [lia|]; by vm_compute|].
  split. { change (drawn [ell1; ell2]) with [ell1; ell2]. repeat constructor; cbn; try lia; set_solver. }
  split. { change (drawn [ell1; ell2]) with [ell1; ell2]. repeat constructor; set_solver. }
  split; [|done]. apply (bool_decide_eq_true_1 _). by vm_compute.
Qed.

(** Floors that lie above each other at a distance that welding bridges (two cells)
    take each other's neighbours: their polygons have the same directed edges, and
    the polygons of a region are no longer joined. *)
Definition above : contour := Ct ((λ p : vtx * Z, (V (vx p.1) 2 (vz p.1), p.2)) <$> ct_verts ell1) [] 2 63.
Theorem C80_stacked_refuted : ∃ ks pm p q r, fits 4 (ks_contours ks) ∧ Forall plain_contour (drawn (ks_contours ks)) ∧
  NoDup (ct_reg <$> drawn (ks_contours ks)) ∧ into_polygon_mesh 0 4 ks = Done (Ok pm) ∧
  (p < length (pm_polys pm))%nat ∧ (q < length (pm_polys pm))%nat ∧ pm_regs pm !! p = Some r ∧ pm_regs pm !! q = Some r ∧
  ¬ rtc (linked (pm_nbrs pm)) p q.
Proof.
  exists (set_of [ell1; above]). eexists. exists 0%nat, 1%nat, 1. split; [split; [lia|]; split; [lia|]; by vm_compute|].
  split. { change (drawn _) with [ell1; above]. repeat constructor; cbn; try lia; set_solver. }
  split. { change (drawn _) with [ell1; above]. repeat constructor; set_solver. }
  split; [vm_compute; reflexivity|]. cbn [pm_polys pm_nbrs pm_regs]. split; [cbn; lia|]. split; [cbn; lia|]. split; [done|]. split; [done|].
  set (N := [_; _; _; _]).
  assert (∀ p q, rtc (linked N) p q → p = 0%nat ∨ p = 3%nat ∨ (4 <= p)%nat → q = 0%nat ∨ q = 3%nat ∨ (4 <= q)%nat) as H.
  { induction 1 as [p|p q r [e He] _ IH]; [done|]. intros Hp. apply IH. unfold nbr_at in He.
    destruct Hp as [->|[->|Hp]].
    - destruct e as [|[|[|[|e]]]]; cbn in He; try discriminate He; injection He as He; lia.
    - destruct e as [|[|[|[|e]]]]; cbn in He; try discriminate He; injection He as He; lia.
    - rewrite lookup_ge_None_2 in He by (cbn; lia). discriminate He. }
  intros R. destruct (H _ _ R ltac:(by left)) as [H1|[H1|H1]]; lia.
Qed.

Print Assumptions C80_chain.
Print Assumptions C80_regions_hang_together.
Print Assumptions C80_across.
Print Assumptions C80_stacked_refuted.
