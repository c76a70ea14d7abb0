(** Every polygon mesh that is returned, whatever the contours: C64, C65. *)
From Verif Require Import Base ModelMath ModelRegions ModelContours ModelPoly SpecPoly SpecDetail FlowProofs MergeProofs MeshProofs
  MeshShapeProofs RemoveProofs PropertiesPoly.
Local Open Scope Z_scope.

(** ** C64 *)

Definition corner_total (cs : list contour) : Z := sumZ ((λ c, Z.of_nat (length (ct_verts c))) <$> drawn cs).
Lemma corner_total_eq cs : corner_total cs = Z.of_nat (max_vertices cs).
Proof. unfold corner_total, max_vertices. rewrite <- sum_nat, <- list_fmap_compose. done. Qed.

(** No assumption on the contours: they may touch themselves, overlap or carry
    border flags. *)
Theorem C64_mesh_shape :
  ∀ hf nvp ks pm, (3 <= nvp)%nat → into_polygon_mesh hf nvp ks = Done (Ok pm) →
  let cs := drawn (ks_contours ks) in
  let np := length (pm_polys pm) in
  length (pm_nbrs pm) = np ∧ length (pm_flags pm) = np ∧ length (pm_areas pm) = np ∧ (np <= length (pm_regs pm))%nat ∧
  Z.of_nat np <= corner_total (ks_contours ks) <= 65535 ∧
  (** vertices are corners of contours *)
  Forall (λ v, ∃ c f, c ∈ cs ∧ (v, f) ∈ ct_verts c) (pm_verts pm) ∧
  (** polygons have three to [nvp] corners, then padding *)
  Forall (λ row, ∃ vs, padded nvp vs row ∧
    (corner_total (ks_contours ks) < 65535 → Forall (λ v, v < Z.of_nat (length (pm_verts pm))) vs)) (pm_polys pm) ∧
  (** neighbours are missing, a polygon, or a portal of a mesh with a border *)
  Forall (λ n, length n = nvp ∧ Forall (λ q, q = 65535 ∨ 0 <= q < Z.of_nat np ∨ (0 < ks_border ks ∧ 32768 <= q <= 32771)) n) (pm_nbrs pm) ∧
  Forall (λ a, ∃ c, c ∈ cs ∧ a = ct_area c) (pm_areas pm) ∧
  Forall (λ r, r = 0 ∨ ∃ c, c ∈ cs ∧ r = ct_reg c) (take np (pm_regs pm)).
Proof.
  intros hf nvp ks pm H3 E cs np.
  pose proof (into_polygon_mesh_gives nvp (λ v, ∃ c f, c ∈ cs ∧ (v, f) ∈ ct_verts c) (λ r, r = 0 ∨ ∃ c, c ∈ cs ∧ r = ct_reg c)
    (λ a, ∃ c, c ∈ cs ∧ a = ct_area c) hf ks H3 (or_introl eq_refl)) as H.
  destruct (H) with (2 := E) as (A1 & A2 & A3 & A4 & A5 & A6 & A7 & A8 & A9 & A10 & _); clear H.
  { apply Forall_forall. intros c Hc Hl. assert (c ∈ cs) as Hd by (apply elem_of_list_filter; done).
    split; [|split; [right|]; exists c; done]. apply Forall_forall. intros [v f] Hv. exists c, f. done. }
  fold np in A1, A2, A3, A4, A5, A8, A10.
  assert (Z.of_nat (max_vertices (ks_contours ks)) <= 65535) as Hm.
  { unfold into_polygon_mesh in E. destruct (65535 <? Z.of_nat (max_vertices (ks_contours ks))) eqn:Em; [done|]. lia. }
  rewrite corner_total_eq.
  split; [done|]. split; [done|]. split; [done|]. split; [done|]. split; [|split; [done|]].
  { split; [|done]. assert (max_tris (ks_contours ks) <= max_vertices (ks_contours ks))%nat; [|lia].
    unfold max_tris, max_vertices. generalize (live_contours (ks_contours ks)). intros l. clear.
    induction l as [|c l IH]; [done|]. rewrite !fmap_cons. cbn [sum_list foldr] in *. cbn in *. lia. }
  split; [|done]. eapply Forall_impl; [exact A7|]. intros row (vs & P & F). exists vs. split; [done|].
  intros Hlt. eapply Forall_impl; [exact F|]. intros v [?|?]; lia.
Qed.

(** The polygons qualify for the theorems about detail meshes. *)
Theorem C64_live :
  ∀ hf nvp ks pm, (3 <= nvp)%nat → into_polygon_mesh hf nvp ks = Done (Ok pm) →
  Z.of_nat (length (pm_polys pm)) * 255 < 4294967296 ∧ ∀ row, row ∈ pm_polys pm → ∃ l, live row l ∧ (3 ≤ length l)%nat.
Proof.
  intros hf nvp ks pm H3 E. destruct (C64_mesh_shape hf nvp ks pm H3 E) as (_ & _ & _ & _ & Hn & _ & Hp & _). split; [lia|].
  intros row Hrow. rewrite Forall_forall in Hp. destruct (Hp row Hrow) as (vs & (-> & Hl & Hv) & _). exists vs. split; [|lia].
  exists (repeat 65535 (nvp - length vs)). split; [done|]. split.
  - intros Hin. rewrite Forall_forall in Hv. specialize (Hv _ Hin). cbn in Hv. lia.
  - destruct (nvp - length vs)%nat as [|k]; [by left|]. right. by exists (repeat 65535 k).
Qed.

(** Two squares side by side; one corner is flagged. *)
Definition flagged_square : contour := contour_of [(0, 0); (0, 4); (4, 4); (4, 0)] [0; BORDER_VERTEX; 0; 0].
Example C64_ex : ∃ pm, into_polygon_mesh 0 6 (set_of [flagged_square; sq2]) = Done (Ok pm) ∧ length (pm_polys pm) = 2%nat.
Proof. eexists. split; [vm_compute; reflexivity|done]. Qed.

(** ** C75 *)

(** An edge that is not shared with a polygon is a portal exactly if the mesh has
    a border and the edge runs along a side of the field; the first such side is
    stored. *)
Theorem C75_portals :
  ∀ hf nvp ks pm, (3 <= nvp)%nat → into_polygon_mesh hf nvp ks = Done (Ok pm) → corner_total (ks_contours ks) < 65535 →
  ∀ p row vs e u v q, pm_polys pm !! p = Some row → padded nvp vs row →
    vs !! e = Some u → vs !! ((e + 1) mod length vs)%nat = Some v → nbr_at (pm_nbrs pm) p e = Some q →
  ∃ va vb, pm_verts pm !! Z.to_nat u = Some va ∧ pm_verts pm !! Z.to_nat v = Some vb ∧
  let along s := on_side (ks_w ks) (ks_h ks) s va ∧ on_side (ks_w ks) (ks_h ks) s vb in
  0 <= q < Z.of_nat (length (pm_polys pm)) ∨
  (0 < ks_border ks ∧ ∃ s, (s < 4)%nat ∧ q = 32768 + Z.of_nat s ∧ along s ∧ ∀ s', (s' < s)%nat → ¬ along s') ∨
  (q = 65535 ∧ (0 < ks_border ks → ∀ s, (s < 4)%nat → ¬ along s)).
Proof.
  intros hf nvp ks pm H3 E Hc p row vs e u v q Hrow P Hu Hv Hq.
  destruct (C64_mesh_shape hf nvp ks pm H3 E) as (_ & _ & _ & _ & _ & _ & Hpolys & _).
  rewrite Forall_lookup in Hpolys. destruct (Hpolys p row Hrow) as (vs' & P' & Hlt). specialize (Hlt Hc).
  assert (vs' = vs) as ->.
  { pose proof (count_padded _ _ _ P) as C1. rewrite (count_padded _ _ _ P') in C1.
    destruct P as (E1 & _ & _), P' as (E2 & _ & _). rewrite E1 in E2. symmetry in E2. by apply app_inj_1 in E2 as [? _]. }
  rewrite Forall_lookup in Hlt. pose proof (Hlt _ _ Hu) as Hu1. pose proof (Hlt _ _ Hv) as Hv1.
  pose proof P as (_ & Hlen & Hpos). rewrite Forall_lookup in Hpos. pose proof (Hpos _ _ Hu) as Hu0. pose proof (Hpos _ _ Hv) as Hv0. cbn beta in *.
  destruct (lookup_lt_is_Some_2 (pm_verts pm) (Z.to_nat u)) as [va Hva]; [lia|].
  destruct (lookup_lt_is_Some_2 (pm_verts pm) (Z.to_nat v)) as [vb Hvb]; [lia|].
  exists va, vb. split; [done|]. split; [done|]. cbn zeta.
  pose proof (into_polygon_mesh_gives nvp (λ _, True) (λ _, True) (λ _, True) hf ks H3 I) as H.
  destruct (H) with (2 := E) as (_ & _ & _ & _ & _ & _ & _ & _ & _ & _ & verts & Everts & HP); clear H.
  { apply Forall_forall. intros c _ _. split; [by apply Forall_true|done]. }
  unfold nbr_at in Hq. destruct (pm_nbrs pm !! p) as [n|] eqn:Hn; [|done]. cbn in Hq.
  destruct (HP p row n Hrow Hn) as (n0 & [Hl0 HF0] & HX). rewrite Forall_lookup in HF0.
  assert (e < length vs)%nat as He by (by eapply lookup_lt_Some).
  destruct (lookup_lt_is_Some_2 n0 e) as [q0 Hq0]; [lia|]. pose proof (HF0 _ _ Hq0) as Hq0r. cbn in Hq0r.
  destruct (Z.ltb_spec 0 (ks_border ks)) as [Hb|Hb].
  2:{ subst n0. assert (q0 = q) as -> by congruence. destruct Hq0r as [->|?]; [|by left]. right; right. split; [done|]. lia. }
  destruct (HX vs P e q0 He Hq0) as [HA HB]. destruct (decide (q0 = NO_INDEX)) as [->|Hne].
  2:{ specialize (HA Hne). assert (q0 = q) as -> by congruence. destruct Hq0r as [->|?]; [done|by left]. }
  destruct (HB eq_refl) as (va' & vb' & Ha' & Hb' & Eq). rewrite Hq in Eq. injection Eq as Eq.
  rewrite (list_lookup_total_correct _ _ _ Hu) in Ha'. unfold nx in Hb'. rewrite (list_lookup_total_correct _ _ _ Hv) in Hb'.
  rewrite Everts in Hva, Hvb. apply lookup_take_Some in Hva as [Hva _]. apply lookup_take_Some in Hvb as [Hvb _].
  assert (va' = va) as -> by congruence. assert (vb' = vb) as -> by congruence. clear Ha' Hb'.
  right. unfold portal in Eq. unfold on_side.
  repeat match type of Eq with context [if ?c then _ else _] => let Ec := fresh "Ec" in destruct c eqn:Ec end; cbn in Eq.
  - left. split; [done|]. exists 0%nat. split; [lia|]. split; [done|]. split; [cbn; lia|]. lia.
  - left. split; [done|]. exists 1%nat. split; [lia|]. split; [done|]. split; [cbn; lia|].
    intros s' Hs'. assert (s' = 0%nat) as -> by lia. cbn. lia.
  - left. split; [done|]. exists 2%nat. split; [lia|]. split; [done|]. split; [cbn; lia|].
    intros s' Hs'. destruct s' as [|[|s']]; cbn; lia.
  - left. split; [done|]. exists 3%nat. split; [lia|]. split; [done|]. split; [cbn; lia|].
    intros s' Hs'. destruct s' as [|[|[|s']]]; cbn; lia.
  - right. split; [done|]. intros _ s Hs. destruct s as [|[|[|[|s]]]]; cbn; lia.
Qed.

(** A square on the whole of a field of 4 x 4 cells with a border: all four edges
    are portals, the first one on the side x = 0. *)
Definition whole_field : contour_set := CSet [contour_of [(0, 0); (0, 4); (4, 4); (4, 0)] [0; 0; 0; 0]] geo0 4 4 1 (f_of_Z 1).
Example C75_ex : ∃ pm, into_polygon_mesh 0 4 whole_field = Done (Ok pm) ∧ corner_total (ks_contours whole_field) < 65535 ∧
  pm_polys pm = [[0; 1; 2; 3]] ∧ pm_nbrs pm = [[32768; 32769; 32770; 32771]].
Proof. eexists. split; [vm_compute; reflexivity|]. split; [by vm_compute|]. split; done. Qed.

(** ** C65 *)

(** The same contours with every border flag cleared. *)
Definition without_flags (ks : contour_set) : contour_set :=
  CSet ((λ c, Ct ((λ p : vtx * Z, (p.1, 0)) <$> ct_verts c) (ct_raw c) (ct_reg c) (ct_area c)) <$> ks_contours ks)
    (ks_geo ks) (ks_w ks) (ks_h ks) (ks_border ks) (ks_maxerr ks).
Definition distinct_corners (c : contour) : Prop := NoDup ((λ p : vtx * Z, (vx p.1, vz p.1)) <$> ct_verts c).

(** Whenever the mesh is returned, it is the one without border flags: no
    flagged vertex is ever removed. *)
Theorem C65_flags_without_effect :
  ∀ hf hf' nvp ks r, (3 <= nvp)%nat → corner_total (ks_contours ks) < 65535 → Forall distinct_corners (drawn (ks_contours ks)) →
  into_polygon_mesh hf nvp ks = Done r → into_polygon_mesh hf' nvp (without_flags ks) = Done r.
Proof. intros hf hf' nvp ks r H3 Hc Hd E. rewrite corner_total_eq in Hc. by apply (unflag_same hf nvp ks hf' H3 Hc Hd). Qed.

Lemma drawn_without ks : drawn (ks_contours (without_flags ks)) = unflag <$> drawn (ks_contours ks).
Proof. apply live_unflag. Qed.

(** So the mesh is made of the contours (C51) with flags, too. *)
Theorem C65_mesh :
  ∀ hf nvp ks pm, fits nvp (ks_contours ks) → corner_total (ks_contours ks) < 65535 →
  Forall (λ c, distinct_corners c ∧ Forall (λ p : vtx * Z, small p.1) (ct_verts c)) (drawn (ks_contours ks)) →
  into_polygon_mesh hf nvp ks = Done (Ok pm) →
  ∃ pieces, mesh_of nvp (ks_border ks) (drawn (ks_contours (without_flags ks))) (pm_verts pm) (pm_polys pm) (pm_nbrs pm)
    (pm_regs pm) (pm_areas pm) pieces.
Proof.
  intros hf nvp ks pm Hf Hc Hd E. pose proof Hf as (H3 & Hn & Hs).
  pose proof (C65_flags_without_effect hf hf nvp ks (Ok pm) H3 Hc) as Hu.
  destruct (C51_mesh hf nvp (without_flags ks)) as (r & E' & Hr).
  - split; [done|]. split; [done|]. rewrite drawn_without, <- list_fmap_compose.
    etransitivity; [|exact Hs]. apply Z.eq_le_incl. do 2 f_equal. apply list_fmap_ext. intros i c _. unfold compose. by rewrite unflag_length.
  - rewrite drawn_without. apply Forall_fmap. eapply Forall_impl; [exact Hd|]. intros c [H1 H2]. split; [|split].
    + cbn. apply Forall_fmap, Forall_true. intros p. done.
    + cbn. rewrite <- list_fmap_compose. done.
    + cbn. by apply Forall_fmap.
  - rewrite Hu in E'; [|eapply Forall_impl; [exact Hd|]; by intros c [? _]|done]. injection E' as <-. done.
Qed.

(** A flagged corner that stays. *)
Theorem C65_removed_refuted :
  ∃ ks pm c v, into_polygon_mesh 0 6 ks = Done (Ok pm) ∧ c ∈ ks_contours ks ∧ (v, BORDER_VERTEX) ∈ ct_verts c ∧ v ∈ pm_verts pm.
Proof.
  exists (set_of [flagged_square; sq2]). eexists. exists flagged_square, (V 0 0 4). split; [vm_compute; reflexivity|]. split; [left|].
  split; [right; left|]. cbn. right; left.
Qed.
Example C65_ex : fits 6 [flagged_square; sq2] ∧ corner_total [flagged_square; sq2] < 65535 ∧
  Forall (λ c, distinct_corners c ∧ Forall (λ p : vtx * Z, small p.1) (ct_verts c)) (drawn [flagged_square; sq2]).
Proof.
  change (drawn [flagged_square; sq2]) with [flagged_square; sq2]. split; [|split].
  - split; [lia|]. split; [lia|]. by vm_compute.
  - by vm_compute.
  - repeat constructor; cbn; try lia; set_solver.
Qed.

Print Assumptions C64_mesh_shape.
Print Assumptions C64_live.
Print Assumptions C75_portals.
Print Assumptions C65_flags_without_effect.
Print Assumptions C65_mesh.
Print Assumptions C65_removed_refuted.
