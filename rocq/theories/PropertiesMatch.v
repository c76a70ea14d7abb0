(** Neighbouring regions are joined in the mesh: C82. *)
From Verif Require Import Base ModelMath ModelHeightfield ModelFilters ModelCompact ModelDistance ModelRegions
  ModelContours ModelPoly SpecHeightfield SpecCompact SpecDistance SpecRegions SpecContours SpecOutline SpecMatch SpecPoly
  ExampleFields MatchProofs PropertiesRegions PropertiesContours PropertiesOutline PropertiesPoly PropertiesMesh PropertiesConnect.
Local Open Scope Z_scope.

Definition positions (ct : contour) : list (Z * Z) := (λ v : vtx * Z, SpecContours.vpos v.1) <$> ct_verts ct.

(** A boundary of region [r] that is not drawn (C76). *)
Definition undrawn (ch : chf) (err2 : f32) (r : Z) : Prop := ∃ o, outlined ch err2 o ∧ ol_reg o = r ∧ ol_contour o = None.

(** ** Contours *)
(** Two regions of one area with an even common boundary. Wherever a contour of
    the one runs along the other, from [p] to [q], it has a single edge there, and a
    contour of the other region has the same edge from [q] to [p], whatever the
    tolerance and lengths are, unless that boundary of the other region is not drawn. *)
Theorem C82_contours_match :
  ∀ ch err len wall areas cs r1 r2 A, contourable ch → 0 ≤ len → build_contours ch err len wall areas = Done cs →
  inner r1 → inner r2 → r1 ≠ r2 → one_area ch r1 A → one_area ch r2 A → meets_evenly ch r1 r2 → meets_evenly ch r2 r1 →
  ∀ ct1 j m p q, ct1 ∈ ks_contours cs → ct_reg ct1 = r1 → run_along (ct_raw ct1) r2 j m p q → p ≠ q →
  adjacent (positions ct1) p q ∧
  ((∃ ct2 k, ct2 ∈ ks_contours cs ∧ ct_reg ct2 = r2 ∧ run_along (ct_raw ct2) r1 k m q p ∧ adjacent (positions ct2) q p) ∨
   undrawn ch (f_mul err err) r2).
Proof.
  intros ch err len wall areas cs r1 r2 A Hc Hl E Hi1 Hi2 Hne Ha1 Ha2 H12 H21 ct1 j m p q Hct Er Hrun Hpq.
  destruct (C76_boundaries_enclose _ _ _ _ _ _ Hc Hl E) as (LL & Hcs & Hok & _ & Hcov & _).
  assert (∀ o ct, o ∈ LL → ol_contour o = Some ct → ct_reg ct = ol_reg o ∧
    ∀ r' j m p q, run_along (ct_raw ct) r' j m p q → p ≠ q → adjacent (positions ct) p q) as Hstr.
  { intros o ct Ho Ec. rewrite Forall_forall in Hok. destruct (Hok _ Ho) as (_ & _ & _ & _ & H). rewrite Ec in H.
    destruct H as (Er' & _ & _ & _ & Hs & _). split; [done|].
    intros r' j' m' p' q' (Hr & _ & (a & Ha & <-) & (b & Hb & <-)) Hne'. by eapply Hs. }
  rewrite <-Hcs in Hct. apply elem_of_list_omap in Hct as (o1 & Ho1 & Ec1). destruct (Hstr _ _ Ho1 Ec1) as [Er1 Hs1].
  split; [by eapply Hs1|].
  destruct (runs_match ch (ca_wf _ Hc) (ca_sym _ Hc) (f_mul err err) LL r1 r2 A o1 ct1 j m p q) as (o2 & Ho2 & Er2 & H2); [done..|congruence|done|done|].
  destruct (ol_contour o2) as [ct2|] eqn:Ec2.
  - left. destruct (H2 ct2 eq_refl) as (k & Hk). destruct (Hstr _ _ Ho2 Ec2) as [Er2' Hs2]. exists ct2, k. split.
    { rewrite <-Hcs. apply elem_of_list_omap. by exists o2. }
    split; [congruence|]. split; [done|]. eapply Hs2; [done|]. by intros ->.
  - right. exists o2. rewrite Forall_forall in Hok. split; [by apply Hok|done].
Qed.

(** ** The mesh *)
(** The vertices of all contours at position [p] are at most two apart in height,
    so that they are one vertex of the mesh. *)
Definition level_at (cs : list contour) (p : Z * Z) : Prop :=
  ∀ c c' v v', c ∈ cs → c' ∈ cs → v ∈ fst <$> ct_verts c → v' ∈ fst <$> ct_verts c' →
    SpecContours.vpos v = p → SpecContours.vpos v' = p → Z.abs (vy v - vy v') ≤ 2.

Lemma adjacent_edge ind (u v : Z) : adjacent ind u v → (u, v) ∈ cycle_edges ind.
Proof. intros (k & Hu & Hv). apply (has_edge_mem [ind] 0 ind); [done|]. exists k, ind. done. Qed.

Section level.
  Context nvp border cs verts polys nbrs regs areas pieces (M : mesh_of nvp border cs verts polys nbrs regs areas pieces).
  Lemma index_at c ind g k v : (c, ind, g) ∈ pieces → ct_verts c !! k = Some v → ∃ i w, ind !! k = Some i ∧ 0 ≤ i ∧
    verts !! Z.to_nat i = Some w ∧ SpecContours.vpos w = SpecContours.vpos v.1 ∧ ∃ c', c' ∈ cs ∧ w ∈ fst <$> ct_verts c'.
  Proof.
    intros Hp Hv. pose proof (mo_pieces _ _ _ _ _ _ _ _ _ M) as Hok. rewrite Forall_forall in Hok. destruct (Hok _ Hp) as (HF & _).
    assert ((fst <$> ct_verts c) !! k = Some v.1) as Hv' by (by rewrite list_lookup_fmap, Hv).
    destruct (Forall2_lookup_l _ _ _ _ _ HF Hv') as (i & Hi & H0 & w & Hw & Hx & Hz & _). exists i, w. split; [done|]. split; [done|]. split; [done|].
    split; [unfold SpecContours.vpos; congruence|]. apply (mo_welded _ _ _ _ _ _ _ _ _ M). by eapply elem_of_list_lookup_2.
  Qed.
  Lemma same_index i i' w w' c c' p : level_at cs p → 0 ≤ i → 0 ≤ i' → verts !! Z.to_nat i = Some w → verts !! Z.to_nat i' = Some w' →
    c ∈ cs → c' ∈ cs → w ∈ fst <$> ct_verts c → w' ∈ fst <$> ct_verts c' → SpecContours.vpos w = p → SpecContours.vpos w' = p → i = i'.
  Proof.
    intros Hl H0 H0' Hw Hw' Hc Hc' Hm Hm' Hp Hp'. destruct (decide (Z.to_nat i = Z.to_nat i')) as [|Hne]; [lia|].
    destruct (proj2 (mo_welded _ _ _ _ _ _ _ _ _ M) _ _ _ _ Hw Hw' Hne). rewrite <-Hp in Hp'. unfold SpecContours.vpos in Hp'.
    injection Hp' as Ex Ez. split; [done|]. split; [done|]. eapply (Hl c c'); [done..|]. rewrite <-Hp. unfold SpecContours.vpos. congruence.
  Qed.
  Lemma common_edge ct1 ind1 g1 ct2 ind2 g2 p q : level_at cs p → level_at cs q → (ct1, ind1, g1) ∈ pieces → (ct2, ind2, g2) ∈ pieces →
    adjacent (positions ct1) p q → adjacent (positions ct2) q p → ∃ u v, (u, v) ∈ cycle_edges ind1 ∧ (v, u) ∈ cycle_edges ind2.
  Proof.
    intros Lp Lq H1 H2 A1 A2.
    assert (∀ ct ind g p q, (ct, ind, g) ∈ pieces → adjacent (positions ct) p q → ∃ i j wi wj ci cj, (i, j) ∈ cycle_edges ind ∧
      (0 ≤ i ∧ verts !! Z.to_nat i = Some wi ∧ SpecContours.vpos wi = p ∧ ci ∈ cs ∧ wi ∈ fst <$> ct_verts ci) ∧
      (0 ≤ j ∧ verts !! Z.to_nat j = Some wj ∧ SpecContours.vpos wj = q ∧ cj ∈ cs ∧ wj ∈ fst <$> ct_verts cj)) as H.
    { clear -M. intros ct ind g p q Hp (k & Hk & Hk'). unfold positions in Hk, Hk'. rewrite list_lookup_fmap in Hk. rewrite list_lookup_fmap, fmap_length in Hk'.
      apply fmap_Some in Hk as (v & Hv & ->). apply fmap_Some in Hk' as (w & Hw & ->).
      destruct (index_at _ _ _ _ _ Hp Hv) as (i & wi & Hi & H0 & Hwi & Epi & ci & Hci & Hmi).
      destruct (index_at _ _ _ _ _ Hp Hw) as (j & wj & Hj & H0' & Hwj & Epj & cj & Hcj & Hmj).
      exists i, j, wi, wj, ci, cj. split; [|done]. apply adjacent_edge. exists k. split; [done|].
      pose proof (mo_pieces _ _ _ _ _ _ _ _ _ M) as Hok. rewrite Forall_forall in Hok. destruct (Hok _ Hp) as (HF & _).
      apply Forall2_length in HF. rewrite fmap_length in HF. by rewrite <-HF. }
    destruct (H _ _ _ _ _ H1 A1) as (u & v & wu & wv & cu & cv & He & (U0 & U1 & U2 & U3 & U4) & (V0 & V1 & V2 & V3 & V4)).
    destruct (H _ _ _ _ _ H2 A2) as (x & y & wx & wy & cx & cy & He' & (X0 & X1 & X2 & X3 & X4) & (Y0 & Y1 & Y2 & Y3 & Y4)).
    exists u, v. split; [done|].
    assert (u = y) as -> by (exact (same_index _ _ _ _ _ _ _ Lp U0 Y0 U1 Y1 U3 Y3 U4 Y4 U2 Y2)).
    assert (v = x) as -> by (exact (same_index _ _ _ _ _ _ _ Lq V0 X0 V1 X1 V3 X3 V4 X4 V2 X2)). done.
  Qed.
End level.

Lemma all_drawn ch err len wall areas cs : contourable ch → 0 ≤ len → build_contours ch err len wall areas = Done cs →
  drawn (ks_contours cs) = ks_contours cs.
Proof.
  intros Hc Hl E. destruct (C76_boundaries_enclose _ _ _ _ _ _ Hc Hl E) as (LL & Hcs & Hok & _).
  assert (Forall (λ c, (3 <= length (ct_verts c))%nat) (ks_contours cs)) as H.
  { apply Forall_forall. intros ct Hct. rewrite <-Hcs in Hct. apply elem_of_list_omap in Hct as (o & Ho & Ec).
    rewrite Forall_forall in Hok. destruct (Hok _ Ho) as (_ & _ & _ & _ & H). rewrite Ec in H. apply H. }
  unfold drawn. clear -H. induction H as [|c l Hc _ IH]; [done|]. rewrite filter_cons_True by done. by rewrite IH.
Qed.

(** Contours and mesh of two such regions: if a contour of the one runs along the
    other one, and the places where that starts and ends are level, one can walk from
    every polygon of the one region to every polygon of the other, going from
    polygons to their neighbours. Contours are plain as for C51, one to a region,
    and no directed edge is twice in the mesh, as for C80. *)
Theorem C82_regions_joined :
  ∀ ch err len wall areas cs r1 r2 A, contourable ch → 0 ≤ len → build_contours ch err len wall areas = Done cs →
  inner r1 → inner r2 → r1 ≠ r2 → one_area ch r1 A → one_area ch r2 A → meets_evenly ch r1 r2 → meets_evenly ch r2 r1 →
  ∀ ct1 j m p q, ct1 ∈ ks_contours cs → ct_reg ct1 = r1 → run_along (ct_raw ct1) r2 j m p q → p ≠ q →
  level_at (ks_contours cs) p → level_at (ks_contours cs) q →
  ∀ hf nvp pm, fits nvp (ks_contours cs) → Forall plain_contour (ks_contours cs) → NoDup (ct_reg <$> ks_contours cs) →
  into_polygon_mesh hf nvp cs = Done (Ok pm) → NoDup (edges_of (used <$> pm_polys pm)) →
  undrawn ch (f_mul err err) r2 ∨
  ∀ x y, (x < length (pm_polys pm))%nat → (y < length (pm_polys pm))%nat →
    pm_regs pm !! x = Some r1 → pm_regs pm !! y = Some r2 → rtc (linked (pm_nbrs pm)) x y.
Proof.
  intros ch err len wall areas cs r1 r2 A Hc Hl E Hi1 Hi2 Hne Ha1 Ha2 H12 H21 ct1 j m p q Hct Er Hrun Hpq Lp Lq hf nvp pm Hf Hp Hr Em U.
  destruct (C82_contours_match _ _ _ _ _ _ _ _ _ Hc Hl E Hi1 Hi2 Hne Ha1 Ha2 H12 H21 _ _ _ _ _ Hct Er Hrun Hpq) as [A1 [(ct2 & k2 & Hct2 & Er2 & _ & A2)|Hu]]; [right|by left].
  pose proof (all_drawn _ _ _ _ _ _ Hc Hl E) as Hd. rewrite <-Hd in Hp.
  destruct (C51_mesh hf nvp cs Hf Hp) as (res & E' & H). rewrite Em in E'. injection E' as <-. destruct H as [pieces M]. rewrite Hd in M.
  rewrite (used_rows _ _ _ (mo_rows _ _ _ _ _ _ _ _ _ M)) in U. fold (polygons pieces) in U.
  pose proof (mo_regs _ _ _ _ _ _ _ _ _ M) as G.
  assert (∀ r x, (x < length (pm_polys pm))%nat → pm_regs pm !! x = Some r →
    ∃ k pc, pieces !! k = Some pc ∧ of_contour pieces k x ∧ ct_reg pc.1.1 = r) as HG.
  { intros r' x' Hl' H. apply tags_lookup. rewrite <- G, lookup_take by done. done. }
  assert (∀ ct ct', ct ∈ ks_contours cs → ct' ∈ ks_contours cs → ct_reg ct = ct_reg ct' → ct = ct') as Hinj.
  { clear -Hr. intros ct ct' (a & Ha)%elem_of_list_lookup (b & Hb)%elem_of_list_lookup Eq.
    assert (a = b) as ->; [|congruence]. apply (NoDup_lookup _ a b (ct_reg ct) Hr); rewrite list_lookup_fmap; [by rewrite Ha|by rewrite Hb, Eq]. }
  assert (∀ k pc, pieces !! k = Some pc → pc.1.1 ∈ ks_contours cs) as Hin.
  { intros k pc Hk. rewrite <- (mo_contours _ _ _ _ _ _ _ _ _ M). apply (elem_of_list_fmap_1 (λ p : piece, p.1.1)). by eapply elem_of_list_lookup_2. }
  intros x y Hx Hy Hxr Hyr. destruct (HG _ _ Hx Hxr) as (k & [[c1 ind1] g1] & Hk & Hox & Ex). destruct (HG _ _ Hy Hyr) as (l & [[c2 ind2] g2] & Hl2 & Hoy & Ey).
  cbn [fst snd] in *. assert (c1 = ct1) as ->. { apply Hinj; [by apply (Hin _ _ Hk)|done|congruence]. }
  assert (c2 = ct2) as ->. { apply Hinj; [by apply (Hin _ _ Hl2)|done|congruence]. }
  destruct (common_edge _ _ _ _ _ _ _ _ _ M ct1 ind1 g1 ct2 ind2 g2 p q Lp Lq) as (u & v & Hu & Hv); [by eapply elem_of_list_lookup_2|by eapply elem_of_list_lookup_2|done|done|].
  by eapply (C80_across _ _ _ _ _ _ _ _ _ M U k l).
Qed.

(** ** Examples *)
Definition plan (w h : nat) (f : nat → nat → bool) : chf :=
  flat w h ((λ c, if f (c mod w)%nat (c / w)%nat then 255 else 0) <$> seq 0 (w * h)).
(** Two rooms of 7 x 7 cells with a door of two cells between them are two regions. *)
Definition door : chf := plan 15 7 (λ x z, (x <? 7) || (7 <? x) || (z =? 3) || (z =? 4))%nat.
Definition door_run : chf * chf := Eval vm_compute in run_of door 0 0 0.
Definition set_from (o : outcome contour_set) : contour_set := match o with Done cs => cs | _ => set_of [] end.
Definition door_set : contour_set := Eval vm_compute in set_from (build_contours (snd door_run) (f_of_Z 1) 0 true false).
Lemma door_contourable : contourable (snd door_run).
Proof.
  apply (run_contourable (fst door_run) _ 0 0 0); [by vm_compute|split; by vm_compute|by vm_compute|split; by vm_compute|done|by vm_compute|by vm_compute].
Qed.
Definition door_raw : list rawv := Eval vm_compute in match ks_contours door_set with ct :: _ => ct_raw ct | [] => [] end.
Lemma door_runs : run_along door_raw 2 16 2 (8, 5) (8, 3).
Proof.
  split; [|split; [|split]]; [|eexists; split; [vm_compute; reflexivity|by vm_compute]..].
  split; [lia|]. split; [|split; [|split]].
  - eexists _, _. split; [vm_compute; reflexivity|]. split; [vm_compute; reflexivity|]. left. by vm_compute.
  - eexists _, _. split; [vm_compute; reflexivity|]. split; [vm_compute; reflexivity|]. left. by vm_compute.
  - intros o Ho. assert (o = 1%nat) as -> by lia. intros (p & q & Hp & Hq & Hd). vm_compute in Hp, Hq. injection Hp as <-. injection Hq as <-. destruct Hd as [Hd|Hd]; by vm_compute in Hd.
  - eexists. split; [vm_compute; reflexivity|]. by vm_compute.
Qed.
Lemma level_flat cs p : forallb (λ c, forallb (λ v : vtx * Z, vy v.1 =? 0) (ct_verts c)) cs = true → level_at cs p.
Proof.
  rewrite forallb_forall. intros H c c' v v' Hc Hc' (x & -> & Hx)%elem_of_list_fmap (y & -> & Hy)%elem_of_list_fmap _ _.
  pose proof (H c) as H1. pose proof (H c') as H2. rewrite <-elem_of_list_In in H1, H2. specialize (H1 Hc). specialize (H2 Hc').
  rewrite forallb_forall in H1, H2. specialize (H1 x). specialize (H2 y). rewrite <-elem_of_list_In in H1, H2.
  specialize (H1 Hx). specialize (H2 Hy). lia.
Qed.
Example C82_hypotheses_met : ∃ ct1 pm,
  contourable (snd door_run) ∧ build_contours (snd door_run) (f_of_Z 1) 0 true false = Done door_set ∧
  inner 1 ∧ inner 2 ∧ one_area (snd door_run) 1 255 ∧ one_area (snd door_run) 2 255 ∧
  meets_evenly (snd door_run) 1 2 ∧ meets_evenly (snd door_run) 2 1 ∧
  ct1 ∈ ks_contours door_set ∧ ct_reg ct1 = 1 ∧ run_along (ct_raw ct1) 2 16 2 (8, 5) (8, 3) ∧
  level_at (ks_contours door_set) (8, 5) ∧ level_at (ks_contours door_set) (8, 3) ∧
  fits 6 (ks_contours door_set) ∧ Forall plain_contour (ks_contours door_set) ∧ NoDup (ct_reg <$> ks_contours door_set) ∧
  into_polygon_mesh 0 6 door_set = Done (Ok pm) ∧ NoDup (edges_of (used <$> pm_polys pm)) ∧ take 4 (pm_regs pm) = [1; 2; 2; 2].
Proof.
  pose proof door_contourable as Hc. pose proof door_runs as Hrun.
  destruct (ks_contours door_set) as [|ct1 l] eqn:El; [by vm_compute in El|]. exists ct1. eexists. rewrite <-El.
  assert (ct_raw ct1 = door_raw ∧ ct_reg ct1 = 1) as [Er Eg]. { vm_compute in El. injection El as <- _. done. }
  split; [done|]. split; [by vm_compute|]. split; [split; [done|unfold border_flag; lia]|]. split; [split; [done|unfold border_flag; lia]|].
  split; [apply one_area_b_ok; by vm_compute|]. split; [apply one_area_b_ok; by vm_compute|].
  split; [apply evenly_b_ok; [apply Hc|done|by vm_compute]|]. split; [apply evenly_b_ok; [apply Hc|done|by vm_compute]|].
  split; [rewrite El; left|]. split; [done|]. split; [by rewrite Er|].
  split; [apply level_flat; by vm_compute|]. split; [apply level_flat; by vm_compute|].
  split; [split; [lia|]; split; [lia|]; by vm_compute|].
  split. { apply Forall_forall. intros c Hin. rewrite El in Hin. revert c Hin. apply Forall_forall. clear -El. vm_compute in El. injection El as <- <-.
    repeat constructor; cbn; try lia; set_solver. }
  split. { apply (bool_decide_eq_true_1 _). by vm_compute. }
  split; [vm_compute; reflexivity|]. split; [|done]. apply (bool_decide_eq_true_1 _). by vm_compute.
Qed.

(** Where the boundary is pinched, the regions come apart. A floor of 9 x 10
    cells with a single unwalkable cell in it is divided into two regions. They touch
    along several cells, but one of them touches the other on both sides of that
    cell, so that its contour cuts the corner where the other's has a vertex. In the
    mesh the polygon of the smaller region has no neighbour at all. *)
Definition pinched : chf := plan 9 10 (λ x z, negb ((x =? 6) && (z =? 2)))%nat.
Definition pinched_run : chf * chf := Eval vm_compute in run_of pinched 0 0 0.
Definition pinched_set : contour_set := Eval vm_compute in set_from (build_contours (snd pinched_run) (f_of_Z 1) 0 true false).
Theorem C82_pinched_refuted : ∃ ch cs pm x y, contourable ch ∧ build_contours ch (f_of_Z 1) 0 true false = Done cs ∧
  one_area ch 1 255 ∧ one_area ch 2 255 ∧ meets_evenly ch 1 2 ∧
  (∃ i d j, (d < 4)%nat ∧ region_of ch i = Some 1 ∧ step ch i d j ∧ region_of ch j = Some 2) ∧
  into_polygon_mesh 0 6 cs = Done (Ok pm) ∧ (x < length (pm_polys pm))%nat ∧ (y < length (pm_polys pm))%nat ∧
  pm_regs pm !! x = Some 2 ∧ pm_regs pm !! y = Some 1 ∧ ¬ rtc (linked (pm_nbrs pm)) x y.
Proof.
  assert (contourable (snd pinched_run)) as Hc.
  { apply (run_contourable (fst pinched_run) _ 0 0 0); [by vm_compute|split; by vm_compute|by vm_compute|split; by vm_compute|done|by vm_compute|by vm_compute]. }
  exists (snd pinched_run), pinched_set. eexists. exists 3%nat, 0%nat. split; [done|]. split; [by vm_compute|].
  split; [apply one_area_b_ok; by vm_compute|]. split; [apply one_area_b_ok; by vm_compute|].
  split; [apply evenly_b_ok; [apply Hc|done|by vm_compute]|].
  split. { exists 5%nat, 2%nat, 6%nat. split; [lia|]. split; [by vm_compute|]. split; [|by vm_compute].
    eapply (GraphProofs.nbr_step _ (ca_wf _ Hc) 5 5 2 6); [lia| |by vm_compute]. eexists. split; [by vm_compute|]. by apply (bool_decide_eq_true_1 _). }
  split; [vm_compute; reflexivity|]. cbn [pm_polys pm_nbrs pm_regs]. split; [cbn; lia|]. split; [cbn; lia|]. split; [done|]. split; [done|].
  set (N := [_; _; _; _]).
  assert (∀ p q, rtc (linked N) p q → (3 <= p)%nat → (3 <= q)%nat) as H.
  { induction 1 as [p|p q r [e He] _ IH]; [done|]. intros Hp. apply IH. unfold nbr_at in He.
    destruct (decide (p = 3%nat)) as [->|Hp3].
    - destruct e as [|[|[|[|[|[|e]]]]]]; cbn in He; try discriminate He; injection He as He; lia.
    - rewrite lookup_ge_None_2 in He by (cbn; lia). discriminate He. }
  intros R. pose proof (H _ _ R). lia.
Qed.

Print Assumptions C82_contours_match.
Print Assumptions C82_regions_joined.
Print Assumptions C82_pinched_refuted.
