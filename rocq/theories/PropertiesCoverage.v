(** Property C77: what the navigation mesh covers. *)
From Verif Require Import Base ModelMath ModelHeightfield ModelHistory ModelFilters ModelTriMesh ModelCompact ModelDistance ModelRegions ModelContours
  ModelPoly ModelConfig ModelPipeline
  SpecHeightfield SpecCompact SpecDistance SpecRegions SpecContours SpecOutline SpecPoly SpecPipeline SpecCoverage
  HistoryProofs CompactProofs LinkProofs GraphProofs FlowProofs GivesProofs PipelineProofs SpotProofs
  PropertiesHeightfield PropertiesCompact PropertiesDistance PropertiesRegions PropertiesContours PropertiesPoly PropertiesMesh PropertiesPipeline
  PropertiesCover PropertiesOutline.
Local Open Scope Z_scope.

Lemma step_same ch ch' i d j : ch_w ch' = ch_w ch → ch_h ch' = ch_h ch → ch_cells ch' = ch_cells ch → ch_spans ch' = ch_spans ch →
  step ch i d j → step ch' i d j.
Proof. intros E1 E2 E3 E4 (c & k & c' & k' & l & l' & (s & (l0 & H) & H') & H2). exists c, k, c', k', l, l'. rewrite E3. split; [|done].
  exists s. split; [exists l0; by rewrite E3, E4|]. by rewrite E1, E2. Qed.
Lemma in_region_dec ch i : in_region ch i ∨ ¬ in_region ch i.
Proof.
  unfold in_region, border_flag. destruct (region_of ch i) as [r|] eqn:Er.
  - destruct (decide (r ≠ 0 ∧ ¬ 32768 ≤ r)) as [[? ?]|Hn].
    + left. exists r. done.
    + right. intros (r' & Hr' & ? & ?). apply Hn. by injection Hr' as <-.
  - right. intros (r' & Hr' & _). done.
Qed.

Section coverage.
  Context (c : cfg) (r : run) (O : list (list ospan)).
  Hypothesis M : measures c.
  Hypothesis S : staged c r O.
  Hypothesis H62 : Forall (λ o, length o ≤ 62)%nat O.
  Hypothesis H255 : cf_wh c + cf_climb c ≤ 255.
  Hypothesis E4 : erode_walkable_area (r_open r) (cf_radius c) = Done (r_eroded r).
  Notation hf := (r_field r).
  Notation wh := (cf_wh c).
  Notation wc := (cf_climb c).
  Notation sof := (spot_of (r_field r) O).

  (** Erosion keeps the places with room. *)
  Lemma roomy_kept i p : sof i p → roomy hf wh wc (cf_radius c) p → ∃ a, ch_areas (r_eroded r) !! i = Some a ∧ a ≠ 0.
  Proof.
    intros Hp Hr. destruct (spot_area hf (r_open r) O (sg_lists _ _ _ S) _ _ Hp) as (a & Ha & Ha0).
    pose proof (ms_radius _ M) as Mr.
    destruct (runs_eq _ _ _ (C18_erosion_exact _ (cf_radius c) (sg_wf _ _ _ S) (sg_fits _ _ _ S) ltac:(lia)) E4 i a Ha) as [[(w & Hw & Hlt) _]|[_ H]].
    - exfalso. pose proof (roomy_far hf (r_open r) O wh wc (sg_field _ _ _ S) (sg_opens _ _ _ S) (sg_lists _ _ _ S) (sg_connects _ _ _ S)
        (sg_ow _ _ _ S) (sg_oh _ _ _ S) H62 (ms_climb _ M) H255 _ _ _ _ Hp Hr Hw). lia.
    - by exists a.
  Qed.

  Lemma eroded_step i d j : step (r_open r) i d j ↔ step (r_eroded r) i d j.
  Proof.
    pose proof (sg_eroded _ _ _ S) as (A1 & A2 & _ & _ & _ & _ & _ & _ & A9 & A10 & _). split; by apply step_same.
  Qed.
  Lemma spot_bound i p : sof i p → (i < length (ch_spans (r_eroded r)))%nat.
  Proof.
    intros Hp. pose proof (sg_eroded _ _ _ S) as (_ & _ & _ & _ & _ & _ & _ & _ & _ & A10 & _). rewrite A10.
    pose proof (spot_floor hf (r_open r) O (sg_lists _ _ _ S) _ _ Hp) as Hf. apply fmap_Some in Hf as (s & Hs & _).
    by eapply lookup_lt_Some.
  Qed.

  Lemma wide_center p : Forall (λ a, a = 0 ∨ a = 255) (ch_areas (r_eroded r)) → wide hf wh wc (cf_radius c) p →
    ∃ i, (i < length (ch_spans (r_eroded r)))%nat ∧ ¬ SpecDistance.area_border (r_eroded r) i.
  Proof.
    intros HA [Hr Hn].
    destruct (spot_index hf (r_open r) O wh wc (sg_field _ _ _ S) (sg_opens _ _ _ S) (sg_ow _ _ _ S) (sg_oh _ _ _ S) (ms_climb _ M) H255 p (proj1 Hr)) as [i Hi].
    exists i. split; [by eapply spot_bound|]. intros (_ & d & Hd & Hno). destruct (Hn d Hd) as (q & Hm & Hq).
    destruct (move_step hf (r_open r) O wh wc (sg_field _ _ _ S) (sg_opens _ _ _ S) (sg_lists _ _ _ S) (sg_connects _ _ _ S)
        (sg_ow _ _ _ S) (sg_oh _ _ _ S) H62 (ms_climb _ M) H255 i d p q Hd Hi Hm) as (j & Hj & Hjq).
    destruct (roomy_kept _ _ Hi Hr) as (a & Ha & Ha0). destruct (roomy_kept _ _ Hjq Hq) as (a' & Ha' & Ha0').
    apply eroded_step in Hj. apply (Hno j Hj). rewrite Ha, Ha'. f_equal.
    destruct (Forall_lookup_1 _ _ _ _ HA Ha) as [?| ->]; [done|]. by destruct (Forall_lookup_1 _ _ _ _ HA Ha') as [?| ->].
  Qed.

  Lemma spot_in_cell i p : sof i p → in_cell (r_open r) (sp_x p + sp_z p * hf_w hf) i.
  Proof.
    intros (Hx & Hz & o & k & q & l & j & a & Ho & Hk & -> & _). destruct (lo_cell _ _ (sg_lists _ _ _ S) _ _ Ho) as (cl & Hcl & Hn & Hix).
    exists cl. split; [done|]. apply lookup_lt_Some in Hk. unfold index_range. apply elem_of_seq. rewrite Hix by (intros ->; cbn in *; lia). lia.
  Qed.
End coverage.

(** ** C77 *)
(** Where there is room for the agent, there is navigation mesh: the place lies
    inside a contour, or inside a boundary that gets no contour (that of a single
    cell, or one that two positions are enough to stand for), unless it belongs to a
    patch of fewer than [min_region_area] places. Somewhere the floor has to be wide
    enough for a place and its four neighbours to have room. *)
Theorem C77_room_is_covered :
  ∀ cosf f1 f2 c affs r, measures c → cf_wh c + cf_climb c ≤ 255 →
  build_navmesh cosf f1 f2 c affs = Done (BOk r) → moderate r → Z.of_nat (length (ch_spans (r_open r))) < 32764 →
  (∃ p, wide (r_field r) (cf_wh c) (cf_climb c) (cf_radius c) p) →
  ∀ p, roomy (r_field r) (cf_wh c) (cf_climb c) (cf_radius c) p → inside (r_field r) (cf_border c) p →
  let x := Z.of_nat (sp_x p) in let z := Z.of_nat (sp_z p) in
  (∃ ct, ct ∈ ks_contours (r_contours r) ∧
     0 < winding x z ((λ v : rawv, (vx v.1 + cf_border c, vz v.1 + cf_border c)) <$> ct_raw ct)) ∨
  (∃ o, outlined (r_regions r) (f_mul (cf_edge_err c) (cf_edge_err c)) o ∧ ol_contour o = None ∧ 0 < winding x z (ol_loop o)) ∨
  (∃ L, patch (r_field r) (cf_wh c) (cf_climb c) L p ∧ Z.of_nat (length L) < cf_min_area c).
Proof.
  intros cosf f1 f2 c affs r M H255 E D Hsz [p0 Hp0] p Hp Hin x z.
  destruct (build_staged _ _ _ _ _ _ M E D) as [O S]. pose proof (proj1 (md_layers _ D O (sg_opens _ _ _ S))) as H62.
  destruct (staged_areas _ _ _ _ _ _ _ M E D S) as [HA _].
  apply build_done in E as (m & lo & hi & _ & _ & _ & _ & _ & E2 & _ & E4 & E5 & E6 & E7 & _).
  destruct (regions_cells c r O S) as (Ec & Ew & Eh & Ea & El). rewrite Ea in HA.
  pose proof (sg_eroded _ _ _ S) as (A1 & A2 & _ & _ & _ & _ & _ & _ & A9 & A10 & _).
  assert (fits_u16 (r_eroded r)) as Hf. { split; [rewrite A1|rewrite A2]; apply (sg_fits _ _ _ S). }
  destruct (spot_index (r_field r) (r_open r) O (cf_wh c) (cf_climb c) (sg_field _ _ _ S) (sg_opens _ _ _ S) (sg_ow _ _ _ S) (sg_oh _ _ _ S) (ms_climb _ M) H255 p (proj1 Hp)) as [i Hi].
  pose proof (spot_in_cell c r O S i p Hi) as Hcell.
  assert (Hcell' : in_cell (r_regions r) (sp_x p + sp_z p * ch_w (r_regions r)) i).
  { destruct Hcell as (cell & H1 & H2). exists cell. rewrite Ec, Ew. done. }
  assert (Hwk : walkable_span (r_eroded r) i) by (by apply (roomy_kept c r O M S H62 H255 E4 i p)).
  assert (Hne : ¬ near_edge (r_eroded r) (cf_border c) i).
  { intros (x' & z' & Hx' & Hz' & Hc' & Hb). assert (in_cell (r_eroded r) (sp_x p + sp_z p * hf_w (r_field r)) i) as Hce.
    { destruct Hcell as (cell & H1 & H2). exists cell. by rewrite A9. }
    pose proof (in_cell_unique _ (sg_eroded_wf _ _ _ S) _ _ _ Hc' Hce) as Eq. rewrite A1, A2, (sg_ow _ _ _ S), (sg_oh _ _ _ S) in *.
    destruct (same_cell (hf_w (r_field r)) x' z' (sp_x p) (sp_z p)) as [-> ->]; [done|apply (proj1 (proj1 Hp))|done|].
    destruct Hin. lia. }
  destruct (in_region_dec (r_regions r) i) as [(rg & Hrg & Hnz & Hnb)|Hout].
  - destruct (C76_every_span_enclosed _ _ _ _ _ _ i rg (sp_x p) (sp_z p) (sg_contourable _ _ _ S) (ms_edge _ M) E7 Hcell')
      as (o & Ho & _ & Hwd & Hct); [rewrite Ew; apply (proj1 Hp)|done|done|].
    destruct (ol_contour o) as [ct|] eqn:Eo.
    + left. exists ct. split; [by apply Hct|]. destruct Ho as (_ & _ & _ & _ & Ho). rewrite Eo in Ho. destruct Ho as (_ & Ho & _).
      rewrite (sg_border _ _ _ S) in Ho. by rewrite <-Ho.
    + right. left. by exists o.
  - right. right.
    destruct (C74_from_distances _ _ _ _ _ _ (sg_eroded_wf _ _ _ S) Hf ltac:(rewrite A1, (sg_ow _ _ _ S), (proj1 (sg_w _ _ _ S)), (proj2 (sg_w _ _ _ S)); pose proof (md_w _ D); lia)
      ltac:(by rewrite A10) E5 E6 (wide_center c r O M S H62 H255 E4 p0 HA Hp0) i Hwk Hne Hout) as (L & L1 & L2 & L3 & L4).
    destruct (spots_of (r_field r) O L) as [LS HF].
    { intros j Hj. destruct (L4 j Hj) as (_ & _ & Hz). apply (spot_ex (r_field r) (r_open r) O (cf_wh c) (cf_climb c)); try apply S; try apply M; [done|].
      rewrite <-El. unfold region_of in Hz. apply fmap_Some in Hz as (s & Hs & _). by eapply lookup_lt_Some. }
    assert (Hsp : ∀ k q, spot_of (r_field r) O k q → k ∈ L → q ∈ LS).
    { intros k q Hq Hk. apply elem_of_list_lookup in Hk as (n & Hn). eapply Forall2_lookup_l in HF as (q' & H1 & H2); [|exact Hn].
      assert (q = q') as -> by (eapply (spot_fun (r_field r) O); [apply S|exact Hq|exact H2]).
      by eapply elem_of_list_lookup_2. }
    exists LS. split; [|by rewrite <-(Forall2_length _ _ _ HF)]. split; [|split].
    + eapply (spots_nodup (r_field r) O); try apply S; try apply M; done.
    + by apply (Hsp i).
    + intros q Hq. apply elem_of_list_lookup in Hq as (n & Hn). eapply Forall2_lookup_r in HF as Hj; [|exact Hn]. destruct Hj as (j & Hj & Hjq).
      split; [by eapply spot_of_in|]. apply elem_of_list_lookup_2 in Hj. destruct (L4 j Hj) as (HJ & _).
      eapply (joined_ways (r_field r) (r_open r) O (cf_wh c) (cf_climb c)); try apply S; try apply M; [exact HF| |exact Hi|exact Hjq].
      clear -HJ A1 A2 A9 A10. induction HJ as [k Hk|k l n Hk Ha HJ IH]; [by constructor|]. econstructor; [done| |done].
      destruct Ha as (d & Hd & Ha). exists d. split; [done|]. destruct Ha as [Ha|Ha]; [left|right]; by eapply step_same.
Qed.

(** If moreover the contours are plain, polygons of the mesh tile the contour
    around the place. *)
Theorem C77_room_has_polygons :
  ∀ cosf f1 f2 c affs r, measures c → cf_wh c + cf_climb c ≤ 255 →
  build_navmesh cosf f1 f2 c affs = Done (BOk r) → moderate r → Z.of_nat (length (ch_spans (r_open r))) < 32764 →
  (∃ p, wide (r_field r) (cf_wh c) (cf_climb c) (cf_radius c) p) →
  fits (Z.to_nat (cf_nvp c)) (ks_contours (r_contours r)) → Forall plain_contour (ks_contours (r_contours r)) →
  ∀ p, roomy (r_field r) (cf_wh c) (cf_climb c) (cf_radius c) p → inside (r_field r) (cf_border c) p →
  let x := Z.of_nat (sp_x p) in let z := Z.of_nat (sp_z p) in let m := r_mesh r in
  (∃ ct ind polys, 0 < winding x z ((λ v : rawv, (vx v.1 + cf_border c, vz v.1 + cf_border c)) <$> ct_raw ct) ∧
     (∃ j0 os, subloop (ct_raw ct) j0 os (fst <$> ct_verts ct)) ∧
     piece_ok (Z.to_nat (cf_nvp c)) (pm_verts m) (ct, ind, polys) ∧
     ∀ vs, vs ∈ polys → ∃ k row, pm_polys m !! k = Some row ∧ padded (Z.to_nat (cf_nvp c)) vs row ∧ pm_areas m !! k = Some 255) ∨
  (∃ o, outlined (r_regions r) (f_mul (cf_edge_err c) (cf_edge_err c)) o ∧ ol_contour o = None ∧ 0 < winding x z (ol_loop o)) ∨
  (∃ L, patch (r_field r) (cf_wh c) (cf_climb c) L p ∧ Z.of_nat (length L) < cf_min_area c).
Proof.
  intros cosf f1 f2 c affs r M H255 E D Hsz Hwide Hfit Hplain p Hp Hin x z m.
  destruct (C77_room_is_covered _ _ _ _ _ _ M H255 E D Hsz Hwide p Hp Hin) as [(ct & Hct & Hwd)|H]; [left|right; exact H].
  destruct (build_staged _ _ _ _ _ _ M E D) as [O S].
  pose proof (C71_navmesh _ _ _ _ _ _ M E D) as (_ & _ & L3 & _ & _ & HA & _).
  apply build_done in E as (m0 & lo & hi & _ & _ & _ & _ & _ & E2 & _ & E4 & E5 & E6 & E7 & E8 & _).
  assert (Hdr : drawn (ks_contours (r_contours r)) = ks_contours (r_contours r)).
  { unfold drawn. clear -S M E7. assert (HF : ∀ ct, ct ∈ ks_contours (r_contours r) → (3 ≤ length (ct_verts ct))%nat).
    { intros ct Hct. apply (C32_contour_sets _ _ _ _ _ _ ct (sg_contourable _ _ _ S) (ms_edge _ M) E7 Hct). }
    induction (ks_contours (r_contours r)) as [|ct l IH]; [done|]. rewrite filter_cons, decide_True by (apply HF; left).
    f_equal. apply IH. intros ct' H'. apply HF. by right. }
  destruct (C51_mesh f1 _ (r_contours r) Hfit) as (res & Er & Hr); [by rewrite Hdr|].
  rewrite E8 in Er. injection Er as <-. destruct Hr as [pieces Hm]. rewrite Hdr in Hm.
  pose proof Hct as Hct'. rewrite <-(mo_contours _ _ _ _ _ _ _ _ _ Hm) in Hct. apply elem_of_list_fmap in Hct as ([[ct' ind] g] & -> & Hpc).
  cbn in *. exists ct', ind, g. split; [done|].
  destruct (C32_contour_sets _ _ _ _ _ _ ct' (sg_contourable _ _ _ S) (ms_edge _ M) E7 Hct') as (_ & Hsub & _).
  split; [done|]. pose proof (mo_pieces _ _ _ _ _ _ _ _ _ Hm) as Hok. rewrite Forall_forall in Hok. split; [exact (Hok _ Hpc)|].
  intros vs Hvs. assert (vs ∈ concat (snd <$> pieces)) as Hin'.
  { apply elem_of_list_In, in_concat. exists g. split; [|by apply elem_of_list_In]. apply elem_of_list_In, elem_of_list_fmap. by exists (ct', ind, g). }
  apply elem_of_list_lookup in Hin' as (k & Hk). pose proof (mo_rows _ _ _ _ _ _ _ _ _ Hm) as HR.
  eapply Forall2_lookup_r in HR as (row & Hrow & Hpad); [|exact Hk]. exists k, row. split; [done|]. split; [done|].
  destruct (lookup_lt_is_Some_2 (pm_areas m) k) as [a Ha]. { unfold m. rewrite L3. by eapply lookup_lt_Some. }
  rewrite Ha. f_equal. by apply (Forall_lookup_1 _ _ _ _ HA Ha).
Qed.

(** Clearance is stored in a byte: for an agent of more than 255 voxels no two
    spans are connected, and whatever is built is empty. *)
Theorem C77_tall_agents_get_nothing :
  ∀ cosf f1 f2 c affs r, measures c → 255 < cf_wh c →
  build_navmesh cosf f1 f2 c affs = Done (BOk r) → moderate r →
  ks_contours (r_contours r) = [] ∧ pm_polys (r_mesh r) = [].
Proof.
  intros cosf f1 f2 c affs r M H255 E D. destruct (build_staged _ _ _ _ _ _ M E D) as [O S].
  apply build_done in E as (m0 & lo & hi & _ & _ & _ & _ & _ & E2 & _ & E4 & E5 & E6 & E7 & E8 & _).
  pose proof (sg_eroded _ _ _ S) as (A1 & A2 & _ & _ & _ & _ & _ & _ & A9 & A10 & _).
  assert (fits_u16 (r_eroded r)) as Hf. { split; [rewrite A1|rewrite A2]; apply (sg_fits _ _ _ S). }
  assert (Hno : ∀ i d j, (d < 4)%nat → ¬ step (r_open r) i d j).
  { intros i d j Hd (c1 & k1 & c2 & k2 & l1 & l2 & (s & Hs & Hcon & Hnb) & Hc1 & Hc2 & -> & ->).
    apply (lists_opens_span_in (r_open r) O) in Hs as (o1 & Ho1 & Hk1 & Hs1); [|apply S].
    destruct (lookup_lt_is_Some_2 o1 k1) as [p Hp]; [done|].
    apply (sg_connects _ _ _ S c1 o1 k1 p d s Ho1 Hp Hd Hs1) in Hcon as (_ & c' & o' & Hnb' & Ho' & (q & Hq & Htr & _) & _).
    destruct (proj2 (sg_opens _ _ _ S) _ _ Ho1) as (l & _ & <-). apply opens_at in Hp as (j' & a & _ & _ & ->).
    cbn in Htr. lia. }
  assert (ks_contours (r_contours r) = []) as Hnil.
  { destruct (C31_closed_loops _ _ _ _ _ _ (sg_contourable _ _ _ S) (ms_edge _ M) E7) as (SS & _ & HF).
    destruct (ks_contours (r_contours r)) as [|ct l]; [done|]. exfalso. destruct SS as [|sides SS]; [by inversion HF|].
    apply Forall2_cons_1 in HF as [(Hin & Htr & [Hne _] & _) _].
    destruct (ct_raw ct) as [|v raw] eqn:Er; [done|]. destruct sides as [|[i d] sides]; [by inversion Htr|].
    apply Forall2_cons_1 in Htr as [((_ & Hreg & _) & _) _]. cbn in Hreg.
    destruct (ca_border _ (sg_contourable _ _ _ S)) as [_ Hclear]. pose proof (Hclear _ _ Hreg Hin) as Hedge. rewrite (sg_border _ _ _ S) in Hedge.
    destruct (regions_cells c r O S) as (Ec & Ew & Eh & _).
    eapply (C74_thin_floors_vanish (r_eroded r) (r_dist r) (cf_border c)); [apply S|done| |exact E5|exact E6| | |].
    - rewrite A1, (sg_ow _ _ _ S), (proj1 (sg_w _ _ _ S)), (proj2 (sg_w _ _ _ S)). pose proof (md_w _ D). lia.
    - intros k Hk. split; [done|]. exists 0%nat. split; [lia|]. intros j Hs. exfalso. apply (Hno k 0%nat j); [lia|]. by eapply step_same.
    - intros (x & z & Hx & Hz & (cell & Hc & Hi) & Hb). apply Hedge. exists x, z.
      rewrite A1, A2, (sg_ow _ _ _ S), (sg_oh _ _ _ S), <-Ew, <-Eh in *. split; [done|]. split; [done|]. split; [|done].
      exists cell. split; [|done]. rewrite Ec, <-A9. done.
    - exists (ct_reg ct). split; [exact Hreg|]. exact Hin. }
  split; [done|].
  destruct (C64_mesh_shape f1 (Z.to_nat (cf_nvp c)) (r_contours r) (r_mesh r)) as (_ & _ & L3 & _ & _ & _ & _ & _ & Har & _);
    [pose proof (ms_nvp _ M); lia|done|].
  destruct (pm_polys (r_mesh r)) as [|row l] eqn:Ep; [done|]. exfalso.
  destruct (pm_areas (r_mesh r)) as [|a la]; [cbn in L3; lia|]. apply Forall_cons in Har as [(ct & Hct & _) _].
  rewrite Hnil in Hct. by apply elem_of_nil in Hct.
Qed.

(** ** Concrete builds *)
(** Columns with a single walkable span, that ends at [f]. *)
Definition level_b (hf : hfield) (f : Z) (c : nat) : bool :=
  match hf_cols hf !! c with
  | Some (Some k) => match hf_alloc hf !! k with Some (mkSpan mn mx ar None) => negb (ar =? 0) && (mx =? f) | _ => false end
  | _ => false
  end.
Lemma level_b_ok hf f c : level_b hf f c = true → ∃ a, is_column hf c [a] ∧ walkable a ∧ c_max a = f.
Proof.
  unfold level_b. destruct (hf_cols hf !! c) as [[k|]|] eqn:Ec; try done. destruct (hf_alloc hf !! k) as [[mn mx ar [n|]]|] eqn:Ek; try done.
  intros [Ha Hm]%andb_true_iff. exists (Cell mn mx ar). split; [|split; [unfold walkable; cbn; lia|cbn; lia]].
  exists [(k, Cell mn mx ar)]. split; [|done]. exists (Some k). split; [done|]. split; [done|]. exists None. done.
Qed.
(** A level rectangle. *)
Definition level (hf : hfield) (f : Z) (x0 x1 z0 z1 : nat) : bool :=
  (x1 <? hf_w hf)%nat && (z1 <? hf_h hf)%nat &&
  forallb (λ x, forallb (λ z, level_b hf f (x + z * hf_w hf)) (seq z0 (z1 + 1 - z0))) (seq x0 (x1 + 1 - x0)).
Section level.
  Context (hf : hfield) (f : Z) (x0 x1 z0 z1 : nat) (wh wc : Z).
  Hypothesis HR : reachable hf.
  Hypothesis Hlv : level hf f x0 x1 z0 z1 = true.
  Hypothesis Hwc : 0 ≤ wc.
  Hypothesis Hf : f + wh ≤ 65535.
  Definition in_rect (k : nat) (p : spot) : Prop :=
    (x0 + k ≤ sp_x p ∧ sp_x p + k ≤ x1 ∧ z0 + k ≤ sp_z p ∧ sp_z p + k ≤ z1)%nat.
  Lemma level_in p : in_rect 0 p → ∃ a, is_column hf (sp_x p + sp_z p * hf_w hf) [a] ∧ walkable a ∧ c_max a = f.
  Proof.
    intros (H1 & H2 & H3 & H4). unfold level in Hlv. apply andb_true_iff in Hlv as [_ H]. apply level_b_ok.
    rewrite forallb_forall in H. specialize (H (sp_x p)). rewrite forallb_forall in H. apply H; apply elem_of_list_In, elem_of_seq; lia.
  Qed.
  Lemma level_size p : in_rect 0 p → (sp_x p < hf_w hf)%nat ∧ (sp_z p < hf_h hf)%nat.
  Proof.
    intros (H1 & H2 & H3 & H4). unfold level in Hlv. apply andb_true_iff in Hlv as [H _].
    apply andb_true_iff in H as [Ha%Nat.ltb_lt Hb%Nat.ltb_lt]. lia.
  Qed.
  Lemma level_spot p : in_rect 0 p → sp_floor p = f → sp_top p = 65535 → spot_in hf p.
  Proof.
    intros Hp E1 E2. destruct (level_in p Hp) as (a & Ha & Hw & Hm). destruct (level_size p Hp).
    split; [done|]. split; [done|]. exists [a], 0%nat, a. rewrite E1, E2. done.
  Qed.
  Lemma level_only p : in_rect 0 p → spot_in hf p → sp_floor p = f ∧ sp_top p = 65535.
  Proof.
    intros Hp (_ & _ & l & k & a & Hl & Hk & _ & E1 & E2). destruct (level_in p Hp) as (a' & Ha & Hw & Hm).
    pose proof (column_fun hf HR _ _ _ Hl Ha). subst l. destruct k as [|k]; [|done]. injection Hk as ->.
    rewrite E1, E2. done.
  Qed.
  Lemma level_moves n p q k : moves hf wh wc n p q → (n ≤ k)%nat → spot_in hf p → in_rect k p → spot_in hf q ∧ in_rect (k - n) q.
  Proof.
    intros Hm. revert k. induction Hm as [p|n d p q s Hd Hm _ IH]; intros k Hn Hp Hin; [by rewrite Nat.sub_0_r|].
    destruct Hm as (Hq & Ex & Ez & _). destruct (IH (k - 1)%nat) as [? ?]; [lia|done| |split; [done|by replace (k - S n)%nat with (k - 1 - n)%nat by lia]].
    destruct Hin as (? & ? & ? & ?). unfold in_rect. destruct d as [|[|[|[|d]]]]; cbn in Ex, Ez; lia.
  Qed.
  Lemma level_go d p : (d < 4)%nat → spot_in hf p → in_rect 1 p → ∃ q, move hf wh wc d p q ∧ in_rect 0 q.
  Proof.
    intros Hd Hp Hin. assert (in_rect 0 p) as H0 by (destruct Hin; unfold in_rect; lia). destruct (level_only p H0 Hp) as [E1 E2].
    destruct Hin as (H1 & H2 & H3 & H4).
    set (q := Spot (Z.to_nat (Z.of_nat (sp_x p) + nth d [-1; 0; 1; 0] 0)) (Z.to_nat (Z.of_nat (sp_z p) + nth d [0; 1; 0; -1] 0)) f 65535).
    assert (in_rect 0 q ∧ Z.of_nat (sp_x q) = Z.of_nat (sp_x p) + nth d [-1; 0; 1; 0] 0 ∧ Z.of_nat (sp_z q) = Z.of_nat (sp_z p) + nth d [0; 1; 0; -1] 0)
      as (Hq & Ex & Ez). { unfold in_rect, q. cbn [sp_x sp_z]. destruct d as [|[|[|[|d]]]]; cbn [nth]; lia. }
    exists q. split; [|done]. split; [by apply level_spot|]. split; [done|]. split; [done|]. rewrite E1, E2. unfold q. cbn [sp_floor sp_top]. lia.
  Qed.
  Lemma level_roomy radius k p : 0 ≤ radius → 4 * radius ≤ 3 * Z.of_nat k + 1 → spot_in hf p → in_rect k p → roomy hf wh wc radius p.
  Proof.
    intros Hr Hk Hp Hin. split; [done|]. intros n q d Hm Hn Hd. destruct (level_moves n p q k Hm) as [Hq Hq']; [lia|done|done|].
    destruct (level_go d q Hd Hq) as (q' & H & _); [|by exists q']. destruct Hq' as (? & ? & ? & ?). unfold in_rect. lia.
  Qed.
  Lemma level_wide radius k p : 0 ≤ radius → 4 * radius ≤ 3 * Z.of_nat k + 1 → spot_in hf p → in_rect (S k) p → wide hf wh wc radius p.
  Proof.
    intros Hr Hk Hp Hin. assert (in_rect k p) as Hin' by (destruct Hin; unfold in_rect; lia). split; [by eapply level_roomy|]. intros d Hd.
    assert (in_rect 1 p) as H1 by (destruct Hin; unfold in_rect; lia). destruct (level_go d p Hd Hp H1) as (q & Hm & _). exists q. split; [done|].
    pose proof Hm as (Hq & Ex & Ez & _). eapply level_roomy; [done|exact Hk|done|].
    destruct Hin as (? & ? & ? & ?). unfold in_rect. destruct d as [|[|[|[|d]]]]; cbn in Ex, Ez; lia.
  Qed.
End level.

Definition plain_b (ct : contour) : bool :=
  forallb (λ p : vtx * Z, Z.land p.2 BORDER_VERTEX =? 0) (ct_verts ct) &&
  bool_decide (NoDup ((λ p : vtx * Z, (vx p.1, vz p.1)) <$> ct_verts ct)) &&
  forallb (λ p : vtx * Z, (0 <=? vx p.1) && (vx p.1 <=? 32767) && (0 <=? vz p.1) && (vz p.1 <=? 32767)) (ct_verts ct).
Lemma plain_b_ok ct : plain_b ct = true → plain_contour ct.
Proof.
  unfold plain_b. intros [[H1 H2%bool_decide_eq_true]%andb_true_iff H3]%andb_true_iff. split; [|split; [done|]].
  - apply Forall_forall. intros p Hp. rewrite forallb_forall in H1. apply Z.eqb_eq, H1. by apply elem_of_list_In.
  - apply Forall_forall. intros p Hp. rewrite forallb_forall in H3. apply elem_of_list_In in Hp. specialize (H3 p Hp). unfold small. lia.
Qed.
Definition fits_b (nvp : nat) (cs : list contour) : bool :=
  (3 <=? nvp)%nat && (Z.of_nat nvp <=? 65535) && (3 * sumZ ((λ c, Z.of_nat (length (ct_verts c)) - 2) <$> drawn cs) <=? 65535).

(** The floor of the examples of C72, which is level from 1 to 10: there is room
    from 2 to 9, the cells that the contour [(1, 1) .. (9, 9)] (with the border of
    one cell) goes round. *)
Definition floor_scene : list affector := [(Some quad, scaled 12 (-2) 1 3)].
Lemma floor_facts : ∃ r, build_navmesh half 100 100 scene_cfg floor_scene = Done (BOk r) ∧ moderate_b r = true ∧
  level (r_field r) 1 1 10 1 10 = true ∧ (length (ch_spans (r_open r)) =? 100)%nat = true ∧
  fits_b 6 (ks_contours (r_contours r)) = true ∧ forallb plain_b (ks_contours (r_contours r)) = true ∧
  (hf_w (r_field r) =? 12)%nat && (hf_h (r_field r) =? 12)%nat = true ∧
  bool_decide ((λ ct, fst <$> ct_verts ct) <$> ks_contours (r_contours r) = [[V 1 1 1; V 1 1 9; V 9 1 9; V 9 1 1]]) = true.
Proof.
  destruct (ok_with_run (build_navmesh half 100 100 scene_cfg floor_scene) (λ r, moderate_b r && (level (r_field r) 1 1 10 1 10 &&
    ((length (ch_spans (r_open r)) =? 100)%nat && (fits_b 6 (ks_contours (r_contours r)) && (forallb plain_b (ks_contours (r_contours r)) &&
    ((hf_w (r_field r) =? 12)%nat && (hf_h (r_field r) =? 12)%nat &&
    bool_decide ((λ ct, fst <$> ct_verts ct) <$> ks_contours (r_contours r) = [[V 1 1 1; V 1 1 9; V 9 1 9; V 9 1 1]])))))))) as (r & Er & H);
    [vm_compute; reflexivity|].
  exists r. split; [exact Er|]. repeat (apply andb_true_iff in H as [? H]; split; [assumption|]). exact H.
Qed.
Example C77_hypotheses_met : ∃ r, measures scene_cfg ∧ cf_wh scene_cfg + cf_climb scene_cfg ≤ 255 ∧
  build_navmesh half 100 100 scene_cfg floor_scene = Done (BOk r) ∧ moderate r ∧ Z.of_nat (length (ch_spans (r_open r))) < 32764 ∧
  (∃ p, wide (r_field r) (cf_wh scene_cfg) (cf_climb scene_cfg) (cf_radius scene_cfg) p) ∧
  fits (Z.to_nat (cf_nvp scene_cfg)) (ks_contours (r_contours r)) ∧ Forall plain_contour (ks_contours (r_contours r)) ∧
  (∀ x z, (2 ≤ x ≤ 9)%nat → (2 ≤ z ≤ 9)%nat →
     roomy (r_field r) (cf_wh scene_cfg) (cf_climb scene_cfg) (cf_radius scene_cfg) (Spot x z 1 65535) ∧
     inside (r_field r) (cf_border scene_cfg) (Spot x z 1 65535)) ∧
  (λ ct, fst <$> ct_verts ct) <$> ks_contours (r_contours r) = [[V 1 1 1; V 1 1 9; V 9 1 9; V 9 1 1]].
Proof.
  destruct floor_facts as (r & Er & Hm & Hlv & Hn & Hft & Hpl & Hwh & Hv).
  pose proof (moderate_b_ok _ _ _ _ _ _ scene_measures Er Hm) as D.
  destruct (build_staged _ _ _ _ _ _ scene_measures Er D) as [O S]. pose proof (sg_field _ _ _ S) as HR. clear S.
  exists r. split; [apply scene_measures|]. split; [cbn; lia|]. split; [exact Er|]. clear Er. split; [exact D|].
  apply Nat.eqb_eq in Hn. apply andb_true_iff in Hwh as [Hw%Nat.eqb_eq Hh%Nat.eqb_eq]. split; [lia|].
  split.
  { exists (Spot 5 5 1 65535). apply (level_wide (r_field r) 1 1 10 1 10 3 1 HR Hlv ltac:(lia) ltac:(lia) 1 1); [lia|lia| |unfold in_rect; cbn; lia].
    apply (level_spot (r_field r) 1 1 10 1 10 Hlv); [unfold in_rect; cbn; lia|done|done]. }
  split. { unfold fits_b in Hft. change (Z.to_nat (cf_nvp scene_cfg)) with 6%nat. unfold fits. lia. }
  split. { apply Forall_forall. intros ct Hct. apply plain_b_ok. rewrite forallb_forall in Hpl. apply Hpl. by apply elem_of_list_In. }
  split; [|by apply bool_decide_eq_true in Hv]. intros x z Hx Hz. split.
  - apply (level_roomy (r_field r) 1 1 10 1 10 3 1 HR Hlv ltac:(lia) ltac:(lia) 1 1); [lia|lia| |unfold in_rect; cbn; lia].
    apply (level_spot (r_field r) 1 1 10 1 10 Hlv); [unfold in_rect; cbn; lia|done|done].
  - unfold inside. rewrite Hw, Hh. cbn [sp_x sp_z]. change (cf_border scene_cfg) with 1. lia.
Qed.

(** An agent of 256 voxels on the same floor: there is room, but no mesh. *)
Definition tall_cfg : cfg :=
  Cfg 0 0 0 1 (f_of_Z 1) (f_of_Z 1) v_zero v_zero f_zero 256 1 1 12 (f_of_Z 1) 2 4 6 (f_of_Z 6) (f_of_Z 1) true false.
Theorem C77_tall_agents_refuted : ∃ r, measures tall_cfg ∧ build_navmesh half 100 100 tall_cfg floor_scene = Done (BOk r) ∧ moderate r ∧
  roomy (r_field r) (cf_wh tall_cfg) (cf_climb tall_cfg) (cf_radius tall_cfg) (Spot 5 5 1 65535) ∧ pm_polys (r_mesh r) = [].
Proof.
  assert (measures tall_cfg) as M by (split; cbn; lia).
  destruct (ok_with_run (build_navmesh half 100 100 tall_cfg floor_scene) (λ r, moderate_b r && level (r_field r) 1 1 10 1 10)) as (r & Er & H);
    [vm_compute; reflexivity|].
  apply andb_true_iff in H as [Hm Hlv]. pose proof (moderate_b_ok _ _ _ _ _ _ M Er Hm) as D.
  pose proof (C77_tall_agents_get_nothing _ _ _ _ _ _ M ltac:(cbn; lia) Er D) as [_ Hp].
  destruct (build_staged _ _ _ _ _ _ M Er D) as [O S]. pose proof (sg_field _ _ _ S) as HR. clear S.
  exists r. split; [exact M|]. split; [exact Er|]. clear Er. split; [exact D|]. split; [|exact Hp].
  apply (level_roomy (r_field r) 1 1 10 1 10 256 1 HR Hlv ltac:(lia) ltac:(lia) 1 1); [lia|lia| |unfold in_rect; cbn; lia].
  apply (level_spot (r_field r) 1 1 10 1 10 Hlv); [unfold in_rect; cbn; lia|done|done].
Qed.

(** Already below that some steps are lost: under the open sky, an agent of 250
    voxels that climbs 10 could climb a step of 8, but the spans are not connected. *)
Definition step_ins : list insertion := [mkIns 0 0 1 (ex_span 0 10 255); mkIns 1 0 1 (ex_span 0 18 255)].
Theorem C77_capped_clearance_refuted : ∃ hf ch p q, reachable hf ∧ into_compact hf 250 10 = Done (Some ch) ∧
  spot_in hf p ∧ move hf 250 10 2 p q ∧ ∀ i d j, (d < 4)%nat → ¬ step ch i d j.
Proof.
  set (hf := built 2 1 step_ins). assert (reachable hf) as HR by (apply (built_reachable 2 1 step_ins); [valid_ins|by vm_compute]).
  assert (H0 : ∃ a, is_column hf 0 [a] ∧ walkable a ∧ c_max a = 10) by (apply level_b_ok; by vm_compute).
  assert (H1 : ∃ a, is_column hf 1 [a] ∧ walkable a ∧ c_max a = 18) by (apply level_b_ok; by vm_compute).
  destruct H0 as (a0 & Hc0 & Hw0 & Hm0). destruct H1 as (a1 & Hc1 & Hw1 & Hm1).
  assert (hf_w hf = 2%nat ∧ hf_h hf = 1%nat) as [Ew Eh] by (split; by vm_compute).
  exists hf, (compacted hf 250 10), (Spot 0 0 10 65535), (Spot 1 0 18 65535).
  split; [done|]. split; [apply compacted_ok; by vm_compute|].
  split. { split; [cbn; lia|]. split; [cbn; lia|]. exists [a0], 0%nat, a0. split; [exact Hc0|]. cbn. done. }
  split. { split; [|cbn; lia]. split; [cbn; lia|]. split; [cbn; lia|]. exists [a1], 0%nat, a1. split; [exact Hc1|]. cbn. done. }
  intros i d j Hd (c & k & c' & k' & l & l' & (s & (l0 & _ & _ & Hs) & Hcon & _) & _).
  assert (E : forallb (λ s, forallb (λ d, match connection s d with None => true | _ => false end) (seq 0 4)) (ch_spans (compacted hf 250 10)) = true) by (by vm_compute).
  rewrite forallb_forall in E. specialize (E s ltac:(apply elem_of_list_In; by eapply elem_of_list_lookup_2)).
  rewrite forallb_forall in E. specialize (E d ltac:(apply elem_of_list_In, elem_of_seq; lia)). by rewrite Hcon in E.
Qed.

Print Assumptions C77_room_is_covered.
Print Assumptions C77_room_has_polygons.
Print Assumptions C77_tall_agents_get_nothing.
Print Assumptions C77_tall_agents_refuted.
Print Assumptions C77_capped_clearance_refuted.
