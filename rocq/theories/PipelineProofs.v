(** Places to stand in a heightfield and the spans of its compact field. *)
From Verif Require Import Base ModelMath ModelHeightfield ModelCompact SpecHeightfield SpecCompact SpecDistance
  SpecPipeline CompactProofs LinkProofs GraphProofs.
Local Open Scope Z_scope.

Section spots.
  Context (hf : hfield) (ch : chf) (O : list (list ospan)) (wh wc : Z).
  Hypothesis HO : field_opens hf O.
  Hypothesis HL : lists_opens ch O.
  Hypothesis HC : connects ch wh wc O.
  Hypothesis Hw : ch_w ch = hf_w hf.
  Hypothesis Hh : ch_h ch = hf_h hf.

  (** Span [i] of the compact field is the place [p]. *)
  Definition spot_of (i : nat) (p : spot) : Prop :=
    (sp_x p < hf_w hf)%nat ∧ (sp_z p < hf_h hf)%nat ∧
    let c := (sp_x p + sp_z p * hf_w hf)%nat in
    ∃ o k q l j a, O !! c = Some o ∧ o !! k = Some q ∧ i = (first_index O c + k)%nat ∧
      is_column hf c l ∧ l !! j = Some a ∧ walkable a ∧ sp_floor p = c_max a ∧ sp_top p = open_top (geometry l) j ∧
      o_y q = sp_floor p ∧ o_h q ≤ sp_top p - sp_floor p ∧ o_area q = c_area a.

  Lemma spot_of_in i p : spot_of i p → spot_in hf p.
  Proof.
    intros (H1 & H2 & o & k & q & l & j & a & ? & ? & ? & ? & ? & ? & ? & ? & _). split; [done|]. split; [done|]. by exists l, j, a.
  Qed.

  Lemma opens_at l k q : opens l !! k = Some q → ∃ j a, l !! j = Some a ∧ walkable a ∧
    q = Open (c_max a) (Z.min 255 (open_top (geometry l) j - c_max a)) (c_area a).
  Proof.
    unfold opens. rewrite list_lookup_fmap. intros ([j a] & H & ->)%fmap_Some. apply elem_of_list_lookup_2 in H.
    unfold walkable_at in H. apply elem_of_list_filter in H as [Ha H]. apply elem_of_lookup_imap in H as (j' & a' & [= -> ->] & Hj).
    exists j', a'. done.
  Qed.

  Lemma spot_at x z o k : (x < hf_w hf)%nat → (z < hf_h hf)%nat → O !! (x + z * hf_w hf)%nat = Some o → (k < length o)%nat →
    ∃ p, sp_x p = x ∧ sp_z p = z ∧ spot_of (first_index O (x + z * hf_w hf) + k) p.
  Proof.
    intros Hx Hz Ho Hk. destruct (lookup_lt_is_Some_2 _ _ Hk) as [q Hq]. destruct (proj2 HO _ _ Ho) as (l & Hl & <-).
    destruct (opens_at _ _ _ Hq) as (j & a & Hj & Ha & Eq). exists (Spot x z (c_max a) (open_top (geometry l) j)).
    split; [done|]. split; [done|]. split; [done|]. split; [done|]. cbn. exists (opens l), k, q, l, j, a.
    do 8 (split; [done|]). rewrite Eq. cbn. split; [done|]. split; [lia|done].
  Qed.

  Lemma spot_cell x z i : (x < hf_w hf)%nat → (z < hf_h hf)%nat → in_cell ch (x + z * hf_w hf) i →
    ∃ p, sp_x p = x ∧ sp_z p = z ∧ spot_of i p.
  Proof.
    intros Hx Hz (cell & Hc & Hi). assert (x + z * hf_w hf < length O)%nat as Hlt.
    { rewrite (proj1 HO). nia. }
    destruct (lookup_lt_is_Some_2 _ _ Hlt) as [o Ho]. destruct (lo_cell _ _ HL _ _ Ho) as (cell' & Hc' & Hn & Hix).
    assert (cell' = cell) as -> by congruence. unfold index_range in Hi. apply elem_of_seq in Hi.
    rewrite Hix in Hi by (intros ->; cbn in *; lia).
    destruct (spot_at x z o (i - first_index O (x + z * hf_w hf)) Hx Hz Ho) as (p & ? & ? & Hp); [lia|].
    exists p. split; [done|]. split; [done|]. by replace i with (first_index O (x + z * hf_w hf) + (i - first_index O (x + z * hf_w hf)))%nat by lia.
  Qed.

  Lemma spot_move i d j p : (d < 4)%nat → spot_of i p → step ch i d j → ∃ q, spot_of j q ∧ move hf wh wc d p q.
  Proof.
    intros Hd (Hx & Hz & o & k & q & l & m & a & Ho & Hk & -> & Hl & Hm & Ha & Ef & Et & Ey & Eh & Ea)
      (c1 & k1 & c2 & k2 & cell1 & cell2 & (s & Hs & Hcon & Hnb) & Hc1 & Hc2 & Ei & ->).
    set (c := (sp_x p + sp_z p * hf_w hf)%nat) in *.
    pose proof Hs as (cl & Hcl & Hk1 & Hsp). assert (cl = cell1) as -> by congruence.
    apply (lists_opens_span_in ch O) in Hs as (o1 & Ho1 & Hk1' & Hs1); [|done].
    destruct (lo_cell _ _ HL _ _ Ho1) as (cl & Hcl' & Hn1 & Hix1). assert (cl = cell1) as -> by congruence.
    rewrite Hix1 in Ei by (intros ->; cbn in *; lia).
    destruct (concat_index_inj O c c1 o o1 k k1) as [E1 E2]; [done|done|by eapply lookup_lt_Some|done|done|]. subst c1 k1.
    assert (o1 = o) as -> by congruence.
    apply (HC c o k q d s Ho Hk Hd Hs1) in Hcon as (_ & c' & o' & Hnb' & Ho' & (q' & Hq' & Htr) & _).
    assert (c' = c2) as -> by congruence. rewrite Nat2Z.id in Hq'.
    assert (Hdm : (c mod hf_w hf = sp_x p)%nat ∧ (c / hf_w hf = sp_z p)%nat).
    { unfold c. rewrite Nat.mod_add, Nat.div_add by lia. rewrite Nat.mod_small, Nat.div_small by done. lia. }
    rewrite Hw, Hh, (proj1 Hdm), (proj2 Hdm) in Hnb.
    assert (∃ x' z', (x' < hf_w hf)%nat ∧ (z' < hf_h hf)%nat ∧ c2 = (x' + z' * hf_w hf)%nat ∧
      Z.of_nat x' = Z.of_nat (sp_x p) + nth d [-1; 0; 1; 0] 0 ∧ Z.of_nat z' = Z.of_nat (sp_z p) + nth d [0; 1; 0; -1] 0)
      as (x' & z' & Hx' & Hz' & -> & Ex & Ez).
    { revert Hnb. unfold nb_col. set (nx := Z.of_nat (sp_x p) + _). set (nz := Z.of_nat (sp_z p) + _). clearbody nx nz.
      case_decide; [|done]. intros [= <-]. exists (Z.to_nat nx), (Z.to_nat nz). split_and!; lia. }
    destruct (lo_cell _ _ HL _ _ Ho') as (cl & Hcl2 & Hn2 & Hix2). assert (cl = cell2) as -> by congruence.
    rewrite Hix2 by (intros ->; done). apply lookup_lt_Some in Hq' as Hlt.
    destruct (spot_at x' z' o' k2 Hx' Hz' Ho' Hlt) as (p' & Ex' & Ez' & Hp'). exists p'. split; [done|].
    split; [by eapply spot_of_in|]. rewrite Ex', Ez'. split; [done|]. split; [done|].
    destruct Hp' as (_ & _ & o2 & k3 & q2 & l2 & j2 & a2 & Ho2 & Hk2 & Ek & _ & _ & _ & _ & _ & Ey2 & Eh2 & _).
    rewrite Ex', Ez' in *. assert (o2 = o') as -> by congruence. assert (k3 = k2) as -> by lia. assert (q2 = q') as -> by congruence.
    destruct Htr as [Ht1 Ht2]. split; lia.
  Qed.

  Lemma spot_area i p : spot_of i p → ∃ a, ch_areas ch !! i = Some a ∧ a ≠ 0.
  Proof.
    intros (_ & _ & o & k & q & l & m & a & Ho & Hk & -> & _ & _ & Ha & _ & _ & _ & _ & Ea).
    destruct (lo_span _ _ HL (first_index O (sp_x p + sp_z p * hf_w hf) + k) q) as (s & _ & _ & _ & E).
    - unfold first_index. rewrite (concat_lookup O _ o k Ho); [done|by eapply lookup_lt_Some].
    - exists (o_area q). split; [done|]. rewrite Ea. apply Ha.
  Qed.
  Lemma spot_floor i p : spot_of i p → cs_y <$> ch_spans ch !! i = Some (sp_floor p).
  Proof.
    intros (_ & _ & o & k & q & l & m & a & Ho & Hk & -> & _ & _ & Ha & _ & _ & Ey & _ & Ea).
    destruct (lo_span _ _ HL (first_index O (sp_x p + sp_z p * hf_w hf) + k) q) as (s & -> & E & _).
    - unfold first_index. rewrite (concat_lookup O _ o k Ho); [done|by eapply lookup_lt_Some].
    - cbn. by rewrite E, Ey.
  Qed.

  (** ** Straight walks *)
  Inductive strides (d : nat) : nat → nat → nat → Prop :=
  | st_nil i : strides d 0 i i
  | st_cons n i j k : step ch i d j → strides d n j k → strides d (S n) i k.

  Lemma strides_forward d n i k : d = 1%nat ∨ d = 2%nat → strides d n i k → wpath (forward ch) i k (2 * Z.of_nat n).
  Proof.
    intros Hd. induction 1 as [|n i j k Hs _ IH]; [constructor|].
    replace (2 * Z.of_nat (S n)) with (2 + 2 * Z.of_nat n) by lia. econstructor; [|exact IH].
    destruct Hd as [-> | ->]; [right|left]; left; done.
  Qed.
  Lemma strides_backward d n i k : d = 0%nat ∨ d = 3%nat → strides d n i k → wpath (backward ch) i k (2 * Z.of_nat n).
  Proof.
    intros Hd. induction 1 as [|n i j k Hs _ IH]; [constructor|].
    replace (2 * Z.of_nat (S n)) with (2 + 2 * Z.of_nat n) by lia. econstructor; [|exact IH].
    destruct Hd as [-> | ->]; [left|right]; left; done.
  Qed.
  Lemma strides_chamfer (goal : nat → Prop) d n i k : (d < 4)%nat → strides d n i k → goal k → chamfer ch goal i (2 * Z.of_nat n).
  Proof.
    intros Hd Hs Hg. assert ((d = 1 ∨ d = 2) ∨ (d = 0 ∨ d = 3))%nat as [H|H] by lia.
    - exists k, k, (2 * Z.of_nat n), 0. split; [by eapply strides_forward|]. split; [constructor|]. split; [done|lia].
    - exists i, k, 0, (2 * Z.of_nat n). split; [constructor|]. split; [by eapply strides_backward|]. split; [done|lia].
  Qed.
  Lemma strides_snoc d n i j k : strides d n i j → step ch j d k → strides d (S n) i k.
  Proof. induction 1 as [|n i j0 k0 Hs _ IH]; intros Hk; [econstructor; [done|constructor]|]. econstructor; [done|by apply IH]. Qed.

  (** Away from the rim there is room. *)
  Lemma room d m : (d < 4)%nat → wf_chf ch → ∀ n i j p, strides d n i j → spot_of j p →
    (∀ w, chamfer ch (rim ch) i w → 2 * Z.of_nat (n + m) ≤ w) → clear hf wh wc d m p.
  Proof.
    intros Hd Hwf. induction m as [|m IH]; intros n i j p Hst Hp Hfar; [done|].
    destruct (spot_area _ _ Hp) as (a & Ha & Ha0).
    assert (Hj : (j < length (ch_spans ch))%nat). { rewrite <-(wf_areas _ Hwf). by eapply lookup_lt_Some. }
    destruct (in_cell_ex ch Hwf j Hj) as [c Hc].
    assert (∃ j', step ch j d j') as [j' Hj'].
    { destruct (nbr ch c j d) as [[c' j']|] eqn:En.
      - exists j'. by apply (nbr_step ch Hwf c j d c' j').
      - exfalso. pose proof (strides_chamfer (rim ch) d n i j Hd Hst) as Hch.
        assert (rim ch j) as Hr.
        { split; [done|]. right. exists d. split; [done|]. intros j' Hs. apply (step_nbr ch Hwf c) in Hs; [|done|done].
          destruct Hs as (c' & Hs). rewrite En in Hs. done. }
        specialize (Hch Hr). apply Hfar in Hch. lia. }
    destruct (spot_move j d j' p Hd Hp Hj') as (q & Hq & Hm). exists q. split; [done|].
    apply (IH (S n) i j' q); [by eapply strides_snoc|done|]. intros w Hch. specialize (Hfar w Hch). lia.
  Qed.
End spots.
