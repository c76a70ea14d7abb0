(** Common boundaries of two regions. *)
From Verif Require Import Base ModelMath ModelHeightfield ModelFilters ModelCompact ModelDistance ModelRegions
  ModelContours SpecHeightfield SpecCompact SpecDistance SpecRegions SpecContours SpecOutline SpecMatch PackProofs CompactProofs LinkProofs
  GraphProofs DistanceProofs SweepProofs FlowProofs WatershedProofs OrbitProofs ContourWalkProofs SimplifyProofs
  ContourSetProofs OutlineProofs.
Local Open Scope Z_scope.

(** The four directions in order, from [d] on. *)
Record quarters (d e f g : nat) : Prop := {
  qd : (d < 4)%nat; qe : (e < 4)%nat; qf : (f < 4)%nat; qg : (g < 4)%nat;
  d1 : ((d + 1) mod 4 = e)%nat; e1 : ((e + 1) mod 4 = f)%nat; f1 : ((f + 1) mod 4 = g)%nat; g1 : ((g + 1) mod 4 = d)%nat;
  d2 : ((d + 2) mod 4 = f)%nat; e2 : ((e + 2) mod 4 = g)%nat; f2 : ((f + 2) mod 4 = d)%nat; g2 : ((g + 2) mod 4 = e)%nat;
  d3 : ((d + 3) mod 4 = g)%nat; e3 : ((e + 3) mod 4 = d)%nat; f3 : ((f + 3) mod 4 = e)%nat; g3 : ((g + 3) mod 4 = f)%nat }.
Lemma quarters_of d : (d < 4)%nat → ∃ e f g, quarters d e f g.
Proof. intros Hd. exists ((d + 1) mod 4)%nat, ((d + 2) mod 4)%nat, ((d + 3) mod 4)%nat. destruct d as [|[|[|[|d]]]]; [..|lia]; split; cbn; lia. Qed.
Ltac quarters d e f g Q :=
  let H := fresh in assert (H : ∃ e f g, quarters d e f g) by (apply quarters_of; assumption); destruct H as (e & f & g & Q).

(** ** A decision procedure for concrete fields *)
Definition corner_b (ch : chf) (r r' : Z) (c i d : nat) : bool :=
  let e := ((d + 1) mod 4)%nat in
  match nbr ch c i d, nbr ch c i e with
  | Some (ca, a), Some (cb, b) =>
      if decide (region_of ch i = Some r ∧ region_of ch a = Some r') then
        bool_decide (nbr ch ca a e = nbr ch cb b d) &&
        (if decide (region_of ch b = Some r') then
           match nbr ch ca a e with Some (_, k) => bool_decide (region_of ch k = Some r') | None => false end
         else true)
      else true
  | _, _ => true
  end.
Definition evenly_b (ch : chf) (r r' : Z) : bool :=
  forallb (λ c, match ch_cells ch !! c with
    | Some cell => forallb (λ i, forallb (corner_b ch r r' c i) (seq 0 4)) (index_range cell)
    | None => true
    end) (seq 0 (length (ch_cells ch))).
Definition one_area_b (ch : chf) (r area : Z) : bool :=
  forallb (λ i, if decide (region_of ch i = Some r) then bool_decide (ch_areas ch !! i = Some area) else true) (seq 0 (length (ch_spans ch))).
Lemma one_area_b_ok ch r area : one_area_b ch r area = true → one_area ch r area.
Proof.
  unfold one_area_b. rewrite forallb_forall. intros H i Hi. assert (i < length (ch_spans ch))%nat as Hlt.
  { unfold region_of in Hi. destruct (ch_spans ch !! i) eqn:E; [by eapply lookup_lt_Some|done]. }
  specialize (H i). rewrite <-elem_of_list_In in H. specialize (H ltac:(apply elem_of_seq; lia)).
  rewrite decide_True in H by done. by apply bool_decide_eq_true in H.
Qed.

Section match_.
  Context (ch : chf) (Hwf : wf_chf ch) (Hsym : symmetric ch).

  Lemma step_back i d j : (d < 4)%nat → step ch i d j → step ch j ((d + 2) mod 4) i.
  Proof.
    intros Hd Hst. destruct (step_in_cell ch Hwf _ _ _ Hd Hst) as (c & c' & Hc & Hc' & Hn).
    eapply (nbr_step ch Hwf c'); [by apply Nat.mod_upper_bound|done|]. by eapply (nbr_sym ch Hwf Hsym).
  Qed.
  Lemma step_dec i d : (d < 4)%nat → (i < length (ch_spans ch))%nat → (∃ j, step ch i d j) ∨ ∀ j, ¬ step ch i d j.
  Proof.
    intros Hd Hi. destruct (in_cell_ex ch Hwf i Hi) as (c & Hc). destruct (nbr ch c i d) as [[c' j]|] eqn:En.
    - left. exists j. by eapply (nbr_step ch Hwf).
    - right. intros j Hj. destruct (proj1 (step_nbr ch Hwf _ _ _ j Hc Hd) Hj) as (c' & Hn). congruence.
  Qed.

  Lemma evenly_b_ok r r' : r ≠ r' → evenly_b ch r r' = true → meets_evenly ch r r'.
  Proof.
    intros Hne. unfold evenly_b. rewrite forallb_forall. intros H [i d] ((Hd & Hr & Hno) & a0 & Ha0 & Hra). cbn [fst snd] in *. unfold smooth_corner. cbv zeta. intros a b Ha Hb.
    assert (a0 = a) as -> by (by eapply (step_fun ch Hwf)). pose proof (Nat.mod_upper_bound (d + 1) 4 ltac:(lia)) as He. set (e := ((d + 1) mod 4)%nat) in *.
    destruct (step_in_cell ch Hwf _ _ _ Hd Ha) as (c & ca & Hc & Hca & Hna). destruct (proj1 (step_nbr ch Hwf _ _ _ b Hc He) Hb) as (cb & Hnb).
    pose proof (nbr_in_cell ch Hwf _ _ _ _ _ He Hc Hnb) as Hcb.
    destruct Hc as (cell & Hcell & Hi). specialize (H c). rewrite <-elem_of_list_In in H.
    specialize (H ltac:(apply elem_of_seq; apply lookup_lt_Some in Hcell; lia)). cbv beta in H. rewrite Hcell in H.
    rewrite forallb_forall in H. specialize (H i). rewrite <-elem_of_list_In in H. specialize (H Hi).
    rewrite forallb_forall in H. specialize (H d). rewrite <-elem_of_list_In in H. specialize (H ltac:(apply elem_of_seq; lia)).
    unfold corner_b in H. fold e in H. cbv zeta in H. rewrite Hna, Hnb, decide_True in H by done.
    apply andb_true_iff in H as [H1 H2]. apply bool_decide_eq_true in H1. split.
    - intros k. rewrite (step_nbr ch Hwf _ _ _ k Hca He), (step_nbr ch Hwf _ _ _ k Hcb Hd). by rewrite H1.
    - intros Eab _. rewrite decide_True in H2 by congruence. destruct (nbr ch ca a e) as [[ck k]|] eqn:Ek; [|done].
      apply bool_decide_eq_true in H2. exists k. split; [|congruence]. by eapply (nbr_step ch Hwf).
  Qed.

  (** ** Following *)
  Lemma seeks_side r i d t : seeks ch r i d t → side ch r t.1 t.2.
  Proof. induction 1; done. Qed.
  Lemma seeks_fun r i d t t' : (d < 4)%nat → seeks ch r i d t → seeks ch r i d t' → t = t'.
  Proof.
    intros Hd H. revert t'. induction H as [i d Hs|i d j t Hst Hr _ IH]; intros t' H'.
    - inversion H' as [? ? ?|? ? j ? Hst Hr _]; subst; [done|]. by destruct (proj2 (proj2 Hs) j Hst).
    - inversion H' as [? ? Hs|? ? j' ? Hst' Hr' H2]; subst; [by destruct (proj2 (proj2 Hs) j Hst)|].
      assert (j' = j) as -> by (by eapply (step_fun ch Hwf)). apply IH; [by apply Nat.mod_upper_bound|done].
  Qed.
  Lemma follows_fun r s t t' : follows ch r s t → follows ch r s t' → t = t'.
  Proof. apply seeks_fun. by apply Nat.mod_upper_bound. Qed.

  Definition pivots (r : Z) (a b : nat * nat) : Prop :=
    (a.2 < 4)%nat ∧ region_of ch a.1 = Some r ∧ region_of ch b.1 = Some r ∧ step ch a.1 a.2 b.1 ∧ b.2 = ((a.2 + 3) mod 4)%nat.
  Lemma seeks_pivots r i d t : (d < 4)%nat → region_of ch i = Some r → seeks ch r i d t → rtc (pivots r) (i, d) t.
  Proof.
    intros Hd Hi H. induction H as [i d Hs|i d j t Hst Hr _ IH]; [done|]. eapply rtc_l; [|apply IH; [by apply Nat.mod_upper_bound|done]].
    done.
  Qed.
  Lemma pivots_inj r a b c : pivots r a c → pivots r b c → a = b.
  Proof.
    intros (Ha & _ & _ & Hsa & Ea) (Hb & _ & _ & Hsb & Eb).
    assert (a.2 = b.2) as E.
    { rewrite Ea in Eb. destruct (a.2) as [|[|[|[|?]]]]; [..|lia]; destruct (b.2) as [|[|[|[|?]]]]; cbn in Eb; lia. }
    apply step_back in Hsa, Hsb; [|done..]. rewrite E in Hsa.
    assert (a.1 = b.1) by (eapply (step_fun ch Hwf); [by apply (Nat.mod_upper_bound (b.2 + 2) 4)|done|done]).
    destruct a, b. cbn in *. congruence.
  Qed.
  Lemma pivots_chain r a b t : rtc (pivots r) a t → rtc (pivots r) b t → (∀ y, ¬ pivots r y a) → (∀ y, ¬ pivots r y b) → a = b.
  Proof.
    intros H. revert b. pattern t. revert t H. apply rtc_ind_r; [|intros y z H Hyz IH]; intros b Hb Ha Hnb.
    - apply rtc_inv_r in Hb as [->|(y & _ & Hy)]; [done|]. by destruct (Ha y).
    - apply rtc_inv_r in Hb as [->|(y' & Hby & Hy)]; [by destruct (Hnb y)|].
      rewrite <-(pivots_inj _ _ _ _ Hyz Hy) in Hby. by apply IH.
  Qed.
  Lemma follows_inj r s s' t : side ch r s.1 s.2 → side ch r s'.1 s'.2 → follows ch r s t → follows ch r s' t → s = s'.
  Proof.
    intros Hs Hs' H H'. unfold follows in *.
    assert (Hno : ∀ s, side ch r s.1 s.2 → ∀ y, ¬ pivots r y (s.1, ((s.2 + 1) mod 4)%nat)).
    { clear -Hwf Hsym. intros s (Hd & Hr & Hno) y (Hy & Hry & _ & Hst & E). cbn in *.
      apply (Hno y.1); [|done]. apply step_back in Hst; [|done].
      replace ((y.2 + 2) mod 4)%nat with (s.2) in Hst; [done|].
      destruct (s.2) as [|[|[|[|?]]]]; [..|lia]; destruct (y.2) as [|[|[|[|?]]]]; cbn in E |- *; lia. }
    assert ((s.1, ((s.2 + 1) mod 4)%nat) = (s'.1, ((s'.2 + 1) mod 4)%nat)) as E.
    { eapply (pivots_chain r); [apply seeks_pivots; [by apply Nat.mod_upper_bound|apply Hs|exact H]|
        apply seeks_pivots; [by apply Nat.mod_upper_bound|apply Hs'|exact H']|by apply Hno|by apply Hno]. }
    injection E as E1 E2. destruct Hs as (Hd & _), Hs' as (Hd' & _).
    assert (s.2 = s'.2). { destruct (s.2) as [|[|[|[|?]]]]; [..|lia]; destruct (s'.2) as [|[|[|[|?]]]]; cbn in E2; lia. }
    destruct s, s'. cbn in *. congruence.
  Qed.

  (** ** The other side *)
  Lemma opposite_ex r r' s : facing ch r r' s → ∃ t, opposite ch s t.
  Proof. intros (_ & j & Hj & _). by exists (j, ((s.2 + 2) mod 4)%nat). Qed.
  Lemma opposite_facing r r' s t : r ≠ r' → facing ch r r' s → opposite ch s t → facing ch r' r t.
  Proof.
    intros Hne ((Hd & Hr & Hno) & j & Hj & Hrj) [Ht Et]. assert (t.1 = j) as Ej by (by eapply (step_fun ch Hwf)).
    pose proof (step_back _ _ _ Hd Ht) as Hb. rewrite <-Et in Hb.
    assert (t.2 < 4)%nat as Ht4 by (rewrite Et; by apply Nat.mod_upper_bound).
    split; [|by exists s.1]. split; [done|]. split; [by rewrite Ej|]. intros k Hk.
    assert (k = s.1) as -> by (by eapply (step_fun ch Hwf)). congruence.
  Qed.
  Lemma opposite_back s t : (s.2 < 4)%nat → opposite ch s t → opposite ch t s.
  Proof.
    intros Hd [Ht Et]. pose proof (step_back _ _ _ Hd Ht) as Hb. rewrite <-Et in Hb. split; [done|]. rewrite Et.
    destruct (s.2) as [|[|[|[|?]]]]; [..|lia]; done.
  Qed.
  Lemma opposite_fun s t t' : (s.2 < 4)%nat → opposite ch s t → opposite ch s t' → t = t'.
  Proof.
    intros Hd [Ht Et] [Ht' Et']. assert (t.1 = t'.1) by (by eapply (step_fun ch Hwf)). destruct t, t'. cbn in *. congruence.
  Qed.

  Lemma follows_back r r' s t s' t' :
    r ≠ r' → facing ch r r' s → facing ch r r' t → smooth_corner ch s.1 s.2 → follows ch r s t →
    opposite ch s s' → opposite ch t t' → follows ch r' t' s'.
  Proof.
    intros Hne Hs Ht Hsm Hf Hos Hot. pose proof (opposite_facing _ _ _ _ Hne Hs Hos) as [Hs' _].
    destruct s as [i d], s' as [a f']. destruct Hos as [Hia Ef]. unfold follows in Hf. cbn [fst snd] in *.
    destruct Hs as ((Hd & Hi & Hnoi) & a' & Ha' & Hra). cbn [fst snd] in *. assert (a' = a) as -> by (by eapply (step_fun ch Hwf)).
    quarters d e f g Q. rewrite (d2 _ _ _ _ Q) in Ef. subst f'. rewrite (d1 _ _ _ _ Q) in Hf. unfold smooth_corner in Hsm. rewrite (d1 _ _ _ _ Q) in Hsm. cbv zeta in Hsm.
    assert (Hb : ∀ x y k l, quarters d e f g → (k < 4)%nat → step ch x k y → ((k + 2) mod 4)%nat = l → step ch y l x).
    { intros x y k l _ Hk Hxy <-. by apply step_back. }
    pose proof (seeks_here ch r' a f Hs') as Hend. unfold follows.
    inversion Hf as [? ? Hse|? ? b ? Hib Hrb Hf2]; subst.
    - (* convex *)
      destruct t' as [b h']. destruct Hot as [Hib Eh]. cbn [fst snd] in *. rewrite (e2 _ _ _ _ Q) in Eh. subst h'.
      destruct Ht as (_ & b' & Hb' & Hrb). cbn [fst snd] in *. assert (b' = b) as -> by (eapply (step_fun ch Hwf); [apply (qe _ _ _ _ Q)|done|done]).
      destruct (Hsm a b Hia Hib) as [Hflat Hpin]. destruct Hpin as (c & Hac & Hrc); [congruence|congruence|]. rewrite Hra in Hrc.
      rewrite (g1 _ _ _ _ Q). eapply seeks_on; [by apply Hflat|done|]. rewrite (d3 _ _ _ _ Q).
      eapply seeks_on; [eapply Hb; [done|apply (qe _ _ _ _ Q)|exact Hac|by apply (e2 _ _ _ _ Q)]|done|]. by rewrite (g3 _ _ _ _ Q).
    - rewrite (e3 _ _ _ _ Q) in Hf2. destruct (Hsm a b Hia Hib) as [Hflat _]. inversion Hf2 as [? ? Hsb|? ? c ? Hbc Hrc Hf3]; subst.
      + (* straight *)
        destruct t' as [j h']. destruct Hot as [Hbj Eh]. cbn [fst snd] in *. rewrite (d2 _ _ _ _ Q) in Eh. subst h'.
        destruct Ht as (_ & j' & Hj' & Hrj). cbn [fst snd] in *. assert (j' = j) as -> by (by eapply (step_fun ch Hwf)).
        rewrite (f1 _ _ _ _ Q). eapply seeks_on; [eapply Hb; [done|apply (qe _ _ _ _ Q)|by apply Hflat|by apply (e2 _ _ _ _ Q)]|done|]. by rewrite (g3 _ _ _ _ Q).
      + (* concave *)
        rewrite (d3 _ _ _ _ Q) in Hf3. assert (step ch c g a) as Hca. { eapply Hb; [done|apply (qe _ _ _ _ Q)|by apply Hflat|by apply (e2 _ _ _ _ Q)]. }
        inversion Hf3 as [? ? Hsc|? ? a' ? Hca' Hra' Hf4]; subst.
        * destruct t' as [j h']. destruct Hot as [Hcj Eh]. cbn [fst snd] in *. rewrite (g2 _ _ _ _ Q) in Eh. subst h'.
          assert (j = a) as -> by (eapply (step_fun ch Hwf); [apply (qg _ _ _ _ Q)|done|done]). by rewrite (e1 _ _ _ _ Q).
        * assert (a' = a) as -> by (eapply (step_fun ch Hwf); [apply (qg _ _ _ _ Q)|done|done]). congruence.
  Qed.

  (** ** Corners *)
  Lemma side_end_fun i d p q : side_end ch i d p → side_end ch i d q → p = q.
  Proof.
    intros (x & z & Hx & Hz & Hc & E1 & E2) (x' & z' & Hx' & Hz' & Hc' & E1' & E2').
    pose proof (in_cell_unique ch Hwf _ _ _ Hc Hc') as E. destruct (decide (z = z')) as [->|]; [|nia]. assert (x = x') as -> by nia.
    destruct p, q. cbn in *. congruence.
  Qed.
  Lemma corner_move i d j p : (d < 4)%nat → step ch i d j → side_end ch i ((d + 3) mod 4) p → side_end ch j ((d + 2) mod 4) p.
  Proof.
    intros Hd Hst (x & z & Hx & Hz & Hc & E1 & E2). destruct (step_in_cell ch Hwf _ _ _ Hd Hst) as (c & c' & Hci & Hcj & Hn).
    pose proof (in_cell_unique ch Hwf _ _ _ Hc Hci) as <-. apply (nbr_col ch) in Hn.
    pose proof (in_cell_lt ch Hwf _ _ Hci) as Hlt. destruct (cell_coords ch _ Hlt) as (Hw & _).
    rewrite Nat.mod_add, Nat.mod_small in Hn by done. rewrite Nat.div_add, Nat.div_small in Hn by done. cbn [Nat.add] in Hn.
    unfold nb_col in Hn. case_decide as Hi; [|done]. apply (inj Some) in Hn.
    exists (Z.to_nat (Z.of_nat x + nth d [-1; 0; 1; 0] 0)), (Z.to_nat (Z.of_nat z + nth d [0; 1; 0; -1] 0)).
    split; [lia|]. split; [lia|]. split; [by rewrite Hn|]. rewrite !Z2Nat.id by lia. rewrite E1, E2.
    clear -Hd. destruct d as [|[|[|[|d]]]]; [..|lia]; cbn; lia.
  Qed.
  Lemma follows_corner r s t p : (s.2 < 4)%nat → follows ch r s t → side_end ch s.1 s.2 p → side_end ch t.1 ((t.2 + 3) mod 4) p.
  Proof.
    intros Hd Hf Hp. unfold follows in Hf.
    assert (∀ i e t, seeks ch r i e t → (e < 4)%nat → side_end ch i ((e + 3) mod 4) p → side_end ch t.1 ((t.2 + 3) mod 4) p) as H.
    { clear -Hwf Hsym. induction 1 as [i d Hs|i d j t Hst Hr _ IH]; intros Hd Hp; [done|]. apply IH; [by apply Nat.mod_upper_bound|].
      replace (((d + 3) mod 4 + 3) mod 4)%nat with ((d + 2) mod 4)%nat by (destruct d as [|[|[|[|d]]]]; [..|lia]; done). by eapply corner_move. }
    apply (H _ _ _ Hf); [by apply Nat.mod_upper_bound|].
    replace (((s.2 + 1) mod 4 + 3) mod 4)%nat with (s.2) by (destruct (s.2) as [|[|[|[|?]]]]; [..|lia]; done). done.
  Qed.
  Lemma opposite_start s t p : (s.2 < 4)%nat → opposite ch s t → side_end ch s.1 ((s.2 + 3) mod 4) p → side_end ch t.1 t.2 p.
  Proof. intros Hd [Ht ->] Hp. by eapply corner_move. Qed.

  (** ** Stretches along another region *)
  Section stretch.
    Context (r1 r2 : Z) (Hne : r1 ≠ r2) (H12 : meets_evenly ch r1 r2) (H21 : meets_evenly ch r2 r1).
    Context (T1 T2 : nat → nat * nat).
    Context (HT1 : ∀ k, side ch r1 (T1 k).1 (T1 k).2 ∧ follows ch r1 (T1 k) (T1 (S k))).
    Context (HT2 : ∀ k, side ch r2 (T2 k).1 (T2 k).2 ∧ follows ch r2 (T2 k) (T2 (S k))).

    Lemma stretch_back j m k :
      ¬ facing ch r1 r2 (T1 j) → (∀ o, (0 < o <= m)%nat → facing ch r1 r2 (T1 (j + o))) → ¬ facing ch r1 r2 (T1 (S (j + m))) →
      (0 < m)%nat → opposite ch (T1 (j + m)) (T2 (S k)) →
      (∀ i, (i < m)%nat → opposite ch (T1 (j + (m - i))) (T2 (S k + i))) ∧
      ¬ facing ch r2 r1 (T2 k) ∧ (∀ o, (0 < o <= m)%nat → facing ch r2 r1 (T2 (k + o))) ∧ ¬ facing ch r2 r1 (T2 (S (k + m))).
    Proof.
      intros Hj Hf Hjm Hm Hop.
      assert (∀ i, (i < m)%nat → opposite ch (T1 (j + (m - i))) (T2 (S k + i))) as Hopp.
      { induction i as [|i IH]; intros Hi; [by rewrite Nat.sub_0_r, Nat.add_0_r|]. specialize (IH ltac:(lia)).
        pose proof (Hf (m - S i)%nat ltac:(lia)) as Hs. pose proof (Hf (m - i)%nat ltac:(lia)) as Ht.
        destruct (opposite_ex _ _ _ Hs) as (s' & Hs'). pose proof (proj2 (HT1 (j + (m - S i))%nat)) as Hfo.
        replace (S (j + (m - S i)))%nat with (j + (m - i))%nat in Hfo by lia.
        pose proof (follows_back _ _ _ _ _ _ Hne Hs Ht (H12 _ Hs) Hfo Hs' IH) as Hback.
        pose proof (proj2 (HT2 (S k + i)%nat)) as Hfo2. replace (S (S k + i)) with (S k + S i)%nat in Hfo2 by lia.
        by rewrite (follows_fun _ _ _ _ Hfo2 Hback). }
      assert (∀ o, (0 < o <= m)%nat → facing ch r2 r1 (T2 (k + o))) as Hf2.
      { intros o Ho. replace (k + o)%nat with (S k + (o - 1))%nat by lia. eapply opposite_facing; [done| |apply Hopp; lia]. apply Hf. lia. }
      assert (∀ i, (T1 i).2 < 4)%nat as Hlt1 by (intros i; apply (HT1 i)). assert (∀ i, (T2 i).2 < 4)%nat as Hlt2 by (intros i; apply (HT2 i)).
      split; [done|]. split; [|split; [done|]].
      - intros Hk. apply Hjm. destruct (opposite_ex _ _ _ Hk) as (u & Hu). pose proof (Hf2 1%nat ltac:(lia)) as Ht.
        replace (k + 1)%nat with (S k) in Ht by lia.
        pose proof (follows_back _ _ _ _ _ _ (not_eq_sym Hne) Hk Ht (H21 _ Hk) (proj2 (HT2 k)) Hu (opposite_back _ _ (Hlt1 _) Hop)) as Hb.
        rewrite (follows_fun _ _ _ _ (proj2 (HT1 (j + m)%nat)) Hb). exact (opposite_facing _ _ _ _ (not_eq_sym Hne) Hk Hu).
      - intros Hk. apply Hj. destruct (opposite_ex _ _ _ Hk) as (u & Hu). pose proof (Hf2 m ltac:(lia)) as Hs.
        pose proof (Hopp (m - 1)%nat ltac:(lia)) as Ho. replace (j + (m - (m - 1)))%nat with (S j) in Ho by lia.
        replace (S k + (m - 1))%nat with (k + m)%nat in Ho by lia.
        pose proof (follows_back _ _ _ _ _ _ (not_eq_sym Hne) Hs Hk (H21 _ Hs) (proj2 (HT2 (k + m)%nat)) (opposite_back _ _ (Hlt1 _) Ho) Hu) as Hb.
        pose proof (opposite_facing _ _ _ _ (not_eq_sym Hne) Hk Hu) as Hfu.
        assert (u = T1 j) as <-; [|done]. eapply follows_inj; [apply Hfu|apply HT1|done|apply HT1].
    Qed.
  End stretch.

  (** ** Loops of sides and raw vertices *)
  Lemma mod_S n k : n ≠ 0%nat → (S k mod n = (k mod n + 1) mod n)%nat.
  Proof. intros Hn. rewrite <-Nat.add_1_r. by rewrite Nat.add_mod_idemp_l. Qed.
  Definition turn (l : list (nat * nat)) (k : nat) : nat * nat := l !!! (k mod length l)%nat.
  Lemma turn_lookup l k : l ≠ [] → l !! (k mod length l)%nat = Some (turn l k).
  Proof.
    intros Hl. apply list_lookup_lookup_total_lt. apply Nat.mod_upper_bound. by destruct l.
  Qed.
  Lemma walked_turns r l k : l ≠ [] → (∀ s, s ∈ l → side ch r s.1 s.2) → walked ch r l →
    side ch r (turn l k).1 (turn l k).2 ∧ follows ch r (turn l k) (turn l (S k)).
  Proof.
    intros Hl Hs Hw. pose proof (turn_lookup l k Hl) as H1. pose proof (turn_lookup l (S k) Hl) as H2. split.
    - apply Hs. by eapply elem_of_list_lookup_2.
    - eapply Hw; [exact H1|]. by rewrite <-mod_S by (by destruct l).
  Qed.

  Lemma beyond_facing r r' area s v :
    side ch r s.1 s.2 → r' ≠ 0 → one_area ch r' area → beyond ch area s.1 s.2 v →
    (facing ch r r' s ↔ beyond_region v = r' ∧ area_border v = false).
  Proof.
    intros Hs Hr' Ha [Hy Hn]. split.
    - intros (_ & j & Hj & Hrj). destruct (Hy j Hj) as [E1 E2]. unfold beyond_region, area_border. split; [congruence|].
      destruct (Z.testbit v 17); [|done]. destruct (proj1 E2 eq_refl). by apply Ha.
    - intros [E1 E2]. split; [done|].
      destruct (step_dec s.1 s.2) as [(j & Hj)|Hno]; [apply Hs| | |].
      + destruct Hs as (_ & Hr & _). unfold region_of in Hr. destruct (ch_spans ch !! s.1) eqn:E; [by eapply lookup_lt_Some|done].
      + exists j. split; [done|]. rewrite (proj1 (Hy j Hj)). by apply (f_equal Some).
      + destruct (Hn Hno) as [E0 _]. unfold beyond_region in E1. congruence.
  Qed.

  Lemma at_loop_some (raw : list rawv) k : raw ≠ [] → ∃ v, at_loop raw k = Some v.
  Proof. intros Hr. apply lookup_lt_is_Some_2. apply Nat.mod_upper_bound. by destruct raw. Qed.

  Section loops.
    Context (area r r' : Z) (Hr' : r' ≠ 0) (Hone : one_area ch r' area).
    Context (sides : list (nat * nat)) (raw : list rawv) (Hnn : sides ≠ []).
    Context (Hside : ∀ s, s ∈ sides → side ch r s.1 s.2) (Hbe : Forall2 (λ s v, beyond ch area s.1 s.2 v.2) sides raw).

    Lemma raw_nn : raw ≠ [].
    Proof. intros ->. by apply Forall2_nil_inv_r in Hbe. Qed.
    Lemma faces_at k v : at_loop raw k = Some v → facing ch r r' (turn sides k) ↔ beyond_region v.2 = r' ∧ area_border v.2 = false.
    Proof.
      intros Hv. pose proof (turn_lookup sides k Hnn) as Hs. apply (beyond_facing _ _ area); [|done|done|].
      - apply Hside. by eapply elem_of_list_lookup_2.
      - unfold at_loop in Hv. assert (length raw = length sides) as El by (symmetry; by eapply Forall2_length). rewrite El in Hv. exact (Forall2_lookup_lr _ _ _ _ _ _ Hbe Hs Hv).
    Qed.
    Lemma same_unchanged k : ¬ changes raw k → ∃ v w, at_loop raw k = Some v ∧ at_loop raw (k + 1) = Some w ∧
      beyond_region v.2 = beyond_region w.2 ∧ area_border v.2 = area_border w.2.
    Proof.
      intros Hn. destruct (at_loop_some raw k raw_nn) as (v & Hv), (at_loop_some raw (k + 1) raw_nn) as (w & Hw). exists v, w. split; [done|]. split; [done|].
      destruct (decide (beyond_region v.2 = beyond_region w.2)) as [E1|E1]; [|destruct Hn; exists v, w; auto].
      destruct (decide (area_border v.2 = area_border w.2)) as [E2|E2]; [|destruct Hn; exists v, w; auto]. done.
    Qed.
    Lemma run_stretch j m v : portal_run raw j m → at_loop raw (j + 1) = Some v → beyond_region v.2 = r' →
      (0 < m)%nat ∧ ¬ facing ch r r' (turn sides j) ∧ (∀ o, (0 < o <= m)%nat → facing ch r r' (turn sides (j + o))) ∧
      ¬ facing ch r r' (turn sides (S (j + m))).
    Proof.
      intros (Hm & Hc1 & Hc2 & Hno & v' & Hv' & Hnz & Hab) Hv E. assert (v' = v) as -> by congruence.
      assert (∀ o, (0 < o <= m)%nat → facing ch r r' (turn sides (j + o))) as Hf.
      { induction o as [|o IH]; [lia|]. intros Ho. destruct (decide (o = 0%nat)) as [->|Ho0]; [by apply (proj2 (faces_at _ _ Hv))|].
        destruct (same_unchanged (j + o)) as (a & b & Ha & Hb & E1 & E2); [apply Hno; lia|].
        replace (j + o + 1)%nat with (j + S o)%nat in Hb by lia. apply (proj2 (faces_at _ _ Hb)). rewrite <-E1, <-E2.
        apply (proj1 (faces_at _ _ Ha)). apply IH. lia. }
      split; [done|]. split; [|split; [done|]].
      - intros Hj. destruct Hc1 as (a & b & Ha & Hb & Hd). apply (proj1 (faces_at _ _ Ha)) in Hj. assert (b = v) as -> by congruence. destruct Hj, Hd; congruence.
      - intros Hj. destruct Hc2 as (a & b & Ha & Hb & Hd). rewrite Nat.add_1_r in Hb. apply (proj1 (faces_at _ _ Hb)) in Hj.
        pose proof (proj1 (faces_at _ _ Ha) (Hf m ltac:(lia))) as Hj'. destruct Hj, Hj', Hd; congruence.
    Qed.
    Lemma stretch_run j m :
      (0 < m)%nat → ¬ facing ch r r' (turn sides j) → (∀ o, (0 < o <= m)%nat → facing ch r r' (turn sides (j + o))) →
      ¬ facing ch r r' (turn sides (S (j + m))) → portal_run raw j m.
    Proof.
      intros Hm Hj Hf Hjm.
      assert (∀ o v, (0 < o <= m)%nat → at_loop raw (j + o) = Some v → beyond_region v.2 = r' ∧ area_border v.2 = false) as Hf'.
      { intros o v Ho Hv. apply (proj1 (faces_at _ _ Hv)). by apply Hf. }
      assert (∀ k a b, at_loop raw k = Some a → at_loop raw (k + 1) = Some b → ¬ (facing ch r r' (turn sides k) ↔ facing ch r r' (turn sides (k + 1))) → changes raw k) as Hch.
      { intros k a b Ha Hb Hn. exists a, b. split; [done|]. split; [done|].
        destruct (decide (beyond_region a.2 = beyond_region b.2)) as [E1|E1]; [|by left].
        destruct (decide (area_border a.2 = area_border b.2)) as [E2|E2]; [|by right].
        destruct Hn. rewrite (faces_at _ _ Ha), (faces_at _ _ Hb), E1, E2. done. }
      split; [done|]. split; [|split; [|split]].
      - destruct (at_loop_some raw j raw_nn) as (a & Ha), (at_loop_some raw (j + 1) raw_nn) as (b & Hb). eapply Hch; [done|done|].
        intros Hi. apply Hj, Hi, Hf. lia.
      - destruct (at_loop_some raw (j + m) raw_nn) as (a & Ha), (at_loop_some raw (j + m + 1) raw_nn) as (b & Hb). eapply Hch; [done|done|].
        rewrite Nat.add_1_r. intros Hi. apply Hjm, Hi, Hf. lia.
      - intros o Ho (a & b & Ha & Hb & Hd). destruct (Hf' o a ltac:(lia) Ha) as [E1 E2].
        replace (j + o + 1)%nat with (j + S o)%nat in Hb by lia. destruct (Hf' (S o) b ltac:(lia) Hb) as [E3 E4]. destruct Hd; congruence.
      - destruct (at_loop_some raw (j + 1) raw_nn) as (a & Ha). exists a. split; [done|].
        destruct (Hf' 1%nat a ltac:(lia) Ha) as [E1 E2]. by rewrite E1.
    Qed.
  End loops.

  (** ** Contours *)
  Definition out (p : Z * Z) : Z * Z := (p.1 + ch_border ch, p.2 + ch_border ch).
  Lemma out_inj p q : out p = out q → p = q.
  Proof. destruct p, q. unfold out. cbn. intros [= ? ?]. f_equal; lia. Qed.
  Lemma outline_parts err2 o : outlined ch err2 o →
    ol_sides o ≠ [] ∧ (∀ s, s ∈ ol_sides o → side ch (ol_reg o) s.1 s.2).
  Proof.
    intros (_ & [Hn _] & Hf & _). split; [intros E; rewrite E in Hf; by apply Forall2_nil_inv_l in Hf|].
    intros s (k & Hs)%elem_of_list_lookup. destruct (Forall2_lookup_l _ _ _ _ _ Hf Hs) as (p & _ & Hp & _). done.
  Qed.
  Lemma outline_corner err2 o ct k v : outlined ch err2 o → ol_contour o = Some ct → at_loop (ct_raw ct) k = Some v →
    side_end ch (turn (ol_sides o) k).1 (turn (ol_sides o) k).2 (out (vpos v.1)).
  Proof.
    intros Ho Ec Hv. pose proof (proj1 (outline_parts _ _ Ho)) as Hnn. destruct Ho as (_ & _ & Hf & _ & Ho). rewrite Ec in Ho.
    destruct Ho as (_ & El & Hb & _). assert (length (ct_raw ct) = length (ol_sides o)) as En by (symmetry; by eapply Forall2_length).
    unfold at_loop in Hv. rewrite En in Hv. pose proof (turn_lookup (ol_sides o) k Hnn) as Hs.
    assert (ol_loop o !! (k mod length (ol_sides o))%nat = Some (out (vpos v.1))) as Hp. { rewrite El, list_lookup_fmap, Hv. done. }
    apply (Forall2_lookup_lr _ _ _ _ _ _ Hf Hs Hp).
  Qed.

  Lemma runs_match err2 LL r1 r2 A o1 ct1 j m p q :
    Forall (outlined ch err2) LL →
    (∀ r i d, inner r → side ch r i d → ∃ o, o ∈ LL ∧ ol_reg o = r ∧ (i, d) ∈ ol_sides o) →
    inner r1 → inner r2 → r1 ≠ r2 → one_area ch r1 A → one_area ch r2 A → meets_evenly ch r1 r2 → meets_evenly ch r2 r1 →
    o1 ∈ LL → ol_reg o1 = r1 → ol_contour o1 = Some ct1 → run_along (ct_raw ct1) r2 j m p q →
    ∃ o2, o2 ∈ LL ∧ ol_reg o2 = r2 ∧ ∀ ct2, ol_contour o2 = Some ct2 → ∃ k, run_along (ct_raw ct2) r1 k m q p.
  Proof.
    intros Hall Hcov Hi1 Hi2 Hne Ha1 Ha2 H12 H21 Ho1 Er1 Ec1 (Hrun & (v & Hv & Hvr) & (vp & Hvp & Ep) & (vq & Hvq & Eq)).
    rewrite Forall_forall in Hall. pose proof (Hall _ Ho1) as Hok1. destruct (outline_parts _ _ Hok1) as [Hn1 Hs1]. rewrite Er1 in Hs1.
    assert (walked ch r1 (ol_sides o1) ∧ Forall2 (λ s v, beyond ch A s.1 s.2 v.2) (ol_sides o1) (ct_raw ct1)) as [Hw1 Hb1].
    { destruct Hok1 as (_ & _ & _ & Hw & Ho). rewrite Ec1 in Ho. rewrite Er1 in *. destruct Ho as (_ & _ & Hb & (i & Hir & Hia) & _). rewrite (Ha1 _ Hir) in Hia. injection Hia as E. rewrite E. done. }
    destruct (run_stretch A r1 r2 (proj1 Hi2) Ha2 _ _ Hn1 Hs1 Hb1 j m v Hrun Hv Hvr) as (Hm & Hj & Hf & Hjm).
    set (T1 := turn (ol_sides o1)) in *.
    assert (HT1 : ∀ k, side ch r1 (T1 k).1 (T1 k).2 ∧ follows ch r1 (T1 k) (T1 (S k))) by (intros k; by apply walked_turns).
    pose proof (Hf m ltac:(lia)) as Hfm. destruct (opposite_ex _ _ _ Hfm) as (t & Hop). pose proof (opposite_facing _ _ _ _ Hne Hfm Hop) as Hft.
    destruct (Hcov r2 t.1 t.2 Hi2 (proj1 Hft)) as (o2 & Ho2 & Er2 & Hin). rewrite <-surjective_pairing in Hin.
    pose proof (Hall _ Ho2) as Hok2. destruct (outline_parts _ _ Hok2) as [Hn2 Hs2]. rewrite Er2 in Hs2.
    exists o2. split; [done|]. split; [done|]. intros ct2 Ec2.
    assert (walked ch r2 (ol_sides o2) ∧ Forall2 (λ s v, beyond ch A s.1 s.2 v.2) (ol_sides o2) (ct_raw ct2)) as [Hw2 Hb2].
    { destruct Hok2 as (_ & _ & _ & Hw & Ho). rewrite Ec2 in Ho. rewrite Er2 in *. destruct Ho as (_ & _ & Hb & (i & Hir & Hia) & _). rewrite (Ha2 _ Hir) in Hia. injection Hia as E. rewrite E. done. }
    set (T2 := turn (ol_sides o2)) in *.
    assert (HT2 : ∀ k, side ch r2 (T2 k).1 (T2 k).2 ∧ follows ch r2 (T2 k) (T2 (S k))) by (intros k; by apply walked_turns).
    apply elem_of_list_lookup in Hin as (k0 & Hk0). pose proof (lookup_lt_Some _ _ _ Hk0) as Hlt. set (n2 := length (ol_sides o2)) in *.
    set (k := (k0 + n2 - 1)%nat).
    assert (T2 (S k) = t) as Et.
    { unfold T2. pose proof (turn_lookup (ol_sides o2) (S k) Hn2) as H. fold n2 in H. replace (S k) with (k0 + 1 * n2)%nat in H at 1 by (unfold k; lia).
      rewrite Nat.mod_add, Nat.mod_small in H by lia. congruence. }
    rewrite <-Et in Hop.
    destruct (stretch_back r1 r2 Hne H12 H21 T1 T2 HT1 HT2 j m k Hj Hf Hjm Hm Hop) as (Hopp & Hj2 & Hf2 & Hjm2).
    assert (∀ i, (T1 i).2 < 4)%nat as Hlt1 by (intros i; apply (HT1 i)). assert (∀ i, (T2 i).2 < 4)%nat as Hlt2 by (intros i; apply (HT2 i)).
    pose proof (raw_nn A _ _ Hn2 Hb2) as Hrn. exists k. split; [|split; [|split]].
    - by eapply (stretch_run A r2 r1 (proj1 Hi1) Ha1 _ _ Hn2 Hs2 Hb2).
    - destruct (at_loop_some (ct_raw ct2) (k + 1) Hrn) as (u & Hu). exists u. split; [done|].
      apply (proj1 (faces_at A r2 r1 (proj1 Hi1) Ha1 _ _ Hn2 Hs2 Hb2 _ _ Hu)). apply Hf2. lia.
    - destruct (at_loop_some (ct_raw ct2) k Hrn) as (u & Hu). exists u. split; [done|]. rewrite <-Eq. apply out_inj.
      pose proof (outline_corner _ _ _ _ _ Hok2 Ec2 Hu) as Hc. fold T2 in Hc. pose proof (outline_corner _ _ _ _ _ Hok1 Ec1 Hvq) as Hc1. fold T1 in Hc1.
      apply (follows_corner r2 _ (T2 (S k))) in Hc; [|done|apply HT2].
      apply (opposite_start (T2 (S k)) (T1 (j + m)%nat)) in Hc; [|done|by apply opposite_back]. by eapply side_end_fun.
    - destruct (at_loop_some (ct_raw ct2) (k + m) Hrn) as (u & Hu). exists u. split; [done|]. rewrite <-Ep. apply out_inj.
      pose proof (outline_corner _ _ _ _ _ Hok2 Ec2 Hu) as Hc. fold T2 in Hc. pose proof (outline_corner _ _ _ _ _ Hok1 Ec1 Hvp) as Hc1. fold T1 in Hc1.
      apply (follows_corner r1 _ (T1 (S j))) in Hc1; [|done|apply HT1].
      specialize (Hopp (m - 1)%nat ltac:(lia)). replace (j + (m - (m - 1)))%nat with (S j) in Hopp by lia. replace (S k + (m - 1))%nat with (k + m)%nat in Hopp by lia.
      apply (opposite_start (T1 (S j)) (T2 (k + m)%nat)) in Hc1; [|done|done]. by eapply side_end_fun.
  Qed.
End match_.
