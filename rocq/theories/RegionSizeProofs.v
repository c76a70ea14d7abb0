(** Which regions the filter removes and which it keeps. *)
From Verif Require Import Base ModelMath ModelHeightfield ModelFilters ModelCompact ModelDistance ModelRegions
  SpecHeightfield SpecCompact SpecDistance SpecRegions CompactProofs LinkProofs PackProofs
  GraphProofs FlowProofs GivesProofs WatershedProofs RegionProofs.
Local Open Scope Z_scope.

Section size.
  Context (ch : chf) (Hwf : wf_chf ch) (P : nat → Prop) (base : Z) (M : marks) (nxt : Z).
  Context (HM : winv ch P base M nxt).
  Let n := length (ch_spans ch).
  Let R := m_reg M.

  (** ** Counting *)

  (** Every region has counted exactly its spans among those in [Dn]. *)
  Definition tally (Dn : nat → Prop) (regs : list region) : Prop :=
    ∀ k g, regs !! k = Some g → k ≠ 0%nat → ∃ L, NoDup L ∧ length L = rg_count g ∧
      ∀ i, i ∈ L ↔ Dn i ∧ R !! i = Some (Z.of_nat k).

  Lemma tally_ext Dn Dn' regs : (∀ i, Dn i ↔ Dn' i) → tally Dn regs → tally Dn' regs.
  Proof.
    intros E H k g Hk Hn. destruct (H k g Hk Hn) as (L & H1 & H2 & H3). exists L. split; [done|]. split; [done|].
    intros i. by rewrite H3, E.
  Qed.

  Lemma collect_span_tally nreg x z cell i regs Dn :
    length regs = Z.to_nat nreg → ¬ Dn i → tally Dn regs →
    gives (collect_span ch R nreg x z cell i regs) (λ regs',
      length regs' = length regs ∧ tally (λ j, Dn j ∨ j = i) regs').
  Proof.
    intros Hl Hi HT. unfold collect_span. apply gives_get. intros r Hr.
    assert (0 ≤ r ≤ 65535) as H16 by (apply (winv_u16 ch P base M nxt i r HM Hr)). unfold REG_NONE.
    destruct ((r =? 0) || (nreg <=? r)) eqn:Eb.
    { apply gives_done. split; [done|]. intros k g Hk Hn. destruct (HT k g Hk Hn) as (L & H1 & H2 & H3). exists L.
      split; [done|]. split; [done|]. intros j. rewrite H3. split; [tauto|]. intros [[?| ->] Hj]; [done|]. exfalso.
      assert (r = Z.of_nat k) as -> by congruence. apply lookup_lt_Some in Hk. lia. }
    apply orb_false_elim in Eb as [E1 E2]. apply gives_get. intros g Hg. cbv zeta.
    apply (gives_bind _ _ (λ _, True)); [done|]. intros [ov fl] _.
    set (g2 := rg_set_floors _ ov fl). apply (gives_bind _ _ (λ g3, rg_count g3 = S (rg_count g))).
    { destruct (rg_con g2) as [|? ?]; [|by apply gives_done].
      apply gives_get. intros a Ha. apply (gives_bind _ _ (λ _, True)); [done|]. intros [d|] _; [|by apply gives_done].
      apply (gives_bind _ _ (λ _, True)); [done|]. intros cs _. by apply gives_done. }
    intros g3 Hg3. apply gives_put_end. intros Hlt. rewrite insert_length. split; [done|].
    intros k q Hk Hn. destruct (decide (Z.to_nat r = k)) as [<-|Hne].
    - rewrite list_lookup_insert in Hk by done. injection Hk as <-.
      destruct (HT _ _ Hg Hn) as (L & H1 & H2 & H3). exists (i :: L). rewrite Z2Nat.id in H3 |- * by lia. split; [|split].
      + constructor; [|done]. rewrite H3. tauto.
      + cbn. lia.
      + intros j. rewrite elem_of_cons, H3. split; [|tauto]. intros [->|[? ?]]; auto.
    - rewrite list_lookup_insert_ne in Hk by done. destruct (HT _ _ Hk Hn) as (L & H1 & H2 & H3). exists L.
      split; [done|]. split; [done|]. intros j. rewrite H3. split; [tauto|]. intros [[?| ->] Hj]; [done|]. exfalso.
      assert (r = Z.of_nat k) as -> by congruence. lia.
  Qed.

  Lemma collect_tally nreg : gives (collect_regions ch R nreg) (λ regs,
    ∀ k g, regs !! k = Some g → k ≠ 0%nat → ∃ L, NoDup L ∧ length L = rg_count g ∧
      ∀ i, i ∈ L ↔ R !! i = Some (Z.of_nat k)).
  Proof.
    unfold collect_regions. eapply gives_mono.
    { apply (gives_cells (λ c regs, length regs = Z.to_nat nreg ∧ tally (λ i, ∃ c', (c' < c)%nat ∧ in_cell ch c' i) regs)).
      - rewrite fmap_length, seq_length. split; [done|]. intros k g Hk Hn. rewrite list_lookup_fmap in Hk.
        apply fmap_Some in Hk as (k' & Hk' & ->). exists []. split; [constructor|]. split; [done|].
        intros i. split; [by intros ?%elem_of_nil|]. intros [(c' & ? & _) _]. lia.
      - intros c regs Hc [Hl HT]. rewrite <-(cells_len ch Hwf) in Hc. destruct (lookup_lt_is_Some_2 _ _ Hc) as [cell Hcell].
        rewrite (cells_len ch Hwf) in Hc. rewrite (cell_at_some ch c cell Hc Hcell). cbn [obind].
        eapply gives_mono.
        { apply (gives_inv (λ pre regs', length regs' = Z.to_nat nreg ∧
            tally (λ i, (∃ c', (c' < c)%nat ∧ in_cell ch c' i) ∨ i ∈ pre) regs')).
          - split; [done|]. eapply tally_ext; [|exact HT]. intros i. split; [auto|]. intros [?|?%elem_of_nil]; done.
          - intros pre i post regs' El [Hl' HT']. eapply gives_mono; [apply (collect_span_tally _ _ _ _ _ _ (λ i, (∃ c', (c' < c)%nat ∧ in_cell ch c' i) ∨ i ∈ pre) Hl')|].
            + assert (in_cell ch c i) as Hin by (exists cell; split; [done|rewrite El; set_solver]).
              intros [(c' & Hc' & Hin')|Hpre].
              * pose proof (in_cell_unique ch Hwf c c' i Hin Hin'). lia.
              * assert (NoDup (index_range cell)) as Hnd by (unfold index_range; apply NoDup_ListNoDup, seq_NoDup).
                rewrite El in Hnd. apply NoDup_app in Hnd as (_ & Hx & _). apply (Hx i Hpre). left.
            + exact HT'.
            + intros regs2 [Hl2 HT2]. split; [by rewrite Hl2|]. eapply tally_ext; [|exact HT2]. intros j. cbn.
              rewrite elem_of_app, elem_of_list_singleton. tauto. }
        intros regs' [Hl' HT']. split; [done|]. eapply tally_ext; [|exact HT']. intros i. cbn. split.
        + intros [(c' & ? & ?)|Hi]; [exists c'; split; [lia|done]|]. exists c. split; [lia|]. by exists cell.
        + intros (c' & Hc' & Hin). destruct (decide (c' = c)) as [->|]; [|left; exists c'; split; [lia|done]].
          right. destruct Hin as (cell' & Hcell' & Hi). congruence. }
    intros regs [_ HT] k g Hk Hn. destruct (HT k g Hk Hn) as (L & H1 & H2 & H3). exists L. split; [done|]. split; [done|].
    intros i. rewrite H3. split; [tauto|]. intros Hi. split; [|done].
    assert (i < n)%nat as Hin by (unfold n; rewrite <-(wi_lenR _ _ _ _ _ HM); by eapply lookup_lt_Some).
    destruct (in_cell_ex ch Hwf i Hin) as [c Hc]. exists c. split; [by eapply in_cell_lt|done].
  Qed.

  Lemma collect_unvisited nreg : gives (collect_regions ch R nreg) (λ regs, ∀ k g, regs !! k = Some g → rg_visited g = false).
  Proof.
    unfold collect_regions. apply (gives_cells (λ _ regs, ∀ k g, regs !! k = Some g → rg_visited g = false)).
    - intros k g Hk. rewrite list_lookup_fmap in Hk. by apply fmap_Some in Hk as (k' & _ & ->).
    - intros c regs _ HI. apply (gives_bind _ _ (λ _, True)); [done|]. intros cell _. apply gives_keep; [done|].
      clear regs HI. intros i regs _ HI. unfold collect_span. apply gives_get. intros r _. destruct (_ || _); [by apply gives_done|].
      apply gives_get. intros g Hg. cbv zeta. apply (gives_bind _ _ (λ _, True)); [done|]. intros [ov fl] _.
      set (g2 := rg_set_floors _ ov fl). apply (gives_bind _ _ (λ g3, rg_visited g3 = false)).
      { specialize (HI _ _ Hg). destruct (rg_con g2) as [|? ?]; [|by apply gives_done].
        apply gives_get. intros a Ha. apply (gives_bind _ _ (λ _, True)); [done|]. intros [d|] _; [|by apply gives_done].
        apply (gives_bind _ _ (λ _, True)); [done|]. intros cs _. by apply gives_done. }
      intros g3 Hg3. apply gives_put_end. intros Hlt k q Hk. destruct (decide (Z.to_nat r = k)) as [<-|].
      + rewrite list_lookup_insert in Hk by done. congruence.
      + rewrite list_lookup_insert_ne in Hk by done. by apply (HI k).
  Qed.

  (** ** Pruning *)
  Section prune.
    Context (ma : Z) (regs0 : list region).
    Hypothesis (H0 : all_rinv ch M nxt regs0).

    Definition count0 (k : nat) : nat := match regs0 !! k with Some g => rg_count g | None => 0%nat end.
    Definition csum (G : list nat) : nat := sum_list (count0 <$> G).

    Lemma csum_app G G' : csum (G ++ G') = (csum G + csum G')%nat.
    Proof. unfold csum. rewrite fmap_app. induction (count0 <$> G) as [|a l IH]; cbn; [done|]. lia. Qed.
    Lemma csum_elem G k : k ∈ G → (count0 k <= csum G)%nat.
    Proof. intros Hk. apply elem_of_list_split in Hk as (l1 & l2 & ->). rewrite csum_app. unfold csum at 2. cbn. lia. Qed.

    (** The spans of a set of regions. *)
    Definition of (G : list nat) (i : nat) : Prop := ∃ k, k ∈ G ∧ R !! i = Some (Z.of_nat k).
    Definition together (G : list nat) : Prop := ∀ i j, of G i → of G j → joined ch (of G) i j.
    Definition inner (k : nat) : Prop := 0 < Z.of_nat k < 32768.
    Definition at_border (G : list nat) : Prop :=
      ∃ k g c, k ∈ G ∧ regs0 !! k = Some g ∧ c ∈ rg_con g ∧ is_border c = true.

    Record good (G : list nat) : Prop := Good {
      g_nd : NoDup G;
      g_in : ∀ k, k ∈ G → inner k;
      g_tog : together G;
      g_big : ma ≤ Z.of_nat (csum G) ∨ at_border G
    }.

    Definition same0 (regs : list region) : Prop :=
      ∀ k g, regs !! k = Some g → ∃ g0, regs0 !! k = Some g0 ∧ rg_con g = rg_con g0 ∧
        ((rg_id g = Z.of_nat k ∧ rg_count g = rg_count g0) ∨ (rg_id g = 0 ∧ rg_visited g = true)).

    Record pg (regs : list region) : Prop := PG {
      pg_same : same0 regs;
      pg_vis : ∀ k g, regs !! k = Some g → rg_visited g = true →
        (rg_id g = 0 ∧ Z.of_nat (count0 k) < ma) ∨
        (∃ G, k ∈ G ∧ good G ∧ ∀ k', k' ∈ G → ∃ g', regs !! k' = Some g' ∧ rg_visited g' = true ∧ rg_id g' = Z.of_nat k')
    }.

    (** The search started at a table [rs]: [W] is what it has reached. *)
    Record reach (rs regs : list region) (W : list nat) : Prop := Reach {
      re_nd : NoDup W;
      re_out : ∀ k, k ∉ W → regs !! k = rs !! k;
      re_in : ∀ k, k ∈ W → inner k ∧ ∃ g, rs !! k = Some g ∧ rg_visited g = false ∧ regs !! k = Some (rg_set_visited g);
      re_tog : together W
    }.

    Lemma region_together k : inner k → together [k].
    Proof.
      intros Hk i j (k1 & ->%elem_of_list_singleton & Hi) (k2 & ->%elem_of_list_singleton & Hj). unfold inner in Hk.
      eapply joined_mono; [|apply (wi_conn _ _ _ _ _ HM i j (Z.of_nat k) Hi Hj); lia]. cbn. intros l Hl. exists k.
      split; [by left|done].
    Qed.

    Lemma of_mono G G' i : (∀ k, k ∈ G → k ∈ G') → of G i → of G' i.
    Proof. intros H (k & Hk & Hi). exists k. split; [by apply H|done]. Qed.

    Lemma together_add G k c : together G → k ∈ G → inner c → touches ch M (Z.of_nat k) (Z.of_nat c) → together (c :: G).
    Proof.
      intros HG Hk Hc Ht. unfold inner in Hc. destruct Ht as [?|(i0 & j0 & d & Hd & Hi0 & Hst & Hj0)]; [lia|]. fold R in Hi0, Hj0.
      assert (Hbr : joined ch (of (c :: G)) i0 j0).
      { apply joined_adj; [exists k; split; [by right|done]|exists c; split; [by left|done]|]. exists d. split; [done|by left]. }
      assert (Hin : ∀ i, of G i → joined ch (of (c :: G)) i i0).
      { intros i Hi. eapply joined_mono; [|apply HG; [done|by exists k]]. intros l. apply of_mono. by right. }
      assert (Hic : ∀ i, R !! i = Some (Z.of_nat c) → joined ch (of (c :: G)) i i0).
      { intros i Hi. eapply joined_trans; [|apply joined_sym; exact Hbr].
        eapply joined_mono; [|apply (region_together c Hc); [exists c; split; [by left|done]..]].
        intros l. apply of_mono. intros k' ->%elem_of_list_singleton. by left. }
      assert (Hany : ∀ i, of (c :: G) i → joined ch (of (c :: G)) i i0).
      { intros i (k' & [->|Hk']%elem_of_cons & Hi); [by apply Hic|]. apply Hin. by exists k'. }
      intros i j Hi Hj. eapply joined_trans; [by apply Hany|]. apply joined_sym. by apply Hany.
    Qed.

    Lemma together_perm G G' : (∀ k, k ∈ G ↔ k ∈ G') → together G → together G'.
    Proof.
      intros E HG i j Hi Hj. eapply joined_mono; [|apply HG]; [|by eapply of_mono; [|exact Hi]; intros; apply E|by eapply of_mono; [|exact Hj]; intros; apply E].
      intros l. apply of_mono. intros. by apply E.
    Qed.

    Lemma set_visited_same rs regs W : same0 rs → reach rs regs W → same0 regs.
    Proof.
      intros Hs HW k g Hk. destruct (decide (k ∈ W)) as [Hin|Hout].
      - destruct (re_in _ _ _ HW k Hin) as (_ & g1 & Hg1 & Hv & E). assert (g = rg_set_visited g1) as -> by congruence.
        destruct (Hs k g1 Hg1) as (g0 & ? & ? & [?|[_ ?]]); [|congruence]. exists g0. split; [done|]. split; [done|]. by left.
      - rewrite (re_out _ _ _ HW k Hout) in Hk. by apply Hs.
    Qed.

    (** One neighbour. *)
    Lemma visit_con_reach rs ri g0 c regs tr stk tob :
      same0 rs → reach rs regs (tr ++ stk) → ri ∈ tr → regs0 !! ri = Some g0 → c ∈ rg_con g0 →
      (tob = true → at_border tr) →
      gives (visit_con c (regs, stk, tob)) (λ '(regs', stk', tob'), reach rs regs' (tr ++ stk') ∧ (tob' = true → at_border tr)).
    Proof.
      intros Hs HW Hri Hg0 Hc Htob. unfold visit_con. destruct (is_border c) eqn:Eb.
      { apply gives_done. split; [done|]. intros _. by exists ri, g0, c. }
      apply gives_get. intros g Hg. destruct (rg_visited g || dead (rg_id g)) eqn:Ev; [by apply gives_done|].
      apply orb_false_elim in Ev as [Ev Ed]. apply gives_put. intros Hlt. apply gives_done. split; [|done].
      destruct H0 as [Hl0 Hr0]. pose proof (r_touch _ _ _ _ (Hr0 _ _ Hg0) c Hc) as Ht.
      destruct (set_visited_same _ _ _ Hs HW _ _ Hg) as (q0 & Hq0 & _ & [[Eid _]|[_ ?]]); [|congruence].
      assert (0 ≤ c ≤ 65535) as Hc16.
      { destruct Ht as [->|(i & j & d & _ & _ & _ & Hj)]; [lia|]. apply (winv_u16 ch P base M nxt j c HM Hj). }
      rewrite Eid, Nat2Z.id. rewrite Eid in Ed.
      assert (inner (Z.to_nat c)) as Hin. { apply dead_iff in Ed; [done|lia]. }
      assert (Z.to_nat c ∉ tr ++ stk) as Hnot.
      { intros Hin'. destruct (re_in _ _ _ HW _ Hin') as (_ & q & _ & _ & E). assert (g = rg_set_visited q) as -> by congruence. done. }
      assert (Hperm : ∀ k, k ∈ Z.to_nat c :: (tr ++ stk) ↔ k ∈ tr ++ Z.to_nat c :: stk).
      { intros k. rewrite !elem_of_app, !elem_of_cons, elem_of_app. tauto. }
      split.
      - rewrite <-Permutation_middle. constructor; [done|apply HW].
      - intros k Hk. rewrite <-Hperm in Hk. apply not_elem_of_cons in Hk as [Hk1 Hk2].
        rewrite list_lookup_insert_ne by done. by apply HW.
      - intros k Hk. rewrite <-Hperm in Hk. apply elem_of_cons in Hk as [->|Hk].
        + split; [done|]. exists g. rewrite list_lookup_insert by done. split; [|done].
          by rewrite <-(re_out _ _ _ HW _ Hnot).
        + assert (Z.to_nat c ≠ k) as Hne by (intros <-; done). rewrite list_lookup_insert_ne by done. by apply HW.
      - eapply together_perm; [exact Hperm|]. apply (together_add _ ri); [apply HW|rewrite elem_of_app; by left|done|].
        unfold inner in Hin. by rewrite Z2Nat.id by lia.
    Qed.

    Lemma visit_loop_reach rs fuel regs stk cnt tr tob :
      same0 rs → reach rs regs (tr ++ stk) → cnt = csum tr → (tob = true → at_border tr) →
      gives (visit_loop fuel regs stk cnt tr tob) (λ '(regs', cnt', tr', tob'),
        reach rs regs' tr' ∧ cnt' = csum tr' ∧ (tob' = true → at_border tr') ∧ ∀ k, k ∈ tr ++ stk → k ∈ tr').
    Proof.
      revert regs stk cnt tr tob. induction fuel as [|fuel IH]; intros regs stk cnt tr tob Hs HW Hcnt Htob.
      { destruct stk; cbn; [|apply gives_fuel]. apply gives_done. rewrite app_nil_r in *. done. }
      destruct stk as [|ri stk]; cbn [visit_loop]; [apply gives_done; rewrite app_nil_r in *; done|].
      apply gives_get. intros g Hg.
      destruct (re_in _ _ _ HW ri) as (_ & q & Hq & Hv & E); [set_solver|]. assert (g = rg_set_visited q) as -> by congruence.
      destruct (Hs _ _ Hq) as (g0 & Hg0 & Econ & [[Eid Ecnt]|[_ ?]]); [|congruence].
      apply (gives_bind _ _ (λ '(regs', stk', tob'), reach rs regs' ((tr ++ [ri]) ++ stk') ∧ (tob' = true → at_border (tr ++ [ri])) ∧
        ∀ k, k ∈ (tr ++ [ri]) ++ stk → k ∈ (tr ++ [ri]) ++ stk')).
      { eapply gives_mono; [apply (gives_keep (λ st : list region * list nat * bool, reach rs st.1.1 ((tr ++ [ri]) ++ st.1.2) ∧
          (st.2 = true → at_border (tr ++ [ri])) ∧ ∀ k, k ∈ (tr ++ [ri]) ++ stk → k ∈ (tr ++ [ri]) ++ st.1.2))|].
        - cbn. rewrite <-app_assoc. split; [done|]. split; [|done]. intros E2. destruct (Htob E2) as (k & gk & c & Hk & ?).
          exists k, gk, c. split; [rewrite elem_of_app; by left|done].
        - intros c [[regs' stk'] tob'] Hc (I1 & I2 & I3). cbn [fst snd] in *. cbn in Hc. rewrite Econ in Hc.
          assert (Hsuf : gives (visit_con c (regs', stk', tob')) (λ st, ∀ k, k ∈ stk' → k ∈ st.1.2)).
          { unfold visit_con. destruct (is_border c); [by apply gives_done|]. apply gives_get. intros gc _.
            destruct (_ || _); [by apply gives_done|]. apply gives_put. intros _. apply gives_done. cbn. intros k Hk. by right. }
          intros [[r2 s2] t2] E2. pose proof (visit_con_reach rs ri g0 c regs' (tr ++ [ri]) stk' tob' Hs I1 ltac:(set_solver) Hg0 Hc I2 _ E2) as [J1 J2].
          cbn [fst snd]. split; [done|]. split; [done|]. intros k Hk. pose proof (Hsuf _ E2 k) as X. cbn in X.
          apply I3 in Hk. rewrite elem_of_app in Hk |- *. destruct Hk as [?|?]; [by left|right; by apply X].
        - intros [[r2 s2] t2] X. exact X. }
      intros [[r2 s2] t2] (I1 & I2 & I3). eapply gives_mono; [apply (IH r2 s2 _ (tr ++ [ri]) t2 Hs I1)|].
      + rewrite Hcnt, csum_app. f_equal. cbn. unfold csum. cbn. unfold count0. rewrite Hg0. lia.
      + done.
      + intros [[[r3 c3] t3] b3] (J1 & J2 & J3 & J4). split; [done|]. split; [done|]. split; [done|].
        intros k Hk. apply J4, I3. rewrite <-app_assoc. done.
    Qed.

    (** What one call changes, entry by entry. *)
    Definition settled (g : region) : Prop := rg_visited g = true ∨ dead (rg_id g) = true ∨ rg_count g = 0%nat.

    Lemma prune_region_pg i regs :
      pg regs → gives (prune_region ma i regs) (λ regs', pg regs' ∧
        (∀ g, regs' !! i = Some g → settled g) ∧
        ∀ k g', regs' !! k = Some g' → ∃ g, regs !! k = Some g ∧ (g' = g ∨ rg_visited g' = true)).
    Proof.
      intros Hp. unfold prune_region. apply gives_get. intros g Hg.
      destruct (dead (rg_id g) || (rg_count g =? 0)%nat || rg_visited g) eqn:Eb.
      { apply gives_done. split; [done|]. split; [|intros k g' Hk; exists g'; auto].
        intros g' Hg'. assert (g' = g) as -> by congruence. unfold settled. destruct (dead (rg_id g)); [auto|].
        destruct (Nat.eqb_spec (rg_count g) 0); [auto|]. cbn in Eb. auto. }
      apply orb_false_elim in Eb as [Eb Ev]. apply orb_false_elim in Eb as [Ed Ec]. apply gives_put. intros Hlt.
      pose proof (pg_same _ Hp) as Hs.
      destruct (Hs i g Hg) as (g0 & Hg0 & Econ & [[Eid Ecnt]|[_ ?]]); [|congruence].
      assert (inner i) as Hin.
      { rewrite Eid in Ed. unfold dead, REG_NONE in Ed. apply orb_false_elim in Ed as [Ez Ebd]. unfold inner.
        destruct H0 as [Hl0 _]. apply lookup_lt_Some in Hg0. rewrite Hl0 in Hg0.
        pose proof (wi_id _ _ _ _ _ HM) as Hid. destruct (decide (Z.of_nat i ≤ 65535)); [|lia].
        rewrite is_border_iff in Ebd by lia. lia. }
      assert (HW : reach regs (<[i := rg_set_visited g]> regs) [i]).
      { split.
        - apply NoDup_singleton.
        - intros k Hk. rewrite elem_of_list_singleton in Hk. by rewrite list_lookup_insert_ne.
        - intros k ->%elem_of_list_singleton. split; [done|]. exists g. by rewrite list_lookup_insert.
        - by apply region_together. }
      eapply gives_bind; [apply (visit_loop_reach regs _ _ [i] 0 [] false Hs HW); [done|done]|].
      intros [[[r2 cnt] tr] tob] (HW2 & Hcnt & Htob & Hsub). specialize (Hsub i ltac:(set_solver)).
      assert (Hold : ∀ k gk, r2 !! k = Some gk → k ∉ tr → regs !! k = Some gk).
      { intros k gk Hk Hn. by rewrite <-(re_out _ _ _ HW2 k Hn). }
      (* groups of earlier calls are disjoint from this one *)
      assert (Hdis : ∀ k gk, regs !! k = Some gk → rg_visited gk = true → k ∉ tr).
      { intros k gk Hk Hv Hin'. destruct (re_in _ _ _ HW2 k Hin') as (_ & q & Hq & Hvq & _). congruence. }
      destruct ((Z.of_nat cnt <? ma) && negb tob) eqn:Ek.
      - (* killed *)
        apply andb_true_iff in Ek as [Ek _]. eapply gives_mono.
        { apply (gives_inv (λ pre r3, (∀ k, k ∉ pre → r3 !! k = r2 !! k) ∧
            ∀ k, k ∈ pre → ∃ q, r2 !! k = Some q ∧ ∃ q', r3 !! k = Some q' ∧ rg_id q' = 0 ∧ rg_con q' = rg_con q ∧ rg_visited q' = rg_visited q)).
          - split; [done|]. intros k Hk. by apply elem_of_nil in Hk.
          - intros pre t post r3 El [I1 I2]. unfold kill. apply gives_get. intros q Hq. apply gives_put_end. intros Hlt3. split.
            + intros k Hk. rewrite elem_of_app, elem_of_list_singleton in Hk. rewrite list_lookup_insert_ne by (intros ->; tauto).
              apply I1. tauto.
            + intros k Hk. rewrite elem_of_app, elem_of_list_singleton in Hk. destruct (decide (k = t)) as [->|Hne].
              * assert (t ∉ pre) as Hnp.
                { pose proof (re_nd _ _ _ HW2) as Hnd. rewrite El in Hnd. apply NoDup_app in Hnd as (_ & Hx & _).
                  intros Hin'. apply (Hx t Hin'). by left. }
                exists q. rewrite <-(I1 t Hnp). split; [done|]. eexists. rewrite list_lookup_insert by done. done.
              * destruct Hk as [Hk|?]; [|done]. rewrite list_lookup_insert_ne by done. by apply I2. }
        intros r3 [I1 I2].
        assert (Hkill : ∀ k g', r3 !! k = Some g' → k ∈ tr → rg_id g' = 0 ∧ rg_visited g' = true ∧ ∃ q, regs !! k = Some q ∧ rg_con g' = rg_con q).
        { intros k g' Hk Hin'. destruct (I2 k Hin') as (q & Hq & q' & Hq' & E1 & E2 & E3). assert (q' = g') as -> by congruence.
          destruct (re_in _ _ _ HW2 k Hin') as (_ & q1 & Hq1 & _ & E4). assert (q = rg_set_visited q1) as -> by congruence.
          split; [done|]. split; [by rewrite E3|]. by exists q1. }
        assert (Hkeep : ∀ k g', r3 !! k = Some g' → k ∉ tr → regs !! k = Some g').
        { intros k g' Hk Hn. apply Hold; [|done]. by rewrite <-(I1 k Hn). }
        split; [split|split].
        + intros k g' Hk. destruct (decide (k ∈ tr)) as [Hin'|Hn].
          * destruct (Hkill k g' Hk Hin') as (E1 & E2 & q & Hq & E3). destruct (Hs k q Hq) as (q0 & Hq0 & E4 & _).
            exists q0. split; [done|]. split; [congruence|]. by right.
          * apply Hs. by apply Hkeep.
        + intros k g' Hk Hv. destruct (decide (k ∈ tr)) as [Hin'|Hn].
          * left. split; [by apply (Hkill k)|]. pose proof (csum_elem tr k Hin'). lia.
          * destruct (pg_vis _ Hp k g' (Hkeep k g' Hk Hn) Hv) as [?|(G & HkG & HG & Hall)]; [by left|]. right. exists G.
            split; [done|]. split; [done|]. intros k' Hk'. destruct (Hall k' Hk') as (q & Hq & Hvq & Eq). exists q. split; [|done].
            pose proof (Hdis k' q Hq Hvq) as Hn'. by rewrite (I1 k' Hn'), (re_out _ _ _ HW2 k' Hn').
        + intros g' Hg'. left. by apply (Hkill i g' Hg' Hsub).
        + intros k g' Hk. destruct (decide (k ∈ tr)) as [Hin'|Hn].
          * destruct (Hkill k g' Hk Hin') as (_ & E2 & q & Hq & _). exists q. auto.
          * exists g'. split; [by apply Hkeep|by left].
      - apply gives_done.
        assert (Hbig : ma ≤ Z.of_nat (csum tr) ∨ at_border tr).
        { destruct tob; [right; by apply Htob|]. left. cbn in Ek. rewrite andb_true_r in Ek. lia. }
        assert (Hreach : ∀ k g', r2 !! k = Some g' → k ∈ tr → rg_visited g' = true ∧ rg_id g' = Z.of_nat k ∧ ∃ q, regs !! k = Some q).
        { intros k g' Hk Hin'. destruct (re_in _ _ _ HW2 k Hin') as (_ & q1 & Hq1 & Hvq & E4). assert (g' = rg_set_visited q1) as -> by congruence.
          split; [done|]. destruct (Hs k q1 Hq1) as (_ & _ & _ & [[E _]|[_ ?]]); [|congruence]. split; [done|]. by exists q1. }
        split; [split|split].
        + by apply (set_visited_same regs r2 tr).
        + intros k g' Hk Hv. destruct (decide (k ∈ tr)) as [Hin'|Hn].
          * right. exists tr. split; [done|]. split; [split; [apply HW2|intros k' Hk'; by apply (re_in _ _ _ HW2)|apply HW2|done]|].
            intros k' Hk'. destruct (re_in _ _ _ HW2 k' Hk') as (_ & q1 & Hq1 & Hvq & E4). eexists. split; [exact E4|].
            split; [done|]. by apply (Hreach k' _ E4 Hk').
          * destruct (pg_vis _ Hp k g' (Hold k g' Hk Hn) Hv) as [?|(G & HkG & HG & Hall)]; [by left|]. right. exists G.
            split; [done|]. split; [done|]. intros k' Hk'. destruct (Hall k' Hk') as (q & Hq & Hvq & Eq). exists q. split; [|done].
            pose proof (Hdis k' q Hq Hvq) as Hn'. by rewrite (re_out _ _ _ HW2 k' Hn').
        + intros g' Hg'. left. by apply (Hreach i g' Hg' Hsub).
        + intros k g' Hk. destruct (decide (k ∈ tr)) as [Hin'|Hn].
          * destruct (Hreach k g' Hk Hin') as (E2 & _ & q & Hq). exists q. auto.
          * exists g'. split; [by apply Hold|by left].
    Qed.

    Lemma prune_regions_pg : (∀ k g, regs0 !! k = Some g → rg_visited g = false) →
      gives (prune_regions ma regs0) (λ regs, pg regs ∧ ∀ k g, regs !! k = Some g → settled g).
    Proof.
      intros Hnv. unfold prune_regions. destruct H0 as [Hl0 Hr0]. eapply gives_mono.
      { apply (gives_seq (λ i regs, pg regs ∧ ∀ k g, (k < i)%nat → regs !! k = Some g → settled g)).
        - split; [|lia]. split.
          + intros k g Hk. exists g. split; [done|]. split; [done|]. left. split; [|done]. by apply (Hr0 k g Hk).
          + intros k g Hk Hv. rewrite (Hnv k g Hk) in Hv. done.
        - intros i regs Hi (I1 & I3). intros regs' E. pose proof (prune_region_pg i regs I1 regs' E) as (J1 & J2 & J3).
          split; [done|]. intros k g Hk Hg. destruct (decide (k = i)) as [->|]; [by apply J2|].
          destruct (J3 k g Hg) as (q & Hq & [->|?]); [|by left]. apply (I3 k q); [lia|done]. }
      intros regs (I1 & I3). split; [done|]. intros k g Hk. apply (I3 k g); [|done].
      destruct (pg_same _ I1 k g Hk) as (g0 & Hg0 & _). by eapply lookup_lt_Some.
    Qed.
    (** The spans of a group of regions, counted. *)
    Lemma gather G :
      (∀ k g, regs0 !! k = Some g → k ≠ 0%nat → ∃ L, NoDup L ∧ length L = rg_count g ∧ ∀ i, i ∈ L ↔ R !! i = Some (Z.of_nat k)) →
      NoDup G → (∀ k, k ∈ G → inner k) → ∃ L, NoDup L ∧ length L = csum G ∧ ∀ i, i ∈ L → of G i.
    Proof.
      intros HT Hnd. induction Hnd as [|k G Hk Hnd IH]; intros Hin.
      { exists []. split; [constructor|]. split; [done|]. intros i Hi. by apply elem_of_nil in Hi. }
      destruct IH as (L & L1 & L2 & L3); [intros; apply Hin; by right|].
      assert (Hadd : csum (k :: G) = (count0 k + csum G)%nat) by done.
      assert (Hmono : ∀ i, of G i → of (k :: G) i) by (intros i; apply of_mono; intros; by right).
      unfold count0 in Hadd. destruct (regs0 !! k) as [g|] eqn:Eg.
      2: { exists L. split; [done|]. split; [lia|]. intros i Hi. by apply Hmono, L3. }
      assert (inner k) as Hik by (apply Hin; left). unfold inner in Hik.
      destruct (HT k g Eg ltac:(lia)) as (L' & N1 & N2 & N3). exists (L' ++ L). split; [|split].
      - apply NoDup_app. split; [done|]. split; [|done]. intros i Hi HiL. apply N3 in Hi. destruct (L3 i HiL) as (k' & Hk' & Hi').
        assert (k' = k) as -> by (assert (Z.of_nat k' = Z.of_nat k) by congruence; lia). done.
      - rewrite app_length. lia.
      - intros i [Hi|Hi]%elem_of_app; [|by apply Hmono, L3]. apply N3 in Hi. exists k. split; [by left|done].
    Qed.
  End prune.
End size.
