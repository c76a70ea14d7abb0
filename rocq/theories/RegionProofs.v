(** Collecting, pruning, merging and renumbering regions. *)
From Verif Require Import Base ModelMath ModelHeightfield ModelFilters ModelCompact ModelDistance ModelRegions
  SpecHeightfield SpecCompact SpecDistance SpecRegions CompactProofs LinkProofs PackProofs
  GraphProofs SweepProofs DistanceProofs FlowProofs WatershedProofs.
Local Open Scope Z_scope.

Lemma elem_remove_at (l : list Z) i c : c ∈ remove_at l i → c ∈ l.
Proof.
  unfold remove_at. intros [H|H]%elem_of_app.
  - apply elem_of_take in H as (k & Hk & _). by eapply elem_of_list_lookup_2.
  - apply elem_of_list_lookup in H as [k Hk]. rewrite lookup_drop in Hk. by eapply elem_of_list_lookup_2.
Qed.

Lemma length_remove_at (l : list Z) i : (i < length l)%nat → length (remove_at l i) = (length l - 1)%nat.
Proof. intros. unfold remove_at. rewrite app_length, take_length, drop_length. lia. Qed.

Lemma dedup_loop_spec fuel keep l j :
  (length l - j < fuel)%nat →
  runs (dedup_loop fuel keep l j) (λ l', ∀ c, c ∈ l' → c ∈ l).
Proof.
  revert l j. induction fuel as [|fuel IH]; intros l j Hf; [lia|]. cbn [dedup_loop].
  destruct (Nat.ltb_spec j (length l)) as [Hj|]; [|by cbn; auto]. cbn [andb].
  destruct (negb keep || (1 <? length l)%nat); [|by cbn; auto].
  destruct (get_lt _ _ Hj) as (a & -> & _). cbn [obind].
  assert ((j + 1) mod length l < length l)%nat as Hm by (apply Nat.mod_upper_bound; lia).
  destruct (get_lt _ _ Hm) as (b & -> & _). cbn [obind].
  destruct (a =? b).
  - eapply runs_mono; [apply IH; rewrite length_remove_at by done; lia|]. cbn. intros l' H c Hc.
    eapply elem_remove_at. by apply H.
  - apply IH. lia.
Qed.

Lemma contains_iff l v : contains l v = true ↔ v ∈ l.
Proof.
  unfold contains. rewrite existsb_exists. split.
  - intros (x & Hx & E). apply Z.eqb_eq in E. subst. by apply elem_of_list_In.
  - intros Hv. exists v. split; [by apply elem_of_list_In|by apply Z.eqb_refl].
Qed.

Lemma position_some l v p : position l v = Some p → l !! p = Some v.
Proof.
  revert p. induction l as [|a l IH]; intros p; [done|]. cbn [position].
  destruct (Z.eqb_spec a v) as [->|]; [by intros [= <-]|].
  intros (q & Hq & ->)%fmap_Some. by apply IH.
Qed.

Lemma elem_around l p c : c ∈ around l p → c ∈ l.
Proof.
  unfold around. intros (i & -> & Hi%elem_of_seq)%elem_of_list_fmap.
  assert ((p + 1 + i) mod length l < length l)%nat as Hm by (apply Nat.mod_upper_bound; lia).
  destruct (lookup_lt_is_Some_2 _ _ Hm) as [x Hx]. rewrite nth_lookup, Hx. by eapply elem_of_list_lookup_2.
Qed.

(** Regions not visited yet. *)
Definition uv (regs : list region) : nat := length (filter (λ g, rg_visited g = false) regs).

Lemma uv_visit regs k g g' :
  regs !! k = Some g → rg_visited g = false → rg_visited g' = true →
  (uv (<[k := g']> regs) + 1 = uv regs)%nat.
Proof.
  unfold uv. revert k. induction regs as [|a regs IH]; intros [|k] Hk Hv Hv'; try done.
  - change (<[0%nat := g']> (a :: regs)) with (g' :: regs). injection Hk as ->. rewrite !filter_cons. rewrite decide_False by congruence. rewrite decide_True by done. cbn. lia.
  - change (<[S k := g']> (a :: regs)) with (a :: <[k := g']> regs).
    specialize (IH k Hk Hv Hv'). rewrite !filter_cons. case_decide; cbn [length]; lia.
Qed.

Lemma uv_bound regs : (uv regs ≤ length regs)%nat.
Proof. apply filter_length. Qed.

Lemma filter_length_le {A} (P Q : A → Prop) `{HdP : !∀ x, Decision (P x), HdQ : !∀ x, Decision (Q x)} l :
  (∀ x, x ∈ l → P x → Q x) → (length (filter P l) ≤ length (filter Q l))%nat.
Proof.
  induction l as [|a l IH]; intros H; [done|]. rewrite !filter_cons.
  assert (length (filter P l) ≤ length (filter Q l))%nat by (apply IH; intros; apply H; [by right|done]).
  destruct (decide (P a)) as [HP|HP].
  - rewrite decide_True by (apply H; [left|done]). cbn. lia.
  - case_decide; cbn; lia.
Qed.

Lemma filter_length_lt {A} (P Q : A → Prop) `{HdP : !∀ x, Decision (P x), HdQ : !∀ x, Decision (Q x)} l a :
  (∀ x, x ∈ l → P x → Q x) → a ∈ l → Q a → ¬ P a → (length (filter P l) < length (filter Q l))%nat.
Proof.
  induction l as [|b l IH]; intros H Ha HQ HP; [by apply elem_of_nil in Ha|]. rewrite !filter_cons.
  assert (∀ x, x ∈ l → P x → Q x) as H' by (intros; apply H; [by right|done]).
  apply elem_of_cons in Ha as [<-|Ha].
  - rewrite decide_False by done. rewrite decide_True by done. cbn. pose proof (filter_length_le P Q l H'). lia.
  - specialize (IH H' Ha HQ HP). destruct (decide (P b)) as [HPb|HPb].
    + rewrite decide_True by (apply H; [left|done]). cbn. lia.
    + case_decide; cbn; lia.
Qed.

Lemma dead_iff id : 0 ≤ id ≤ 65535 → dead id = false ↔ 0 < id < 32768.
Proof. intros H. unfold dead, REG_NONE. rewrite is_border_iff by done. lia. Qed.

Section regions.
  Context (ch : chf) (Hwf : wf_chf ch) (Hw16 : Z.of_nat (ch_w ch) ≤ 65535) (Hh16 : Z.of_nat (ch_h ch) ≤ 65535).
  Let w := ch_w ch.
  Let h := ch_h ch.
  Let n := length (ch_spans ch).
  Context (P : nat → Prop) (base : Z) (M : marks) (nxt : Z).
  Context (HM : winv ch P base M nxt).
  Let R := m_reg M.
  Let N := Z.to_nat (nxt + 1).

  Lemma R_len : length R = n.
  Proof. apply (wi_lenR _ _ _ _ _ HM). Qed.

  (** ** Collecting *)
  (** Two spans of one column. *)
  Definition stacked (i j : nat) : Prop := i ≠ j ∧ ∃ c, in_cell ch c i ∧ in_cell ch c j.

  Definition touches (k c : Z) : Prop :=
    c = 0 ∨ ∃ i j d, (d < 4)%nat ∧ R !! i = Some k ∧ step ch i d j ∧ R !! j = Some c.

  Lemma region_across_spec c i d :
    in_cell ch c i → (d < 4)%nat →
    runs (region_across ch R (c mod w) (c / w) i d) (λ r,
      (r = 0 ∧ ∀ j, ¬ step ch i d j) ∨ ∃ j, step ch i d j ∧ R !! j = Some r).
  Proof.
    intros Hin Hd. unfold region_across. destruct (in_cell_span ch Hwf c i Hin) as [s Hs].
    rewrite (get_some _ _ _ Hs). cbn [obind]. apply runs_ends.
    apply (nb_ends ch Hwf Hw16 Hh16 (B := False) c i d s (λ _ _ ai, get R ai)); [done..|by left|].
    intros c' j Hst Hin' Hj. fold n in Hj. rewrite <-R_len in Hj. destruct (get_lt _ _ Hj) as (r & -> & Hr). cbn. right. eauto.
  Qed.

  Lemma is_solid_edge_spec c i d k :
    in_cell ch c i → (d < 4)%nat → R !! i = Some k →
    runs (is_solid_edge ch R (c mod w) (c / w) i d) (λ b,
      b = false → (k = 0 ∧ ∀ j, ¬ step ch i d j) ∨ ∃ j, step ch i d j ∧ R !! j = Some k).
  Proof.
    intros Hin Hd Hk. unfold is_solid_edge. eapply runs_bind; [by apply region_across_spec|].
    intros r Hr. rewrite (get_some _ _ _ Hk). cbn. intros E. assert (r = k) as -> by lia. done.
  Qed.

  Lemma walk_loop_spec fuel si sd c i dir cur cs k :
    in_cell ch c i → (dir < 4)%nat → R !! i = Some k → (∀ x, x ∈ cs → touches k x) →
    runs (walk_loop fuel ch R si sd (c mod w) (c / w) i dir cur cs) (λ '(cs', _), ∀ x, x ∈ cs' → touches k x).
  Proof.
    revert c i dir cur cs. induction fuel as [|fuel IH]; intros c i dir cur cs Hin Hd Hk Hcs; [done|].
    cbn [walk_loop]. destruct (in_cell_span ch Hwf c i Hin) as [s Hs]. rewrite (get_some _ _ _ Hs). cbn [obind].
    eapply runs_bind; [by apply (is_solid_edge_spec c i dir k)|]. intros b Hb. destruct b.
    - eapply runs_bind; [by apply (region_across_spec c i dir)|]. intros r Hr.
      set (cs' := if r =? cur then cs else cs ++ [r]).
      assert (∀ x, x ∈ cs' → touches k x) as Hcs'.
      { unfold cs'. destruct (r =? cur); [done|]. intros x [Hx| ->%elem_of_list_singleton]%elem_of_app; [by apply Hcs|].
        destruct Hr as [[-> _]|(j & Hst & Hj)]; [by left|]. right. exists i, j, dir. done. }
      clearbody cs'. destruct (_ && _); [done|]. apply IH; [done|apply Nat.mod_upper_bound; lia|done|done].
    - destruct (con_step ch Hwf Hw16 Hh16 c i dir s Hin Hd Hs) as (o & -> & Ho). cbn [obind].
      destruct o as [v|]; [|done]. destruct Ho as (c' & j & Hst & Hin' & E). unfold w. rewrite E. cbn [obind].
      destruct (_ && _); [done|]. apply IH; [done|apply Nat.mod_upper_bound; lia| |done].
      destruct (Hb eq_refl) as [[_ Hno]|(j' & Hst' & Hj')]; [by apply Hno in Hst|].
      by rewrite (step_fun ch Hwf i dir j j' Hd Hst Hst').
  Qed.

  Lemma walk_contour_spec c i d k :
    in_cell ch c i → (d < 4)%nat → R !! i = Some k →
    runs (walk_contour ch R (c mod w) (c / w) i d) (λ cs, ∀ x, x ∈ cs → touches k x).
  Proof.
    intros Hin Hd Hk. unfold walk_contour. eapply runs_bind; [by apply (region_across_spec c i d)|]. intros r Hr.
    eapply runs_bind.
    { apply (walk_loop_spec _ i d c i d r [r] k); try done. intros x ->%elem_of_list_singleton.
      destruct Hr as [[-> _]|(j & Hst & Hj)]; [by left|]. right. exists i, j, d. done. }
    intros [cs ended] Hcs. destruct (_ && _); [|done].
    eapply runs_mono; [apply dedup_loop_spec; lia|]. cbn. auto.
  Qed.

  Lemma find_edge_spec c i k ds :
    in_cell ch c i → R !! i = Some k → (∀ d, d ∈ ds → (d < 4)%nat) →
    runs (find_edge ch R (c mod w) (c / w) i ds) (λ o, ∀ d, o = Some d → (d < 4)%nat).
  Proof.
    intros Hin Hk. induction ds as [|d ds IH]; intros Hds; [done|]. cbn [find_edge].
    eapply runs_bind; [apply (is_solid_edge_spec c i d k); [done|apply Hds; left|done]|].
    intros [] _; [cbn; intros ? [= <-]; apply Hds; left|]. apply IH. intros; apply Hds; by right.
  Qed.

  Record rinv (k : Z) (g : region) : Prop := RInv {
    r_id : rg_id g = k;
    r_touch : ∀ x, x ∈ rg_con g → touches k x;
    r_pos : rg_con g ≠ [] → (0 < rg_count g)%nat;
    r_area : (0 < rg_count g)%nat → ∃ i, R !! i = Some k ∧ ch_areas ch !! i = Some (rg_area g)
  }.

  Definition counted (regs : list region) (i : nat) : Prop :=
    ∀ r, R !! i = Some r → r ≠ 0 → r < nxt + 1 → ∃ g, regs !! Z.to_nat r = Some g ∧ (0 < rg_count g)%nat ∧
      ∀ j f, stacked i j → R !! j = Some f → f ≠ 0 → f < nxt + 1 → f ∈ rg_floors g.

  Lemma elem_add_floor l x y : y ∈ add_floor l x ↔ y ∈ l ∨ y = x.
  Proof.
    unfold add_floor. destruct (contains l x) eqn:E.
    - apply contains_iff in E. split; [auto|]. by intros [?| ->].
    - rewrite elem_of_app, elem_of_list_singleton. done.
  Qed.

  Lemma floors_spec c cell r i of :
    ch_cells ch !! c = Some cell →
    runs (foldM (floor_step R (nxt + 1) r i) (index_range cell) of) (λ of',
      (∀ x, x ∈ snd of → x ∈ snd of') ∧
      ∀ j f, j ∈ index_range cell → i ≠ j → R !! j = Some f → f ≠ 0 → f < nxt + 1 → f ∈ snd of').
  Proof.
    intros Hc. apply runs_ends. eapply ends_mono.
    { apply (ends_inv False (λ pre of', (∀ x, x ∈ snd of → x ∈ snd of') ∧
        ∀ j f, j ∈ pre → i ≠ j → R !! j = Some f → f ≠ 0 → f < nxt + 1 → f ∈ snd of')).
      - split; [done|]. intros j f Hj. by apply elem_of_nil in Hj.
      - intros pre j post of' El [I1 I2]. unfold floor_step. destruct (Nat.eqb_spec i j) as [->|Hij].
        { cbn. split; [done|]. intros j' f [Hj'| ->%elem_of_list_singleton]%elem_of_app; [by apply I2|done]. }
        apply ends_get; [rewrite R_len; apply (in_cell_bound ch Hwf c); exists cell; split; [done|rewrite El; set_solver]|].
        intros f Hf. unfold REG_NONE. destruct ((f =? 0) || (nxt + 1 <=? f)) eqn:Eb.
        + cbn. split; [done|]. intros j' f' [Hj'| ->%elem_of_list_singleton]%elem_of_app; [by apply I2|].
          intros _ Hf' Hn Hlt. assert (f' = f) as -> by congruence. lia.
        + cbn. split.
          * intros x Hx. apply elem_add_floor. left. by apply I1.
          * intros j' f' [Hj'| ->%elem_of_list_singleton]%elem_of_app Hne Hf' Hn Hlt; apply elem_add_floor.
            -- left. by apply (I2 j').
            -- right. congruence. }
    intros of' H. exact H.
  Qed.

  Definition all_rinv (regs : list region) : Prop :=
    length regs = N ∧ ∀ k g, regs !! k = Some g → rinv (Z.of_nat k) g.

  Lemma collect_span_spec c cell i regs :
    ch_cells ch !! c = Some cell → i ∈ index_range cell → all_rinv regs →
    runs (collect_span ch R (nxt + 1) (c mod w) (c / w) cell i regs) (λ regs',
      all_rinv regs' ∧ counted regs' i ∧ ∀ j, counted regs j → counted regs' j).
  Proof.
    intros Hc Hi [Hl Hr]. assert (in_cell ch c i) as Hin by (by exists cell).
    pose proof (in_cell_bound ch Hwf c i Hin) as Hb. fold n in Hb. pose proof Hb as HbR. rewrite <-R_len in HbR.
    unfold collect_span. destruct (get_lt _ _ HbR) as (r & -> & Hri). cbn [obind]. unfold REG_NONE.
    assert (0 ≤ r ≤ 65535) as H16 by (apply (winv_u16 ch P base M nxt i r HM Hri)).
    destruct ((r =? 0) || (nxt + 1 <=? r)) eqn:Eb.
    { cbn. split; [done|]. split; [|done]. intros r' Hr' Hne Hlt. assert (r' = r) as -> by congruence. lia. }
    apply orb_false_elim in Eb as [E1 E2].
    assert (Z.to_nat r < length regs)%nat as Hrl by (rewrite Hl; unfold N; lia).
    destruct (get_lt _ _ Hrl) as (g & -> & Hg). cbn [obind].
    pose proof (Hr _ _ Hg) as [G1 G2 G3 G4]. rewrite Z2Nat.id in G1, G2, G4 by lia.
    eapply runs_bind; [by apply (floors_spec c)|].
    intros [ov fl] [Hfl1 Hfl2]. cbn [snd] in Hfl1, Hfl2.
    assert (Hfl3 : ∀ j f, stacked i j → R !! j = Some f → f ≠ 0 → f < nxt + 1 → f ∈ fl).
    { intros j f (Hij & c' & Hc1 & Hc2). destruct (decide (c' = c)) as [->|Hcc].
      - destruct Hc2 as (cell' & Hcell' & Hj). assert (cell' = cell) as -> by congruence. by apply Hfl2.
      - exfalso. apply Hcc. by apply (in_cell_unique ch Hwf c' c i). }
    set (g2 := rg_set_floors _ ov fl).
    eapply (runs_bind _ _ (λ g3, rinv r g3 ∧ (0 < rg_count g3)%nat ∧ rg_floors g3 = fl)).
    { assert (Hcon2 : rg_con g2 = rg_con g) by done. assert (Hcnt2 : rg_count g2 = S (rg_count g)) by done.
      destruct (rg_con g2) as [|x xs] eqn:Econ.
      - assert (i < length (ch_areas ch))%nat as Hba by (by rewrite (areas_len ch Hwf)).
        destruct (get_lt _ _ Hba) as (a & -> & Ha). cbn [obind].
        eapply runs_bind; [apply (find_edge_spec c i r); [done|done|intros d Hd%elem_of_seq; lia]|].
        intros [d|] Hd.
        + eapply runs_bind; [apply (walk_contour_spec c i d r); [done|by apply Hd|done]|].
          intros cs Hcs. cbn. split; [|split; [lia|done]]. split; cbn; [done|done|lia|]. intros _. eauto.
        + cbn. split; [|split; [lia|done]]. split; cbn; [done| |lia|intros _; eauto].
          rewrite <-Hcon2. intros x Hx. by apply elem_of_nil in Hx.
      - cbn. split; [|split; [lia|done]]. assert (rg_con g ≠ []) as Hne by (rewrite <-Hcon2; done). split; cbn; [done|done|lia|].
        intros _. apply G4, G3, Hne. }
    intros g3 (Hg3 & Hpos & Hfl). rewrite put_lt by done. cbn [runs].
    assert (∀ j, counted regs j → counted (<[Z.to_nat r := g3]> regs) j) as Hmono.
    { intros j Hj r' Hr' Hne Hlt. destruct (Hj r' Hr' Hne Hlt) as (g' & Hg' & Hp' & Hf').
      destruct (decide (Z.to_nat r = Z.to_nat r')) as [E|Hne'].
      - exists g3. rewrite <-E, list_lookup_insert by done. split; [done|]. split; [done|].
        intros j' f S1 S2 S3 S4. rewrite Hfl. apply Hfl1. assert (g' = g) as -> by congruence. by apply (Hf' j').
      - exists g'. by rewrite list_lookup_insert_ne. }
    split; [|split; [|done]].
    - split; [by rewrite insert_length|]. intros k g' Hk. destruct (decide (Z.to_nat r = k)) as [<-|Hne].
      + rewrite list_lookup_insert in Hk by done. injection Hk as <-. by rewrite Z2Nat.id by lia.
      + rewrite list_lookup_insert_ne in Hk by done. by apply Hr.
    - intros r' Hr' Hne Hlt. assert (r' = r) as -> by congruence. exists g3. rewrite list_lookup_insert by done.
      split; [done|]. split; [done|]. by rewrite Hfl.
  Qed.

  Lemma collect_regions_spec :
    runs (collect_regions ch R (nxt + 1)) (λ regs, all_rinv regs ∧ ∀ i, (i < n)%nat → counted regs i).
  Proof.
    unfold collect_regions. pose proof (wi_id _ _ _ _ _ HM) as Hid. eapply runs_mono.
    { apply runs_ends.
      apply (ends_cells False (λ c regs, all_rinv regs ∧ ∀ c' i, (c' < c)%nat → in_cell ch c' i → counted regs i)).
      - split; [|lia]. fold N. split; [by rewrite fmap_length, seq_length|].
        intros k g Hk. rewrite list_lookup_fmap in Hk. apply fmap_Some in Hk as (k' & Hk' & ->).
        apply lookup_seq in Hk' as [-> Hlt]. split; cbn; [done| |done|lia]. intros x Hx. by apply elem_of_nil in Hx.
      - intros c regs Hc [Ia Ic].
        rewrite <-(cells_len ch Hwf) in Hc. destruct (lookup_lt_is_Some_2 _ _ Hc) as [cell Hcell].
        rewrite (cells_len ch Hwf) in Hc. fold w. unfold w at 1 2. rewrite (cell_at_some ch c cell Hc Hcell). cbn [obind].
        eapply ends_mono.
        { apply (ends_inv False (λ pre regs, all_rinv regs ∧ (∀ c' i, (c' < c)%nat → in_cell ch c' i → counted regs i) ∧
            ∀ i, i ∈ pre → counted regs i)).
          - split_and!; [done..|]. intros i Hi. by apply elem_of_nil in Hi.
          - intros pre i post regs' El (J1 & J2 & J3). apply ends_runs.
            eapply runs_mono; [apply (collect_span_spec c cell i); [done|rewrite El; set_solver|done]|].
            intros regs2 (K1 & K2 & K3). split_and!; [done|by eauto|].
            intros j [Hj| ->%elem_of_list_singleton]%elem_of_app; [by apply K3, J3|done]. }
        intros regs' (J1 & J2 & J3). split; [done|]. intros c' i Hlt Hin.
        destruct (decide (c' = c)) as [->|Hne]; [|apply (J2 c'); [lia|done]].
        destruct Hin as (cell' & Hc' & Hi). apply J3. congruence. }
    intros regs [H1 H2]. split; [done|]. intros i Hi. destruct (in_cell_ex ch Hwf i Hi) as [c Hin].
    apply (H2 c); [|done]. by eapply in_cell_lt.
  Qed.

  (** ** Pruning *)
  Definition con_ok (g : region) : Prop := ∀ x, x ∈ rg_con g → 0 ≤ x ≤ 65535 ∧ (x < 32768 → x < nxt).

  Lemma touches_ok k x : touches k x → 0 ≤ x ≤ 65535 ∧ (x < 32768 → x < nxt).
  Proof.
    pose proof (wi_id _ _ _ _ _ HM) as Hid.
    intros [->|(i & j & d & Hd & Hi & Hst & Hj)]; [lia|].
    destruct (wi_dom _ _ _ _ _ HM j x Hj) as [[_ ?]|[_ ?]]; lia.
  Qed.

  Section prune.
    Context (regs0 : list region) (H0 : all_rinv regs0).

    Record pinv (regs : list region) : Prop := PInv {
      p_len : length regs = N;
      p_same : ∀ k g, regs !! k = Some g → ∃ g0, regs0 !! k = Some g0 ∧
        rg_area g = rg_area g0 ∧ rg_con g = rg_con g0 ∧ ((rg_count g ≤ rg_count g0)%nat ∧ rg_floors g = rg_floors g0) ∧
        (rg_id g = Z.of_nat k ∨ (rg_id g = 0 ∧ Z.of_nat k < nxt))
    }.

    Lemma pinv_con regs k g : pinv regs → regs !! k = Some g → con_ok g.
    Proof.
      intros Hp Hk x Hx. destruct (p_same _ Hp k g Hk) as (g0 & Hg0 & _ & E & _). rewrite E in Hx.
      destruct H0 as [_ Hr]. apply (touches_ok (Z.of_nat k)). by apply (r_touch _ _ (Hr k g0 Hg0)).
    Qed.

    Lemma pinv_put regs k g g' :
      pinv regs → regs !! k = Some g → rg_area g' = rg_area g → rg_con g' = rg_con g →
      (rg_count g' ≤ rg_count g)%nat → rg_floors g' = rg_floors g →
      (rg_id g' = rg_id g ∨ (rg_id g' = 0 ∧ Z.of_nat k < nxt)) → pinv (<[k := g']> regs).
    Proof.
      intros Hp Hk Ea Ec En Ef Ei. split; [rewrite insert_length; apply (p_len _ Hp)|].
      intros j gj Hj. destruct (decide (k = j)) as [<-|Hne].
      - rewrite list_lookup_insert in Hj by (by eapply lookup_lt_Some). injection Hj as <-.
        destruct (p_same _ Hp k g Hk) as (g0 & Hg0 & E1 & E2 & [E4 E5] & E3). exists g0. split; [done|]. split; [congruence|].
        split; [congruence|]. split; [split; [lia|congruence]|]. destruct Ei as [->|?]; [done|by right].
      - rewrite list_lookup_insert_ne in Hj by done. by apply (p_same _ Hp).
    Qed.

    Definition small (k : nat) : Prop := Z.of_nat k < nxt.

    Lemma small_len regs k : pinv regs → small k → (k < length regs)%nat.
    Proof. intros Hp Hk. rewrite (p_len _ Hp). unfold N, small in *. lia. Qed.

    Lemma visit_cons_spec g regs stk tob :
      con_ok g → pinv regs → (∀ k, k ∈ stk → small k) →
      runs (foldM visit_con (rg_con g) (regs, stk, tob)) (λ '(regs', stk', _),
        pinv regs' ∧ (∀ k, k ∈ stk' → small k) ∧ (length stk' + uv regs' = length stk + uv regs)%nat).
    Proof.
      intros Hg Hp Hs. apply runs_ends. eapply ends_mono.
      { apply (ends_keep False (λ st : list region * list nat * bool,
          pinv st.1.1 ∧ (∀ k, k ∈ st.1.2 → small k) ∧ (length st.1.2 + uv st.1.1 = length stk + uv regs)%nat)); [done|].
        intros c [[regs' stk'] tob'] Hc (I1 & I2 & I3). cbn [fst snd] in *. unfold visit_con.
        destruct (Hg c Hc) as [Hc16 Hcn]. rewrite is_border_iff by done.
        destruct (Z.leb_spec 32768 c) as [|Hlt]; [done|]. specialize (Hcn Hlt).
        assert (small (Z.to_nat c)) as Hsm by (unfold small; lia).
        pose proof (small_len _ _ I1 Hsm) as Hcl. apply ends_get; [done|]. intros gc Hgc.
        destruct (rg_visited gc || dead (rg_id gc)) eqn:Eb; [done|]. apply orb_false_elim in Eb as [Ev Ed].
        apply ends_put; [done|]. cbn [ends fst snd length]. split_and!.
        - apply (pinv_put _ _ gc); try done. by left.
        - intros k [->|Hk]%elem_of_cons; [|by apply I2].
          destruct (p_same _ I1 _ _ Hgc) as (g0 & _ & _ & _ & _ & [E|[E _]]).
          + rewrite E. unfold small. lia.
          + exfalso. unfold dead in Ed. rewrite E in Ed. done.
        - pose proof (uv_visit regs' (Z.to_nat c) gc (rg_set_visited gc) Hgc Ev eq_refl). lia. }
      intros [[regs' stk'] tob']. done.
    Qed.

    Lemma visit_loop_spec fuel regs stk cnt trace tob :
      pinv regs → (∀ k, k ∈ stk → small k) → (∀ k, k ∈ trace → small k) →
      (length stk + uv regs ≤ fuel)%nat →
      runs (visit_loop fuel regs stk cnt trace tob) (λ '(regs', _, trace', _),
        pinv regs' ∧ ∀ k, k ∈ trace' → small k).
    Proof.
      revert regs stk cnt trace tob. induction fuel as [|fuel IH]; intros regs stk cnt trace tob Hp Hs Ht Hf.
      - destruct stk; cbn in *; [done|lia].
      - destruct stk as [|ri stk]; [done|]. cbn [visit_loop].
        assert (small ri) as Hri by (apply Hs; left).
        destruct (get_lt _ _ (small_len _ _ Hp Hri)) as (g & -> & Hg). cbn [obind].
        eapply runs_bind.
        { apply (visit_cons_spec g regs stk tob); [by eapply pinv_con|done|]. intros k Hk. apply Hs. by right. }
        intros [[regs' stk'] tob'] (I1 & I2 & I3). apply IH; [done|done| |cbn [length] in Hf; lia].
        intros k [Hk| ->%elem_of_list_singleton]%elem_of_app; [by apply Ht|done].
    Qed.

    Lemma pinv_live_small regs k g :
      pinv regs → regs !! k = Some g → dead (rg_id g) = false → (0 < rg_count g)%nat → small k.
    Proof.
      intros Hp Hk Hd Hc. destruct (p_same _ Hp k g Hk) as (g0 & Hg0 & _ & _ & En & Ei).
      destruct H0 as [_ Hr]. destruct (r_area _ _ (Hr k g0 Hg0)) as (i & Hi & _); [lia|].
      unfold small. destruct Ei as [Ei|[_ ?]]; [|done].
      destruct (wi_dom _ _ _ _ _ HM i _ Hi) as [[_ Hb]|[_ ?]]; [|lia]. exfalso.
      unfold dead in Hd. apply orb_false_elim in Hd as [_ Hd]. rewrite Ei in Hd.
      rewrite is_border_iff in Hd by lia. lia.
    Qed.

    Lemma prune_region_spec min_area i regs :
      (i < N)%nat → pinv regs → runs (prune_region min_area i regs) pinv.
    Proof.
      intros Hi Hp. unfold prune_region. rewrite <-(p_len _ Hp) in Hi.
      destruct (get_lt _ _ Hi) as (g & -> & Hg). cbn [obind].
      destruct (dead (rg_id g) || (rg_count g =? 0)%nat || rg_visited g) eqn:Eb; [done|].
      apply orb_false_elim in Eb as [Eb Ev]. apply orb_false_elim in Eb as [Ed Ec]. apply Nat.eqb_neq in Ec.
      assert (small i) as Hsm by (apply (pinv_live_small regs i g); [done..|lia]).
      rewrite put_lt by done. cbn [obind].
      assert (pinv (<[i := rg_set_visited g]> regs)) as Hp1 by (apply (pinv_put _ _ g); try done; by left).
      eapply runs_bind.
      { apply (visit_loop_spec _ _ [i] 0 [] false Hp1).
        - intros k ->%elem_of_list_singleton. done.
        - intros k Hk. by apply elem_of_nil in Hk.
        - cbn [length]. pose proof (uv_bound (<[i := rg_set_visited g]> regs)) as Hu. rewrite insert_length in Hu. lia. }
      intros [[[regs2 cn] trace] tob] [Hp2 Ht]. destruct (_ && _); [|done].
      apply runs_ends, ends_keep; [done|]. intros k regs3 Hk Hp3. unfold kill.
      pose proof (small_len _ _ Hp3 (Ht k Hk)) as Hkl. apply ends_get; [done|]. intros gk Hgk.
      rewrite put_lt by done. cbn. apply (pinv_put _ _ gk); try done; [cbn; lia|]. right. split; [done|by apply Ht].
    Qed.

    Lemma prune_regions_spec min_area : runs (prune_regions min_area regs0) pinv.
    Proof.
      unfold prune_regions. destruct H0 as [Hl Hr]. apply runs_ends, ends_keep.
      - split; [done|]. intros k g Hk. exists g. split_and!; try done. left. apply (r_id _ _ (Hr k g Hk)).
      - intros i regs Hi%elem_of_seq Hp. apply ends_runs. apply prune_region_spec; [lia|done].
    Qed.
  End prune.

  (** ** Merging *)
  Definition live (id : Z) : Prop := 0 < id < 32768.

  (** Span [i] is in a region that currently has id [a]. *)
  Definition cls (regs : list region) (i : nat) (a : Z) : Prop :=
    ∃ r g, R !! i = Some r ∧ live r ∧ regs !! Z.to_nat r = Some g ∧ rg_id g = a.

  Definition link (regs : list region) (a b : Z) : Prop :=
    ∃ i j, adjacent ch i j ∧ cls regs i a ∧ cls regs j b.

  Record minv (regs : list region) : Prop := MInv {
    m_len : length regs = N;
    m_range : ∀ k g, regs !! k = Some g →
      rg_id g = 0 ∨ (32768 ≤ Z.of_nat k ∧ rg_id g = Z.of_nat k) ∨ (Z.of_nat k < 32768 ∧ live (rg_id g) ∧ rg_id g ≤ nxt);
    m_zero : ∀ g, regs !! 0%nat = Some g → rg_id g = 0;
    m_root : ∀ k g, regs !! k = Some g → live (rg_id g) → ∃ g', regs !! Z.to_nat (rg_id g) = Some g' ∧ rg_id g' = rg_id g;
    m_area : ∀ k g k' g', regs !! k = Some g → regs !! k' = Some g' → live (rg_id g) → rg_id g = rg_id g' → rg_area g = rg_area g';
    m_span : ∀ i r g, R !! i = Some r → live r → regs !! Z.to_nat r = Some g → ch_areas ch !! i = Some (rg_area g);
    m_con : ∀ k g, regs !! k = Some g → live (rg_id g) → con_ok g ∧
      ∀ x g', x ∈ rg_con g → live x → regs !! Z.to_nat x = Some g' → live (rg_id g') → link regs (rg_id g) (rg_id g');
    m_conn : ∀ i j a, cls regs i a → cls regs j a → live a → joined ch (λ l, cls regs l a) i j;
    m_last : ∀ k g, regs !! k = Some g → Z.of_nat k = nxt ↔ rg_id g = nxt;
    m_own : ∀ k g, regs !! k = Some g → live (rg_id g) → (0 < rg_count g)%nat → rg_id g = Z.of_nat k;
    m_floor : ∀ i j a b g, stacked i j → cls regs i a → cls regs j b → live a → live b → a ≠ b →
      regs !! Z.to_nat a = Some g → b ∈ rg_floors g;
    m_stack : ∀ i j a, stacked i j → cls regs i a → cls regs j a → live a → R !! i = R !! j
  }.

  Lemma minv_u16 regs k g : minv regs → regs !! k = Some g → 0 ≤ rg_id g ≤ 65535.
  Proof.
    intros Hm Hk. pose proof (wi_id _ _ _ _ _ HM) as Hid. assert (k < N)%nat as Hl.
    { rewrite <-(m_len _ Hm). by eapply lookup_lt_Some. }
    unfold N in Hl. destruct (m_range _ Hm k g Hk) as [E|[[? E]|(? & [? ?] & ?)]]; lia.
  Qed.

  Lemma minv_dead regs k g : minv regs → regs !! k = Some g → dead (rg_id g) = false ↔ live (rg_id g).
  Proof. intros Hm Hk. apply dead_iff. by eapply minv_u16. Qed.

  (** What is left after pruning starts the merging. *)
  Lemma pinv_minv regs0 regs :
    nxt + 1 ≤ 65535 → all_rinv regs0 → (∀ i, (i < n)%nat → counted regs0 i) → pinv regs0 regs → minv regs.
  Proof.
    intros Hn [Hl0 H0] Hcnt Hp. pose proof (wi_id _ _ _ _ _ HM) as Hid.
    assert (Hidk : ∀ k g, regs !! k = Some g → rg_id g = Z.of_nat k ∨ (rg_id g = 0 ∧ Z.of_nat k < nxt)).
    { intros k g Hk. by destruct (p_same _ _ Hp k g Hk) as (g0 & _ & _ & _ & _ & ?). }
    assert (Hself : ∀ k g, regs !! k = Some g → live (rg_id g) → rg_id g = Z.of_nat k).
    { intros k g Hk Hlv. destruct (Hidk k g Hk) as [?|[E _]]; [done|]. unfold live in Hlv. lia. }
    assert (Hkn : ∀ k g, regs !! k = Some g → Z.of_nat k ≤ nxt).
    { intros k g Hk. apply lookup_lt_Some in Hk. rewrite (p_len _ _ Hp) in Hk. unfold N in Hk. lia. }
    assert (Hcls : ∀ i a, cls regs i a → live a → R !! i = Some a).
    { intros i a (r & g & Hi & Hr & Hg & E) Ha. rewrite <-E in Ha. pose proof (Hself _ _ Hg Ha) as E2.
      unfold live in Hr. rewrite Z2Nat.id in E2 by lia. congruence. }
    split.
    - apply (p_len _ _ Hp).
    - intros k g Hk. pose proof (Hkn k g Hk). destruct (Hidk k g Hk) as [E|[E _]]; [|by left].
      destruct (decide (Z.of_nat k = 0)); [left; lia|]. right.
      destruct (decide (32768 ≤ Z.of_nat k)); [by left|]. right. unfold live. lia.
    - intros g Hg. destruct (Hidk _ _ Hg) as [E|[E _]]; lia.
    - intros k g Hk Hlv. exists g. pose proof (Hself k g Hk Hlv) as E. rewrite E. by rewrite Nat2Z.id.
    - intros k g k' g' Hk Hk' Hlv E. assert (k = k') as ->.
      { pose proof (Hself k g Hk Hlv). assert (live (rg_id g')) as Hlv' by (by rewrite <-E).
        pose proof (Hself k' g' Hk' Hlv'). lia. }
      congruence.
    - intros i r g Hi Hr Hg. assert (i < n)%nat as Hin by (rewrite <-R_len; by eapply lookup_lt_Some).
      unfold live in Hr. destruct (wi_dom _ _ _ _ _ HM i r Hi) as [[_ ?]|[_ Hrn]]; [lia|].
      destruct (Hcnt i Hin r Hi) as (g0 & Hg0 & Hpos & _); [lia|lia|].
      destruct (p_same _ _ Hp _ _ Hg) as (g0' & Hg0' & -> & _). assert (g0' = g0) as -> by congruence.
      destruct (r_area _ _ (H0 _ _ Hg0) Hpos) as (i' & Hi' & <-).
      rewrite Z2Nat.id in Hi' by lia. apply (wi_area _ _ _ _ _ HM i i' r); try done; lia.
    - intros k g Hk Hlv. split; [apply (pinv_con regs0 (conj Hl0 H0) regs k g Hp Hk)|].
      intros x g' Hx Hxl Hg' Hlv'. destruct (p_same _ _ Hp _ _ Hk) as (g0 & Hg0 & _ & E & _). rewrite E in Hx.
      pose proof (r_touch _ _ (H0 _ _ Hg0) x Hx) as [->|(i & j & d & Hd & Hi & Hst & Hj)]; [unfold live in Hxl; lia|].
      exists i, j. split; [exists d; split; [done|by left]|]. pose proof (Hself k g Hk Hlv) as Ek. split.
      + exists (Z.of_nat k), g. rewrite Nat2Z.id. split_and!; [done|by rewrite <-Ek|done|done].
      + exists x, g'. done.
    - intros i j a Hi Hj Ha. pose proof (Hcls _ _ Hi Ha) as Hi'. pose proof (Hcls _ _ Hj Ha) as Hj'.
      destruct Hi as (r & g & Hri & Hr & Hg & E). assert (r = a) as -> by congruence.
      eapply joined_mono; [|apply (wi_conn _ _ _ _ _ HM i j a); try done; unfold live in Ha; lia].
      cbn. intros l Hl. exists a, g. done.
    - intros k g Hk. pose proof (Hkn k g Hk). destruct (Hidk k g Hk) as [E|[E ?]]; lia.
    - intros k g Hk Hlv _. by apply Hself.
    - intros i j a b g Hs Hi Hj Ha Hb Hab Hg. pose proof (Hcls _ _ Hi Ha) as Hi'. pose proof (Hcls _ _ Hj Hb) as Hj'.
      assert (i < n)%nat as Hin by (rewrite <-R_len; by eapply lookup_lt_Some).
      destruct (p_same _ _ Hp _ _ Hg) as (g0 & Hg0 & _ & _ & [_ ->] & _).
      assert (Hlt : ∀ l x, R !! l = Some x → live x → x < nxt).
      { intros l x Hx Hlx. unfold live in Hlx. destruct (wi_dom _ _ _ _ _ HM l x Hx) as [[_ ?]|[_ ?]]; lia. }
      pose proof (Hlt _ _ Hi' Ha). pose proof (Hlt _ _ Hj' Hb). unfold live in Ha, Hb.
      destruct (Hcnt i Hin a Hi') as (g0' & Hg0' & _ & Hf); [lia|lia|]. assert (g0' = g0) as -> by congruence.
      apply (Hf j b Hs Hj'); lia.
    - intros i j a _ Hi Hj Ha. by rewrite (Hcls _ _ Hi Ha), (Hcls _ _ Hj Ha).
  Qed.

  Definition sub (old mid x : Z) : Z := if x =? old then mid else x.

  (** The effect of merging the regions with id [old] into [mid]; region [i]
      hands its connections over. *)
  Definition merges (regs regs' : list region) (gi : region) (old mid : Z) : Prop :=
    length regs' = length regs ∧
    ∀ k g, regs !! k = Some g → ∃ g', regs' !! k = Some g' ∧
      rg_area g' = rg_area g ∧ rg_id g' = sub old mid (rg_id g) ∧
      (live (rg_id g) → ∀ x, x ∈ rg_con g' → ∃ y, x = sub old mid y ∧
         (y ∈ rg_con g ∨ (Z.of_nat k = mid ∧ y ∈ rg_con gi))) ∧
      ((0 < rg_count g')%nat → Z.of_nat k ≠ old ∧ ((0 < rg_count g)%nat ∨ Z.of_nat k = mid)) ∧
      (live (rg_id g) → ∀ y, y ∈ rg_floors g ∨ (Z.of_nat k = mid ∧ y ∈ rg_floors gi) → sub old mid y ∈ rg_floors g').

  Lemma merges_minv regs regs' i gi old mid :
    minv regs → regs !! i = Some gi → rg_id gi = old → live old → live mid → mid ≠ old →
    (∃ k g, regs !! k = Some g ∧ rg_id g = mid ∧ rg_area g = rg_area gi) →
    (0 < rg_count gi)%nat → mid ∉ rg_floors gi →
    link regs old mid → merges regs regs' gi old mid → minv regs'.
  Proof.
    intros Hm Hi Eold Hlo Hlm Hne (kt & gt & Hkt & Egt & Eat) Hcnt Hnf Hlink [Hl Hmg].
    assert (Hback : ∀ k g', regs' !! k = Some g' → ∃ g, regs !! k = Some g ∧
      rg_area g' = rg_area g ∧ rg_id g' = sub old mid (rg_id g) ∧
      (live (rg_id g) → ∀ x, x ∈ rg_con g' → ∃ y, x = sub old mid y ∧
         (y ∈ rg_con g ∨ (Z.of_nat k = mid ∧ y ∈ rg_con gi))) ∧
      ((0 < rg_count g')%nat → Z.of_nat k ≠ old ∧ ((0 < rg_count g)%nat ∨ Z.of_nat k = mid)) ∧
      (live (rg_id g) → ∀ y, y ∈ rg_floors g ∨ (Z.of_nat k = mid ∧ y ∈ rg_floors gi) → sub old mid y ∈ rg_floors g')).
    { intros k g' Hk. assert (k < length regs)%nat as Hkl by (rewrite <-Hl; by eapply lookup_lt_Some).
      destruct (lookup_lt_is_Some_2 _ _ Hkl) as [g Hg]. exists g. split; [done|].
      destruct (Hmg k g Hg) as (g2 & Hg2 & ?). assert (g2 = g') as -> by congruence. done. }
    assert (Hmidn : mid ≤ nxt).
    { destruct (m_range _ Hm kt gt Hkt) as [E|[[? E]|(? & ? & ?)]]; unfold live in *; lia. }
    assert (Hsub : ∀ a, sub old mid a = mid ∨ (sub old mid a = a ∧ a ≠ old)).
    { intros a. unfold sub. destruct (Z.eqb_spec a old); auto. }
    assert (Hlive : ∀ k g, regs !! k = Some g → live (sub old mid (rg_id g)) → live (rg_id g)).
    { intros k g Hk Hlv. unfold sub in Hlv. destruct (Z.eqb_spec (rg_id g) old) as [E|]; [by rewrite E|done]. }
    assert (Hclsf : ∀ l a, cls regs l a → cls regs' l (sub old mid a)).
    { intros l a (r & g & Hr & Hrl & Hg & E). destruct (Hmg _ _ Hg) as (g' & Hg' & _ & E' & _).
      exists r, g'. split_and!; [done..|congruence]. }
    assert (Hclsb : ∀ l a, cls regs' l a → ∃ a0, cls regs l a0 ∧ a = sub old mid a0).
    { intros l a (r & g' & Hr & Hrl & Hg' & E). destruct (Hback _ _ Hg') as (g & Hg & _ & E' & _).
      exists (rg_id g). split; [by exists r, g|congruence]. }
    assert (Hmid_last : mid ≠ nxt).
    { intros E. rewrite <-Egt in E. apply (m_last _ Hm kt gt Hkt) in E.
      destruct Hlink as (i1 & j1 & _ & _ & (r & g & Hr & Hrl & Hg & Eg)).
      pose proof (proj2 (m_last _ Hm _ _ Hg)) as Hlast. assert (rg_id g = nxt) as Hx.
      { rewrite Eg, <-Egt. by apply (m_last _ Hm kt gt Hkt). }
      specialize (Hlast Hx). unfold live in Hrl. rewrite Z2Nat.id in Hlast by lia. subst r.
      destruct (wi_dom _ _ _ _ _ HM j1 nxt Hr) as [[_ ?]|[_ ?]]; lia. }
    assert (Hold_last : old ≠ nxt).
    { intros E. destruct Hlink as (i1 & j1 & _ & (r & g & Hr & Hrl & Hg & Eg) & _).
      pose proof (proj2 (m_last _ Hm _ _ Hg)) as Hlast. rewrite Eg in Hlast. specialize (Hlast E).
      unfold live in Hrl. rewrite Z2Nat.id in Hlast by lia. subst r.
      destruct (wi_dom _ _ _ _ _ HM i1 nxt Hr) as [[_ ?]|[_ ?]]; lia. }
    split.
    - rewrite Hl. apply (m_len _ Hm).
    - intros k g' Hk. destruct (Hback k g' Hk) as (g & Hg & _ & E & _). rewrite E. unfold sub.
      destruct (Z.eqb_spec (rg_id g) old) as [E2|].
      + right. right. split; [|done]. destruct (m_range _ Hm k g Hg) as [?|[[? ?]|(? & _)]]; unfold live in *; lia.
      + apply (m_range _ Hm k g Hg).
    - intros g' Hg'. destruct (Hback _ _ Hg') as (g & Hg & _ & E & _). rewrite E. rewrite (m_zero _ Hm g Hg).
      unfold sub. destruct (Z.eqb_spec 0 old); [unfold live in Hlo; lia|done].
    - intros k g' Hk Hlv. destruct (Hback k g' Hk) as (g & Hg & _ & E & _). rewrite E in Hlv |- *.
      pose proof (Hlive _ _ Hg Hlv) as Hlg.
      destruct (Hsub (rg_id g)) as [E2|[E2 Hno]]; rewrite E2.
      + destruct (m_root _ Hm kt gt Hkt) as (g2 & Hg2 & Eg2); [by rewrite Egt|]. rewrite Egt in Hg2, Eg2.
        destruct (Hmg _ _ Hg2) as (g3 & Hg3 & _ & E3 & _). exists g3. split; [done|]. rewrite E3, Eg2.
        unfold sub. by destruct (Z.eqb_spec mid old).
      + destruct (m_root _ Hm k g Hg Hlg) as (g2 & Hg2 & Eg2).
        destruct (Hmg _ _ Hg2) as (g3 & Hg3 & _ & E3 & _). exists g3. split; [done|]. by rewrite E3, Eg2.
    - assert (∀ k g', regs' !! k = Some g' → live (rg_id g') →
        (rg_id g' = mid → rg_area g' = rg_area gi) ∧ (rg_id g' ≠ mid → ∃ g, regs !! k = Some g ∧ rg_area g' = rg_area g ∧ rg_id g' = rg_id g)) as Har.
      { intros k g' Hk Hlv. destruct (Hback k g' Hk) as (g & Hg & Ea & E & _). rewrite E in Hlv. pose proof (Hlive _ _ Hg Hlv) as Hlg.
        split.
        - intros E2. rewrite Ea. rewrite E in E2. unfold sub in E2. destruct (Z.eqb_spec (rg_id g) old) as [E3|].
          + apply (m_area _ Hm k g i gi Hg Hi Hlg). congruence.
          + rewrite <-Eat. apply (m_area _ Hm k g kt gt Hg Hkt Hlg). congruence.
        - intros Hn. exists g. split_and!; [done..|]. rewrite E in Hn |- *. destruct (Hsub (rg_id g)) as [?|[? _]]; [done|done]. }
      intros k g k' g' Hk Hk' Hlv E. assert (live (rg_id g')) as Hlv' by (by rewrite <-E).
      destruct (Har k g Hk Hlv) as [A1 A2]. destruct (Har k' g' Hk' Hlv') as [B1 B2].
      destruct (decide (rg_id g = mid)) as [Em|Em].
      + rewrite A1 by done. by rewrite B1 by congruence.
      + destruct (A2 Em) as (g1 & Hg1 & -> & Ei1). destruct B2 as (g2 & Hg2 & -> & Ei2); [congruence|].
        apply (m_area _ Hm k g1 k' g2 Hg1 Hg2); [by rewrite <-Ei1|congruence].
    - intros l r g' Hr Hrl Hg'. destruct (Hback _ _ Hg') as (g & Hg & -> & _). by apply (m_span _ Hm l r g).
    - intros k g' Hk Hlv. destruct (Hback k g' Hk) as (g & Hg & _ & E & Hcon & _). rewrite E in Hlv.
      pose proof (Hlive _ _ Hg Hlv) as Hlg. specialize (Hcon Hlg).
      (* every new connection comes from a region of the new class *)
      assert (Hsrc : ∀ x, x ∈ rg_con g' → ∃ y k2 g2, x = sub old mid y ∧ y ∈ rg_con g2 ∧ regs !! k2 = Some g2 ∧
        live (rg_id g2) ∧ sub old mid (rg_id g2) = sub old mid (rg_id g)).
      { intros x Hx. destruct (Hcon x Hx) as (y & -> & [Hy|[Ek Hy]]).
        - exists y, k, g. done.
        - exists y, i, gi. split_and!; [done..| |].
          + by rewrite Eold.
          + rewrite Eold. unfold sub at 1. rewrite Z.eqb_refl. symmetry.
            destruct (m_root _ Hm kt gt Hkt) as (g2 & Hg2 & Eg2); [by rewrite Egt|]. rewrite Egt in Hg2, Eg2.
            assert (k = Z.to_nat mid) as -> by lia. assert (g2 = g) as -> by congruence. rewrite Eg2.
            unfold sub. by destruct (Z.eqb_spec mid old). }
      split.
      + intros x Hx. destruct (Hsrc x Hx) as (y & k2 & g2 & -> & Hy & Hk2 & Hl2 & _).
        destruct (m_con _ Hm k2 g2 Hk2 Hl2) as [Hok _]. destruct (Hsub y) as [-> |[-> _]]; [unfold live in Hlm; lia|by apply Hok].
      + intros x gx' Hx Hxl Hgx' Hlx'. destruct (Hsrc x Hx) as (y & k2 & g2 & -> & Hy & Hk2 & Hl2 & Es).
        destruct (Hback _ _ Hgx') as (gx & Hgx & _ & Egx & _). rewrite E, <-Es.
        (* the region [y] pointed to before *)
        assert (∃ gy, regs !! Z.to_nat y = Some gy ∧ live y ∧ live (rg_id gy) ∧ sub old mid (rg_id gy) = rg_id gx') as (gy & Hgy & Hyl & Hlgy & Egy).
        { unfold sub in Hxl, Hgx. destruct (Z.eqb_spec y old) as [->|Hyo].
          - destruct (m_root _ Hm i gi Hi) as (go & Hgo & Ego); [by rewrite Eold|]. rewrite Eold in Hgo, Ego.
            exists go. split_and!; [done|done|by rewrite Ego|]. rewrite Ego. unfold sub at 1. rewrite Z.eqb_refl.
            rewrite Egx. destruct (m_root _ Hm kt gt Hkt) as (g3 & Hg3 & Eg3); [by rewrite Egt|]. rewrite Egt in Hg3, Eg3.
            assert (g3 = gx) as -> by congruence. rewrite Eg3. unfold sub. by destruct (Z.eqb_spec mid old).
          - exists gx. split_and!; [done|done| |done]. rewrite Egx in Hlx'. by apply (Hlive _ _ Hgx). }
        destruct (m_con _ Hm k2 g2 Hk2 Hl2) as [_ Hlk]. destruct (Hlk y gy Hy Hyl Hgy Hlgy) as (i1 & j1 & Ha1 & Hc1 & Hc2).
        exists i1, j1. split; [done|]. split; [by apply Hclsf|]. rewrite <-Egy. by apply Hclsf.
    - intros i1 j1 a Hi1 Hj1 Ha.
      destruct (Hclsb _ _ Hi1) as (a1 & Hi1' & Ea1). destruct (Hclsb _ _ Hj1) as (a2 & Hj1' & Ea2).
      assert (Hstep : ∀ i j b, cls regs i b → cls regs j b → live b → sub old mid b = a → joined ch (λ l, cls regs' l a) i j).
      { intros i2 j2 b H1 H2 Hb E. eapply joined_mono; [|by apply (m_conn _ Hm i2 j2 b)]. cbn. intros l Hl2. rewrite <-E. by apply Hclsf. }
      assert (Hlv : ∀ l b, cls regs l b → a = sub old mid b → live b).
      { intros l b (r & g & Hr & Hrl & Hg & <-) ->. by apply (Hlive _ _ Hg). }
      destruct (decide (a1 = a2)) as [<-|Hn12].
      { apply (Hstep _ _ a1); [done|done|by eapply Hlv|done]. }
      assert (a = mid) as ->. { destruct (Hsub a1) as [?|[? ?]]; destruct (Hsub a2) as [?|[? ?]]; congruence. }
      assert (Hom : ∀ l b, cls regs l b → mid = sub old mid b → b = old ∨ b = mid).
      { intros l b _ E. unfold sub in E. destruct (Z.eqb_spec b old); auto. }
      destruct Hlink as (li & lj & Hadj & Hli & Hlj).
      assert (sub old mid old = mid) as So by (unfold sub; by rewrite Z.eqb_refl).
      assert (sub old mid mid = mid) as Sm by (unfold sub; by destruct (Z.eqb_spec mid old)).
      assert (joined ch (λ l, cls regs' l mid) li lj) as Jl.
      { pose proof (Hclsf _ _ Hli) as X1. rewrite So in X1. pose proof (Hclsf _ _ Hlj) as X2. rewrite Sm in X2.
        by apply joined_adj. }
      destruct (Hom _ _ Hi1' Ea1) as [-> | ->]; destruct (Hom _ _ Hj1' Ea2) as [-> | ->]; try done.
      + eapply joined_trans; [apply (Hstep i1 li old); done|]. eapply joined_trans; [exact Jl|]. by apply (Hstep lj j1 mid).
      + eapply joined_trans; [apply (Hstep i1 lj mid); done|]. eapply joined_trans; [apply joined_sym; exact Jl|]. by apply (Hstep li j1 old).
    - intros k g' Hk. destruct (Hback k g' Hk) as (g & Hg & _ & E & _). rewrite (m_last _ Hm k g Hg), E.
      unfold sub. destruct (Z.eqb_spec (rg_id g) old) as [E2|]; [|done]. lia.
    - intros k g' Hk Hlv Hc. destruct (Hback k g' Hk) as (g & Hg & _ & E & _ & Hcn & _). rewrite E in Hlv |- *.
      pose proof (Hlive _ _ Hg Hlv) as Hlg. destruct (Hcn Hc) as [Hko [Hcg|Hkm]].
      + pose proof (m_own _ Hm k g Hg Hlg Hcg) as Ek. unfold sub. destruct (Z.eqb_spec (rg_id g) old); [lia|done].
      + assert (k = Z.to_nat mid) as -> by (unfold live in Hlm; lia).
        destruct (m_root _ Hm kt gt Hkt) as (g2 & Hg2 & Eg2); [by rewrite Egt|]. rewrite Egt in Hg2, Eg2.
        assert (g2 = g) as -> by congruence. rewrite Eg2. unfold sub. destruct (Z.eqb_spec mid old); lia.
    - intros i1 j1 a b g' Hs Hi1 Hj1 Ha Hb Hab Hg'.
      destruct (Hclsb _ _ Hi1) as (a0 & Hi0 & ->). destruct (Hclsb _ _ Hj1) as (b0 & Hj0 & ->).
      assert (Hlv : ∀ l x, cls regs l x → live (sub old mid x) → live x).
      { intros l x (r & g & Hr & Hrl & Hg & <-) Hx. by apply (Hlive _ _ Hg). }
      pose proof (Hlv _ _ Hi0 Ha) as Ha0. pose proof (Hlv _ _ Hj0 Hb) as Hb0.
      assert (a0 ≠ b0) as Hab0 by (intros ->; done).
      assert (∃ ga, regs !! Z.to_nat a0 = Some ga) as (ga & Hga).
      { destruct Hi0 as (r & g & Hr & Hrl & Hg & E0). rewrite <-E0 in Ha0. destruct (m_root _ Hm _ _ Hg Ha0) as (g2 & Hg2 & _).
        rewrite E0 in Hg2. by exists g2. }
      pose proof (m_floor _ Hm i1 j1 a0 b0 ga Hs Hi0 Hj0 Ha0 Hb0 Hab0 Hga) as Hin0.
      destruct (Hback _ _ Hg') as (g & Hg & _ & _ & _ & _ & Hfl).
      destruct (Z.eqb_spec a0 old) as [E0|Hn0].
      + (* the class of [old], whose root is [gi] *)
        assert (sub old mid a0 = mid) as Es by (unfold sub; by rewrite (proj2 (Z.eqb_eq _ _) E0)).
        rewrite Es in Hg, Hg'. pose proof (m_own _ Hm i gi Hi) as Ho. rewrite Eold in Ho. specialize (Ho Hlo Hcnt).
        assert (ga = gi) as ->. { rewrite E0 in Hga. assert (Z.to_nat old = i) as Ex by lia. rewrite Ex in Hga. congruence. }
        destruct (m_root _ Hm kt gt Hkt) as (g2 & Hg2 & Eg2); [by rewrite Egt|]. rewrite Egt in Hg2, Eg2.
        assert (g2 = g) as -> by congruence. apply Hfl; [by rewrite Eg2|]. right. split; [|done]. unfold live in Hlm. lia.
      + assert (sub old mid a0 = a0) as Es by (unfold sub; by rewrite (proj2 (Z.eqb_neq _ _) Hn0)).
        rewrite Es in Hg. assert (ga = g) as -> by congruence. apply Hfl; [|by left].
        destruct Hi0 as (r & gr & Hr & Hrl & Hgr & E0). rewrite <-E0 in Ha0. destruct (m_root _ Hm _ _ Hgr Ha0) as (g2 & Hg2 & E2).
        rewrite E0 in Hg2, E2. assert (g2 = g) as -> by congruence. by rewrite E2, <-E0.
    - intros i1 j1 a Hs Hi1 Hj1 Ha.
      destruct (Hclsb _ _ Hi1) as (a0 & Hi0 & Ea). destruct (Hclsb _ _ Hj1) as (b0 & Hj0 & Eb).
      assert (Hlv : ∀ l x, cls regs l x → a = sub old mid x → live x).
      { intros l x (r & g & Hr & Hrl & Hg & <-) Hx. apply (Hlive _ _ Hg). by rewrite <-Hx. }
      pose proof (Hlv _ _ Hi0 Ea) as Ha0. pose proof (Hlv _ _ Hj0 Eb) as Hb0.
      destruct (decide (a0 = b0)) as [->|Hab]; [by apply (m_stack _ Hm i1 j1 b0)|]. exfalso.
      pose proof (m_own _ Hm i gi Hi) as Ho. rewrite Eold in Ho. specialize (Ho Hlo Hcnt).
      assert (regs !! Z.to_nat old = Some gi) as Hgo by (assert (Z.to_nat old = i) as -> by lia; done).
      apply Hnf. unfold sub in Ea, Eb. destruct (Z.eqb_spec a0 old) as [E1|E1]; destruct (Z.eqb_spec b0 old) as [E2|E2].
      + congruence.
      + subst a0 a. subst b0. by apply (m_floor _ Hm i1 j1 old mid gi).
      + subst b0 a. subst a0. apply (m_floor _ Hm j1 i1 old mid gi); try done.
        destruct Hs as (Hs1 & c & Hs2 & Hs3). split; [done|]. by exists c.
      + congruence.
  Qed.

  Lemma replace_neighbour_spec g old mid :
    runs (replace_neighbour g old mid) (λ g', rg_id g' = rg_id g ∧ rg_area g' = rg_area g ∧
      rg_overlap g' = rg_overlap g ∧ (rg_count g' = rg_count g ∧ rg_floors g' = sub old mid <$> rg_floors g) ∧
      ∀ x, x ∈ rg_con g' → ∃ y, x = sub old mid y ∧ y ∈ rg_con g).
  Proof.
    unfold replace_neighbour. apply (runs_bind _ _ (λ l, ∀ x, x ∈ l → ∃ y, x = sub old mid y ∧ y ∈ rg_con g)).
    - destruct (contains _ _).
      + unfold remove_adjacent_neighbours. eapply runs_mono; [apply dedup_loop_spec; lia|]. intros l Hl x Hx.
        apply Hl in Hx. apply elem_of_list_fmap in Hx as (y & -> & Hy). by exists y.
      + cbn. intros x Hx. apply elem_of_list_fmap in Hx as (y & -> & Hy). by exists y.
    - intros l Hl. by cbn.
  Qed.

  Definition fixed (old mid : Z) (g g' : region) : Prop :=
    rg_area g' = rg_area g ∧ rg_id g' = sub old mid (rg_id g) ∧
    (live (rg_id g) → ∀ x, x ∈ rg_con g' → ∃ y, x = sub old mid y ∧ y ∈ rg_con g) ∧
    rg_count g' = rg_count g ∧ (live (rg_id g) → rg_floors g' = sub old mid <$> rg_floors g).

  Lemma fix_all_spec old mid regs :
    live old → (∀ k g, regs !! k = Some g → 0 ≤ rg_id g ≤ 65535) →
    runs (foldM (fix_region old mid) (seq 0 (length regs)) regs) (λ regs',
      length regs' = length regs ∧ ∀ k g, regs !! k = Some g → ∃ g', regs' !! k = Some g' ∧ fixed old mid g g').
  Proof.
    intros Hlo Hr.
    apply (runs_mono _ (λ regs', length regs' = length regs ∧ ∀ k g, regs !! k = Some g → ∃ g', regs' !! k = Some g' ∧
        ((k < length regs)%nat → fixed old mid g g') ∧ ((length regs ≤ k)%nat → g' = g))).
    2: { intros regs' [Hl H]. split; [done|]. intros k g Hk. destruct (H k g Hk) as (g' & Hg' & Hf & _). exists g'. split; [done|].
         apply Hf. by eapply lookup_lt_Some. }
    apply (foldM_seq_inv (λ j regs', length regs' = length regs ∧ ∀ k g, regs !! k = Some g → ∃ g', regs' !! k = Some g' ∧
        ((k < j)%nat → fixed old mid g g') ∧ ((j ≤ k)%nat → g' = g))).
    - split; [done|]. intros k g Hk. exists g. split_and!; [done|lia|done].
    - intros j regs' Hj [Hl H]. cbn in Hj. destruct (lookup_lt_is_Some_2 regs j ltac:(lia)) as [g Hg].
      destruct (H j g Hg) as (g' & Hg' & _ & E). specialize (E ltac:(lia)). subst g'.
      unfold fix_region. rewrite (get_some _ _ _ Hg'). cbn [obind].
      destruct (dead (rg_id g)) eqn:Ed.
      + cbn. split; [done|]. intros k g1 Hk. destruct (H k g1 Hk) as (g2 & Hg2 & Hf & Hs). exists g2. split; [done|].
        split; [|intros; apply Hs; lia]. intros Hkj. destruct (decide (k = j)) as [->|]; [|apply Hf; lia].
        assert (g1 = g) as -> by congruence. assert (g2 = g) as -> by congruence.
        assert (¬ live (rg_id g)) as Hnl by (intros Hlv; apply (dead_iff _ (Hr _ _ Hg)) in Hlv; congruence).
        split; [done|]. split; [|done]. unfold sub. destruct (Z.eqb_spec (rg_id g) old) as [E|]; [|done].
        exfalso. apply Hnl. by rewrite E.
      + eapply runs_bind; [apply replace_neighbour_spec|]. intros g2 (E1 & E2 & _ & [E4 E5] & E3). cbn beta.
        assert (j < length regs')%nat as Hjl by (by eapply lookup_lt_Some).
        rewrite (put_lt _ _ _ Hjl). cbn. rewrite insert_length. split; [done|].
        intros k g1 Hk. destruct (decide (k = j)) as [->|Hkj].
        * exists g2. rewrite list_lookup_insert by done. split; [done|]. split; [|lia]. intros _.
          assert (g1 = g) as -> by congruence. split; [|split; [|split; [|split]]].
          -- rewrite E2. by destruct (rg_id g =? old).
          -- rewrite E1. unfold sub. by destruct (rg_id g =? old).
          -- intros _ x Hx. destruct (E3 x Hx) as (y & -> & Hy). exists y. split; [done|]. by destruct (rg_id g =? old).
          -- rewrite E4. by destruct (rg_id g =? old).
          -- intros _. rewrite E5. by destruct (rg_id g =? old).
        * rewrite list_lookup_insert_ne by done. destruct (H k g1 Hk) as (g3 & Hg3 & Hf & Hs). exists g3. split; [done|].
          split; [intros; apply Hf; lia|intros; apply Hs; lia].
  Qed.

  Lemma merge_regions_spec a b :
    runs (merge_regions a b) (λ res, match res with None => True | Some a' =>
      rg_id a' = rg_id a ∧ rg_area a' = rg_area a ∧ (∀ x, x ∈ rg_con a' → x ∈ rg_con a ∨ x ∈ rg_con b) ∧
      ∀ x, x ∈ rg_floors a ∨ x ∈ rg_floors b → x ∈ rg_floors a' end).
  Proof.
    unfold merge_regions. destruct (position (rg_con a) (rg_id b)) as [pa|] eqn:Ea; [|by cbn].
    destruct (position (rg_con b) (rg_id a)) as [pb|] eqn:Eb; [|by cbn].
    eapply runs_bind; [apply dedup_loop_spec; lia|]. intros l Hl. cbn. split; [done|]. split; [done|].
    split; [intros x Hx; apply Hl in Hx; apply elem_of_app in Hx as [Hx|Hx]; apply elem_around in Hx; auto|].
    clear. generalize (rg_floors b), (rg_floors a). intros fb. induction fb as [|y fb IH]; intros fa x Hx; cbn [foldl].
    - destruct Hx as [?|Hx]; [done|]. by apply elem_of_nil in Hx.
    - apply IH. rewrite elem_add_floor. rewrite elem_of_cons in Hx. tauto.
  Qed.

  Definition is_root (regs : list region) (k : nat) : Prop := rg_id <$> regs !! k = Some (Z.of_nat k).
  Global Instance is_root_dec regs k : Decision (is_root regs k).
  Proof. unfold is_root. apply _. Defined.
  Definition roots (regs : list region) : nat := length (filter (is_root regs) (seq 0 N)).

  Lemma merges_roots regs regs' i gi old mid :
    minv regs → regs !! i = Some gi → rg_id gi = old → live old → live mid → mid ≠ old →
    (∃ g, regs !! Z.to_nat mid = Some g ∧ rg_id g = mid) → merges regs regs' gi old mid → (roots regs' < roots regs)%nat.
  Proof.
    intros Hm Hi Eold Hlo Hlm Hne (gm & Hgm & Egm) [Hl Hmg]. destruct (m_root _ Hm i gi Hi) as (g0 & Hg0 & E0); [by rewrite Eold|].
    rewrite Eold in Hg0, E0. apply filter_length_lt with (a := Z.to_nat old).
    - intros k _ Hk. unfold is_root in *. destruct (regs' !! k) as [g'|] eqn:Hg'; [|done]. cbn in Hk.
      assert (k < length regs)%nat as Hkl by (rewrite <-Hl; by eapply lookup_lt_Some).
      destruct (lookup_lt_is_Some_2 _ _ Hkl) as [g Hg]. destruct (Hmg k g Hg) as (g2 & Hg2 & _ & E & _).
      assert (g2 = g') as -> by congruence. rewrite Hg. cbn. f_equal. injection Hk as Hk. rewrite Hk in E.
      unfold sub in E. destruct (Z.eqb_spec (rg_id g) old) as [E3|]; [|done].
      exfalso. assert (k = Z.to_nat mid) as -> by lia. assert (gm = g) as -> by congruence. congruence.
    - apply elem_of_seq. assert (Z.to_nat old < length regs)%nat by (by eapply lookup_lt_Some). rewrite (m_len _ Hm) in *. lia.
    - unfold is_root. rewrite Hg0. cbn. f_equal. unfold live in Hlo. lia.
    - unfold is_root. destruct (Hmg _ _ Hg0) as (g2 & Hg2 & _ & E & _). rewrite Hg2. cbn. intros [= Ex].
      rewrite E, E0 in Ex. unfold sub in Ex. rewrite Z.eqb_refl in Ex. unfold live in *. lia.
  Qed.

  Lemma pick_spec regs i g :
    minv regs → regs !! i = Some g → live (rg_id g) →
    runs (foldM (pick_neighbour g regs) (rg_con g) (None, rg_id g)) (λ best,
      snd best = rg_id g ∨ (live (snd best) ∧ link regs (rg_id g) (snd best) ∧
        (∃ k gm, regs !! k = Some gm ∧ rg_id gm = snd best ∧ rg_area gm = rg_area g) ∧ snd best ∉ rg_floors g)).
  Proof.
    intros Hm Hi Hlv. destruct (m_con _ Hm i g Hi Hlv) as [Hok Hlk]. pose proof (wi_id _ _ _ _ _ HM) as Hid.
    apply runs_ends. apply (ends_keep False). { by left. }
    intros c [b0 m0] Hc Hb. cbn [snd] in Hb. destruct (Hok c Hc) as [Hc1 Hc2]. unfold pick_neighbour.
    rewrite is_border_iff by lia. destruct (Z.leb_spec 32768 c); [by cbn|].
    destruct (lookup_lt_is_Some_2 regs (Z.to_nat c)) as [m Hmm]. { rewrite (m_len _ Hm). unfold N. lia. }
    rewrite (get_some _ _ _ Hmm). cbn [obind]. destruct (dead (rg_id m)) eqn:Ed; [by cbn|].
    destruct (rg_overlap m); [by cbn|]. cbn [orb].
    destruct (_ && can_merge_with m g) eqn:Ec; [|by cbn]. cbn [ends snd]. right.
    apply andb_true_iff in Ec as [Ec Ec2]. apply (minv_dead _ _ _ Hm Hmm) in Ed.
    split; [done|]. split.
    - apply (Hlk c m); try done. unfold live. split; [|done]. destruct (decide (c = 0)) as [->|]; [|lia].
      pose proof (m_zero _ Hm m Hmm) as E. rewrite E in Ed. unfold live in Ed. lia.
    - split.
      + exists (Z.to_nat c), m. split; [done|]. split; [done|]. unfold can_merge_with in Ec2. lia.
      + unfold can_merge_with in Ec. intros Hf%contains_iff. rewrite Hf in Ec. cbn in Ec. rewrite !andb_false_r in Ec. done.
  Qed.

  (** Merging neither kills nor revives a region. *)
  Definition keeps (regs regs' : list region) : Prop :=
    ∀ k g, regs !! k = Some g → ∃ g', regs' !! k = Some g' ∧ (live (rg_id g) ↔ live (rg_id g')).
  Lemma keeps_refl regs : keeps regs regs.
  Proof. intros k g Hk. by exists g. Qed.
  Lemma keeps_trans regs regs' regs'' : keeps regs regs' → keeps regs' regs'' → keeps regs regs''.
  Proof.
    intros H1 H2 k g Hk. destruct (H1 k g Hk) as (g' & Hg' & E). destruct (H2 k g' Hg') as (g'' & Hg'' & E').
    exists g''. split; [done|]. by rewrite E.
  Qed.

  Lemma merge_step_spec ms i regs mg :
    minv regs → (i < N)%nat →
    runs (merge_step ms i (regs, mg)) (λ '(regs', mg'), (minv regs' ∧ keeps regs regs') ∧ (roots regs' + mg' ≤ roots regs + mg)%nat).
  Proof.
    intros Hm Hi. pose proof (keeps_refl regs) as Hkr. destruct (lookup_lt_is_Some_2 regs i) as [g Hg]; [by rewrite (m_len _ Hm)|].
    unfold merge_step. rewrite (get_some _ _ _ Hg). cbn [obind].
    destruct (dead (rg_id g)) eqn:Ed; [by cbn|]. cbn [orb]. apply (minv_dead _ _ _ Hm Hg) in Ed.
    destruct (rg_overlap g || (rg_count g =? 0)%nat) eqn:Ecnt; [by cbn|]. apply orb_false_elim in Ecnt as [_ Ecnt].
    apply Nat.eqb_neq in Ecnt. destruct (_ && _); [by cbn|].
    eapply runs_bind; [by apply (pick_spec regs i g)|]. intros [b mid] Hpick. cbn [snd] in Hpick.
    destruct (Z.eqb_spec mid (rg_id g)) as [|Hne]; [by cbn|].
    destruct Hpick as [?|(Hlm & Hlink & (k & gk & Hk & Ek & Eak) & Hnf)]; [done|].
    destruct (m_root _ Hm k gk Hk) as (t & Ht & Et); [by rewrite Ek|]. rewrite Ek in Ht, Et.
    rewrite (get_some _ _ _ Ht). cbn [obind].
    eapply runs_bind; [apply merge_regions_spec|]. intros [t'|] Hmr; [|by cbn]. destruct Hmr as (Et1 & Et2 & Et3 & Et4).
    assert (Z.to_nat mid < length regs)%nat as Hml by (by eapply lookup_lt_Some).
    rewrite (put_lt _ _ _ Hml). cbn [obind].
    assert (Z.to_nat mid ≠ i) as Hmi by (intros E; subst i; congruence).
    assert (<[Z.to_nat mid:=t']> regs !! i = Some g) as Hg1 by (by rewrite list_lookup_insert_ne).
    rewrite (get_some _ _ _ Hg1). cbn [obind].
    assert (i < length (<[Z.to_nat mid:=t']> regs))%nat as Hil by (by eapply lookup_lt_Some).
    rewrite (put_lt _ _ _ Hil). cbn [obind].
    set (g0 := rg_set_con (rg_set_count g 0) []). set (regs2 := <[i:=g0]> (<[Z.to_nat mid:=t']> regs)).
    assert (Hown : rg_id g = Z.of_nat i) by (apply (m_own _ Hm i g Hg Ed); lia).
    assert (H2 : ∀ k q, regs !! k = Some q → ∃ g2, regs2 !! k = Some g2 ∧ rg_area g2 = rg_area q ∧ rg_id g2 = rg_id q ∧
      (∀ x, x ∈ rg_con g2 → x ∈ rg_con q ∨ (Z.of_nat k = mid ∧ x ∈ rg_con t')) ∧
      ((0 < rg_count g2)%nat → Z.of_nat k ≠ rg_id g ∧ ((0 < rg_count q)%nat ∨ Z.of_nat k = mid)) ∧
      (∀ x, x ∈ rg_floors q ∨ (Z.of_nat k = mid ∧ x ∈ rg_floors g) → x ∈ rg_floors g2)).
    { intros k2 g2 Hk2. unfold regs2. unfold live in Hlm. destruct (decide (k2 = i)) as [->|Hki].
      - rewrite list_lookup_insert by done. exists g0. assert (g2 = g) as -> by congruence. split; [done|]. split; [done|].
        split; [done|]. split; [cbn; intros x Hx; by apply elem_of_nil in Hx|]. split; [cbn; lia|].
        intros x [?|[? _]]; [done|lia].
      - rewrite list_lookup_insert_ne by done. destruct (decide (k2 = Z.to_nat mid)) as [->|Hkm].
        + rewrite list_lookup_insert by done. exists t'. assert (g2 = t) as -> by congruence. split; [done|]. split; [done|].
          split; [done|]. split; [intros x Hx; right; split; [lia|done]|]. split; [intros _; split; [lia|right; lia]|].
          intros x [?|[_ ?]]; apply Et4; auto.
        + rewrite list_lookup_insert_ne by done. exists g2. split; [done|]. split; [done|].
          split; [done|]. split; [auto|]. split; [intros ?; split; [lia|by left]|].
          intros x [?|[? _]]; [done|lia]. }
    assert (length regs2 = length regs) as Hl2 by (unfold regs2; by rewrite !insert_length).
    eapply runs_bind.
    { apply fix_all_spec; [done|]. intros k2 g2 Hk2. assert (k2 < length regs)%nat as Hkl by (rewrite <-Hl2; by eapply lookup_lt_Some).
      destruct (lookup_lt_is_Some_2 _ _ Hkl) as [g3 Hg3]. destruct (H2 _ _ Hg3) as (g4 & Hg4 & _ & E & _).
      assert (g4 = g2) as -> by congruence. rewrite E. by eapply minv_u16. }
    intros regs3 [Hl3 H3]. cbn [runs].
    assert (merges regs regs3 g (rg_id g) mid) as HMg.
    { split; [lia|]. intros k2 g2 Hk2. destruct (H2 _ _ Hk2) as (g3 & Hg3 & E1 & E2 & E3 & E4 & E5).
      destruct (H3 _ _ Hg3) as (g4 & Hg4 & F1 & F2 & F3 & F4 & F5). exists g4. split; [done|]. split; [congruence|]. split; [congruence|].
      split; [|split; [by rewrite F4|intros Hlv y Hy; rewrite F5 by (by rewrite E2); apply elem_of_list_fmap; exists y; split; [done|by apply E5]]].
      intros Hlv x Hx. rewrite E2 in F3. destruct (F3 Hlv x Hx) as (y & -> & Hy). exists y. split; [done|].
      destruct (E3 y Hy) as [?|[Em Hyt]]; [by left|]. destruct (Et3 y Hyt) as [Hy1|Hy1].
      - left. assert (k2 = Z.to_nat mid) as -> by lia. congruence.
      - by right. }
    split; [split|].
    - apply (merges_minv regs regs3 i g (rg_id g) mid); try done; [by exists k, gk|lia].
    - intros k2 g2 Hk2. destruct (proj2 HMg k2 g2 Hk2) as (g3 & Hg3 & _ & E & _). exists g3. split; [done|].
      rewrite E. unfold sub. destruct (Z.eqb_spec (rg_id g2) (rg_id g)) as [E2|]; [|done]. by rewrite E2.
    - pose proof (merges_roots regs regs3 i g (rg_id g) mid Hm Hg eq_refl Ed Hlm Hne (ex_intro _ t (conj Ht Et)) HMg). lia.
  Qed.

  Lemma merge_loop_spec ms fuel regs :
    minv regs → (roots regs < fuel)%nat → runs (merge_loop fuel ms regs) (λ regs', minv regs' ∧ keeps regs regs').
  Proof.
    revert regs. induction fuel as [|fuel IH]; intros regs Hm Hf; [lia|]. cbn [merge_loop].
    apply (runs_bind _ _ (λ '(regs', mg), (minv regs' ∧ keeps regs regs') ∧ (roots regs' + mg ≤ roots regs)%nat)).
    - apply runs_ends. apply (ends_keep False). { split; [split; [done|apply keeps_refl]|lia]. }
      intros i [regs' mg] Hi [[Hm' Hk'] Hr]. apply elem_of_seq in Hi. rewrite (m_len _ Hm) in Hi. apply runs_ends.
      eapply runs_mono; [apply merge_step_spec; [done|lia]|]. intros [r2 mg2] [[? ?] ?]. split; [split; [done|by eapply keeps_trans]|lia].
    - intros [regs' mg] [[Hm' Hk'] Hr]. destruct (Nat.eqb_spec mg 0); [by cbn|].
      eapply runs_mono; [apply IH; [done|lia]|]. intros r2 [? ?]. split; [done|by eapply keeps_trans].
  Qed.

  (** ** Compressing the ids *)
  Lemma renumber_all_spec old new i regs :
    (i ≤ length regs)%nat →
    runs (foldM (renumber old new) (seq i (length regs - i)) regs) (λ regs', length regs' = length regs ∧
      ∀ k g, regs !! k = Some g → ∃ g', regs' !! k = Some g' ∧
        (((i ≤ k)%nat ∧ rg_id g = old ∧ rg_id g' = new ∧ rg_remap g' = false) ∨
         (((k < i)%nat ∨ rg_id g ≠ old) ∧ rg_id g' = rg_id g ∧ rg_remap g' = rg_remap g))).
  Proof.
    intros Hi. eapply runs_mono.
    { apply (foldM_seq_inv (λ j regs', length regs' = length regs ∧ ∀ k g, regs !! k = Some g → ∃ g', regs' !! k = Some g' ∧
        ((j ≤ k)%nat → g' = g) ∧
        ((k < j)%nat → ((i ≤ k)%nat ∧ rg_id g = old ∧ rg_id g' = new ∧ rg_remap g' = false) ∨
         (((k < i)%nat ∨ rg_id g ≠ old) ∧ rg_id g' = rg_id g ∧ rg_remap g' = rg_remap g)))).
      - split; [done|]. intros k g Hk. exists g. split; [done|]. split; [done|]. intros. right. split_and!; auto.
      - intros j regs' Hj [Hl H]. destruct (lookup_lt_is_Some_2 regs j ltac:(lia)) as [g Hg].
        destruct (H j g Hg) as (g' & Hg' & E & _). specialize (E ltac:(lia)). subst g'.
        unfold renumber. rewrite (get_some _ _ _ Hg'). cbn [obind]. destruct (Z.eqb_spec (rg_id g) old) as [E|E].
        + assert (j < length regs')%nat as Hjl by (by eapply lookup_lt_Some). rewrite (put_lt _ _ _ Hjl). cbn [runs].
          rewrite insert_length. split; [done|]. intros k g1 Hk. destruct (decide (k = j)) as [->|Hkj].
          * rewrite list_lookup_insert by done. eexists. split; [done|]. split; [lia|]. intros _. left.
            assert (g1 = g) as -> by congruence. cbn. split_and!; [lia|done..].
          * rewrite list_lookup_insert_ne by done. destruct (H k g1 Hk) as (g2 & Hg2 & Ha & Hb). exists g2.
            split; [done|]. split; intros; [apply Ha; lia|apply Hb; lia].
        + cbn [runs]. split; [done|]. intros k g1 Hk. destruct (H k g1 Hk) as (g2 & Hg2 & Ha & Hb). exists g2.
          split; [done|]. split; [intros; apply Ha; lia|]. intros Hkj. destruct (decide (k = j)) as [->|]; [|apply Hb; lia].
          assert (g1 = g) as -> by congruence. assert (g2 = g) as -> by congruence. right. auto. }
    cbn. intros regs' [Hl H]. split; [done|]. intros k g Hk. destruct (H k g Hk) as (g' & Hg' & _ & Hb). exists g'. split; [done|].
    apply Hb. apply lookup_lt_Some in Hk. lia.
  Qed.

  Section compress.
    Variable regs2 : list region.
    Hypothesis H2 : minv regs2.

    Definition same_class (k l : nat) : Prop :=
      ∃ g q, regs2 !! k = Some g ∧ regs2 !! l = Some q ∧ rg_id g = rg_id q.

    Record cinv (i : nat) (regs : list region) (gen : Z) : Prop := CInv {
      c_len : length regs = N;
      c_st : ∀ k g2, regs2 !! k = Some g2 → ∃ g, regs !! k = Some g ∧
        ((¬ live (rg_id g2) ∧ rg_remap g = false ∧ rg_id g = rg_id g2) ∨
         (live (rg_id g2) ∧ rg_remap g = true ∧ rg_id g = rg_id g2 ∧ (i ≤ k)%nat) ∨
         (live (rg_id g2) ∧ rg_remap g = false ∧ 1 ≤ rg_id g ≤ gen ∧ ∃ l, (l < i)%nat ∧ same_class k l));
      c_gen : 0 ≤ gen < 32768 ∧ gen ≤ Z.of_nat (i - 1);
      c_same : ∀ k k' g2 g2' g g', regs2 !! k = Some g2 → regs2 !! k' = Some g2' → regs !! k = Some g → regs !! k' = Some g' →
        live (rg_id g2) → rg_id g2 = rg_id g2' → rg_id g = rg_id g' ∧ rg_remap g = rg_remap g';
      c_diff : ∀ k k' g2 g2' g g', regs2 !! k = Some g2 → regs2 !! k' = Some g2' → regs !! k = Some g → regs !! k' = Some g' →
        live (rg_id g2) → live (rg_id g2') → rg_remap g = false → rg_remap g' = false → rg_id g = rg_id g' → rg_id g2 = rg_id g2'
    }.

    Lemma cinv_init : cinv 0 ((λ g, rg_set_remap g (negb (dead (rg_id g)))) <$> regs2) 0.
    Proof.
      assert (Hlk : ∀ k g, ((λ g, rg_set_remap g (negb (dead (rg_id g)))) <$> regs2) !! k = Some g →
        ∃ g2, regs2 !! k = Some g2 ∧ rg_id g = rg_id g2 ∧ rg_remap g = negb (dead (rg_id g2))).
      { intros k g Hk. rewrite list_lookup_fmap in Hk. destruct (regs2 !! k) as [g2|] eqn:E; [|done].
        injection Hk as <-. by exists g2. }
      split.
      - rewrite fmap_length. apply (m_len _ H2).
      - intros k g2 Hk. eexists. rewrite list_lookup_fmap, Hk. split; [done|]. cbn.
        pose proof (minv_dead _ _ _ H2 Hk) as Hd. destruct (dead (rg_id g2)) eqn:E.
        + left. split_and!; [|done..]. intros Hlv. apply Hd in Hlv. done.
        + right. left. split_and!; [by apply Hd|done..|lia].
      - cbn. lia.
      - intros k k' g2 g2' g g' Hk Hk' Hg Hg' Hlv E.
        destruct (Hlk _ _ Hg) as (a & Ha & -> & ->). destruct (Hlk _ _ Hg') as (b & Hb & -> & ->).
        assert (a = g2) as -> by congruence. assert (b = g2') as -> by congruence. rewrite E. done.
      - intros k k' g2 g2' g g' Hk Hk' Hg Hg' Hlv Hlv' Hr. exfalso.
        destruct (Hlk _ _ Hg) as (a & Ha & _ & Ea). assert (a = g2) as -> by congruence.
        apply (minv_dead _ _ _ H2 Hk) in Hlv. rewrite Hlv in Ea. cbn in Ea. congruence.
    Qed.

    Lemma compress_step_spec i regs gen :
      (i < N)%nat → cinv i regs gen →
      runs (compress_step i (regs, gen)) (λ '(regs', gen'), cinv (i + 1) regs' gen' ∧
        (∀ g2, regs2 !! i = Some g2 → live (rg_id g2) → (∀ l, (l < i)%nat → ¬ same_class i l) →
           (∀ k q q', regs2 !! k = Some q → live (rg_id q) → rg_id q ≠ rg_id g2 → regs' !! k = Some q' →
              rg_remap q' = false → rg_id q' < gen'))).
    Proof.
      intros Hi Hc. destruct (lookup_lt_is_Some_2 regs2 i) as [g2 Hg2]; [by rewrite (m_len _ H2)|].
      destruct (c_st _ _ _ Hc i g2 Hg2) as (g & Hg & Hst). pose proof (c_gen _ _ _ Hc) as [Hgen1 Hgen2].
      unfold compress_step. rewrite (get_some _ _ _ Hg). cbn [obind].
      destruct (rg_remap g) eqn:Er; cbn [negb].
      2: { cbn [runs]. split.
           - split; try apply Hc.
             + intros k q Hk. destruct (c_st _ _ _ Hc k q Hk) as (q' & Hh' & Hs). exists q'. split; [done|].
               destruct Hs as [?|[(A & B & C & D)|(A & B & C & l & D & E)]]; [by left| |].
               * destruct (decide (k = i)) as [->|]; [congruence|]. right. left. split_and!; [done..|lia].
               * right. right. split_and!; [done..|lia|lia|]. exists l. split; [lia|done].
             + split; [done|lia].
           - intros g2' Hg2' Hlv Hno. assert (g2' = g2) as -> by congruence.
             destruct Hst as [(? & _)|[(_ & ? & _)|(_ & _ & _ & l & Hl & Hs)]]; [done|congruence|]. by apply Hno in Hs. }
      destruct Hst as [(_ & ? & _)|[(Hlv & _ & Eid & _)|(_ & ? & _)]]; [congruence| |congruence].
      assert (Hi0 : i ≠ 0%nat). { intros ->. pose proof (m_zero _ H2 g2 Hg2) as E. rewrite E in Hlv. unfold live in Hlv. lia. }
      assert (Hi32 : Z.of_nat i < 32768).
      { destruct (m_range _ H2 i g2 Hg2) as [?|[[? ?]|(? & _)]]; unfold live in *; lia. }
      unfold chk_u16, U16_MAX. rewrite chk_in by lia. cbn [obind].
      (* every region of this class comes at or after [i] *)
      assert (Hcl : ∀ k q, regs2 !! k = Some q → rg_id q = rg_id g2 → (i ≤ k)%nat ∧ ∃ q', regs !! k = Some q' ∧ rg_remap q' = true ∧ rg_id q' = rg_id g2).
      { intros k q Hk E. destruct (c_st _ _ _ Hc k q Hk) as (q' & Hh' & Hs).
        destruct (c_same _ _ _ Hc i k g2 q g q' Hg2 Hk Hg Hh' Hlv (eq_sym E)) as [_ E2].
        destruct Hs as [(? & ? & _)|[(_ & _ & E3 & ?)|(_ & ? & _)]]; [congruence| |congruence].
        split; [done|]. exists q'. split; [done|]. split; [congruence|congruence]. }
      assert (Hbig : Z.of_nat i ≤ rg_id g2).
      { destruct (m_root _ H2 i g2 Hg2 Hlv) as (q & Hh & Eh). destruct (Hcl _ _ Hh Eh) as [? _]. unfold live in Hlv. lia. }
      eapply runs_bind. { apply renumber_all_spec. rewrite (c_len _ _ _ Hc). lia. }
      intros regs' [Hl' H']. cbn [runs]. rewrite Eid in H'.
      (* what the renumbering does to each region *)
      assert (Hall : ∀ k q, regs2 !! k = Some q → ∃ h1 q', regs !! k = Some h1 ∧ regs' !! k = Some q' ∧
        ((rg_id q = rg_id g2 ∧ rg_id q' = gen + 1 ∧ rg_remap q' = false) ∨
         (rg_id q ≠ rg_id g2 ∧ rg_id q' = rg_id h1 ∧ rg_remap q' = rg_remap h1))).
      { intros k q Hk. destruct (c_st _ _ _ Hc k q Hk) as (h1 & Hh1 & Hs). destruct (H' k h1 Hh1) as (q' & Hh' & Hcase).
        exists h1, q'. split; [done|]. split; [done|]. destruct (decide (rg_id q = rg_id g2)) as [E|Hne].
        - left. destruct (Hcl k q Hk E) as (Hik & h1' & Hh1' & _ & E1). assert (h1' = h1) as -> by congruence.
          destruct Hcase as [(_ & _ & ? & ?)|([?|?] & _)]; [done|lia|done].
        - right. split; [done|]. destruct Hcase as [(_ & E1 & _)|(_ & ? & ?)]; [|done]. exfalso.
          destruct Hs as [(? & _ & E2)|[(_ & _ & E2 & _)|(_ & _ & ? & _)]]; [congruence|congruence|]. lia. }
      split.
      - split.
        + rewrite Hl'. apply (c_len _ _ _ Hc).
        + intros k q Hk. destruct (Hall k q Hk) as (h1 & q' & Hh1 & Hh' & Hcase). exists q'. split; [done|].
          destruct Hcase as [(E & E1 & E2)|(Hne & E1 & E2)].
          * right. right. split; [by rewrite E|]. split; [done|]. split; [lia|]. exists i. split; [lia|]. exists q, g2. done.
          * rewrite E1, E2. destruct (c_st _ _ _ Hc k q Hk) as (h1' & Hh1' & Hs). assert (h1' = h1) as -> by congruence.
            destruct Hs as [?|[(A & B & C & D)|(A & B & C & l & D & E)]]; [by left| |].
            -- right. left. split; [done|]. split; [done|]. split; [done|]. destruct (decide (k = i)) as [->|]; [congruence|lia].
            -- right. right. split; [done|]. split; [done|]. split; [lia|]. exists l. split; [lia|done].
        + lia.
        + intros k k' h2 h2' q q' Hk Hk' Hh Hh' Hl2 E.
          destruct (Hall k h2 Hk) as (a1 & a & Ha1 & Ha & Ca). destruct (Hall k' h2' Hk') as (b1 & b & Hb1 & Hb & Cb).
          assert (a = q) as -> by congruence. assert (b = q') as -> by congruence.
          destruct Ca as [(A1 & A2 & A3)|(A1 & A2 & A3)]; destruct Cb as [(B1 & B2 & B3)|(B1 & B2 & B3)]; try congruence.
          * split; congruence.
          * rewrite A2, A3, B2, B3. by apply (c_same _ _ _ Hc k k' h2 h2').
        + intros k k' h2 h2' q q' Hk Hk' Hh Hh' Hl2 Hl2' Hr Hr' E.
          destruct (Hall k h2 Hk) as (a1 & a & Ha1 & Ha & Ca). destruct (Hall k' h2' Hk') as (b1 & b & Hb1 & Hb & Cb).
          assert (a = q) as -> by congruence. assert (b = q') as -> by congruence.
          assert (Hle : ∀ l c c1, regs2 !! l = Some c → live (rg_id c) → regs !! l = Some c1 → rg_remap c1 = false → rg_id c1 ≤ gen).
          { intros l c c1 Hlc Hlvc Hc1 Hrc. destruct (c_st _ _ _ Hc l c Hlc) as (c1' & Hc1' & Hs). assert (c1' = c1) as -> by congruence.
            destruct Hs as [(? & _)|[(_ & ? & _)|(_ & _ & ? & _)]]; [done|congruence|lia]. }
          destruct Ca as [(A1 & A2 & A3)|(A1 & A2 & A3)]; destruct Cb as [(B1 & B2 & B3)|(B1 & B2 & B3)]; try congruence.
          * assert (rg_id b1 ≤ gen) by (apply (Hle k' h2'); try done; congruence). lia.
          * assert (rg_id a1 ≤ gen) by (apply (Hle k h2); try done; congruence). lia.
          * apply (c_diff _ _ _ Hc k k' h2 h2' a1 b1); try done; congruence.
      - intros g2' Hg2' _ _ k q q' Hk Hlh Hne Hh' Hr. assert (g2' = g2) as -> by congruence.
        destruct (Hall k q Hk) as (a1 & a & Ha1 & Ha & Ca). assert (a = q') as -> by congruence.
        destruct Ca as [(A1 & A2 & A3)|(A1 & A2 & A3)]; [congruence|]. rewrite A2.
        destruct (c_st _ _ _ Hc k q Hk) as (c1' & Hc1' & Hs). assert (c1' = a1) as -> by congruence.
        destruct Hs as [(? & _)|[(_ & ? & _)|(_ & _ & ? & _)]]; [done|congruence|lia].
    Qed.

    (** The ids in use after compression. *)
    Record compressed (regs : list region) (gen : Z) : Prop := Compressed {
      d_len : length regs = N;
      d_gen : 0 ≤ gen < 32768;
      d_dead : ∀ k g2 g, regs2 !! k = Some g2 → regs !! k = Some g → ¬ live (rg_id g2) → rg_id g = rg_id g2;
      d_live : ∀ k g2 g, regs2 !! k = Some g2 → regs !! k = Some g → live (rg_id g2) →
        1 ≤ rg_id g ≤ gen ∧ (nxt < 32768 → Z.of_nat k ≠ nxt → rg_id g < gen);
      d_class : ∀ k k' g2 g2' g g', regs2 !! k = Some g2 → regs2 !! k' = Some g2' → regs !! k = Some g → regs !! k' = Some g' →
        live (rg_id g2) → live (rg_id g2') → rg_id g = rg_id g' ↔ rg_id g2 = rg_id g2'
    }.

    Lemma compress_ids_spec : runs (compress_ids regs2) (λ '(regs, gen), compressed regs gen).
    Proof.
      pose proof (wi_id _ _ _ _ _ HM) as Hid. pose proof (m_len _ H2) as Hl2.
      unfold compress_ids. rewrite fmap_length, Hl2. unfold N. replace (Z.to_nat (nxt + 1)) with (Z.to_nat nxt + 1)%nat by lia.
      rewrite seq_app, foldM_app. eapply runs_bind.
      { apply (foldM_seq_inv (λ i st, cinv i (fst st) (snd st)) _ 0 (Z.to_nat nxt) (_, 0)); [apply cinv_init|].
        intros i [regs gen] Hi Hc. cbn [fst snd] in Hc. eapply runs_mono; [apply compress_step_spec; [unfold N; lia|done]|].
        intros [r' g'] [? _]. done. }
      intros [regs gen] Hc. cbn [fst snd seq foldM] in *. rewrite Nat.add_0_l in *.
      eapply runs_bind; [apply compress_step_spec; [unfold N; lia|done]|].
      intros [regs' gen'] [Hc' Hlast]. cbn [foldM runs]. pose proof (c_len _ _ _ Hc') as Hl'.
      assert (Hkn : ∀ k g2, regs2 !! k = Some g2 → (k < Z.to_nat nxt + 1)%nat).
      { intros k g2 Hk. apply lookup_lt_Some in Hk. rewrite Hl2 in Hk. unfold N in Hk. lia. }
      assert (Hrm : ∀ k g2 g, regs2 !! k = Some g2 → regs' !! k = Some g → rg_remap g = false).
      { intros k g2 g Hk Hg. destruct (c_st _ _ _ Hc' k g2 Hk) as (q & Hh & Hs). assert (q = g) as -> by congruence.
        destruct Hs as [(_ & ? & _)|[(_ & _ & _ & ?)|(_ & ? & _)]]; [done| |done]. specialize (Hkn k g2 Hk). lia. }
      split; [done|apply (c_gen _ _ _ Hc')|..].
      - intros k g2 g Hk Hg Hnl. destruct (c_st _ _ _ Hc' k g2 Hk) as (q & Hh & Hs). assert (q = g) as -> by congruence.
        destruct Hs as [(_ & _ & ?)|[(? & _)|(? & _)]]; done.
      - intros k g2 g Hk Hg Hlv. destruct (c_st _ _ _ Hc' k g2 Hk) as (q & Hh & Hs). assert (q = g) as -> by congruence.
        split.
        + destruct Hs as [(? & _)|[(_ & _ & _ & ?)|(_ & _ & ? & _)]]; [done| |done]. specialize (Hkn k g2 Hk). lia.
        + intros Hn32 Hne. destruct (lookup_lt_is_Some_2 regs2 (Z.to_nat nxt)) as [gn Hgn]; [rewrite Hl2; unfold N; lia|].
          assert (rg_id gn = nxt) as En by (apply (m_last _ H2 _ _ Hgn); lia).
          apply (Hlast gn Hgn) with (k := k) (q := g2); try done.
          * unfold live. lia.
          * intros l Hl (a & b & Ha & Hb & E). assert (a = gn) as -> by congruence. rewrite En in E.
            symmetry in E. apply (m_last _ H2 _ _ Hb) in E. lia.
          * rewrite En. intros E. apply (m_last _ H2 _ _ Hk) in E. done.
          * by apply (Hrm k g2).
      - intros k k' g2 g2' g g' Hk Hk' Hg Hg' Hlv Hlv'. split.
        + intros E. apply (c_diff _ _ _ Hc' k k' g2 g2' g g'); try done; [by apply (Hrm k g2)|by apply (Hrm k' g2')].
        + intros E. by apply (c_same _ _ _ Hc' k k' g2 g2' g g').
    Qed.
  End compress.

  (** ** The whole of merging and filtering *)
  Record labelled (min_area : Z) (R' : list Z) (gen : Z) : Prop := Labelled {
    l_len : length R' = n;
    l_gen : 0 ≤ gen < 32768;
    l_border : ∀ i r r', R !! i = Some r → R' !! i = Some r' → 32768 ≤ r → r' = r;
    l_inner : ∀ i r r', R !! i = Some r → R' !! i = Some r' → r < 32768 → 0 ≤ r' ≤ gen ∧ (nxt < 32768 → 0 < r' → r' < gen);
    l_none : ∀ i r', R !! i = Some 0 → R' !! i = Some r' → r' = 0;
    l_area : ∀ i j r', R' !! i = Some r' → R' !! j = Some r' → 0 < r' < 32768 → ch_areas ch !! i = ch_areas ch !! j;
    l_conn : ∀ i j r', R' !! i = Some r' → R' !! j = Some r' → 0 < r' < 32768 → joined ch (λ l, R' !! l = Some r') i j;
    l_stack : ∀ i j r', stacked i j → R' !! i = Some r' → R' !! j = Some r' → 0 < r' < 32768 → R !! i = R !! j;
    l_pruned : ∃ regs0 regs1, collect_regions ch R (nxt + 1) = Done regs0 ∧ all_rinv regs0 ∧
      prune_regions min_area regs0 = Done regs1 ∧ pinv regs0 regs1 ∧
      ∀ i r r' g, R !! i = Some r → r < 32768 → R' !! i = Some r' → regs1 !! Z.to_nat r = Some g → r' ≠ 0 ↔ live (rg_id g)
  }.

  Lemma merge_and_filter_spec min_area ms :
    nxt + 1 ≤ 65535 →
    runs (merge_and_filter_regions ch nxt min_area ms R) (λ '(R', gen, _), labelled min_area R' gen).
  Proof.
    intros Hn. pose proof (wi_id _ _ _ _ _ HM) as Hid. unfold merge_and_filter_regions.
    unfold chk_u16, U16_MAX. rewrite chk_in by lia. cbn [obind].
    pose proof collect_regions_spec as HC0. destruct (collect_regions ch R (nxt + 1)) as [regs0| |] eqn:EC0; [|done..].
    destruct HC0 as [H0 Hcnt]. cbn [obind].
    pose proof (prune_regions_spec regs0 H0 min_area) as H1. destruct (prune_regions min_area regs0) as [regs1| |] eqn:EC1; [|done..].
    cbn [runs] in H1. cbn [obind].
    pose proof (pinv_minv regs0 regs1 Hn H0 Hcnt H1) as Hm1.
    eapply runs_bind. { apply merge_loop_spec; [done|]. rewrite (m_len _ Hm1). unfold roots.
      pose proof (filter_length (is_root regs1) (seq 0 N)) as X. rewrite seq_length in X. lia. }
    intros regs2 [Hm2 Hk12]. eapply runs_bind; [by apply compress_ids_spec|]. intros [regs3 gen] Hc.
    assert (Hdom : ∀ i r, R !! i = Some r → (32768 ≤ r ≤ 65535) ∨ (0 ≤ r < nxt)).
    { intros i r Hr. destruct (wi_dom _ _ _ _ _ HM i r Hr) as [[_ ?]|[_ ?]]; auto. }
    eapply runs_bind.
    { apply runs_ends. apply (ends_mapM False _ _ (λ i r', ∃ r, R !! i = Some r ∧
        ((32768 ≤ r ∧ r' = r) ∨ (0 ≤ r < 32768 ∧ r < nxt ∧ ∃ g2 g3, regs2 !! Z.to_nat r = Some g2 ∧ regs3 !! Z.to_nat r = Some g3 ∧ r' = rg_id g3)))).
      intros i r Hr. unfold remap_reg. destruct (Hdom i r Hr) as [Hb|Hb]; rewrite is_border_iff by lia.
      - destruct (Z.leb_spec 32768 r); [|lia]. cbn. exists r. split; [done|]. left. lia.
      - destruct (Z.leb_spec 32768 r).
        + cbn. exists r. split; [done|]. left. lia.
        + destruct (lookup_lt_is_Some_2 regs3 (Z.to_nat r)) as [g3 Hg3]. { rewrite (d_len _ _ _ Hc). unfold N. lia. }
          destruct (lookup_lt_is_Some_2 regs2 (Z.to_nat r)) as [g2 Hg2]. { rewrite (m_len _ Hm2). unfold N. lia. }
          rewrite (get_some _ _ _ Hg3). cbn. exists r. split; [done|]. right. split; [lia|]. split; [lia|]. by exists g2, g3. }
    intros R' [HlR HR]. cbn [runs].
    assert (Hlook : ∀ i r, R !! i = Some r → is_Some (R' !! i)).
    { intros i r Hr. apply lookup_lt_is_Some_2. rewrite HlR. by eapply lookup_lt_Some. }
    (* spans with an inner id *)
    assert (Hin : ∀ i r', R' !! i = Some r' → 0 < r' < 32768 → ∃ r g2 g3, R !! i = Some r ∧ live r ∧
      regs2 !! Z.to_nat r = Some g2 ∧ regs3 !! Z.to_nat r = Some g3 ∧ live (rg_id g2) ∧ r' = rg_id g3).
    { intros i r' Hr' Hlv. destruct (HR i r' Hr') as (r & Hr & [[? ?]|(Hrn & _ & g2 & g3 & Hg2 & Hg3 & ->)]); [lia|].
      exists r, g2, g3. split; [done|]. assert (live (rg_id g2)) as Hlg2.
      { destruct (decide (rg_id g2 = 0)) as [E|Hz]; [|destruct (decide (rg_id g2 < 32768))].
        - rewrite (d_dead _ _ _ Hc _ _ _ Hg2 Hg3) in Hlv; [lia|unfold live; lia].
        - unfold live. pose proof (minv_u16 _ _ _ Hm2 Hg2). lia.
        - rewrite (d_dead _ _ _ Hc _ _ _ Hg2 Hg3) in Hlv; [lia|unfold live; lia]. }
      split_and!; try done. destruct (decide (r = 0)) as [->|]; [|unfold live; lia].
      pose proof (m_zero _ Hm2 g2 Hg2) as E. rewrite E in Hlg2. unfold live in Hlg2. lia. }
    (* spans with the same inner id are in the same class *)
    assert (Hcls : ∀ i j r', R' !! i = Some r' → R' !! j = Some r' → 0 < r' < 32768 → ∃ a, live a ∧ cls regs2 i a ∧ cls regs2 j a ∧
      (∀ l, cls regs2 l a → R' !! l = Some r')).
    { intros i j r' Hi Hj Hlv. destruct (Hin i r' Hi Hlv) as (r & g2 & g3 & Hr & Hrl & Hg2 & Hg3 & Hlg & E).
      destruct (Hin j r' Hj Hlv) as (rj & h2 & h3 & Hrj & Hrjl & Hh2 & Hh3 & Hlh & Ej).
      assert (rg_id g2 = rg_id h2) as E2. { apply (d_class _ _ _ Hc _ _ _ _ _ _ Hg2 Hh2 Hg3 Hh3 Hlg Hlh). congruence. }
      exists (rg_id g2). split; [done|]. split; [by exists r, g2|]. split; [by exists rj, h2|].
      intros l (rl & k2 & Hrll & Hrlv & Hk2 & El). destruct (Hlook l rl Hrll) as [rl' Hl']. rewrite Hl'. f_equal.
      destruct (HR l rl' Hl') as (rl0 & Hrl0 & Hcase). assert (rl0 = rl) as -> by congruence. unfold live in Hrlv.
      destruct Hcase as [[? ?]|(_ & _ & k2' & k3 & Hk2' & Hk3 & ->)]; [lia|]. assert (k2' = k2) as -> by congruence.
      rewrite E. apply (d_class _ _ _ Hc _ _ _ _ _ _ Hk2 Hg2 Hk3 Hg3); [by rewrite El|done|done]. }
    split.
    - rewrite HlR. apply R_len.
    - apply (d_gen _ _ _ Hc).
    - intros i r r' Hr Hr' Hb. destruct (HR i r' Hr') as (r0 & Hr0 & Hcase). assert (r0 = r) as -> by congruence.
      destruct Hcase as [[_ ?]|(? & _)]; [done|lia].
    - intros i r r' Hr Hr' Hb. destruct (HR i r' Hr') as (r0 & Hr0 & Hcase). assert (r0 = r) as -> by congruence.
      destruct Hcase as [[? ?]|(_ & Hrn & g2 & g3 & Hg2 & Hg3 & ->)]; [lia|]. pose proof (d_gen _ _ _ Hc).
      destruct (Hdom i r Hr) as [?|Hr0']; [lia|].
      destruct (m_range _ Hm2 _ _ Hg2) as [E|[[E _]|(_ & Hlv & _)]].
      + rewrite (d_dead _ _ _ Hc _ _ _ Hg2 Hg3), E by (unfold live; lia). lia.
      + lia.
      + destruct (d_live _ _ _ Hc _ _ _ Hg2 Hg3 Hlv) as [? Hs]. split; [lia|]. intros Hn32 _. apply Hs; [done|lia].
    - intros i r' Hr Hr'. destruct (HR i r' Hr') as (r0 & Hr0 & Hcase). assert (r0 = 0) as -> by congruence.
      destruct Hcase as [[? ?]|(_ & Hrn & g2 & g3 & Hg2 & Hg3 & ->)]; [lia|].
      pose proof (m_zero _ Hm2 g2 Hg2) as E. rewrite (d_dead _ _ _ Hc _ _ _ Hg2 Hg3); [done|unfold live; lia].
    - intros i j r' Hi Hj Hlv. destruct (Hcls i j r' Hi Hj Hlv) as (a & Ha & (ri & gi & Hri & Hril & Hgi & Ei) & (rj & gj & Hrj & Hrjl & Hgj & Ej) & _).
      rewrite (m_span _ Hm2 i ri gi Hri Hril Hgi), (m_span _ Hm2 j rj gj Hrj Hrjl Hgj). f_equal.
      apply (m_area _ Hm2 _ _ _ _ Hgi Hgj); [by rewrite Ei|congruence].
    - intros i j r' Hi Hj Hlv. destruct (Hcls i j r' Hi Hj Hlv) as (a & Ha & Hci & Hcj & Hall).
      eapply joined_mono; [|by apply (m_conn _ Hm2 i j a)]. done.
    - intros i j r' Hs Hi Hj Hlv. destruct (Hcls i j r' Hi Hj Hlv) as (a & Ha & Hci & Hcj & _). by apply (m_stack _ Hm2 i j a).
    - exists regs0, regs1. split; [done|]. split; [done|]. split; [done|]. split; [done|]. intros i r r' g Hr Hr32 Hr' Hg.
      destruct (HR i r' Hr') as (r0 & Hr0 & Hcase). assert (r0 = r) as -> by congruence.
      destruct Hcase as [[? ?]|(_ & Hrn & g2 & g3 & Hg2 & Hg3 & ->)]; [lia|].
      destruct (Hk12 _ _ Hg) as (g2' & Hg2' & Hlv). assert (g2' = g2) as -> by congruence. rewrite Hlv.
      split.
      + intros Hne. destruct (m_range _ Hm2 _ _ Hg2) as [E|[[E _]|(_ & Hl & _)]]; [|lia|done]. exfalso. apply Hne.
        rewrite (d_dead _ _ _ Hc _ _ _ Hg2 Hg3); [done|]. unfold live. lia.
      + intros Hl. destruct (d_live _ _ _ Hc _ _ _ Hg2 Hg3 Hl) as [? _]. lia.
  Qed.
End regions.

(** ** The whole of region building *)
Section build.
  Context (ch : chf) (Hwf : wf_chf ch).
  Hypothesis (Hw16 : Z.of_nat (ch_w ch) ≤ 65535) (Hh16 : Z.of_nat (ch_h ch) ≤ 65535).
  Hypothesis (HD : has_distances ch).
  Let n := length (ch_spans ch).

  Definition built (b ma : Z) (ch' : chf) : Prop :=
    same_but_regions ch ch' ∧ ch_border ch' = b ∧
    ∃ M id R', watershed ch b = Done (Some (M, id)) ∧ winv ch (painted ch b) (base_id b) M id ∧ labelled ch M id ma R' (ch_maxreg ch') ∧
      ∀ i, region_of ch' i = R' !! i.

  Lemma write_regions_spec R' spans :
    length R' = length spans →
    runs (foldM (λ i spans,
      let! r := get R' i in
      let! s := get spans i in
      put spans i (set_region s r)) (seq 0 (length spans)) spans) (λ spans',
        length spans' = length spans ∧
        ∀ i s, spans !! i = Some s → ∃ r, R' !! i = Some r ∧ spans' !! i = Some (CS (cs_y s) r (cs_data s))).
  Proof.
    intros Hl. eapply runs_mono.
    { apply (foldM_seq_inv (λ j spans', length spans' = length spans ∧
        ∀ i s, spans !! i = Some s → ∃ r, R' !! i = Some r ∧
          spans' !! i = Some (if decide (i < j)%nat then CS (cs_y s) r (cs_data s) else s))).
      - split; [done|]. intros i s Hs. destruct (lookup_lt_is_Some_2 R' i) as [r Hr]; [rewrite Hl; by eapply lookup_lt_Some|].
        exists r. split; [done|]. by rewrite decide_False by lia.
      - intros j sp Hj [Hlen H]. destruct (lookup_lt_is_Some_2 spans j ltac:(lia)) as [s Hs].
        destruct (H j s Hs) as (r & Hr & Hsp). rewrite decide_False in Hsp by lia.
        rewrite (get_some _ _ _ Hr). cbn [obind]. rewrite (get_some _ _ _ Hsp). cbn [obind].
        assert (j < length sp)%nat as Hjl by (by eapply lookup_lt_Some). rewrite (put_lt _ _ _ Hjl). cbn [runs].
        rewrite insert_length. split; [done|]. intros i s' Hs'. destruct (H i s' Hs') as (r' & Hr' & Hsp'). exists r'. split; [done|].
        destruct (decide (i = j)) as [->|Hij].
        + rewrite list_lookup_insert by done. rewrite decide_True by lia. assert (r' = r) as -> by congruence.
          assert (s' = s) as -> by congruence. done.
        + rewrite list_lookup_insert_ne by done. rewrite Hsp'. f_equal. do 2 case_decide; try done; lia. }
    cbn. intros sp [Hlen H]. split; [done|]. intros i s Hs. destruct (H i s Hs) as (r & Hr & Hsp). exists r. split; [done|].
    rewrite decide_True in Hsp; [done|]. by eapply lookup_lt_Some.
  Qed.

  Lemma build_regions_spec b ma ms :
    ends (32768 ≤ Z.of_nat n ∨ 65535 ≤ ch_maxdist ch) (build_regions ch b ma ms) (λ res,
      match res with
      | None => 65535 ≤ base_id b + Z.of_nat n
      | Some ch' => built b ma ch'
      end).
  Proof.
    destruct (decide (65535 ≤ ch_maxdist ch)) as [Hbig|Hsmall].
    { unfold build_regions, watershed, chk_u16, chk, U16_MAX. destruct (Z.leb_spec (ch_maxdist ch + 1) 65535); [lia|].
      rewrite andb_false_r. cbn. by right. }
    unfold build_regions. pose proof (proj2 HD) as HD2.
    pose proof (watershed_spec ch Hwf Hw16 Hh16 (proj1 HD) b ltac:(lia)) as Hres.
    destruct (watershed ch b) as [res| |] eqn:EW; [|by left|done]. cbn [obind]. cbn in Hres.
    destruct res as [[M id]|]; [|by cbn].
    assert (HidB : id + 1 ≤ 65535 ∨ 32768 ≤ Z.of_nat n).
    { pose proof (wi_id _ _ _ _ _ Hres) as (? & ? & ?). pose proof (cnt_bound (m_reg M)) as Hc.
      rewrite (wi_lenR _ _ _ _ _ Hres) in Hc. unfold base_id in *. destruct (0 <? b); unfold n; lia. }
    destruct (decide (id + 1 ≤ 65535)) as [Hid|Hid].
    2:{ unfold merge_and_filter_regions, chk_u16, chk, U16_MAX. destruct (Z.leb_spec (id + 1) 65535); [lia|].
        rewrite andb_false_r. cbn. left. lia. }
    apply ends_runs. eapply runs_bind; [by eapply merge_and_filter_spec|]. intros [[R' gen] ov] HL.
    eapply runs_bind. { apply write_regions_spec. rewrite (l_len _ _ _ _ _ _ HL). done. }
    intros sp [Hsl Hsp]. cbn [runs]. split.
    - unfold same_but_regions. cbn. split_and!; try done. intros i s Hs. destruct (Hsp i s Hs) as (r & _ & ?). by exists r.
    - split; [done|]. exists M, id, R'. split; [done|]. split; [done|]. split; [done|]. intros i. unfold region_of. cbn.
      destruct (ch_spans ch !! i) as [s|] eqn:Es.
      + destruct (Hsp i s Es) as (r & -> & ->). done.
      + apply lookup_ge_None in Es. rewrite (proj2 (lookup_ge_None sp i)) by lia.
        rewrite (proj2 (lookup_ge_None R' i)); [done|]. rewrite (l_len _ _ _ _ _ _ HL). lia.
  Qed.
End build.
