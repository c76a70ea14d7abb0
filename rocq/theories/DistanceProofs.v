(** Erosion and the distance field: refinement of the sweeps to path weights. *)
From Verif Require Import Base ModelMath ModelHeightfield ModelFilters ModelCompact ModelDistance
  SpecHeightfield SpecCompact SpecDistance CompactProofs LinkProofs PackProofs GraphProofs SweepProofs.
Local Open Scope Z_scope.

Section dist.
  Context (ch : chf) (Hwf : wf_chf ch).
  Context (Hw16 : Z.of_nat (ch_w ch) ≤ 65535) (Hh16 : Z.of_nat (ch_h ch) ≤ 65535).
  Let w := ch_w ch.
  Let h := ch_h ch.
  Let n := length (ch_spans ch).

  Lemma con_step c i d s :
    in_cell ch c i → (d < 4)%nat → ch_spans ch !! i = Some s →
    ∃ o, con s d = Done o ∧
    match o with
    | None => ∀ j, ¬ step ch i d j
    | Some v => ∃ c' j, step ch i d j ∧ in_cell ch c' j ∧
        nb_index ch (c mod w) (c / w) d v = Done ((c' mod w)%nat, (c' / w)%nat, j)
    end.
  Proof.
    intros Hin Hd Hs. destruct (con_nbr ch Hwf c i d s Hw16 Hh16 Hin Hd Hs) as (o & Hc & Ho).
    exists o. split; [done|]. destruct o as [v|].
    - destruct Ho as (c' & j & Hn & Hin' & E). exists c', j. split; [|done].
      by apply (nbr_step ch Hwf c i d c').
    - intros j Hj. destruct (proj1 (step_nbr ch Hwf c i d j Hin Hd) Hj) as (c' & ?). congruence.
  Qed.

  Lemma in_cell_span c i : in_cell ch c i → ∃ s, ch_spans ch !! i = Some s.
  Proof. intros Hin. apply lookup_lt_is_Some_2. by eapply in_cell_bound. Qed.

  Lemma step_span i d j : (d < 4)%nat → step ch i d j → (j < n)%nat.
  Proof. intros Hd Hs. by apply (step_bound ch Hwf i d j). Qed.

  (** A loop over all spans in which span [i] overwrites its own entry only. *)
  Lemma for_spans_all f (init : list Z) (R : nat → Z → Prop) :
    length init = n →
    (∀ c i, in_cell ch c i → ∃ v, R i v ∧ ∀ D, length D = n → D !!! i = init !!! i →
       f (c mod w)%nat (c / w)%nat i D = Done (<[i := v]> D)) →
    runs (for_cells w h (for_spans ch f) init)
      (λ D, length D = n ∧ ∀ i, (i < n)%nat → R i (D !!! i)).
  Proof.
    intros Hlen Hf. eapply runs_mono.
    { apply (for_cells_inv' (λ k D, length D = n ∧ ∀ c i, in_cell ch c i →
        if decide (c < k)%nat then R i (D !!! i) else D !!! i = init !!! i)).
      - split; [done|]. intros. by rewrite decide_False by lia.
      - intros c D Hc [HlenD HD]. unfold for_spans.
        assert (c < length (ch_cells ch))%nat as Hcl by (rewrite (cells_len ch Hwf); done).
        destruct (lookup_lt_is_Some_2 _ _ Hcl) as [cell Hcell].
        pose proof (cell_at_some ch c cell Hc Hcell) as Hat. fold w in Hat. rewrite Hat. cbn [obind].
        eapply runs_mono.
        { apply (foldM_inv (λ pre D', length D' = n ∧ ∀ c' i, in_cell ch c' i →
            if decide (c' < c ∨ i ∈ pre)%nat then R i (D' !!! i) else D' !!! i = init !!! i)).
          - split; [done|]. intros c' i Hin. specialize (HD _ _ Hin). case_decide.
            + by rewrite decide_True by (by left).
            + rewrite decide_False; [done|]. intros [?|?%elem_of_nil]; done.
          - intros pre i post D' Epre [HlenD' HD'].
            assert (Hin : in_cell ch c i). { exists cell. split; [done|]. rewrite Epre. set_solver. }
            assert (Hnot : i ∉ pre).
            { pose proof (NoDup_seq (cc_index cell) (cc_count cell)) as Hnd. unfold index_range in Epre.
              rewrite Epre in Hnd. apply NoDup_app in Hnd as (_ & Hx & _). intros Hi. apply (Hx i Hi). left. }
            destruct (Hf c i Hin) as (v & HR & Hv). rewrite Hv; [|done|].
            2:{ specialize (HD' _ _ Hin). rewrite decide_False in HD'; [done|].
                intros [?|?]; [lia|done]. }
            cbn [runs]. rewrite insert_length. split; [done|]. intros c' i' Hin'.
            destruct (decide (i' = i)) as [->|Hne].
            + rewrite list_lookup_total_insert by (rewrite HlenD'; by eapply in_cell_bound).
              rewrite decide_True by set_solver. done.
            + rewrite list_lookup_total_insert_ne by done. specialize (HD' _ _ Hin').
              case_decide.
              * by rewrite decide_True by set_solver.
              * by rewrite decide_False by set_solver. }
        intros D' [HlenD' HD']. split; [done|]. intros c' i Hin. specialize (HD' _ _ Hin).
        destruct (decide (c' < c + 1)%nat).
        + rewrite decide_True in HD'; [done|].
          destruct (decide (c' = c)) as [->|]; [|left; lia]. right.
          destruct Hin as (cell' & Hc' & Hi). rewrite Hcell in Hc'. by injection Hc' as <-.
        + rewrite decide_False in HD'; [done|]. intros [?|Hi]; [lia|].
          assert (c' = c); [|lia]. apply (in_cell_unique ch Hwf c' c i Hin). by exists cell. }
    intros D [HlenD HD]. split; [done|]. intros i Hi.
    destruct (in_cell_ex ch Hwf i Hi) as [c Hin]. specialize (HD _ _ Hin).
    rewrite decide_True in HD; [done|]. by apply (in_cell_lt ch Hwf c i).
  Qed.

  (** *** Erosion *)
  Lemma walkable_nbs_spec c i s ds m :
    in_cell ch c i → ch_spans ch !! i = Some s → (∀ d, d ∈ ds → (d < 4)%nat) →
    ∃ k, walkable_nbs ch (c mod w) (c / w) s ds m = Done (m + k)%nat ∧
      ((k = length ds ∧ ∀ d, d ∈ ds → ∃ j, step ch i d j ∧ ch_areas ch !! j ≠ Some 0) ∨
       ((k < length ds)%nat ∧ ∃ d, d ∈ ds ∧ ∀ j, step ch i d j → ch_areas ch !! j = Some 0)).
  Proof.
    intros Hin Hs. revert m. induction ds as [|d ds IH]; intros m Hds.
    - exists 0%nat. cbn. rewrite Nat.add_0_r. split; [done|]. left. split; [done|].
      intros d Hd. by apply elem_of_nil in Hd.
    - cbn [walkable_nbs length]. assert (Hd : (d < 4)%nat) by (apply Hds; left).
      destruct (con_step c i d s Hin Hd Hs) as (o & -> & Ho). cbn [obind].
      destruct o as [v|].
      2:{ exists 0%nat. rewrite Nat.add_0_r. split; [done|]. right. split; [lia|].
          exists d. split; [left|]. intros j Hj. by apply Ho in Hj. }
      destruct Ho as (c' & j & Hj & Hin' & ->). cbn [obind].
      pose proof (in_cell_bound ch Hwf c' j Hin') as Hjn. rewrite <-(wf_areas _ Hwf) in Hjn.
      destruct (lookup_lt_is_Some_2 _ _ Hjn) as [a Ha]. rewrite (get_some _ _ _ Ha). cbn [obind].
      unfold is_walkable, NOT_WALKABLE. destruct (a =? 0) eqn:E; cbn [negb].
      + exists 0%nat. rewrite Nat.add_0_r. split; [done|]. right. split; [lia|].
        exists d. split; [left|]. intros j' Hj'. rewrite (step_fun ch Hwf i d j' j Hd Hj' Hj), Ha.
        f_equal. lia.
      + destruct (IH (m + 1)%nat) as (k & -> & Hk); [intros; apply Hds; by right|].
        exists (S k). split; [f_equal; lia|].
        destruct Hk as [[-> Hk]|[Hk (d' & Hd' & Hr)]].
        * left. split; [done|]. intros d' [->|Hd']%elem_of_cons; [|by apply Hk].
          exists j. split; [done|]. rewrite Ha. intros [= ->]. done.
        * right. split; [lia|]. exists d'. split; [by right|done].
  Qed.

  Definition seed_ok (goal : nat → Prop) (top : Z) (D : list Z) : Prop :=
    length D = n ∧ ∀ i, (i < n)%nat → (D !!! i = 0 ∧ goal i) ∨ (D !!! i = top ∧ ¬ goal i).

  Lemma repeat_total (a : Z) k i : (i < k)%nat → repeat a k !!! i = a.
  Proof. intros. apply list_lookup_total_correct. by apply repeat_lookup. Qed.

  Lemma mark_erosion_spec :
    runs (for_cells w h (for_spans ch (mark_erosion ch)) (repeat 255 n)) (seed_ok (rim ch) 255).
  Proof.
    apply (for_spans_all _ _ (λ i v, v = 0 ∧ rim ch i ∨ v = 255 ∧ ¬ rim ch i)); [apply repeat_length|].
    intros c i Hin. pose proof (in_cell_bound ch Hwf c i Hin) as Hi. rewrite repeat_total by done.
    pose proof Hi as Hi2. rewrite <-(wf_areas _ Hwf) in Hi2.
    destruct (lookup_lt_is_Some_2 _ _ Hi2) as [a Ha].
    destruct (in_cell_span c i Hin) as [s Hs]. unfold mark_erosion.
    rewrite (get_some _ _ _ Ha). cbn [obind]. unfold is_walkable, NOT_WALKABLE.
    destruct (a =? 0) eqn:E; cbn [negb].
    { exists 0. split; [left; split; [done|]; split; [done|left; rewrite Ha; f_equal; lia]|].
      intros. apply put_lt. unfold n in *. lia. }
    rewrite (get_some _ _ _ Hs). cbn [obind].
    destruct (walkable_nbs_spec c i s (seq 0 4) 0 Hin Hs) as (k & -> & Hk).
    { intros d Hd. apply elem_of_seq in Hd. lia. }
    cbn [obind Nat.add]. rewrite seq_length in Hk. destruct Hk as [[-> Hk]|[Hk (d & Hd & Hr)]].
    - exists 255. split.
      + right. split; [done|]. intros (_ & [Hr|(d & Hd & Hr)]).
        * rewrite Ha in Hr. injection Hr as ->. done.
        * destruct (Hk d) as (j & Hj & Hne).
          { apply elem_of_seq. lia. }
          by apply Hne, Hr.
      + intros D HD HDi. cbn [Nat.eqb]. f_equal. symmetry. apply list_insert_id.
        rewrite <-HDi. apply list_lookup_lookup_total_lt. unfold n in *. lia.
    - replace (k =? 4)%nat with false by lia. exists 0. split.
      + left. split; [done|]. split; [done|]. right. exists d. split; [|done].
        apply elem_of_seq in Hd. lia.
      + intros. apply put_lt. unfold n in *. lia.
  Qed.

  (** Path weights from the equations of the two sweeps. *)
  Lemma sweeps_chamfer goal top seed D1 D2 :
    seed_ok goal top seed →
    (∀ c i, in_cell ch c i → D1 !!! i = best D1 (seed !!! i) (moves ch 0 3 3 2 c i)) →
    (∀ c i, in_cell ch c i → D2 !!! i = best D2 (D1 !!! i) (moves ch 2 1 1 0 c i)) →
    ∀ i, (i < n)%nat →
    (D2 !!! i < top → chamfer ch goal i (D2 !!! i)) ∧
    (∀ wt, chamfer ch goal i wt → D2 !!! i ≤ wt).
  Proof.
    intros [Hsl Hseed] H1 H2 i Hi.
    assert (P1 := solve_paths ch (backward ch) (moves ch 0 3 3 2) (λ c, c) seed D1
      (λ c i j wt Hin, moves_backward ch Hwf c i j wt Hin)
      (λ c i j wt Hin Hj, proj2 (back_before ch Hwf c i j wt Hin Hj)) H1).
    assert (P2 : ∀ c i, in_cell ch c i →
      (∃ b wt, wpath (forward ch) i b wt ∧ D2 !!! i = D1 !!! b + wt) ∧
      (∀ b wt, wpath (forward ch) i b wt → D2 !!! i ≤ D1 !!! b + wt)).
    { apply (solve_paths ch (forward ch) (moves ch 2 1 1 0) (λ c, w * h - c)%nat).
      - intros. by apply moves_forward.
      - intros c i' j wt Hin Hj. destruct (proj2 (forw_before ch Hwf c i' j wt Hin Hj)) as (c' & Hin' & Hlt).
        exists c'. split; [done|]. pose proof (in_cell_lt ch Hwf c' j Hin'). unfold w, h. lia.
      - done. }
    assert (Hend : ∀ (mv : nat → nat → Z → Prop) i b wt, (∀ i j d, mv i j d → (j < n)%nat) → (i < n)%nat → wpath mv i b wt → (b < n)%nat).
    { intros mv i' b wt Hmv Hi' Hp. induction Hp as [|? ? ? ? ? Hm ? IH]; [done|]. apply IH. by eapply Hmv. }
    assert (Hc : ∀ d1 d2 i j wt, (d1 < 4)%nat → (d2 < 4)%nat → corner ch d1 d2 i j wt → (j < n)%nat).
    { intros d1 d2 i' j wt Hd1 Hd2 [[Hs _]|(m & _ & Hs & _)]; [by apply (step_span i' d1)|by apply (step_span m d2)]. }
    assert (Hf : ∀ i j d, forward ch i j d → (j < n)%nat).
    { intros i' j d [Hm|Hm]; [apply (Hc 2%nat 1%nat i' j d)|apply (Hc 1%nat 0%nat i' j d)]; done || lia. }
    assert (Hb : ∀ i j d, backward ch i j d → (j < n)%nat).
    { intros i' j d [Hm|Hm]; [apply (Hc 0%nat 3%nat i' j d)|apply (Hc 3%nat 2%nat i' j d)]; done || lia. }
    destruct (in_cell_ex ch Hwf i Hi) as [c Hin]. destruct (P2 c i Hin) as [(m & w1 & Hp1 & E1) Hle1].
    split.
    - intros Hlt. assert (Hm : (m < n)%nat) by (by eapply (Hend _ _ _ _ Hf)).
      destruct (in_cell_ex ch Hwf m Hm) as [cm Hinm]. destruct (P1 cm m Hinm) as [(b & w2 & Hp2 & E2) _].
      assert (Hbn : (b < n)%nat) by (by eapply (Hend _ _ _ _ Hb)).
      assert (0 ≤ w1). { eapply wpath_nonneg; [|exact Hp1]. intros ??? [->| ->]%forward_weight; lia. }
      assert (0 ≤ w2). { eapply wpath_nonneg; [|exact Hp2]. intros ??? [->| ->]%backward_weight; lia. }
      destruct (Hseed b Hbn) as [[Eb Hg]|[Eb Hg]]; [|lia].
      exists m, b, w1, w2. split_and!; [done..|lia].
    - intros wt (m' & b & w1' & w2' & Hp1' & Hp2' & Hg & ->).
      assert (Hm : (m' < n)%nat) by (by eapply (Hend _ _ _ _ Hf)).
      destruct (in_cell_ex ch Hwf m' Hm) as [cm Hinm]. destruct (P1 cm m' Hinm) as [_ Hle2].
      assert (Hbn : (b < n)%nat) by (by eapply (Hend _ _ _ _ Hb)).
      specialize (Hle1 _ _ Hp1'). specialize (Hle2 _ _ Hp2').
      destruct (Hseed b Hbn) as [[Eb _]|[_ Hn]]; [lia|done].
  Qed.

  Lemma erosion_distance seed :
    seed_ok (rim ch) 255 seed →
    runs (sweeps add_sat_u8 ch seed) (λ D, length D = n ∧ ∀ i, (i < n)%nat →
      (D !!! i < 255 → chamfer ch (rim ch) i (D !!! i)) ∧
      (∀ wt, chamfer ch (rim ch) i wt → D !!! i ≤ wt)).
  Proof.
    intros Hseed. pose proof Hseed as [Hsl Hs].
    eapply runs_mono.
    { apply (sweeps_spec ch Hwf Hw16 Hh16 add_sat_u8 255 (λ _ v, 0 ≤ v) (λ _ v, 0 ≤ v) seed Hsl).
      - intros i Hi. destruct (Hs i Hi) as [[-> _]|[-> _]]; lia.
      - intros c v wt Hv Hw. apply good_add_sat; lia.
      - intros c v wt Hv Hw. apply good_add_sat; lia.
      - intros c i D Hin HB. destruct (best_attained D (seed !!! i) (moves ch 0 3 3 2 c i)) as [->|([j wt] & Hj & ->)].
        + pose proof (in_cell_bound ch Hwf c i Hin) as Hi. destruct (Hs i Hi) as [[-> _]|[-> _]]; lia.
        + destruct (back_before ch Hwf c i j wt Hin Hj) as (Hw & c' & Hin' & _).
          specialize (HB j wt c' Hj Hin'). cbn. lia.
      - intros c i D v Hin Hv HB. destruct (best_attained D v (moves ch 2 1 1 0 c i)) as [->|([j wt] & Hj & ->)]; [done|].
        destruct (forw_before ch Hwf c i j wt Hin Hj) as (Hw & c' & Hin' & _).
        specialize (HB j wt c' Hj Hin'). cbn. lia. }
    intros D2 (Hl & D1 & Hl1 & H1 & H2). split; [done|].
    apply (sweeps_chamfer (rim ch) 255 seed D1 D2 Hseed).
    - intros. by apply H1.
    - intros. by apply H2.
  Qed.

  Lemma erode_areas_spec (D A : list Z) t :
    length D = n → length A = n →
    runs (foldM (λ i A, let! d := get D i in if d <? t then put A i NOT_WALKABLE else Done A) (seq 0 n) A)
      (λ A', length A' = n ∧ ∀ i, (i < n)%nat → A' !! i = if D !!! i <? t then Some 0 else A !! i).
  Proof.
    intros HD HA. eapply runs_mono.
    { apply (foldM_seq_inv (λ k A', length A' = n ∧
        ∀ i, (i < n)%nat → A' !! i = if (i <? k)%nat && (D !!! i <? t) then Some 0 else A !! i)).
      - split; [done|]. intros. done.
      - intros k A' Hk [Hl HA']. rewrite (get_some D k (D !!! k)) by (apply list_lookup_lookup_total_lt; lia).
        cbn [obind]. destruct (D !!! k <? t) eqn:Et.
        + rewrite put_lt by lia. cbn [runs]. rewrite insert_length. split; [done|].
          intros i Hi. destruct (decide (i = k)) as [->|].
          * rewrite list_lookup_insert by lia. rewrite Et. by replace (k <? k + 1)%nat with true by lia.
          * rewrite list_lookup_insert_ne by done. rewrite HA' by done.
            by replace (i <? k + 1)%nat with (i <? k)%nat by lia.
        + cbn [runs]. split; [done|]. intros i Hi. rewrite HA' by done.
          destruct (decide (i = k)) as [->|].
          * rewrite Et. by rewrite !andb_false_r.
          * by replace (i <? k + 1)%nat with (i <? k)%nat by lia. }
    intros A' [Hl HA']. split; [done|]. intros i Hi. rewrite HA' by done.
    by replace (i <? 0 + n)%nat with true by lia.
  Qed.

  Lemma erode_spec r : 0 ≤ r → r * 2 ≤ 65535 →
    runs (erode_walkable_area ch r) (λ ch', ∃ A, ch' = ch_set_areas ch A ∧ length A = n ∧
      ∀ i, (i < n)%nat →
        ((∃ wt, chamfer ch (rim ch) i wt ∧ wt < (2 * r) mod 256) ∧ A !! i = Some 0) ∨
        (¬ (∃ wt, chamfer ch (rim ch) i wt ∧ wt < (2 * r) mod 256) ∧ A !! i = ch_areas ch !! i)).
  Proof.
    intros Hr0 Hr. unfold erode_walkable_area.
    eapply runs_bind; [apply mark_erosion_spec|]. intros seed Hseed.
    eapply runs_bind; [by apply erosion_distance|]. intros D [HlD HD].
    unfold chk_u16. rewrite chk_in by (unfold U16_MAX; lia). cbn [obind].
    eapply runs_bind; [apply erode_areas_spec; [done|apply (wf_areas _ Hwf)]|].
    intros A [HlA HA]. cbn [runs]. exists A. split_and!; [done..|].
    intros i Hi. rewrite HA by done. unfold wrap_u8. replace (r * 2) with (2 * r) by lia.
    destruct (HD i Hi) as [Hch Hle].
    assert ((2 * r) mod 256 ≤ 254).
    { replace 256 with (2 * 128) by lia. rewrite Z.mul_mod_distr_l by lia.
      pose proof (Z.mod_pos_bound r 128). lia. }
    destruct (D !!! i <? (2 * r) mod 256) eqn:E.
    - left. split; [|done]. exists (D !!! i). split; [apply Hch; lia|lia].
    - right. split; [|done]. intros (wt & Hwt & Hlt). specialize (Hle wt Hwt). lia.
  Qed.

  Lemma erode_panics r : 65535 < r * 2 → erode_walkable_area ch r = Panicked.
  Proof.
    intros Hr. unfold erode_walkable_area.
    destruct (proj1 (runs_done _ _) mark_erosion_spec) as (seed & E & Hseed).
    fold w h n. rewrite E. cbn [obind].
    destruct (proj1 (runs_done _ _) (erosion_distance seed Hseed)) as (D & E2 & _).
    rewrite E2. cbn [obind]. unfold chk_u16, chk, U16_MAX.
    replace (r * 2 <=? 65535) with false by lia. by rewrite andb_false_r.
  Qed.

  (** *** Distance field *)
  Lemma same_area_nbs_spec c i s a ds m :
    in_cell ch c i → ch_spans ch !! i = Some s → ch_areas ch !! i = Some a →
    (∀ d, d ∈ ds → (d < 4)%nat) →
    ∃ k, same_area_nbs ch (c mod w) (c / w) s a ds m = Done (m + k)%nat ∧
      ((k = length ds ∧ ∀ d, d ∈ ds → ∃ j, step ch i d j ∧ ch_areas ch !! j = ch_areas ch !! i) ∨
       ((k < length ds)%nat ∧ ∃ d, d ∈ ds ∧ ∀ j, step ch i d j → ch_areas ch !! j ≠ ch_areas ch !! i)).
  Proof.
    intros Hin Hs Hai. rewrite Hai. revert m. induction ds as [|d ds IH]; intros m Hds.
    - exists 0%nat. cbn. rewrite Nat.add_0_r. split; [done|]. left. split; [done|].
      intros d Hd. by apply elem_of_nil in Hd.
    - cbn [same_area_nbs length]. assert (Hd : (d < 4)%nat) by (apply Hds; left).
      destruct (con_step c i d s Hin Hd Hs) as (o & -> & Ho). cbn [obind].
      destruct o as [v|].
      2:{ destruct (IH m) as (k & -> & Hk); [intros; apply Hds; by right|].
          exists k. split; [done|]. right. split; [destruct Hk as [[? _]|[? _]]; lia|].
          exists d. split; [left|]. intros j Hj. by apply Ho in Hj. }
      destruct Ho as (c' & j & Hj & Hin' & ->). cbn [obind].
      pose proof (in_cell_bound ch Hwf c' j Hin') as Hjn. rewrite <-(wf_areas _ Hwf) in Hjn.
      destruct (lookup_lt_is_Some_2 _ _ Hjn) as [aj Ha]. rewrite (get_some _ _ _ Ha). cbn [obind].
      destruct (a =? aj) eqn:E.
      + destruct (IH (S m)) as (k & -> & Hk); [intros; apply Hds; by right|].
        exists (S k). split; [f_equal; lia|].
        destruct Hk as [[-> Hk]|[Hk (d' & Hd' & Hr)]].
        * left. split; [done|]. intros d' [->|Hd']%elem_of_cons; [|by apply Hk].
          exists j. split; [done|]. rewrite Ha. f_equal. lia.
        * right. split; [lia|]. exists d'. split; [by right|done].
      + destruct (IH m) as (k & -> & Hk); [intros; apply Hds; by right|].
        exists k. split; [done|]. right. split; [destruct Hk as [[? _]|[? _]]; lia|].
        exists d. split; [left|]. intros j' Hj'. rewrite (step_fun ch Hwf i d j' j Hd Hj' Hj), Ha.
        intros [= ->]. lia.
  Qed.

  Lemma mark_distance_spec :
    runs (for_cells w h (for_spans ch (mark_distance ch)) (repeat 65535 n))
      (seed_ok (area_border ch) 65535).
  Proof.
    apply (for_spans_all _ _ (λ i v, v = 0 ∧ area_border ch i ∨ v = 65535 ∧ ¬ area_border ch i)); [apply repeat_length|].
    intros c i Hin. pose proof (in_cell_bound ch Hwf c i Hin) as Hi. rewrite repeat_total by done.
    pose proof Hi as Hi2. rewrite <-(wf_areas _ Hwf) in Hi2.
    destruct (lookup_lt_is_Some_2 _ _ Hi2) as [a Ha].
    destruct (in_cell_span c i Hin) as [s Hs]. unfold mark_distance.
    rewrite (get_some _ _ _ Hs), (get_some _ _ _ Ha). cbn [obind].
    destruct (same_area_nbs_spec c i s a (seq 0 4) 0 Hin Hs Ha) as (k & -> & Hk).
    { intros d Hd. apply elem_of_seq in Hd. lia. }
    cbn [obind Nat.add]. rewrite seq_length in Hk. destruct Hk as [[-> Hk]|[Hk (d & Hd & Hr)]].
    - exists 65535. split.
      + right. split; [done|]. intros (_ & d & Hd & Hr).
        destruct (Hk d) as (j & Hj & Hne).
        { apply elem_of_seq. lia. }
        by apply (Hr j).
      + intros D HD HDi. change (4 <? 4)%nat with false. f_equal. symmetry. apply list_insert_id.
        rewrite <-HDi. apply list_lookup_lookup_total_lt. unfold n in *. lia.
    - replace (k <? 4)%nat with true by lia. exists 0. split.
      + left. split; [done|]. split; [done|]. exists d. split; [|done].
        apply elem_of_seq in Hd. lia.
      + intros. apply put_lt. unfold n in *. lia.
  Qed.

  (** The value of a span is bounded by its distance to the low edges of the
      field, so the checked additions never overflow. *)
  Definition low_bound (c : nat) (v : Z) : Prop :=
    (c < w * h)%nat ∧ 0 ≤ v ≤ 2 * Z.min (Z.of_nat (c mod w)) (Z.of_nat (c / w)).

  Lemma calculate_spec :
    Z.min (Z.of_nat w) (Z.of_nat h) ≤ 32767 →
    runs (calculate_distance_field ch) (λ D, length D = n ∧ ∀ i, (i < n)%nat →
      (0 ≤ D !!! i ≤ 65532) ∧ chamfer ch (area_border ch) i (D !!! i) ∧
      (∀ wt, chamfer ch (area_border ch) i wt → D !!! i ≤ wt)
      ∧ (∀ j, step ch i 2 j → D !!! i ≤ D !!! j + 2)).
  Proof.
    intros Hmin. unfold calculate_distance_field.
    eapply runs_bind; [apply mark_distance_spec|]. intros seed Hseed. pose proof Hseed as [Hsl Hs].
    assert (Hlow : ∀ c v, low_bound c v → 0 ≤ v ≤ 65532).
    { intros c v [Hc Hv]. destruct (cell_coords ch c Hc) as (Hw & Hx & Hz & Ec). unfold w, h in *. lia. }
    eapply runs_mono.
    { apply (sweeps_spec ch Hwf Hw16 Hh16 add_chk_u16 65535 low_bound low_bound seed Hsl).
      - intros i Hi. destruct (Hs i Hi) as [[-> _]|[-> _]]; lia.
      - intros c v wt Hv Hw. apply Hlow in Hv. apply good_add_chk; lia.
      - intros c v wt Hv Hw. apply Hlow in Hv. apply good_add_chk; lia.
      - intros c i D Hin HB. pose proof (in_cell_bound ch Hwf c i Hin) as Hi.
        pose proof (in_cell_lt ch Hwf c i Hin) as Hc. split; [done|].
        split.
        { destruct (best_attained D (seed !!! i) (moves ch 0 3 3 2 c i)) as [->|([j wt] & Hj & ->)].
          - destruct (Hs i Hi) as [[-> _]|[-> _]]; lia.
          - destruct (back_before ch Hwf c i j wt Hin Hj) as (Hw & c' & Hin' & _).
            specialize (HB j wt c' Hj Hin'). destruct HB. cbn. lia. }
        destruct (Hs i Hi) as [[E _]|[_ Hnb]].
        { etransitivity; [apply best_le|]. rewrite E. lia. }
        assert (Hnb' : ∀ d, (d < 4)%nat → ¬ (∀ j, ¬ step ch i d j)).
        { intros d Hd Hno. apply Hnb. split; [done|]. exists d. split; [done|]. intros j Hj. by apply Hno in Hj. }
        assert (Hx : ∀ d, (d < 4)%nat → ∃ c' j, nbr ch c i d = Some (c', j)).
        { intros d Hd. destruct (nbr ch c i d) as [[c' j]|] eqn:E; [by eauto|]. exfalso.
          apply (Hnb' d Hd). intros j Hj. destruct (proj1 (step_nbr ch Hwf c i d j Hin Hd) Hj). congruence. }
        destruct (Hx 0%nat ltac:(lia)) as (c0 & j0 & H0). destruct (Hx 3%nat ltac:(lia)) as (c3 & j3 & H3).
        pose proof (nbr_in_cell ch Hwf c i 0 c0 j0 ltac:(lia) Hin H0) as Hin0.
        pose proof (nbr_in_cell ch Hwf c i 3 c3 j3 ltac:(lia) Hin H3) as Hin3.
        assert (M0 : (j0, 2) ∈ moves ch 0 3 3 2 c i).
        { unfold moves, moves1. rewrite H0. apply elem_of_app. left. left. }
        assert (M3 : (j3, 2) ∈ moves ch 0 3 3 2 c i).
        { unfold moves, moves1. rewrite H3. apply elem_of_app. right. left. }
        pose proof (HB _ _ _ M0 Hin0) as [_ B0]. pose proof (HB _ _ _ M3 Hin3) as [_ B3].
        pose proof (best_le_elem D (seed !!! i) _ _ M0) as L0.
        pose proof (best_le_elem D (seed !!! i) _ _ M3) as L3. cbn in L0, L3.
        apply nbr_col in H0. apply nbr_col in H3.
        apply (nb_col_dir0 ch) in H0 as (_ & E0x & E0z); [|done].
        apply (nb_col_dir3 ch) in H3 as (_ & E3x & E3z); [|done]. unfold w in *. lia.
      - intros c i D v Hin [Hc Hv] HB. split; [done|]. split.
        + destruct (best_attained D v (moves ch 2 1 1 0 c i)) as [->|([j wt] & Hj & ->)]; [lia|].
          destruct (forw_before ch Hwf c i j wt Hin Hj) as (Hw & c' & Hin' & _).
          specialize (HB j wt c' Hj Hin'). destruct HB. cbn. lia.
        + etransitivity; [apply best_le|]. lia. }
    intros D2 (Hl & D1 & Hl1 & H1 & H2). split; [done|].
    assert (HP := sweeps_chamfer (area_border ch) 65535 seed D1 D2 Hseed
      (λ c i H, proj1 (H1 c i H)) (λ c i H, proj1 (H2 c i H))).
    intros i Hi. destruct (in_cell_ex ch Hwf i Hi) as [c Hin].
    assert (0 ≤ D2 !!! i ≤ 65532) by (apply (Hlow c), H2, Hin).
    split; [lia|]. split; [|split].
    - apply HP; [done|lia].
    - by apply HP.
    - intros j Hj. destruct (H2 c i Hin) as [-> _].
      destruct (proj1 (step_nbr ch Hwf c i 2 j Hin ltac:(lia)) Hj) as (c' & Hn).
      apply (best_le_elem D2 _ _ (j, 2)). unfold moves, moves1. rewrite Hn. apply elem_of_app. left. left.
  Qed.

  (** *** Smoothing *)
  Context (D : list Z) (HlD : length D = n) (HD : ∀ i, (i < n)%nat → 0 ≤ D !!! i ≤ 65535).

  Lemma blur_dir_spec c i s cd dir d :
    in_cell ch c i → ch_spans ch !! i = Some s → (dir < 4)%nat →
    0 ≤ cd ≤ 65535 → 0 ≤ d ≤ 1000000 →
    ∃ v, blur_dir ch D (c mod w) (c / w) s cd dir d = Done (d + v) ∧
      ring ch (λ j, D !!! j) cd i dir v ∧ 0 ≤ v ≤ 131070.
  Proof.
    intros Hin Hs Hd Hcd Hdb. unfold blur_dir.
    destruct (con_step c i dir s Hin Hd Hs) as (o & -> & Ho). cbn [obind].
    destruct o as [v|].
    2:{ exists (2 * cd). unfold chk_u32, U32_MAX. rewrite chk_in by lia. cbn [obind].
        rewrite chk_in by lia. split; [f_equal; lia|]. split; [by left|lia]. }
    destruct Ho as (c' & a & Ha & Hin' & ->). cbn [obind].
    pose proof (in_cell_bound ch Hwf c' a Hin') as Han. pose proof (HD a Han).
    rewrite (get_some D a (D !!! a)) by (apply list_lookup_lookup_total_lt; by rewrite HlD). cbn [obind].
    unfold chk_u32, U32_MAX. rewrite chk_in by lia. cbn [obind].
    destruct (in_cell_span c' a Hin') as [sa Hsa]. rewrite (get_some _ _ _ Hsa). cbn [obind].
    assert (Hd2 : ((dir + 1) mod 4 < 4)%nat) by (by apply Nat.mod_upper_bound).
    set (dir2 := ((dir + 1) mod 4)%nat) in *.
    destruct (con_step c' a dir2 sa Hin' Hd2 Hsa) as (o2 & -> & Ho2). cbn [obind].
    destruct o2 as [v2|].
    - destruct Ho2 as (c2 & b & Hb & Hin2 & ->). cbn [obind].
      pose proof (in_cell_bound ch Hwf c2 b Hin2) as Hbn. pose proof (HD b Hbn).
      rewrite (get_some D b (D !!! b)) by (apply list_lookup_lookup_total_lt; by rewrite HlD). cbn [obind].
      exists (D !!! a + D !!! b). rewrite chk_in by lia. split; [f_equal; lia|].
      split; [|lia]. right. exists a. split; [done|]. right. by exists b.
    - exists (D !!! a + cd). rewrite chk_in by lia. split; [f_equal; lia|].
      split; [|lia]. right. exists a. split; [done|]. by left.
  Qed.

  Lemma box_blur_spec :
    runs (box_blur ch 1 D) (λ B, length B = n ∧
      ∀ i, (i < n)%nat → smoothed ch (λ j, D !!! j) i (B !!! i)).
  Proof.
    unfold box_blur. rewrite HlD. apply for_spans_all; [apply repeat_length|].
    intros c i Hin. pose proof (in_cell_bound ch Hwf c i Hin) as Hi. pose proof (HD i Hi) as Hcd.
    destruct (in_cell_span c i Hin) as [s Hs]. unfold blur_span.
    rewrite (get_some _ _ _ Hs). cbn [obind].
    rewrite (get_some D i (D !!! i)) by (apply list_lookup_lookup_total_lt; by rewrite HlD). cbn [obind].
    change (Z.min 65535 (1 * 2)) with 2. destruct (D !!! i <=? 2) eqn:E.
    { exists (D !!! i). split; [left; lia|]. intros. apply put_lt. unfold n in *. lia. }
    cbn [foldM seq].
    destruct (blur_dir_spec c i s (D !!! i) 0 (D !!! i)) as (v0 & -> & R0 & B0); [done|done|lia..|]. cbn [obind].
    destruct (blur_dir_spec c i s (D !!! i) 1 (D !!! i + v0)) as (v1 & -> & R1 & B1); [done|done|lia..|]. cbn [obind].
    destruct (blur_dir_spec c i s (D !!! i) 2 (D !!! i + v0 + v1)) as (v2 & -> & R2 & B2); [done|done|lia..|]. cbn [obind].
    destruct (blur_dir_spec c i s (D !!! i) 3 (D !!! i + v0 + v1 + v2)) as (v3 & -> & R3 & B3); [done|done|lia..|]. cbn [obind].
    unfold chk_u32, U32_MAX. rewrite chk_in by lia. cbn [obind]. unfold wrap_u16.
    rewrite Z.mod_small by lia. eexists. split.
    - right. split; [lia|]. exists v0, v1, v2, v3. split_and!; try done.
    - intros. apply put_lt. unfold n in *. lia.
  Qed.
End dist.

Lemma list_max_opt_spec l : l ≠ [] → ∃ m, list_max_opt l = Some m ∧ m ∈ l ∧ ∀ a, a ∈ l → a ≤ m.
Proof.
  destruct l as [|a l]; [done|]. intros _. cbn [list_max_opt]. eexists. split; [done|].
  induction l as [|b l [IH1 IH2]]; cbn [foldr].
  - split; [left|]. intros x [->|?%elem_of_nil]%elem_of_cons; [lia|done].
  - split.
    + destruct (Z.max_dec b (foldr Z.max a l)) as [-> | ->]; [set_solver|].
      apply elem_of_cons in IH1 as [->|?]; set_solver.
    + intros x [->|[->|Hx]%elem_of_cons]%elem_of_cons.
      * specialize (IH2 a ltac:(left)). lia.
      * lia.
      * specialize (IH2 x ltac:(by right)). lia.
Qed.

Lemma wpath_zero (mv : nat → nat → Z → Prop) i b wt :
  (∀ i j v, mv i j v → 0 < v) → wpath mv i b wt → wt = 0 → i = b.
Proof.
  intros Hmv Hp E. destruct Hp as [|i j k w1 w2 Hm Hp]; [done|].
  specialize (Hmv _ _ _ Hm) as Hpos.
  assert (0 ≤ w2). { eapply wpath_nonneg; [|done]. intros ??? Hq%Hmv. lia. } lia.
Qed.

Lemma chamfer_zero ch goal i : chamfer ch goal i 0 ↔ goal i.
Proof.
  split.
  - intros (m & b & w1 & w2 & P1 & P2 & Hg & E).
    assert (F : ∀ i j v, forward ch i j v → 0 < v) by (intros ??? [->| ->]%forward_weight; lia).
    assert (B : ∀ i j v, backward ch i j v → 0 < v) by (intros ??? [->| ->]%backward_weight; lia).
    assert (0 ≤ w1). { eapply wpath_nonneg; [|exact P1]. intros ??? Hq%F. lia. }
    assert (0 ≤ w2). { eapply wpath_nonneg; [|exact P2]. intros ??? Hq%B. lia. }
    rewrite (wpath_zero _ _ _ _ F P1) by lia. by rewrite (wpath_zero _ _ _ _ B P2) by lia.
  - intros Hg. exists i, i, 0, 0. split_and!; [constructor|constructor|done|done].
Qed.

Lemma build_distance_spec ch :
  wf_chf ch → Z.of_nat (ch_w ch) ≤ 65535 → Z.of_nat (ch_h ch) ≤ 65535 →
  Z.min (Z.of_nat (ch_w ch)) (Z.of_nat (ch_h ch)) ≤ 32767 → ch_spans ch ≠ [] →
  runs (build_distance_field ch) (λ ch', ∃ D m B, ch' = ch_set_dist ch m B ∧
    length D = length (ch_spans ch) ∧ length B = length (ch_spans ch) ∧
    (∀ i, (i < length D)%nat → least_weight ch (area_border ch) i (D !!! i)) ∧
    m ∈ D ∧ (∀ d, d ∈ D → 0 ≤ d ≤ m) ∧
    (∀ i, (i < length D)%nat → smoothed ch (λ j, D !!! j) i (B !!! i)) ∧
    (∀ i j, (i < length D)%nat → step ch i 2 j → D !!! i ≤ D !!! j + 2)).
Proof.
  intros Hwf Hw Hh Hmin Hne. unfold build_distance_field.
  eapply runs_bind; [by apply calculate_spec|]. intros D [Hl HD].
  destruct (list_max_opt_spec D) as (m & -> & Hm1 & Hm2).
  { intros ->. destruct (ch_spans ch); done. }
  cbn [unwrap obind]. eapply runs_bind.
  { apply box_blur_spec; try done. intros i Hi. destruct (HD i Hi) as [? _]. lia. }
  intros B [HlB HB]. cbn [runs]. exists D, m, B.
  split; [done|]. split; [done|]. split; [done|]. split; [|split; [done|split; [|split]]].
  - intros i Hi. rewrite Hl in Hi. destruct (HD i Hi) as (_ & ? & ? & _). done.
  - intros d Hd. split; [|by apply Hm2]. apply elem_of_list_lookup in Hd as [i Hi].
    pose proof (lookup_lt_Some _ _ _ Hi) as Hlt. rewrite Hl in Hlt. destruct (HD i Hlt) as [Hb _].
    rewrite (list_lookup_total_correct _ _ _ Hi) in Hb. lia.
  - intros i Hi. rewrite Hl in Hi. by apply HB.
  - intros i j Hi. rewrite Hl in Hi. by apply HD.
Qed.
