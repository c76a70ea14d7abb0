(** The two chamfer sweeps compute shortest two-sweep paths. *)
From Verif Require Import Base ModelMath ModelHeightfield ModelFilters ModelCompact ModelDistance
  SpecHeightfield SpecCompact SpecDistance CompactProofs LinkProofs PackProofs GraphProofs.
Local Open Scope Z_scope.

(** ** Loop rules *)
Lemma for_cells_rev_flat {St} w h (f : nat → nat → St → outcome St) s :
  for_cells_rev w h f s = foldM (λ c, f (c mod w) (c / w))%nat (rev (seq 0 (h * w))) s.
Proof.
  unfold for_cells_rev. revert s. induction h as [|h IH]; intros s; [done|].
  rewrite seq_S, rev_app_distr. cbn [rev app foldM Nat.add].
  replace (S h * w)%nat with (h * w + w)%nat by lia.
  rewrite seq_app, rev_app_distr, foldM_app. cbn [Nat.add].
  transitivity (let! s' := foldM (λ x, f x h) (rev (seq 0 w)) s in
    foldM (λ c, f (c mod w) (c / w))%nat (rev (seq 0 (h * w))) s').
  { apply obind_ext. intros. apply IH. }
  f_equal. replace (seq (h * w) w) with (map (λ x, h * w + x)%nat (seq 0 w)).
  - rewrite <-map_rev, foldM_map. apply foldM_ext. intros x s'' Hx.
    apply elem_of_list_In, in_rev, elem_of_list_In in Hx. apply elem_of_seq in Hx. f_equal.
    + rewrite Nat.add_comm, Nat.mod_add by lia. by rewrite Nat.mod_small by lia.
    + rewrite Nat.add_comm, Nat.div_add by lia. by rewrite Nat.div_small by lia.
  - pose proof (fmap_add_seq (h * w) 0 w) as E. rewrite Nat.add_0_r in E. exact E.
Qed.

Lemma foldM_rev_seq_inv {St} (I : nat → St → Prop) (f : nat → St → outcome St) n s :
  I n s →
  (∀ c s', (c < n)%nat → I (c + 1)%nat s' → runs (f c s') (I c)) →
  runs (foldM f (rev (seq 0 n)) s) (I 0%nat).
Proof.
  revert s. induction n as [|n IH]; intros s H0 Hstep; [done|].
  rewrite seq_S, rev_app_distr. cbn [rev app foldM Nat.add].
  eapply runs_bind; [apply Hstep; [lia|by rewrite Nat.add_1_r]|].
  intros s' Hs'. apply IH; [done|]. intros. apply Hstep; [lia|done].
Qed.

Lemma for_cells_rev_inv {St} (I : nat → St → Prop) w h (f : nat → nat → St → outcome St) s :
  I (w * h)%nat s →
  (∀ c s', (c < w * h)%nat → I (c + 1)%nat s' → runs (f (c mod w) (c / w) s')%nat (I c)) →
  runs (for_cells_rev w h f s) (I 0%nat).
Proof.
  intros H0 Hstep. rewrite for_cells_rev_flat. apply foldM_rev_seq_inv.
  - by rewrite Nat.mul_comm.
  - intros. apply Hstep; [lia|done].
Qed.

Lemma for_cells_inv' {St} (I : nat → St → Prop) w h (f : nat → nat → St → outcome St) s :
  I 0%nat s →
  (∀ c s', (c < w * h)%nat → I c s' → runs (f (c mod w) (c / w) s')%nat (I (c + 1)%nat)) →
  runs (for_cells w h f s) (I (w * h)%nat).
Proof.
  intros H0 Hstep. rewrite for_cells_flat. replace (w * h)%nat with (0 + h * w)%nat by lia.
  apply foldM_seq_inv; [done|]. intros c s' Hc. apply Hstep. lia.
Qed.

(** ** Pure relaxation *)
Definition best (D : list Z) (m : Z) (l : list (nat * Z)) : Z :=
  foldl (λ m p, Z.min m (D !!! p.1 + p.2)) m l.

Lemma best_app D m l1 l2 : best D m (l1 ++ l2) = best D (best D m l1) l2.
Proof. unfold best. by rewrite foldl_app. Qed.

Lemma best_le D m l : best D m l ≤ m.
Proof. revert m. induction l as [|p l IH]; intros m; cbn; [lia|]. etransitivity; [apply IH|]. lia. Qed.

Lemma best_le_elem D m l p : p ∈ l → best D m l ≤ D !!! p.1 + p.2.
Proof.
  revert m. induction l as [|q l IH]; intros m Hp; [by apply elem_of_nil in Hp|]. cbn.
  apply elem_of_cons in Hp as [->|Hp]; [|by apply IH].
  etransitivity; [apply best_le|]. lia.
Qed.

Lemma best_attained D m l : best D m l = m ∨ ∃ p, p ∈ l ∧ best D m l = D !!! p.1 + p.2.
Proof.
  revert m. induction l as [|q l IH]; intros m; [by left|].
  change (best D m (q :: l)) with (best D (Z.min m (D !!! q.1 + q.2)) l).
  destruct (IH (Z.min m (D !!! q.1 + q.2))) as [E|(p & Hp & E)].
  - rewrite E. destruct (Z.min_dec m (D !!! q.1 + q.2)) as [-> | ->]; [by left|].
    right. exists q. split; [left|done].
  - right. exists p. split; [by right|done].
Qed.

Lemma best_ext D D' m l :
  (∀ p, p ∈ l → D !!! p.1 = D' !!! p.1) → best D m l = best D' m l.
Proof.
  revert m. induction l as [|q l IH]; intros m H; [done|]. cbn.
  rewrite (H q) by left. apply IH. intros. apply H. by right.
Qed.

Definition good_add (add : Z → Z → outcome Z) (cap a w : Z) : Prop :=
  ∃ v, add a w = Done v ∧ ∀ di, di ≤ cap → Z.min di v = Z.min di (a + w).

Lemma good_add_sat a w : 0 ≤ a → 0 ≤ w → good_add add_sat_u8 255 a w.
Proof. intros. eexists. split; [done|]. intros. lia. Qed.
Lemma good_add_chk a w : 0 ≤ a → 0 ≤ w → a + w ≤ 65535 → good_add add_chk_u16 65535 a w.
Proof.
  intros. exists (a + w). split; [|done]. unfold add_chk_u16, chk_u16. apply chk_in.
  unfold U16_MAX. lia.
Qed.

Section sweep.
  Context (ch : chf) (Hwf : wf_chf ch).
  Context (Hw16 : Z.of_nat (ch_w ch) ≤ 65535) (Hh16 : Z.of_nat (ch_h ch) ≤ 65535).
  Let w := ch_w ch.
  Let h := ch_h ch.
  Let n := length (ch_spans ch).

  Definition moves1 (d1 d2 c i : nat) : list (nat * Z) :=
    match nbr ch c i d1 with
    | None => []
    | Some (c1, a) =>
      (a, 2) :: match nbr ch c1 a d2 with None => [] | Some (_, b) => [(b, 3)] end
    end.

  Lemma relax_spec add cap i j wt D :
    (i < length D)%nat → (j < length D)%nat → D !!! i ≤ cap →
    good_add add cap (D !!! j) wt →
    relax add i j wt D = Done (<[i := Z.min (D !!! i) (D !!! j + wt)]> D).
  Proof.
    intros Hi Hj Hcap (v & Hadd & Hmin). unfold relax.
    rewrite (get_some D j (D !!! j)) by (by apply list_lookup_lookup_total_lt). cbn [obind].
    rewrite Hadd. cbn [obind].
    rewrite (get_some D i (D !!! i)) by (by apply list_lookup_lookup_total_lt). cbn [obind].
    rewrite put_lt by done. by rewrite Hmin.
  Qed.

  Lemma relax_corner_spec add cap c i d1 d2 D :
    (d1 < 4)%nat → (d2 < 4)%nat → in_cell ch c i → length D = n → D !!! i ≤ cap →
    (∀ j wt, (j, wt) ∈ moves1 d1 d2 c i → j ≠ i ∧ good_add add cap (D !!! j) wt) →
    relax_corner add ch (c mod w) (c / w) i d1 d2 D =
    Done (<[i := best D (D !!! i) (moves1 d1 d2 c i)]> D).
  Proof.
    intros Hd1 Hd2 Hin Hlen Hcap Hmv.
    assert (Hi : (i < n)%nat) by (by eapply in_cell_bound).
    destruct (lookup_lt_is_Some_2 _ _ Hi) as [s Hs].
    unfold relax_corner. rewrite (get_some _ _ _ Hs). cbn [obind].
    destruct (con_nbr ch Hwf c i d1 s Hw16 Hh16 Hin Hd1 Hs) as (o & -> & Ho). cbn [obind].
    unfold moves1 in *. destruct o as [v|].
    2:{ rewrite Ho. unfold best. cbn. f_equal. symmetry. apply list_insert_id.
        apply list_lookup_lookup_total_lt. lia. }
    destruct Ho as (c1 & a & Hn1 & Hin1 & Hnb1). fold w in Hnb1. rewrite Hnb1. cbn [obind]. rewrite Hn1 in Hmv. rewrite Hn1.
    assert (Ha : (a < n)%nat) by (by eapply in_cell_bound).
    destruct (lookup_lt_is_Some_2 _ _ Ha) as [sa Hsa]. rewrite (get_some _ _ _ Hsa). cbn [obind].
    destruct (Hmv a 2) as [Hai Hga]; [left|].
    rewrite (relax_spec add cap i a 2 D) by (done || lia). cbn [obind].
    destruct (con_nbr ch Hwf c1 a d2 sa Hw16 Hh16 Hin1 Hd2 Hsa) as (o2 & -> & Ho2). cbn [obind].
    destruct o2 as [v2|]; [|by rewrite Ho2].
    destruct Ho2 as (c2 & b & Hn2 & Hin2 & Hnb2). fold w in Hnb2. rewrite Hnb2. cbn [obind]. rewrite Hn2 in Hmv. rewrite Hn2.
    assert (Hb : (b < n)%nat) by (by eapply in_cell_bound).
    destruct (Hmv b 3) as [Hbi Hgb]; [right; left|].
    rewrite (relax_spec add cap i b 3).
    - f_equal. rewrite list_insert_insert. f_equal. unfold best. cbn.
      rewrite list_lookup_total_insert by lia. by rewrite list_lookup_total_insert_ne by done.
    - rewrite insert_length. lia.
    - rewrite insert_length. lia.
    - rewrite list_lookup_total_insert by lia. lia.
    - by rewrite list_lookup_total_insert_ne by done.
  Qed.

  (** A whole sweep. *)
  Context (add : Z → Z → outcome Z) (cap : Z) (d1 d2 e1 e2 : nat).
  Context (Hds : (d1 < 4 ∧ d2 < 4 ∧ e1 < 4 ∧ e2 < 4)%nat).
  Definition moves (c i : nat) : list (nat * Z) := moves1 d1 d2 c i ++ moves1 e1 e2 c i.

  Context (before : nat → nat → Prop) (B : nat → Z → Prop) (seed : list Z).
  Context (Hirr : ∀ c, ¬ before c c).
  Context (Hbefore : ∀ c i j wt, in_cell ch c i → (j, wt) ∈ moves c i →
             (wt = 2 ∨ wt = 3) ∧ ∃ c', in_cell ch c' j ∧ before c' c).
  Context (Hseed : length seed = n) (Hcap : ∀ i, (i < n)%nat → seed !!! i ≤ cap).
  Context (HBgood : ∀ c v wt, B c v → wt = 2 ∨ wt = 3 → good_add add cap v wt).
  Context (HBstep : ∀ c i D, in_cell ch c i →
             (∀ j wt c', (j, wt) ∈ moves c i → in_cell ch c' j → B c' (D !!! j)) →
             B c (best D (seed !!! i) (moves c i))).

  Record sinv (P : nat → Prop) (D : list Z) : Prop := SInv {
    si_len : length D = n;
    si_done : ∀ c i, in_cell ch c i → P c →
      D !!! i = best D (seed !!! i) (moves c i) ∧ B c (D !!! i);
    si_todo : ∀ c i, in_cell ch c i → ¬ P c → D !!! i = seed !!! i
  }.

  Lemma sinv_cap P (Pdec : ∀ c, P c ∨ ¬ P c) D c i : sinv P D → in_cell ch c i → D !!! i ≤ cap.
  Proof.
    intros [L1 L2 L3] Hin. pose proof (in_cell_bound ch Hwf _ _ Hin). destruct (Pdec c) as [HP|HP].
    - destruct (L2 _ _ Hin HP) as [-> _]. etransitivity; [apply best_le|by apply Hcap].
    - rewrite (L3 _ _ Hin HP). by apply Hcap.
  Qed.

  Lemma sweep_cell_spec P (Pdec : ∀ c, P c ∨ ¬ P c) c D :
    (c < w * h)%nat → ¬ P c → (∀ c', before c' c → P c') → (∀ c', P c' → ¬ before c c') →
    sinv P D →
    runs (sweep_cell add ch d1 d2 e1 e2 (c mod w) (c / w) D) (sinv (λ c', P c' ∨ c' = c)).
  Proof.
    intros Hc HnP Hbef Hnb Hinv. unfold sweep_cell.
    assert (c < length (ch_cells ch))%nat as Hcl by (rewrite (cells_len ch Hwf); done).
    destruct (lookup_lt_is_Some_2 _ _ Hcl) as [cell Hcell].
    pose proof (cell_at_some ch c cell Hc Hcell) as Hat. fold w in Hat. rewrite Hat. cbn [obind].
    eapply runs_mono.
    { apply (foldM_inv (λ pre D', length D' = n ∧
        (∀ i, in_cell ch c i → D' !!! i = if decide (i ∈ pre) then best D (seed !!! i) (moves c i) else seed !!! i) ∧
        (∀ c' i, in_cell ch c' i → c' ≠ c → D' !!! i = D !!! i))).
      - destruct Hinv as [L1 L2 L3]. split_and!; [done| |done].
        intros i Hi. rewrite decide_False by apply not_elem_of_nil. by apply (L3 c).
      - intros pre i post D' Epre (L1' & L2' & L3').
        assert (Hin : in_cell ch c i). { exists cell. split; [done|]. rewrite Epre. set_solver. }
        assert (Hnot : i ∉ pre).
        { pose proof (NoDup_seq (cc_index cell) (cc_count cell)) as Hnd. unfold index_range in Epre.
          rewrite Epre in Hnd. apply NoDup_app in Hnd as (_ & Hx & _). intros Hi. apply (Hx i Hi). left. }
        assert (HDi : D' !!! i = seed !!! i) by (rewrite (L2' _ Hin); by rewrite decide_False).
        assert (Hi : (i < n)%nat) by (by eapply in_cell_bound).
        destruct Hds as (Hd1 & Hd2 & He1 & He2).
        assert (Hmv : ∀ j wt, (j, wt) ∈ moves c i → j ≠ i ∧ D' !!! j = D !!! j ∧ good_add add cap (D !!! j) wt).
        { intros j wt Hj. destruct (Hbefore c i j wt Hin Hj) as (Hwt & c' & Hin' & Hb).
          assert (c' ≠ c) by (intros ->; by apply (Hirr c)).
          split_and!.
          - intros ->. apply (Hirr c). by rewrite (in_cell_unique ch Hwf c c' i Hin Hin') at 1.
          - by apply (L3' c').
          - apply (HBgood c'); [|done]. apply (si_done _ _ Hinv c' j Hin'). by apply Hbef. }
        rewrite (relax_corner_spec add cap c i d1 d2 D'); [|done|done|done|done|rewrite HDi; by apply Hcap|].
        2:{ intros j wt Hj. destruct (Hmv j wt) as (? & -> & ?); [|done]. unfold moves. set_solver. }
        cbn [obind]. set (v1 := best D' (D' !!! i) (moves1 d1 d2 c i)).
        rewrite (relax_corner_spec add cap c i e1 e2); [|done|done|done|by rewrite insert_length| |].
        + cbn [runs]. rewrite list_insert_insert. rewrite list_lookup_total_insert by lia.
          assert (Ev : best (<[i:=v1]> D') v1 (moves1 e1 e2 c i) = best D (seed !!! i) (moves c i)).
          { unfold moves. rewrite best_app.
            transitivity (best D v1 (moves1 e1 e2 c i)).
            - apply best_ext. intros [j wt] Hj. cbn.
              destruct (Hmv j wt) as (? & E & _); [unfold moves; set_solver|].
              rewrite list_lookup_total_insert_ne by done. done.
            - f_equal. unfold v1. rewrite HDi. apply best_ext. intros [j wt] Hj. cbn.
              destruct (Hmv j wt) as (? & E & _); [unfold moves; set_solver|done]. }
          rewrite Ev. split_and!.
          * by rewrite insert_length.
          * intros i' Hin'. destruct (decide (i' = i)) as [->|Hne].
            -- rewrite list_lookup_total_insert by lia. rewrite decide_True; [done|set_solver].
            -- rewrite list_lookup_total_insert_ne by done. rewrite (L2' _ Hin').
               destruct (decide (i' ∈ pre)); [rewrite decide_True; [done|set_solver]|].
               rewrite decide_False; [done|set_solver].
          * intros c' i' Hin' Hne. destruct (decide (i' = i)) as [->|].
            -- exfalso. apply Hne. by eapply in_cell_unique.
            -- rewrite list_lookup_total_insert_ne by done. by apply (L3' c').
        + rewrite list_lookup_total_insert by lia. unfold v1. rewrite HDi.
          etransitivity; [apply best_le|by apply Hcap].
        + intros j wt Hj. destruct (Hmv j wt) as (Hne & E & Hg); [unfold moves; set_solver|].
          split; [done|]. rewrite list_lookup_total_insert_ne by done. by rewrite E. }
    intros D' (L1' & L2' & L3').
    assert (Hmv : ∀ c' i j wt, in_cell ch c' i → P c' ∨ c' = c → (j, wt) ∈ moves c' i → D' !!! j = D !!! j).
    { intros c' i j wt Hin HP Hj. destruct (Hbefore c' i j wt Hin Hj) as (_ & c2 & Hin2 & Hb).
      apply (L3' c2); [done|]. intros ->. destruct HP as [HP| ->]; [by apply (Hnb c')|by apply (Hirr c)]. }
    split.
    - done.
    - intros c' i Hin HP.
      assert (best D' (seed !!! i) (moves c' i) = best D (seed !!! i) (moves c' i)) as ->.
      { apply best_ext. intros [j wt] Hj. by apply (Hmv c' i j wt). }
      destruct (decide (c' = c)) as [->|Hne].
      + rewrite (L2' _ Hin). rewrite decide_True.
        2:{ destruct Hin as (cell' & Hc' & Hi). rewrite Hcell in Hc'. by injection Hc' as <-. }
        split; [done|]. apply HBstep; [done|]. intros j wt c2 Hj Hin2.
        apply (si_done _ _ Hinv c2 j Hin2). apply Hbef.
        destruct (Hbefore c i j wt Hin Hj) as (_ & c3 & Hin3 & Hb).
        by rewrite (in_cell_unique ch Hwf c2 c3 j).
      + rewrite (L3' c') by done. apply (si_done _ _ Hinv c'); [done|]. by destruct HP.
    - intros c' i Hin HP. assert (c' ≠ c) by (intros ->; apply HP; by right).
      rewrite (L3' c') by done. apply (si_todo _ _ Hinv c'); [done|]. intros ?. apply HP. by left.
  Qed.

  Lemma sinv_ext P Q D : (∀ c, (c < w * h)%nat → P c ↔ Q c) → sinv P D → sinv Q D.
  Proof.
    intros He [L1 L2 L3]. split; [done|..]; intros c i Hin HQ; pose proof (in_cell_lt ch Hwf _ _ Hin).
    - apply L2; [done|]. by apply He.
    - apply (L3 c); [done|]. by rewrite He.
  Qed.
End sweep.

(** ** From the equations to paths *)
Section paths.
  Context (ch : chf) (Hwf : wf_chf ch).

  Lemma moves1_corner d1 d2 c i j wt :
    (d1 < 4)%nat → (d2 < 4)%nat → in_cell ch c i →
    (j, wt) ∈ moves1 ch d1 d2 c i ↔ corner ch d1 d2 i j wt.
  Proof.
    intros Hd1 Hd2 Hin. unfold moves1, corner.
    destruct (nbr ch c i d1) as [[c1 a]|] eqn:E1.
    - pose proof (nbr_in_cell ch Hwf c i d1 c1 a Hd1 Hin E1) as Hin1.
      pose proof (nbr_step ch Hwf c i d1 c1 a Hd1 Hin E1) as Hst1.
      rewrite elem_of_cons. split.
      + intros [[= -> ->]|Hj]; [by left|]. right. exists a. split; [done|].
        destruct (nbr ch c1 a d2) as [[c2 b]|] eqn:E2; [|by apply elem_of_nil in Hj].
        apply elem_of_list_singleton in Hj as [= -> ->]. split; [|done].
        by apply (nbr_step ch Hwf c1 a d2 c2).
      + intros [[Hst ->]|(m & Hm & Hj & ->)].
        * left. f_equal. by apply (step_fun ch Hwf i d1).
        * right. assert (m = a) as -> by (by apply (step_fun ch Hwf i d1)).
          destruct (proj1 (step_nbr ch Hwf c1 a d2 j Hin1 Hd2) Hj) as (c2 & ->). by left.
    - split; [by intros ?%elem_of_nil|]. intros [[Hst ->]|(m & Hst & _ & ->)];
        destruct (proj1 (step_nbr ch Hwf c i d1 _ Hin Hd1) Hst) as (? & ?); congruence.
  Qed.

  (** [D] solves the min-plus equations for [mv] with initial values [seed],
      along a well-founded order: then [D i] is the least [seed b + weight] over
      paths. *)
  Lemma solve_paths (mv : nat → nat → Z → Prop) (mvl : nat → nat → list (nat * Z))
      (rank : nat → nat) (seed D : list Z) :
    (∀ c i j wt, in_cell ch c i → (j, wt) ∈ mvl c i ↔ mv i j wt) →
    (∀ c i j wt, in_cell ch c i → (j, wt) ∈ mvl c i → ∃ c', in_cell ch c' j ∧ (rank c' < rank c)%nat) →
    (∀ c i, in_cell ch c i → D !!! i = best D (seed !!! i) (mvl c i)) →
    ∀ c i, in_cell ch c i →
    (∃ b wt, wpath mv i b wt ∧ D !!! i = seed !!! b + wt) ∧
    (∀ b wt, wpath mv i b wt → D !!! i ≤ seed !!! b + wt).
  Proof.
    intros Hmv Hrank Heq c. induction c as [c IH] using (induction_ltof1 _ rank).
    intros i Hin. unfold ltof in IH. split.
    - rewrite (Heq c i Hin). destruct (best_attained D (seed !!! i) (mvl c i)) as [->|([j wt] & Hj & ->)].
      + exists i, 0. split; [constructor|lia].
      + destruct (Hrank c i j wt Hin Hj) as (c' & Hin' & Hlt).
        destruct (IH c' Hlt j Hin') as [(b & w' & Hp & E) _]. exists b, (wt + w').
        split; [|cbn; lia]. econstructor; [|done]. by apply (Hmv c).
    - intros b wt Hp. rewrite (Heq c i Hin). destruct Hp as [i|i j b w1 w2 Hm Hp].
      + pose proof (best_le D (seed !!! i) (mvl c i)). lia.
      + apply (Hmv c) in Hm; [|done]. destruct (Hrank c i j w1 Hin Hm) as (c' & Hin' & Hlt).
        destruct (IH c' Hlt j Hin') as [_ Hle]. specialize (Hle _ _ Hp).
        pose proof (best_le_elem D (seed !!! i) (mvl c i) (j, w1) Hm) as Hb. cbn in Hb. lia.
  Qed.

  Lemma wpath_nonneg (mv : nat → nat → Z → Prop) i b wt : (∀ i j w, mv i j w → 0 ≤ w) → wpath mv i b wt → 0 ≤ wt.
  Proof. intros Hmv. induction 1 as [|i j k w1 w2 Hm _ IH]; [lia|]. specialize (Hmv _ _ _ Hm). lia. Qed.
End paths.

(** ** The two sweeps of the code *)
Section both.
  Context (ch : chf) (Hwf : wf_chf ch).
  Context (Hw16 : Z.of_nat (ch_w ch) ≤ 65535) (Hh16 : Z.of_nat (ch_h ch) ≤ 65535).
  Let w := ch_w ch.
  Let h := ch_h ch.
  Let n := length (ch_spans ch).

  Lemma moves1_weight d1 d2 c i j wt : (j, wt) ∈ moves1 ch d1 d2 c i → wt = 2 ∨ wt = 3.
  Proof.
    unfold moves1. destruct (nbr ch c i d1) as [[c1 a]|]; [|by intros ?%elem_of_nil].
    rewrite elem_of_cons. intros [[= -> ->]|Hj]; [by left|].
    destruct (nbr ch c1 a d2) as [[c2 b]|]; [|by apply elem_of_nil in Hj].
    apply elem_of_list_singleton in Hj as [= -> ->]. by right.
  Qed.

  (** Cells reached by one corner. *)
  Lemma moves1_cell d1 d2 c i j wt :
    (d1 < 4)%nat → (d2 < 4)%nat → in_cell ch c i → (j, wt) ∈ moves1 ch d1 d2 c i →
    ∃ c1, (c1 < w * h)%nat ∧ nb_col w h (c mod w) (c / w) d1 = Some c1 ∧
      ((wt = 2 ∧ in_cell ch c1 j) ∨
       (wt = 3 ∧ ∃ c2, nb_col w h (c1 mod w) (c1 / w) d2 = Some c2 ∧ in_cell ch c2 j)).
  Proof.
    intros Hd1 Hd2 Hin. unfold moves1.
    destruct (nbr ch c i d1) as [[c1 a]|] eqn:E1; [|by intros ?%elem_of_nil].
    pose proof (nbr_in_cell ch Hwf c i d1 c1 a Hd1 Hin E1) as Hin1.
    pose proof (in_cell_lt ch Hwf _ _ Hin1) as Hlt1.
    intros Hj. exists c1. split; [done|]. split; [by eapply nbr_col|].
    apply elem_of_cons in Hj as [[= -> ->]|Hj]; [by left|]. right.
    destruct (nbr ch c1 a d2) as [[c2 b]|] eqn:E2; [|by apply elem_of_nil in Hj].
    apply elem_of_list_singleton in Hj as [= -> ->]. split; [done|].
    exists c2. split; [by eapply nbr_col|]. by eapply nbr_in_cell.
  Qed.

  Lemma back_before c i j wt :
    in_cell ch c i → (j, wt) ∈ moves ch 0 3 3 2 c i →
    (wt = 2 ∨ wt = 3) ∧ ∃ c', in_cell ch c' j ∧ (c' < c)%nat.
  Proof.
    intros Hin Hj. unfold moves in Hj. apply elem_of_app in Hj.
    pose proof (in_cell_lt ch Hwf _ _ Hin) as Hc.
    destruct (cell_coords ch c Hc) as (Hw & Hx & Hz & Ec).
    split; [destruct Hj as [Hj|Hj]; by eapply moves1_weight|].
    destruct Hj as [Hj|Hj]; apply moves1_cell in Hj as (c1 & Hc1 & Hn1 & Hor); try done; try lia.
    - apply (nb_col_dir0 ch) in Hn1 as (? & ? & ?); [|done].
      destruct Hor as [[_ Hj]|[_ (c2 & Hn2 & Hj)]]; [exists c1; split; [done|lia]|].
      apply (nb_col_dir3 ch) in Hn2 as (? & ? & ?); [|done]. exists c2. split; [done|lia].
    - apply (nb_col_dir3 ch) in Hn1 as (? & ? & ?); [|done].
      destruct Hor as [[_ Hj]|[_ (c2 & Hn2 & Hj)]]; [exists c1; split; [done|unfold w in *; lia]|].
      apply (nb_col_dir2 ch) in Hn2 as (? & Hm & ?); [|done]. exists c2. split; [done|].
      assert (c2 mod ch_w ch < ch_w ch)%nat by (by apply Nat.mod_upper_bound).
      unfold w in *. lia.
  Qed.

  Lemma forw_before c i j wt :
    in_cell ch c i → (j, wt) ∈ moves ch 2 1 1 0 c i →
    (wt = 2 ∨ wt = 3) ∧ ∃ c', in_cell ch c' j ∧ (c < c')%nat.
  Proof.
    intros Hin Hj. unfold moves in Hj. apply elem_of_app in Hj.
    pose proof (in_cell_lt ch Hwf _ _ Hin) as Hc.
    destruct (cell_coords ch c Hc) as (Hw & Hx & Hz & Ec).
    split; [destruct Hj as [Hj|Hj]; by eapply moves1_weight|].
    destruct Hj as [Hj|Hj]; apply moves1_cell in Hj as (c1 & Hc1 & Hn1 & Hor); try done; try lia.
    - apply (nb_col_dir2 ch) in Hn1 as (? & ? & ?); [|done].
      destruct Hor as [[_ Hj]|[_ (c2 & Hn2 & Hj)]]; [exists c1; split; [done|lia]|].
      apply (nb_col_dir1 ch) in Hn2 as (? & ? & ?); [|done]. exists c2. split; [done|lia].
    - apply (nb_col_dir1 ch) in Hn1 as (? & ? & ?); [|done].
      destruct Hor as [[_ Hj]|[_ (c2 & Hn2 & Hj)]]; [exists c1; split; [done|unfold w in *; lia]|].
      apply (nb_col_dir0 ch) in Hn2 as (? & Hm & ?); [|done]. exists c2. split; [done|].
      assert (c1 mod ch_w ch < ch_w ch)%nat by (by apply Nat.mod_upper_bound).
      unfold w in *. lia.
  Qed.

  Lemma moves_backward c i j wt :
    in_cell ch c i → (j, wt) ∈ moves ch 0 3 3 2 c i ↔ backward ch i j wt.
  Proof.
    intros Hin. unfold moves, backward. rewrite elem_of_app.
    rewrite !(moves1_corner ch Hwf) by (done || lia). done.
  Qed.
  Lemma moves_forward c i j wt :
    in_cell ch c i → (j, wt) ∈ moves ch 2 1 1 0 c i ↔ forward ch i j wt.
  Proof.
    intros Hin. unfold moves, forward. rewrite elem_of_app.
    rewrite !(moves1_corner ch Hwf) by (done || lia). done.
  Qed.

  Lemma backward_weight i j wt : backward ch i j wt → wt = 2 ∨ wt = 3.
  Proof. unfold backward, corner. naive_solver. Qed.
  Lemma forward_weight i j wt : forward ch i j wt → wt = 2 ∨ wt = 3.
  Proof. unfold forward, corner. naive_solver. Qed.

  (** Both sweeps, with bounds [B1] and [B2] on the values of finished cells. *)
  Lemma sweeps_spec add cap (B1 B2 : nat → Z → Prop) seed :
    length seed = n → (∀ i, (i < n)%nat → seed !!! i ≤ cap) →
    (∀ c v wt, B1 c v → wt = 2 ∨ wt = 3 → good_add add cap v wt) →
    (∀ c v wt, B2 c v → wt = 2 ∨ wt = 3 → good_add add cap v wt) →
    (∀ c i D, in_cell ch c i →
       (∀ j wt c', (j, wt) ∈ moves ch 0 3 3 2 c i → in_cell ch c' j → B1 c' (D !!! j)) →
       B1 c (best D (seed !!! i) (moves ch 0 3 3 2 c i))) →
    (∀ c i D v, in_cell ch c i → B1 c v →
       (∀ j wt c', (j, wt) ∈ moves ch 2 1 1 0 c i → in_cell ch c' j → B2 c' (D !!! j)) →
       B2 c (best D v (moves ch 2 1 1 0 c i))) →
    runs (sweeps add ch seed) (λ D2, length D2 = n ∧ ∃ D1, length D1 = n ∧
      (∀ c i, in_cell ch c i → D1 !!! i = best D1 (seed !!! i) (moves ch 0 3 3 2 c i) ∧ B1 c (D1 !!! i)) ∧
      (∀ c i, in_cell ch c i → D2 !!! i = best D2 (D1 !!! i) (moves ch 2 1 1 0 c i) ∧ B2 c (D2 !!! i))).
  Proof.
    intros Hlen Hcap Hg1 Hg2 Hs1 Hs2. unfold sweeps.
    eapply runs_bind.
    { eapply (for_cells_inv' (λ k, sinv ch 0 3 3 2 B1 seed (λ c, c < k)%nat)).
      - split; [done|..]; [intros; lia|done].
      - intros c D Hc Hinv. eapply runs_mono.
        + apply (sweep_cell_spec ch Hwf Hw16 Hh16 add cap 0 3 3 2 ltac:(lia)
            (λ c' c, (c' < c)%nat) B1 seed) with (P := λ c', (c' < c)%nat);
            try done; try (intros; lia).
          intros c' i j wt Hin Hj. by apply (back_before c' i j wt).
        + intros D'. apply (sinv_ext ch Hwf). intros. lia. }
    intros D1 Hinv1. apply (sinv_ext ch Hwf _ _ _ _ _ _ _ (λ _, True)) in Hinv1; [|done].
    destruct Hinv1 as [L1 L2 _].
    assert (Hcap1 : ∀ i, (i < n)%nat → D1 !!! i ≤ cap).
    { intros i Hi. destruct (in_cell_ex ch Hwf i Hi) as [c Hin]. destruct (L2 c i Hin I) as [-> _].
      etransitivity; [apply best_le|by apply Hcap]. }
    eapply runs_mono.
    { eapply (for_cells_rev_inv (λ k, sinv ch 2 1 1 0 B2 D1 (λ c, k ≤ c)%nat)).
      - split; [done|..]; [|done]. intros c i Hin Hle. pose proof (in_cell_lt ch Hwf _ _ Hin). lia.
      - intros c D Hc Hinv. eapply runs_mono.
        + apply (sweep_cell_spec ch Hwf Hw16 Hh16 add cap 2 1 1 0 ltac:(lia)
            (λ c' c, (c < c')%nat) B2 D1) with (P := λ c', (c + 1 ≤ c')%nat);
            try done; try (intros; lia).
          * intros c' i j wt Hin Hj. by apply (forw_before c' i j wt).
          * intros c' i D' Hin HB. apply Hs2; [done| |done]. apply L2; done.
        + intros D'. apply (sinv_ext ch Hwf). intros. lia. }
    intros D2 [L1' L2' _]. split; [done|]. exists D1. split_and!; [done|..].
    - intros. by apply L2.
    - intros. apply L2'; [done|lia].
  Qed.
End both.
