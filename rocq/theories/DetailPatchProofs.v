(** The heights under a polygon. *)
From Verif Require Import Base FlowProofs ModelMath ModelHeightfield ModelFilters ModelCompact ModelContours ModelPoly ModelTriMesh ModelMarkArea ModelDetail
  SpecCompact SpecDistance SpecRegions SpecContours SpecDetail SpecPatch GraphProofs ContourWalkProofs DetailHeightProofs DetailMeshProofs.
Local Open Scope Z_scope.

Section patch.
  Context (ch : chf) (Hwf : wf_chf ch).
  Context (Hw : Z.of_nat (ch_w ch) ≤ 32767) (Hh : Z.of_nat (ch_h ch) ≤ 32767).
  Context (f : frame) (Hf : frame_fits ch f) (HW : (0 < fr_w f)%nat).
  Context (r : Z) (Hfl : ∀ i y, floor_of ch i = Some y → y < 65535).
  Notation w := (ch_w ch).
  Notation W := (fr_w f).
  Notation N := (fr_w f * fr_h f)%nat.
  Context (L : nat) (HL : (N ≤ L)%nat).

  (** The column under cell [k] of the patch. *)
  Definition pcol (k : nat) : nat := frame_column ch f (k mod W) (k / W).
  Lemma pcell k : (k < N)%nat → (k mod W < W)%nat ∧ (k / W < fr_h f)%nat ∧ k = (k mod W + k / W * W)%nat.
  Proof.
    intros Hk. split; [apply Nat.mod_upper_bound; lia|]. split; [apply Nat.div_lt_upper_bound; lia|].
    rewrite (Nat.div_mod_eq k W) at 1. lia.
  Qed.
  Lemma pcol_coords k : (k < N)%nat → (pcol k mod w = fr_x f + k mod W)%nat ∧ (pcol k / w = fr_z f + k / W)%nat ∧ (pcol k < w * ch_h ch)%nat.
  Proof.
    intros Hk. destruct (pcell k Hk) as (H1 & H2 & _). destruct Hf as [F1 F2]. unfold pcol, frame_column.
    rewrite Nat.mod_add, Nat.div_add by lia. rewrite Nat.mod_small, Nat.div_small by lia. split; [done|]. split; [done|]. nia.
  Qed.
  Lemma pcol_inj k k' : (k < N)%nat → (k' < N)%nat → pcol k = pcol k' → k = k'.
  Proof.
    intros Hk Hk' E. destruct (pcol_coords k Hk) as (A1 & A2 & _). destruct (pcol_coords k' Hk') as (B1 & B2 & _).
    destruct (pcell k Hk) as (_ & _ & ->). destruct (pcell k' Hk') as (_ & _ & ->). rewrite E in *. f_equal; [lia|]. f_equal. lia.
  Qed.
  Lemma pcol_at x z : (x < W)%nat → (z < fr_h f)%nat → (x + z * W < N)%nat ∧ pcol (x + z * W) = frame_column ch f x z.
  Proof.
    intros Hx Hz. split; [nia|]. unfold pcol. rewrite Nat.mod_add, Nat.div_add by lia. by rewrite Nat.mod_small, Nat.div_small by lia.
  Qed.

  (** The patch's data for the owners [own] of its cells. *)
  Lemma lookup_repeat {A} (a : A) n k : (k < n)%nat → repeat a n !! k = Some a.
  Proof. revert k. induction n as [|n IH]; intros [|k] Hk; [lia|lia|done|]. apply IH. lia. Qed.
  Definition hval (o : option nat) : Z := match o with Some i => default 65535 (floor_of ch i) | None => 65535 end.
  Record pinv (bs : Z) (own : list (option nat)) (hp : hpatch) : Prop := {
    pi_bs : 0 ≤ bs;
    pi_x : hp_xmin hp + bs = Z.of_nat (fr_x f); pi_x0 : 0 ≤ hp_xmin hp;
    pi_z : hp_zmin hp + bs = Z.of_nat (fr_z f); pi_z0 : 0 ≤ hp_zmin hp;
    pi_w : hp_w hp = Z.of_nat W; pi_h : hp_h hp = Z.of_nat (fr_h f);
    pi_len : length (hp_data hp) = L;
    pi_own : length own = N;
    pi_rep : ∀ k o, own !! k = Some o → hp_data hp !! k = Some (hval o);
    pi_in : ∀ k i, own !! k = Some (Some i) → in_cell ch (pcol k) i;
  }.
  Lemma pinv_ok bs own hp : pinv bs own hp → patch_ok hp.
  Proof.
    intros []. unfold patch_ok. rewrite pi_w0, pi_h0. destruct Hf as [F1 F2]. unfold I32_MAX. split; [lia|]. split; [lia|]. split; [lia|]. nia.
  Qed.
  Lemma floor_some c i : in_cell ch c i → ∃ s, ch_spans ch !! i = Some s ∧ floor_of ch i = Some (cs_y s) ∧ cs_y s < 65535.
  Proof.
    intros Hin. destruct (lookup_lt_is_Some_2 (ch_spans ch) i) as [s Hs]; [by eapply in_cell_bound|].
    exists s. assert (floor_of ch i = Some (cs_y s)) as E by (unfold floor_of; by rewrite Hs). split; [done|]. split; [done|]. by eapply Hfl.
  Qed.

  (** Setting a cell to the floor of a span of its column. *)
  Lemma pinv_put bs own hp k i s : pinv bs own hp → (k < N)%nat → in_cell ch (pcol k) i → ch_spans ch !! i = Some s →
    ∃ hp', data_put hp (Z.of_nat (k mod W)) (Z.of_nat (k / W)) (cs_y s) = Done hp' ∧ pinv bs (<[k := Some i]> own) hp'.
  Proof.
    intros Hp Hk Hin Hs. destruct (pcell k Hk) as (H1 & H2 & Ek). pose proof (pinv_ok _ _ _ Hp) as Hok. destruct Hp.
    unfold data_put. rewrite data_idx_done by (done || lia). cbn [obind].
    replace (Z.to_nat (Z.of_nat (k mod W) + Z.of_nat (k / W) * hp_w hp)) with k by (rewrite pi_w0; lia).
    rewrite put_lt by lia. cbn [obind]. eexists. split; [done|].
    constructor; cbn [hp_set_data hp_data hp_xmin hp_zmin hp_w hp_h]; try done.
    - by rewrite insert_length.
    - by rewrite insert_length.
    - intros k' o [(<- & <- & _)|[Hne Ho]]%list_lookup_insert_Some.
      + rewrite list_lookup_insert by lia. cbn. unfold floor_of. by rewrite Hs.
      + rewrite list_lookup_insert_ne by done. by apply pi_rep0.
    - intros k' i' [(<- & E & _)|[Hne Ho]]%list_lookup_insert_Some; [by injection E as <-|by apply pi_in0].
  Qed.

  Lemma pinv_at bs own hp k o : pinv bs own hp → own !! k = Some o →
    data_at hp (Z.of_nat (k mod W)) (Z.of_nat (k / W)) = Done (hval o).
  Proof.
    intros Hp Ho. assert (k < N)%nat as Hk by (rewrite <-(pi_own _ _ _ Hp); by eapply lookup_lt_Some).
    destruct (pcell k Hk) as (H1 & H2 & Ek).
    destruct (data_at_done hp (Z.of_nat (k mod W)) (Z.of_nat (k / W)) (pinv_ok _ _ _ Hp)) as (v & -> & Hv).
    { rewrite (pi_w _ _ _ Hp). lia. } { rewrite (pi_h _ _ _ Hp). lia. }
    rewrite (pi_w _ _ _ Hp) in Hv. replace (Z.to_nat (_ + _)) with k in Hv by lia. rewrite (pi_rep _ _ _ Hp _ _ Ho) in Hv. congruence.
  Qed.
  Lemma hval_unset own bs hp k o : pinv bs own hp → own !! k = Some o → hval o = UNSET ↔ o = None.
  Proof.
    intros Hp Ho. destruct o as [i|]; [|by cbn]. split; [|done]. intros E.
    destruct (floor_some _ _ (pi_in _ _ _ Hp _ _ Ho)) as (s & _ & E' & Hlt). cbn in E. rewrite E' in E. cbn in E. unfold UNSET in E. lia.
  Qed.

  (** ** The copy of the region *)
  Definition reg_own (k : nat) : option nat :=
    match ch_cells ch !! pcol k with Some cell => list_find (λ i, region_of ch i = Some r) (index_range cell) ≫= λ p, Some p.2 | None => None end.

  Lemma region_span_spec is : (∀ i, i ∈ is → (i < length (ch_spans ch))%nat) →
    ∃ o, region_span ch r is = Done o ∧
      match list_find (λ i, region_of ch i = Some r) is with
      | Some (_, i) => ∃ s, o = Some (i, s) ∧ ch_spans ch !! i = Some s
      | None => o = None
      end.
  Proof.
    induction is as [|i is IH]; intros H; [by exists None|]. cbn [region_span list_find].
    destruct (get_lt (ch_spans ch) i) as (s & -> & Hs); [apply H; set_solver|]. cbn [obind].
    assert (region_of ch i = Some (cs_reg s)) as Er by (unfold region_of; by rewrite Hs).
    destruct (decide _) as [E|E]; rewrite Er in E.
    - replace (cs_reg s =? r) with true by (injection E as ->; lia). eexists. split; [done|]. by exists s.
    - destruct (cs_reg s =? r) eqn:E'; [exfalso; apply E; f_equal; lia|].
      destruct IH as (o & -> & Ho); [intros; apply H; set_solver|]. exists o. split; [done|].
      destruct (list_find _ is) as [[n j]|]; done.
  Qed.

  Lemma region_border_spec k i s : (k < N)%nat → in_cell ch (pcol k) i → ch_spans ch !! i = Some s →
    ∃ b, region_border ch r (Z.of_nat (pcol k mod w)) (Z.of_nat (pcol k / w)) s (seq 0 4) = Done b ∧
      (b = false → ∀ d c' j, (d < 4)%nat → nbr ch (pcol k) i d = Some (c', j) → region_of ch j = Some r).
  Proof.
    intros Hk Hin Hs.
    enough (∀ ds, (∀ d, d ∈ ds → (d < 4)%nat) → ∃ b, region_border ch r (Z.of_nat (pcol k mod w)) (Z.of_nat (pcol k / w)) s ds = Done b ∧
      (b = false → ∀ d c' j, d ∈ ds → nbr ch (pcol k) i d = Some (c', j) → region_of ch j = Some r)) as H.
    { destruct (H (seq 0 4)) as (b & E & Hb); [intros d; rewrite elem_of_seq; lia|]. exists b. split; [done|].
      intros Ef d c' j Hd. apply Hb; [done|]. apply elem_of_seq. lia. }
    induction ds as [|d ds IH]; intros Hds; cbn [region_border].
    { exists false. split; [done|]. intros _ d c' j Hd. by apply elem_of_nil in Hd. }
    destruct IH as (b & E & Hb); [intros; apply Hds; set_solver|].
    destruct (con_idx ch Hwf ltac:(lia) ltac:(lia) (pcol k) i d s Hin (Hds _ (elem_of_list_here _ _)) Hs) as (o & -> & Ho). cbn [obind].
    destruct o as [v|].
    - destruct Ho as (c' & j & Hn & Hin' & ->). cbn [obind].
      destruct (get_lt (ch_spans ch) j) as (a & -> & Ha); [by eapply in_cell_bound|]. cbn [obind].
      destruct (cs_reg a =? r) eqn:Er; cbn [negb].
      + exists b. split; [done|]. intros Ef d' c2 j2 [->|Hd']%elem_of_cons Hn2; [|by eapply Hb].
        rewrite Hn in Hn2. injection Hn2 as <- <-. unfold region_of. rewrite Ha. cbn. f_equal. lia.
      + by exists true.
    - exists b. split; [done|]. intros Ef d' c2 j2 [->|Hd']%elem_of_cons Hn2; [congruence|by eapply Hb].
  Qed.

  Definition entry (k i : nat) : Z * Z * nat := (Z.of_nat (pcol k mod w), Z.of_nat (pcol k / w), i).
  (** Cell [k], owned by span [i], needs no visit: its neighbours in the patch have owners. *)
  Definition closed_at (own : list (option nat)) (k i : nat) : Prop :=
    ∀ d c' j k', (d < 4)%nat → nbr ch (pcol k) i d = Some (c', j) → (k' < N)%nat → pcol k' = c' → own !! k' ≠ Some None.

  Lemma reg_own_spec k : (k < N)%nat →
    match reg_own k with
    | Some i => lowest_of ch r (pcol k) i
    | None => ∀ i, in_cell ch (pcol k) i → region_of ch i ≠ Some r
    end.
  Proof.
    intros Hk. destruct (pcol_coords k Hk) as (_ & _ & Hc). unfold reg_own.
    destruct (lookup_lt_is_Some_2 (ch_cells ch) (pcol k)) as [cell Hcell]; [by rewrite cells_len|]. rewrite Hcell.
    destruct (list_find _ _) as [[n i]|] eqn:El; cbn.
    - apply list_find_Some in El as (Hi & Hr & Hlow). split; [exists cell; split; [done|by eapply elem_of_list_lookup_2]|]. split; [done|].
      intros j (cell' & Hc' & Hj) Hrj. rewrite Hcell in Hc'. injection Hc' as <-. apply elem_of_list_lookup in Hj as [m Hm].
      unfold index_range in *. apply lookup_seq in Hi as [-> Hi]. pose proof Hm as Hm'. apply lookup_seq in Hm as [-> Hm].
      destruct (decide (m < n)%nat) as [Hlt|]; [|lia]. by destruct (Hlow m _ Hm' Hlt).
    - apply list_find_None in El. intros i (cell' & Hc' & Hi) Hri. rewrite Hcell in Hc'. injection Hc' as <-.
      rewrite Forall_forall in El. by apply (El i).
  Qed.

  Lemma copy_cell_spec bs own hp q em k : pinv bs own hp → (k < N)%nat →
    ∃ hp' b, copy_cell ch r bs (Z.of_nat (k / W)) (Z.of_nat (k mod W)) (hp, q, em) =
      Done (hp', q ++ match reg_own k with Some i => if b : bool then [entry k i] else [] | None => [] end, match reg_own k with Some _ => false | None => em end) ∧
      pinv bs (match reg_own k with Some i => <[k := Some i]> own | None => own end) hp' ∧
      (∀ i, reg_own k = Some i → b = false → ∀ d c' j, (d < 4)%nat → nbr ch (pcol k) i d = Some (c', j) → region_of ch j = Some r).
  Proof.
    intros Hp Hk. destruct (pcell k Hk) as (H1 & H2 & Ek). destruct (pcol_coords k Hk) as (C1 & C2 & C3). destruct Hf as [F1 F2].
    pose proof (pi_bs _ _ _ Hp). pose proof (pi_x _ _ _ Hp). pose proof (pi_z _ _ _ Hp). pose proof (pi_x0 _ _ _ Hp). pose proof (pi_z0 _ _ _ Hp).
    unfold copy_cell.
    assert (∀ a, 0 ≤ a ≤ 65535 → chk_u16 a = Done a) as Hchk.
    { intros a Ha. unfold chk_u16, chk. destruct (_ && _) eqn:E; [done|]. unfold U16_MAX in E. lia. }
    do 4 (rewrite Hchk by lia; cbn [obind]).
    replace (hp_xmin hp + Z.of_nat (k mod W) + bs) with (Z.of_nat (pcol k mod w)) by lia.
    replace (hp_zmin hp + Z.of_nat (k / W) + bs) with (Z.of_nat (pcol k / w)) by lia. rewrite !Nat2Z.id.
    replace (pcol k mod w + pcol k / w * w)%nat with (pcol k).
    2:{ destruct (cell_coords ch (pcol k) C3) as (_ & _ & _ & E). exact E. }
    destruct (lookup_lt_is_Some_2 (ch_cells ch) (pcol k)) as [cell Hcell]; [by rewrite cells_len|].
    rewrite (get_some _ _ _ Hcell). cbn [obind].
    assert (∀ i, i ∈ index_range cell → in_cell ch (pcol k) i) as Hins by (intros i Hi; by exists cell).
    destruct (region_span_spec (index_range cell)) as (o & -> & Ho); [intros i Hi; eapply in_cell_bound; [done|by apply Hins]|]. cbn [obind].
    unfold reg_own. rewrite Hcell. destruct (list_find _ _) as [[n i]|] eqn:El; cbn [mbind option_bind snd].
    - destruct Ho as (s & -> & Hs). apply list_find_Some in El as (Hi & _). apply elem_of_list_lookup_2 in Hi. apply Hins in Hi.
      destruct (pinv_put bs own hp k i s Hp Hk Hi Hs) as (hp' & -> & Hp'). cbn [obind].
      destruct (region_border_spec k i s Hk Hi Hs) as (b & -> & Hb). cbn [obind].
      exists hp', b. split; [destruct b; by rewrite ?app_nil_r|]. split; [done|]. intros i' [= <-]. done.
    - subst o. exists hp, true. rewrite app_nil_r. split; [done|]. split; [done|]. done.
  Qed.

  Definition own_upto (n : nat) : list (option nat) := (reg_own <$> seq 0 n) ++ repeat None (N - n).
  Lemma own_upto_S n : (n < N)%nat → own_upto (S n) = match reg_own n with Some i => <[n := Some i]> (own_upto n) | None => own_upto n end.
  Proof.
    intros Hn. unfold own_upto. replace (N - n)%nat with (S (N - S n)) by lia. cbn [repeat].
    rewrite seq_S, fmap_app, <-app_assoc. cbn [fmap list_fmap app plus].
    destruct (reg_own n) as [i|] eqn:E; [|done].
    rewrite insert_app_r_alt by (rewrite fmap_length, seq_length; lia). rewrite fmap_length, seq_length, Nat.sub_diag. done.
  Qed.
  Lemma own_upto_lookup n k : (k < N)%nat → own_upto n !! k = Some (if decide (k < n)%nat then reg_own k else None).
  Proof.
    intros Hk. unfold own_upto. case_decide.
    - rewrite lookup_app_l by (rewrite fmap_length, seq_length; lia). rewrite list_lookup_fmap, lookup_seq_lt by lia. done.
    - rewrite lookup_app_r by (rewrite fmap_length, seq_length; lia). apply lookup_repeat. rewrite fmap_length, seq_length. lia.
  Qed.

  (** Work on the queue: owners, the entries waiting, and what is known of the rest. *)
  Record qinv (bs : Z) (own : list (option nat)) (hp : hpatch) (q : list (Z * Z * nat)) : Prop := {
    qi_p : pinv bs own hp;
    qi_q : ∀ e, e ∈ q → ∃ k i, own !! k = Some (Some i) ∧ e = entry k i;
    qi_low : ∀ k i, (k < N)%nat → lowest_of ch r (pcol k) i → own !! k = Some (Some i);
    qi_reach : ∀ k i, own !! k = Some (Some i) → reached_from ch f r i;
    qi_closed : ∀ k i, own !! k = Some (Some i) → entry k i ∈ q ∨ closed_at own k i;
  }.

  Lemma in_frame_pcol k : (k < N)%nat → in_frame ch f (pcol k).
  Proof. intros Hk. destruct (pcell k Hk) as (H1 & H2 & _). by exists (k mod W)%nat, (k / W)%nat. Qed.

  Lemma copy_region_spec bs hp : pinv bs (repeat None N) hp → (∃ k i, (k < N)%nat ∧ in_cell ch (pcol k) i ∧ region_of ch i = Some r) →
    ∃ hp' q, copy_region ch r bs hp = Done (hp', q, false) ∧ qinv bs (own_upto N) hp' q ∧ (length q ≤ N)%nat.
  Proof.
    intros Hp Hex. unfold copy_region. rewrite (pi_w _ _ _ Hp), (pi_h _ _ _ Hp), !Nat2Z.id.
    assert (ends False (for_cells W (fr_h f) (λ hx hz, copy_cell ch r bs (Z.of_nat hz) (Z.of_nat hx)) (hp, [], true))
      (λ '(hp', q, em), pinv bs (own_upto N) hp' ∧ (length q ≤ N)%nat ∧
        (em = true → ∀ k, (k < N)%nat → reg_own k = None) ∧
        (∀ e, e ∈ q → ∃ k i, (k < N)%nat ∧ reg_own k = Some i ∧ e = entry k i) ∧
        (∀ k i, (k < N)%nat → reg_own k = Some i → entry k i ∈ q ∨ ∀ d c' j, (d < 4)%nat → nbr ch (pcol k) i d = Some (c', j) → region_of ch j = Some r))) as Hend.
    { apply (ends_cells False (λ n '(hp', q, em), pinv bs (own_upto n) hp' ∧ (length q ≤ n)%nat ∧
        (em = true → ∀ k, (k < n)%nat → reg_own k = None) ∧
        (∀ e, e ∈ q → ∃ k i, (k < n)%nat ∧ reg_own k = Some i ∧ e = entry k i) ∧
        (∀ k i, (k < n)%nat → reg_own k = Some i → entry k i ∈ q ∨ ∀ d c' j, (d < 4)%nat → nbr ch (pcol k) i d = Some (c', j) → region_of ch j = Some r))).
      - unfold own_upto. cbn [seq fmap list_fmap app]. rewrite Nat.sub_0_r. split; [done|]. split; [done|]. split; [lia|].
        split; [intros e He; by apply elem_of_nil in He|]. lia.
      - intros n [[hp1 q1] em1] Hn (G1 & G2 & G3 & G4 & G5). destruct (copy_cell_spec bs (own_upto n) hp1 q1 em1 n G1 Hn) as (hp2 & b & -> & K1 & K2).
        cbn [ends]. rewrite Nat.add_1_r, own_upto_S by done. split; [by destruct (reg_own n)|].
        split. { rewrite app_length. destruct (reg_own n); [destruct b|]; cbn; lia. }
        split. { intros Em k Hk. destruct (decide (k = n)) as [->|]; [by destruct (reg_own n)|]. apply G3; [by destruct (reg_own n)|lia]. }
        split.
        { intros e [He|He]%elem_of_app; [destruct (G4 e He) as (k & i & ? & ? & ?); exists k, i; split; [lia|done]|].
          destruct (reg_own n) as [i|] eqn:Ei; [|by apply elem_of_nil in He]. destruct b; [|by apply elem_of_nil in He].
          apply elem_of_list_singleton in He as ->. exists n, i. split; [lia|done]. }
        intros k i Hk Hi. destruct (decide (k = n)) as [->|].
        + rewrite Hi. destruct b; [left; apply elem_of_app; right; by apply elem_of_list_singleton|right; by apply K2].
        + destruct (G5 k i ltac:(lia) Hi) as [He|He]; [left; apply elem_of_app; by left|by right]. }
    destruct (for_cells _ _ _ _) as [[[hp' q] em]| |]; [|done..]. destruct Hend as (G1 & G2 & G3 & G4 & G5).
    destruct Hex as (k0 & i0 & Hk0 & Hin0 & Hr0).
    destruct em. { pose proof (reg_own_spec k0 Hk0) as Hs. rewrite (G3 eq_refl k0 Hk0) in Hs. by destruct (Hs i0 Hin0). }
    exists hp', q. split; [done|]. split; [|done].
    assert (∀ k, (k < N)%nat → own_upto N !! k = Some (reg_own k)) as Hl by (intros k Hk; rewrite own_upto_lookup by done; by case_decide).
    assert (∀ k i, own_upto N !! k = Some (Some i) → (k < N)%nat ∧ reg_own k = Some i) as Hl'.
    { intros k i H. assert (k < N)%nat as Hk by (rewrite <-(pi_own _ _ _ G1); by eapply lookup_lt_Some). rewrite Hl in H by done. split; [done|congruence]. }
    constructor; [done|..].
    - intros e He. destruct (G4 e He) as (k & i & Hk & Hi & ->). exists k, i. split; [by rewrite Hl, Hi|done].
    - intros k i Hk (Hin & Hri & Hlow). rewrite Hl by done. pose proof (reg_own_spec k Hk) as Hs. destruct (reg_own k) as [i'|]; [|by destruct (Hs i Hin)].
      destruct Hs as (Hin' & Hri' & Hlow'). specialize (Hlow i' Hin' Hri'). specialize (Hlow' i Hin Hri). do 2 f_equal. lia.
    - intros k i [Hk Hi]%Hl'. pose proof (reg_own_spec k Hk) as Hs. rewrite Hi in Hs. destruct Hs as (Hin & Hri & _).
      exists i, (pcol k). split; [done|]. split; [by apply in_frame_pcol|]. split; [done|]. apply rtc_refl.
    - intros k i [Hk Hi]%Hl'. destruct (G5 k i Hk Hi) as [He|He]; [by left|right].
      intros d c' j k' Hd Hn Hk' Hc'. rewrite Hl by done. pose proof (reg_own_spec k' Hk') as Hs. destruct (reg_own k'); [done|].
      pose proof (reg_own_spec k Hk) as Hs2. rewrite Hi in Hs2. destruct Hs2 as (Hin & _).
      subst c'. destruct (Hs j); [by eapply nbr_in_cell|by eapply He].
  Qed.

  (** ** The flood fill *)
  Definition nunset (own : list (option nat)) : nat := length (filter (λ o, o = None) own).
  Lemma nunset_set own k i : own !! k = Some None → nunset own = S (nunset (<[k := Some i]> own)).
  Proof.
    intros H. rewrite <-(take_drop_middle own k None H) at 1. rewrite insert_take_drop by (by eapply lookup_lt_Some).
    unfold nunset. rewrite !filter_app, !app_length. rewrite filter_cons_True, filter_cons_False by done. cbn. lia.
  Qed.

  Definition grows (own own' : list (option nat)) : Prop := ∀ k i, own !! k = Some (Some i) → own' !! k = Some (Some i).
  Lemma grows_unset own own' k : length own = length own' → grows own own' → own !! k ≠ Some None → own' !! k ≠ Some None.
  Proof.
    intros Hl Hg Hk E. destruct (own !! k) as [[i|]|] eqn:Eo; [|done|].
    - apply Hg in Eo. congruence.
    - apply lookup_ge_None in Eo. apply lookup_lt_Some in E. lia.
  Qed.
  Lemma closed_grows own own' k i : length own = length own' → grows own own' → closed_at own k i → closed_at own' k i.
  Proof. intros Hl Hg Hc d c' j k' Hd Hn Hk' E. eapply grows_unset; [done|done|by eapply Hc]. Qed.

  Lemma fill_dir_spec bs own hp q k i s d : pinv bs own hp → own !! k = Some (Some i) → ch_spans ch !! i = Some s → (d < 4)%nat → reached_from ch f r i →
    ∃ own' hp' new, fill_dir ch bs (Z.of_nat (pcol k mod w)) (Z.of_nat (pcol k / w)) s d (hp, q) = Done (hp', q ++ new) ∧
      pinv bs own' hp' ∧ grows own own' ∧ length own' = length own ∧ (nunset own' + length new = nunset own)%nat ∧
      (∀ c' j k', nbr ch (pcol k) i d = Some (c', j) → (k' < N)%nat → pcol k' = c' → own' !! k' ≠ Some None) ∧
      (∀ k' i', own' !! k' = Some (Some i') → own !! k' = Some (Some i') ∨ entry k' i' ∈ new ∧ reached_from ch f r i') ∧
      (∀ e, e ∈ new → ∃ k' i', own' !! k' = Some (Some i') ∧ e = entry k' i').
  Proof.
    intros Hp Ho Hs Hd Hre. pose proof (pi_in _ _ _ Hp _ _ Ho) as Hin.
    assert (k < N)%nat as Hk by (rewrite <-(pi_own _ _ _ Hp); by eapply lookup_lt_Some).
    unfold fill_dir. destruct (con_idx ch Hwf ltac:(lia) ltac:(lia) (pcol k) i d s Hin Hd Hs) as (o & -> & Hcon). cbn [obind].
    assert ((∀ c' j k', nbr ch (pcol k) i d = Some (c', j) → (k' < N)%nat → pcol k' = c' → own !! k' ≠ Some None) →
      ∃ own' hp' new, Done (hp, q) = Done (hp', q ++ new) ∧
      pinv bs own' hp' ∧ grows own own' ∧ length own' = length own ∧ (nunset own' + length new = nunset own)%nat ∧
      (∀ c' j k', nbr ch (pcol k) i d = Some (c', j) → (k' < N)%nat → pcol k' = c' → own' !! k' ≠ Some None) ∧
      (∀ k' i', own' !! k' = Some (Some i') → own !! k' = Some (Some i') ∨ entry k' i' ∈ new ∧ reached_from ch f r i') ∧
      (∀ e, e ∈ new → ∃ k' i', own' !! k' = Some (Some i') ∧ e = entry k' i')) as Hstay.
    { intros Hst. exists own, hp, []. rewrite app_nil_r, Nat.add_0_r. split; [done|]. split; [done|]. split; [by intros ? ?|]. split; [done|]. split; [done|].
      split; [done|]. split; [intros; by left|]. intros e He. by apply elem_of_nil in He. }
    destruct o as [v|]; [|apply Hstay; intros; congruence].
    destruct Hcon as (c' & j & Hn & Hin' & Hci). unfold con_indices in Hci.
    set (ax := Z.of_nat (pcol k mod w) + dir_offset_x d) in *. set (az := Z.of_nat (pcol k / w) + dir_offset_z d) in *.
    destruct (ax + az * Z.of_nat w <? 0) eqn:Eneg; [done|].
    apply obind_done in Hci as (cell & Hcell & [= Eax Eaz Ej]).
    assert (c' < w * ch_h ch)%nat as Hc' by (by eapply in_cell_lt). destruct (cell_coords ch c' Hc') as (Hwn & Hx' & Hz' & Ec').
    destruct Hf as [F1 F2]. pose proof (pi_bs _ _ _ Hp). pose proof (pi_x _ _ _ Hp). pose proof (pi_z _ _ _ Hp). pose proof (pi_x0 _ _ _ Hp). pose proof (pi_z0 _ _ _ Hp).
    set (hx := ax - hp_xmin hp - bs). set (hz := az - hp_zmin hp - bs).
    assert (hx = Z.of_nat (c' mod w) - Z.of_nat (fr_x f)) as Ehx by (unfold hx; lia).
    assert (hz = Z.of_nat (c' / w) - Z.of_nat (fr_z f)) as Ehz by (unfold hz; lia).
    assert (∀ a, -32768 ≤ a ≤ 32767 → wrap_u16 a = if decide (0 ≤ a) then a else a + 65536) as Hwrap.
    { intros a Ha. unfold wrap_u16. case_decide; [apply Z.mod_small; lia|]. symmetry. apply (Z.mod_unique _ _ (-1)); lia. }
    rewrite (Hwrap hx), (Hwrap hz) by lia. rewrite (pi_w _ _ _ Hp), (pi_h _ _ _ Hp).
    destruct (_ || _) eqn:Eout.
    { apply Hstay. intros c2 j2 k' Hn2 Hk' Hpc. rewrite Hn in Hn2. injection Hn2 as <- <-. exfalso.
      destruct (pcol_coords k' Hk') as (P1 & P2 & _). destruct (pcell k' Hk') as (Q1 & Q2 & _). rewrite Hpc in P1, P2.
      assert (0 ≤ hx < Z.of_nat W ∧ 0 ≤ hz < Z.of_nat (fr_h f)) as [Hbx Hbz] by lia.
      destruct (decide (0 ≤ hx)), (decide (0 ≤ hz)); lia. }
    assert (0 ≤ hx < Z.of_nat W ∧ 0 ≤ hz < Z.of_nat (fr_h f)) as [Hbx Hbz] by (destruct (decide (0 ≤ hx)), (decide (0 ≤ hz)); lia).
    clear Eout. destruct (pcol_at (Z.to_nat hx) (Z.to_nat hz)) as [Hk' Hpk']; [lia|lia|].
    set (k' := (Z.to_nat hx + Z.to_nat hz * W)%nat) in *.
    assert (pcol k' = c') as Epc. { rewrite Hpk', Ec'. unfold frame_column. f_equal; [lia|f_equal; lia]. }
    assert (Z.of_nat (k' mod W) = hx ∧ Z.of_nat (k' / W) = hz) as [Ekx Ekz].
    { unfold k'. rewrite Nat.mod_add, Nat.div_add by lia. rewrite Nat.mod_small, Nat.div_small by lia. lia. }
    rewrite <-Ekx, <-Ekz.
    destruct (lookup_lt_is_Some_2 own k') as [o' Ho']; [by rewrite (pi_own _ _ _ Hp)|].
    rewrite (pinv_at bs own hp k' o' Hp Ho'). cbn [obind].
    destruct (hval o' =? UNSET) eqn:Eu; cbn [negb].
    2:{ apply Hstay. intros c2 j2 k2 Hn2 Hk2 Hpc. rewrite Hn in Hn2. injection Hn2 as <- <-.
        assert (k2 = k') as -> by (apply pcol_inj; [done|done|congruence]). rewrite Ho'. intros [= ->]. by cbn in Eu. }
    assert (o' = None) as -> by (apply (hval_unset own bs hp k' o' Hp Ho'); lia).
    rewrite Hcell. cbn [obind]. rewrite Ej.
    destruct (get_lt (ch_spans ch) j) as (a & -> & Ha); [by eapply in_cell_bound|]. cbn [obind].
    destruct (pinv_put bs own hp k' j a Hp Hk') as (hp' & -> & Hp'); [by rewrite Epc|done|]. cbn [obind].
    assert (reached_from ch f r j) as Hrj.
    { destruct Hre as (i0 & c0 & R1 & R2 & R3 & R4). exists i0, c0. split; [done|]. split; [done|]. split; [done|].
      eapply rtc_r; [exact R4|]. exists d, c'. split; [done|]. split; [by eapply nbr_step|]. split; [done|]. rewrite <-Epc. by apply in_frame_pcol. }
    exists (<[k' := Some j]> own), hp', [entry k' j].
    split. { unfold entry. by rewrite Epc, Eax, Eaz. }
    split; [done|]. split.
    { intros k2 i2 Hk2. rewrite list_lookup_insert_ne; [done|]. intros <-. congruence. }
    split; [by rewrite insert_length|]. split; [cbn; rewrite (nunset_set own k' j Ho'); lia|].
    split.
    { intros c2 j2 k2 Hn2 Hk2 Hpc. rewrite Hn in Hn2. injection Hn2 as <- <-.
      assert (k2 = k') as -> by (apply pcol_inj; [done|done|congruence]). rewrite list_lookup_insert by (rewrite (pi_own _ _ _ Hp); done). done. }
    split.
    { intros k2 i2 [(<- & E & _)|[_ ?]]%list_lookup_insert_Some; [|by left]. injection E as <-. right. split; [by apply elem_of_list_singleton|done]. }
    intros e ->%elem_of_list_singleton. exists k', j. split; [|done]. rewrite list_lookup_insert by (rewrite (pi_own _ _ _ Hp); done). done.
  Qed.

  Lemma fill_loop_spec fuel bs own hp q head : (head < 256)%nat → qinv bs own hp (drop head q) → (nunset own + length (drop head q) < fuel)%nat →
    ∃ own' hp', fill_loop fuel ch bs head hp q = Done hp' ∧ qinv bs own' hp' [].
  Proof.
    revert own hp q head. induction fuel as [|fuel IH]; intros own hp q head Hhd Hq Hfu; [lia|]. cbn [fill_loop].
    destruct (q !! head) as [[[cx cz] ci]|] eqn:Eh.
    2:{ exists own, hp. split; [done|]. apply lookup_ge_None in Eh. by rewrite drop_ge in Hq. }
    rewrite (drop_S _ _ _ Eh) in Hq, Hfu. cbn [length] in Hfu. pose proof (lookup_lt_Some _ _ _ Eh) as Hlen.
    destruct (qi_q _ _ _ _ Hq (cx, cz, ci)) as (k & i & Ho & Ee); [apply elem_of_list_here|].
    set (hq := if (RETRACT <=? S head)%nat then _ else _).
    assert (∃ head' q', hq = (head', q') ∧ (head' < 256)%nat ∧ drop head' q' = drop (S head) q ∧ (head' ≤ length q')%nat) as (head' & q' & -> & H1 & H2 & H3).
    { unfold hq, RETRACT. destruct (256 <=? S head)%nat eqn:E.
      - exists 0%nat, (drop 256 q). assert (head = 255)%nat as -> by lia. split; [done|]. split; [lia|]. split; [done|]. lia.
      - exists (S head), q. split; [done|]. split; [lia|]. split; [done|]. lia. }
    rewrite <-H2 in Hq, Hfu. unfold entry in Ee. injection Ee as -> -> ->.
    pose proof (pi_in _ _ _ (qi_p _ _ _ _ Hq) _ _ Ho) as Hin.
    destruct (get_lt (ch_spans ch) i) as (s & -> & Hs); [by eapply in_cell_bound|]. cbn [obind].
    assert (ends False (foldM (fill_dir ch bs (Z.of_nat (pcol k mod w)) (Z.of_nat (pcol k / w)) s) (seq 0 4) (hp, q')) (λ '(hp1, q1),
      ∃ own1 new, q1 = q' ++ new ∧ pinv bs own1 hp1 ∧ grows own own1 ∧ length own1 = length own ∧ (nunset own1 + length new = nunset own)%nat ∧
        (∀ d c' j k', (d < 0 + 4)%nat → nbr ch (pcol k) i d = Some (c', j) → (k' < N)%nat → pcol k' = c' → own1 !! k' ≠ Some None) ∧
        (∀ k' i', own1 !! k' = Some (Some i') → own !! k' = Some (Some i') ∨ entry k' i' ∈ new ∧ reached_from ch f r i') ∧
        (∀ e, e ∈ new → ∃ k' i', own1 !! k' = Some (Some i') ∧ e = entry k' i'))) as Hfold.
    { apply (ends_seq_inv False (λ n '(hp1, q1),
      ∃ own1 new, q1 = q' ++ new ∧ pinv bs own1 hp1 ∧ grows own own1 ∧ length own1 = length own ∧ (nunset own1 + length new = nunset own)%nat ∧
        (∀ d c' j k', (d < n)%nat → nbr ch (pcol k) i d = Some (c', j) → (k' < N)%nat → pcol k' = c' → own1 !! k' ≠ Some None) ∧
        (∀ k' i', own1 !! k' = Some (Some i') → own !! k' = Some (Some i') ∨ entry k' i' ∈ new ∧ reached_from ch f r i') ∧
        (∀ e, e ∈ new → ∃ k' i', own1 !! k' = Some (Some i') ∧ e = entry k' i'))).
      - exists own, []. rewrite app_nil_r, Nat.add_0_r. split; [done|]. split; [apply Hq|]. split; [by intros ? ?|]. split; [done|]. split; [done|].
        split; [lia|]. split; [intros; by left|]. intros e He. by apply elem_of_nil in He.
      - intros d [hp1 q1] Hd (own1 & new & -> & G1 & G2 & G3 & G4 & G5 & G6 & G7).
        destruct (fill_dir_spec bs own1 hp1 (q' ++ new) k i s d) as (own2 & hp2 & new2 & -> & K1 & K2 & K3 & K4 & K5 & K6 & K7).
        + done. + by apply G2. + done. + lia. + by eapply (qi_reach _ _ _ _ Hq).
        + cbn [ends]. exists own2, (new ++ new2). rewrite app_assoc. split; [done|]. split; [done|]. split; [intros k1 i1 Hk1; by apply K2, G2|].
          split; [lia|]. split; [rewrite app_length; lia|]. split.
          { intros d' c' j k' Hd' Hn Hk' Hc'. destruct (decide (d' = d)) as [->|]; [by eapply K5|].
            eapply grows_unset; [|exact K2|eapply (G5 d'); [lia|done|done|done]]. lia. }
          split.
          { intros k' i' Hk'. destruct (K6 k' i' Hk') as [Ho1|[He Hr1]]; [|right; split; [apply elem_of_app; by right|done]].
            destruct (G6 k' i' Ho1) as [?|[He Hr1]]; [by left|right]. split; [apply elem_of_app; by left|done]. }
          intros e [He|He]%elem_of_app; [|by apply K7]. destruct (G7 e He) as (k' & i' & Hk' & ->). exists k', i'. split; [by apply K2|done]. }
    destruct (foldM _ _ _) as [[hp1 q1]| |]; [|done..]. destruct Hfold as (own1 & new & -> & G1 & G2 & G3 & G4 & G5 & G6 & G7). cbn [obind].
    assert (drop head' (q' ++ new) = drop head' q' ++ new) as Edrop by (by rewrite drop_app_le).
    apply (IH own1); [done| |rewrite Edrop, app_length; lia].
    rewrite Edrop. destruct Hq. constructor; [done|..].
    - intros e [He|He]%elem_of_app; [|by apply G7]. destruct (qi_q0 e) as (k' & i' & Hk' & ->); [by apply elem_of_list_further|].
      exists k', i'. split; [by apply G2|done].
    - intros k' i' Hk' Hl. apply G2. by apply qi_low0.
    - intros k' i' Hk'. destruct (G6 k' i' Hk') as [Ho'|[_ ?]]; [by eapply qi_reach0|done].
    - intros k' i' Hk'. destruct (G6 k' i' Hk') as [Ho'|[He _]]; [|left; apply elem_of_app; by right].
      destruct (qi_closed0 k' i' Ho') as [He|He]; [|right; by eapply closed_grows].
      apply elem_of_cons in He as [He|He]; [|left; apply elem_of_app; by left]. right.
      assert (k' < N)%nat as HkN by (rewrite <-(pi_own _ _ _ qi_p0); by eapply lookup_lt_Some).
      assert (k < N)%nat as HkN2 by (rewrite <-(pi_own _ _ _ qi_p0); by eapply lookup_lt_Some).
      assert (i' = i ∧ k' = k) as [-> ->].
      { unfold entry in He. injection He as E1 E2 ->. split; [done|]. apply pcol_inj; [done|done|].
        destruct (pcol_coords k' HkN) as (_ & _ & L1). destruct (pcol_coords k HkN2) as (_ & _ & L2).
        destruct (cell_coords ch _ L1) as (_ & _ & _ & ->). destruct (cell_coords ch _ L2) as (_ & _ & _ & ->). f_equal; [lia|f_equal; lia]. }
      intros d c' j k2 Hd. by apply G5.
  Qed.

  Lemma height_data_spec fuel row verts bs data x0 z0 : r ≠ 0 → 0 ≤ bs → 0 ≤ x0 → 0 ≤ z0 →
    x0 + bs = Z.of_nat (fr_x f) → z0 + bs = Z.of_nat (fr_z f) → length data = L → (2 * N < fuel)%nat →
    (∃ x z i, (x < W)%nat ∧ (z < fr_h f)%nat ∧ in_cell ch (frame_column ch f x z) i ∧ region_of ch i = Some r) →
    ∃ hp own, get_height_data fuel ch row verts bs r (HP data x0 z0 (Z.of_nat W) (Z.of_nat (fr_h f))) = Done hp ∧
      same_dims hp (HP data x0 z0 (Z.of_nat W) (Z.of_nat (fr_h f))) ∧ patch_ok hp ∧
      shows_region ch f r own ∧ shows ch f own (hp_data hp).
  Proof.
    intros Hr Hbs Hx0 Hz0 Ex Ez Hlen Hfu (x & z & i & Hx & Hz & Hin & Hri). unfold get_height_data, data_fill.
    assert (data_len (HP data x0 z0 (Z.of_nat W) (Z.of_nat (fr_h f))) = N) as -> by (unfold data_len; cbn; lia). cbn [hp_data].
    destruct (_ <? _)%nat eqn:E; [lia|]. clear E. cbn [obind]. replace (r =? 0) with false by lia.
    set (hp0 := hp_set_data _ _).
    assert (pinv bs (repeat None N) hp0) as Hp0.
    { constructor; try done.
      - cbn. rewrite app_length, repeat_length, drop_length. lia.
      - by rewrite repeat_length.
      - intros k o Ho. pose proof (lookup_lt_Some _ _ _ Ho) as Hk. rewrite repeat_length in Hk. cbn.
        rewrite lookup_app_l by (by rewrite repeat_length). rewrite lookup_repeat in Ho by done. injection Ho as <-. by rewrite lookup_repeat.
      - intros k i' Ho. pose proof (lookup_lt_Some _ _ _ Ho) as Hk. rewrite repeat_length in Hk. by rewrite (lookup_repeat _ _ _ Hk) in Ho. }
    destruct (copy_region_spec bs hp0 Hp0) as (hp1 & q & -> & Hq & Hql).
    { exists (x + z * W)%nat, i. destruct (pcol_at x z Hx Hz) as [H1 H2]. rewrite H2. done. }
    cbn [obind].
    assert (nunset (own_upto N) ≤ N)%nat as Hnu.
    { unfold nunset. rewrite <-(pi_own _ _ _ (qi_p _ _ _ _ Hq)) at 2. apply filter_length. }
    destruct (fill_loop_spec fuel bs (own_upto N) hp1 q 0) as (own & hp & -> & Hfin); [lia|done|rewrite drop_0; lia|].
    destruct Hfin. exists hp, (λ x z, if decide ((x < W)%nat ∧ (z < fr_h f)%nat) then mjoin (own !! (x + z * W)%nat) else None).
    split; [done|]. pose proof (pinv_ok _ _ _ qi_p0) as Hok.
    split. { destruct qi_p0. unfold same_dims. cbn. repeat split; try lia; done. }
    split; [done|].
    assert (∀ x z i, (if decide ((x < W)%nat ∧ (z < fr_h f)%nat) then mjoin (own !! (x + z * W)%nat) else None) = Some i →
      (x < W)%nat ∧ (z < fr_h f)%nat ∧ own !! (x + z * W)%nat = Some (Some i)) as Hown.
    { intros x1 z1 i1. case_decide as Hd; [|done]. destruct (own !! _) as [[j|]|]; cbn; [|done..]. intros [= ->]. destruct Hd. done. }
    split.
    - constructor.
      + intros x1 z1 i1 (H1 & H2 & H3)%Hown. split; [done|]. split; [done|]. destruct (pcol_at x1 z1 H1 H2) as [_ <-]. by apply (pi_in _ _ _ qi_p0).
      + intros x1 z1 i1 H1 H2 H3. destruct (pcol_at x1 z1 H1 H2) as [H4 H5]. rewrite decide_True by done. rewrite <-H5 in H3.
        by rewrite (qi_low0 _ _ H4 H3).
      + intros x1 z1 i1 (H1 & H2 & H3)%Hown. by eapply qi_reach0.
      + intros x1 z1 i1 d j x2 z2 (H1 & H2 & H3)%Hown Hd Hst H4 H5 H6 E.
        destruct (qi_closed0 _ _ H3) as [He|Hc]; [by apply elem_of_nil in He|].
        destruct (pcol_at x1 z1 H1 H2) as [H7 H8]. destruct (pcol_at x2 z2 H4 H5) as [H9 H10].
        pose proof (pi_in _ _ _ qi_p0 _ _ H3) as Hin3. destruct (proj1 (step_nbr ch Hwf _ _ _ _ Hin3 Hd) Hst) as (c' & Hn).
        assert (pcol (x2 + z2 * W) = c') as Epc. { rewrite H10. eapply in_cell_unique; [done|done|]. by eapply nbr_in_cell. }
        apply (Hc d c' j (x2 + z2 * W)%nat Hd Hn H9 Epc). rewrite decide_True in E by done.
        destruct (lookup_lt_is_Some_2 own (x2 + z2 * W)) as [o Ho]; [by rewrite (pi_own _ _ _ qi_p0)|]. rewrite Ho in *. cbn in E. by subst o.
    - intros x1 z1 H1 H2. destruct (pcol_at x1 z1 H1 H2) as [H4 H5]. rewrite decide_True by done.
      destruct (lookup_lt_is_Some_2 own (x1 + z1 * W)) as [o Ho]; [by rewrite (pi_own _ _ _ qi_p0)|]. rewrite Ho. cbn.
      rewrite (pi_rep _ _ _ qi_p0 _ _ Ho). destruct o as [j|]; [|done]. cbn.
      destruct (floor_some _ _ (pi_in _ _ _ qi_p0 _ _ Ho)) as (s & _ & -> & _). done.
  Qed.
End patch.
