(** Marking areas by a convex volume. *)
From Verif Require Import Base ModelMath ModelHeightfield ModelFilters ModelCompact ModelMarkArea
  SpecHeightfield SpecCompact SpecDistance SpecMarkArea CompactProofs LinkProofs GraphProofs SweepProofs.
Local Open Scope Z_scope.

Lemma edge_crosses_spec p a b : edge_crosses p a b = true ↔ ray_hits p (a, b).
Proof.
  unfold edge_crosses, ray_hits. rewrite andb_true_iff, negb_true_iff.
  split; intros [H1 H2]; (split; [|done]).
  - intros E. rewrite E, Bool.eqb_reflx in H1. done.
  - apply Bool.eqb_false_iff. exact H1.
Qed.

Lemma point_in_poly_spec p vs :
  vs ≠ [] → ∃ b, point_in_poly p vs = Done b ∧ (b = true ↔ inside_polygon p vs).
Proof.
  intros Hne. unfold point_in_poly.
  assert (length vs ≠ 0)%nat as Hl by (by destruct vs).
  replace (length vs =? 0)%nat with false by lia.
  destruct (last vs) as [l|] eqn:El; [|by apply last_None in El].
  assert (Hlast : vs !! (length vs - 1)%nat = Some l) by (replace (length vs - 1)%nat with (pred (length vs)) by lia; by rewrite <-last_lookup).
  set (E := zip vs (l :: vs)).
  assert (HE : length E = length vs). { unfold E. rewrite zip_with_length. cbn. lia. }
  assert (Hget : ∀ i e, E !! i = Some e → vs !! i = Some e.1 ∧
    (if (i =? 0)%nat then Some l else vs !! (i - 1)%nat) = Some e.2).
  { intros i e He. unfold E in He. apply lookup_zip_with_Some in He as (a & b & -> & Ha & Hb). cbn.
    split; [done|]. destruct i; cbn in *; [done|]. by rewrite Nat.sub_0_r. }
  assert (R : runs (foldM (λ i st, let '(inside, j) := (st : bool * nat) in
      let! vi := get vs i in
      let! vj := get vs j in
      Done (if edge_crosses p vi vj then negb inside else inside, i))
      (seq 0 (length vs)) (false, (length vs - 1)%nat))
    (λ st, st.1 = Nat.odd (length (filter (ray_hits p) (take (0 + length vs) E))))).
  { eapply runs_mono.
    { apply (foldM_seq_inv (λ k (st : bool * nat), (k ≤ length vs)%nat ∧
        st.1 = Nat.odd (length (filter (ray_hits p) (take k E))) ∧
        vs !! st.2 = if (k =? 0)%nat then Some l else vs !! (k - 1)%nat)).
      - split; [lia|]. split; [done|]. cbn. done.
      - intros k [ins j] Hk (Hk' & Hins & Hj). cbn [fst snd] in *.
        assert (k < length E)%nat as HkE by lia.
        destruct (lookup_lt_is_Some_2 _ _ HkE) as [e He].
        destruct (Hget k e He) as [Ha Hb]. rewrite (get_some _ _ _ Ha). cbn [obind].
        rewrite Hb in Hj. rewrite (get_some _ _ _ Hj). cbn [obind runs fst snd].
        split; [lia|]. split.
        + rewrite Nat.add_1_r, (take_S_r _ _ e He), filter_app, app_length.
          rewrite filter_cons, filter_nil. rewrite Hins.
          destruct (edge_crosses p e.1 e.2) eqn:Ec.
          * apply edge_crosses_spec in Ec. rewrite decide_True by (by destruct e).
            cbn. by rewrite Nat.add_1_r, Nat.odd_succ, <-Nat.negb_odd.
          * rewrite decide_False. { cbn. by rewrite Nat.add_0_r. }
            intros Hr. destruct e. apply edge_crosses_spec in Hr. cbn in *. congruence.
        + replace (k + 1 =? 0)%nat with false by lia. f_equal. lia. }
    intros st (_ & H & _). done. }
  apply runs_done in R as (st & -> & Hst). cbn [obind]. exists st.1. split; [done|].
  unfold inside_polygon, edges_of. rewrite El. fold E. rewrite Hst.
  rewrite take_ge by lia. done.
Qed.

Lemma z_range_lookup lo hi k v :
  z_range lo hi !! k = Some v ↔ v = lo + Z.of_nat k ∧ v ≤ hi.
Proof.
  unfold z_range. rewrite list_lookup_fmap, fmap_Some. split.
  - intros (j & Hj & ->). apply lookup_seq in Hj as [-> Hj]. cbn. lia.
  - intros [-> Hv]. exists k. split; [|done]. apply lookup_seq. lia.
Qed.
Lemma elem_of_z_range lo hi v : v ∈ z_range lo hi ↔ lo ≤ v ≤ hi.
Proof.
  rewrite elem_of_list_lookup. setoid_rewrite z_range_lookup. split.
  - intros (k & -> & ?). lia.
  - intros H. exists (Z.to_nat (v - lo)). lia.
Qed.
Lemma NoDup_z_range lo hi : NoDup (z_range lo hi).
Proof. apply NoDup_fmap_2; [|apply NoDup_seq]. intros a b H. lia. Qed.

Section mark.
  Context (ch : chf) (Hwf : wf_chf ch) (vol : volume).
  Context (Hcells : Z.of_nat (ch_w ch * ch_h ch) ≤ 2 ^ 31).
  Let w := ch_w ch.
  Let h := ch_h ch.
  Context (lo hi : vec2) (Hbox : aabb2_from_verts (vol_verts vol) = Some (lo, hi)).
  Let miny := to_cell (v_y (g_min (ch_geo ch))) (g_ch (ch_geo ch)) (vol_min_y vol).
  Let maxy := to_cell (v_y (g_min (ch_geo ch))) (g_ch (ch_geo ch)) (vol_max_y vol).

  (** Span [i] of cell [(x, z)] is hit, footprint aside. *)
  Definition hit (x z : Z) (i : nat) : Prop :=
    ∃ s, ch_spans ch !! i = Some s ∧ ch_areas ch !! i ≠ Some 0 ∧
      in_height (ch_geo ch) vol (cs_y s) ∧ inside_polygon (cell_centre (ch_geo ch) x z) (vol_verts vol).

  Lemma mark_span_spec x z i A :
    (i < length (ch_spans ch))%nat → length A = length (ch_areas ch) → A !! i = ch_areas ch !! i →
    (hit x z i ∧ mark_span ch vol miny maxy x z i A = Done (<[i := vol_area vol]> A)) ∨
    (¬ hit x z i ∧ mark_span ch vol miny maxy x z i A = Done A).
  Proof.
    intros Hi HlA HA. destruct (lookup_lt_is_Some_2 _ _ Hi) as [s Hs].
    rewrite <-(wf_areas _ Hwf) in Hi. destruct (lookup_lt_is_Some_2 _ _ Hi) as [a Ha].
    unfold mark_span. rewrite (get_some _ _ _ Hs). cbn [obind].
    rewrite Ha in HA. rewrite (get_some _ _ _ HA). cbn [obind]. unfold is_walkable, NOT_WALKABLE.
    destruct (a =? 0) eqn:E0; cbn [negb].
    { right. split; [|done]. intros (s' & _ & Hne & _). apply Hne. rewrite Ha. f_equal. lia. }
    destruct ((cs_y s <? miny) || (maxy <? cs_y s)) eqn:Ey.
    { right. split; [|done]. intros (s' & Hs' & _ & Hy & _). rewrite Hs in Hs'. injection Hs' as <-.
      unfold in_height, cells in Hy. unfold miny, maxy, to_cell in Ey. lia. }
    assert (vol_verts vol ≠ []) as Hne. { intros E. rewrite E in Hbox. done. }
    destruct (point_in_poly_spec (cell_centre (ch_geo ch) x z) (vol_verts vol) Hne) as (b & -> & Hb).
    cbn [obind]. destruct b.
    - left. split; [|apply put_lt; lia]. exists s. split; [done|]. split; [|split].
      + rewrite Ha. intros [= ->]. done.
      + unfold in_height, cells. unfold miny, maxy, to_cell in Ey. lia.
      + by apply Hb.
    - right. split; [|done]. intros (s' & _ & _ & _ & Hin). apply Hb in Hin. done.
  Qed.

  (** The areas after visiting the cells [V]. *)
  Definition ainv (V : nat → Prop) (A : list Z) : Prop :=
    length A = length (ch_areas ch) ∧
    ∀ c i, in_cell ch c i →
      let x := Z.of_nat (c mod w) in let z := Z.of_nat (c / w) in
      (V c ∧ hit x z i ∧ A !! i = Some (vol_area vol)) ∨
      (¬ (V c ∧ hit x z i) ∧ A !! i = ch_areas ch !! i).

  Lemma mark_cell_spec V (x z : nat) A :
    (x < w)%nat → (z < h)%nat → ¬ V (x + z * w)%nat → ainv V A →
    runs (mark_cell ch vol miny maxy (Z.of_nat x) (Z.of_nat z) A)
      (ainv (λ c, V c ∨ c = (x + z * w)%nat)).
  Proof.
    intros Hx Hz HV [HlA HA]. set (c := (x + z * w)%nat) in *.
    assert (Hcm : (c mod w = x)%nat) by (unfold c; rewrite Nat.mod_add by lia; by apply Nat.mod_small).
    assert (Hcd : (c / w = z)%nat) by (unfold c; rewrite Nat.div_add by lia; by rewrite Nat.div_small).
    assert (Hc : (c < w * h)%nat) by (unfold c; nia).
    assert (Ec : Z.of_nat x + Z.of_nat z * Z.of_nat w = Z.of_nat c) by (unfold c; lia).
    assert (0 ≤ Z.of_nat z * Z.of_nat w) by nia.
    unfold mark_cell. fold w. unfold chk_i32, I32_MIN, I32_MAX. fold w h in Hcells.
    rewrite chk_in by lia. cbn [obind]. rewrite chk_in by lia. cbn [obind].
    rewrite Ec, Nat2Z.id. replace (Z.of_nat c <? 0) with false by lia.
    assert (c < length (ch_cells ch))%nat as Hcl by (rewrite (cells_len ch Hwf); done).
    destruct (lookup_lt_is_Some_2 _ _ Hcl) as [cell Hcell].
    rewrite (get_some _ _ _ Hcell). cbn [obind].
    eapply runs_mono.
    { apply (foldM_inv (λ pre A', length A' = length (ch_areas ch) ∧
        (∀ c' i, in_cell ch c' i → c' ≠ c ∨ i ∉ pre → A' !! i = A !! i) ∧
        (∀ i, i ∈ pre → (hit (Z.of_nat x) (Z.of_nat z) i ∧ A' !! i = Some (vol_area vol)) ∨
           (¬ hit (Z.of_nat x) (Z.of_nat z) i ∧ A' !! i = ch_areas ch !! i)))).
      - split_and!; [done|done|]. intros i Hi. by apply elem_of_nil in Hi.
      - intros pre i post A' Epre (HlA' & Hother & Hpre).
        assert (Hin : in_cell ch c i). { exists cell. split; [done|]. rewrite Epre. set_solver. }
        assert (Hnot : i ∉ pre).
        { pose proof (NoDup_seq (cc_index cell) (cc_count cell)) as Hnd. unfold index_range in Epre.
          rewrite Epre in Hnd. apply NoDup_app in Hnd as (_ & Hq & _). intros Hi. apply (Hq i Hi). left. }
        pose proof (in_cell_bound ch Hwf c i Hin) as Hi.
        assert (HAi : A' !! i = ch_areas ch !! i).
        { rewrite (Hother c i Hin) by (by right). destruct (HA c i Hin) as [[? _]|[_ ?]]; done. }
        pose proof Hi as Hi2. rewrite <-(wf_areas _ Hwf), <-HlA' in Hi2.
        destruct (mark_span_spec (Z.of_nat x) (Z.of_nat z) i A' Hi HlA' HAi) as [[Hh ->]|[Hh ->]]; cbn [runs].
        + split_and!; [by rewrite insert_length|..].
          * intros c' i' Hin' Hor. destruct (decide (i' = i)) as [->|].
            -- exfalso. destruct Hor as [Hor|Hor]; [|set_solver].
               apply Hor. by apply (in_cell_unique ch Hwf c' c i).
            -- rewrite list_lookup_insert_ne by done. apply (Hother c'); [done|]. set_solver.
          * intros i' Hi'. destruct (decide (i' = i)) as [->|].
            -- left. split; [done|]. by apply list_lookup_insert.
            -- rewrite list_lookup_insert_ne by done. apply Hpre. set_solver.
        + split_and!; [done|..].
          * intros c' i' Hin' Hor. apply (Hother c'); [done|]. set_solver.
          * intros i' Hi'. destruct (decide (i' = i)) as [->|]; [by right|]. apply Hpre. set_solver. }
    intros A' (HlA' & Hother & Hpre). split; [done|]. intros c' i Hin.
    destruct (decide (c' = c)) as [->|Hne].
    - rewrite Hcm, Hcd. destruct (Hpre i) as [[Hh E]|[Hh E]].
      + destruct Hin as (cell' & Hc' & Hi). rewrite Hcell in Hc'. by injection Hc' as <-.
      + left. split_and!; [by right|done|done].
      + right. split; [|done]. intros [_ ?]. done.
    - rewrite (Hother c' i Hin) by (by left).
      destruct (HA c' i Hin) as [(Hv & Hh & E)|[Hn E]]; [left|right].
      + split_and!; [by left|done|done].
      + split; [|done]. intros [[Hv|?] Hh]; [|done]. by apply Hn.
  Qed.

  Lemma ainv_ext V V' A : (∀ c, (c < w * h)%nat → V c ↔ V' c) → ainv V A → ainv V' A.
  Proof.
    intros He [Hl HA]. split; [done|]. intros c i Hin. pose proof (in_cell_lt ch Hwf _ _ Hin) as Hc.
    specialize (HA c i Hin). cbn zeta in *. rewrite <-(He c Hc). exact HA.
  Qed.

  Lemma mark_rect_spec minx maxx minz maxz :
    0 ≤ minx → maxx < Z.of_nat w → 0 ≤ minz → maxz < Z.of_nat h →
    runs (foldM (λ z, foldM (λ x, mark_cell ch vol miny maxy x z) (z_range minx maxx))
            (z_range minz maxz) (ch_areas ch))
      (ainv (λ c, minx ≤ Z.of_nat (c mod w) ≤ maxx ∧ minz ≤ Z.of_nat (c / w) ≤ maxz)).
  Proof.
    intros Hx0 Hx1 Hz0 Hz1. eapply runs_mono.
    { apply (foldM_inv (λ pre, ainv (λ c, minx ≤ Z.of_nat (c mod w) ≤ maxx ∧ Z.of_nat (c / w) ∈ pre))).
      - split; [done|]. intros c i Hin. right. split; [|done]. intros [[_ ?%elem_of_nil] _]. done.
      - intros pre z post A Epre HA.
        assert (Hz : z ∈ z_range minz maxz) by (rewrite Epre; set_solver).
        apply elem_of_z_range in Hz.
        assert (Hnz : z ∉ pre).
        { pose proof (NoDup_z_range minz maxz) as Hnd. rewrite Epre in Hnd.
          apply NoDup_app in Hnd as (_ & Hq & _). intros Hi. apply (Hq z Hi). left. }
        eapply runs_mono.
        { apply (foldM_inv (λ prex, ainv (λ c, (minx ≤ Z.of_nat (c mod w) ≤ maxx ∧ Z.of_nat (c / w) ∈ pre) ∨
             (Z.of_nat (c mod w) ∈ prex ∧ Z.of_nat (c / w) = z)))).
          - eapply ainv_ext; [|exact HA]. intros c Hc. split; [by left|].
            intros [?|[?%elem_of_nil _]]; done.
          - intros prex x postx A' Ex HA'.
            assert (Hx : x ∈ z_range minx maxx) by (rewrite Ex; set_solver).
            apply elem_of_z_range in Hx.
            assert (Hnx : x ∉ prex).
            { pose proof (NoDup_z_range minx maxx) as Hnd. rewrite Ex in Hnd.
              apply NoDup_app in Hnd as (_ & Hq & _). intros Hi. apply (Hq x Hi). left. }
            assert (Hxw : (Z.to_nat x < w)%nat) by lia. assert (Hzh : (Z.to_nat z < h)%nat) by lia.
            assert (Hm : ((Z.to_nat x + Z.to_nat z * w) mod w = Z.to_nat x)%nat)
              by (rewrite Nat.mod_add by lia; by apply Nat.mod_small).
            assert (Hd : ((Z.to_nat x + Z.to_nat z * w) / w = Z.to_nat z)%nat)
              by (rewrite Nat.div_add by lia; by rewrite Nat.div_small).
            rewrite <-(Z2Nat.id x), <-(Z2Nat.id z) by lia.
            eapply runs_mono.
            + apply (λ H, mark_cell_spec _ _ _ _ Hxw Hzh H HA').
              fold w. cbn beta. rewrite Hm, Hd. rewrite !Z2Nat.id by lia. intros [[_ ?]|[? _]]; done.
            + intros A''. apply ainv_ext. intros c Hc.
              destruct (cell_coords ch c Hc) as (Hw0 & Hcx & Hcz & Ec). fold w in Hw0, Hcx, Ec.
              rewrite elem_of_app, elem_of_list_singleton. split.
              * intros [[?|[? ?]]| ->]; [by left| |].
                -- right. split; [by left|]. lia.
                -- right. rewrite Hm, Hd. split; [by right|done].
              * intros [?|[[?|E1] E2]]; [by left; left|left; right; split; [done|lia]|].
                right. rewrite Ec. f_equal; [lia|]. f_equal. lia. }
        intros A'. apply ainv_ext. intros c Hc.
        rewrite elem_of_app, elem_of_list_singleton, elem_of_z_range. naive_solver. }
    intros A. apply ainv_ext. intros c Hc. by rewrite elem_of_z_range.
  Qed.
End mark.
