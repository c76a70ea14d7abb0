(** The contour walk: closed loops along region boundaries. *)
From Verif Require Import Base ModelMath ModelHeightfield ModelFilters ModelCompact ModelDistance ModelRegions
  ModelContours SpecHeightfield SpecCompact SpecDistance SpecRegions SpecContours SpecOutline PackProofs CompactProofs LinkProofs
  GraphProofs DistanceProofs SweepProofs FlowProofs WatershedProofs OrbitProofs.
Local Open Scope Z_scope.

(** Region and area in one word. *)
Lemma word_eq r a : 0 ≤ r ≤ 65535 → Z.lor r (Z.shiftl a 16) = r + a * 65536.
Proof.
  intros Hr. rewrite Z.shiftl_mul_pow2 by lia. change (2 ^ 16) with 65536.
  symmetry. apply Z.add_nocarry_lor. apply Z.bits_inj'. intros m Hm. rewrite Z.land_spec, Z.bits_0.
  destruct (decide (m < 16)).
  - change 65536 with (2 ^ 16). rewrite Z.mul_pow2_bits_low by lia. apply andb_false_r.
  - rewrite (Z.bits_above_log2 r m); [done|lia|].
    destruct (decide (r = 0)) as [->|]; [cbn; lia|]. apply Z.log2_lt_pow2; [lia|]. pose proof (Z.pow_le_mono_r 2 16 m). lia.
Qed.
Lemma word_bit15 r a : 0 ≤ r ≤ 65535 → Z.testbit (r + a * 65536) 15 = (32768 <=? r).
Proof.
  intros Hr. rewrite Z.testbit_odd, Z.shiftr_div_pow2 by lia. change (2 ^ 15) with 32768.
  replace (r + a * 65536) with (r + (2 * a) * 32768) by lia. rewrite Z.div_add by lia. rewrite Z.odd_add_mul_2.
  destruct (Z.leb_spec 32768 r).
  - replace (r / 32768) with 1; [done|]. apply (Z.div_unique r 32768 1 (r - 32768)); lia.
  - by rewrite Z.div_small by lia.
Qed.
Lemma word_shift r a : 0 ≤ r ≤ 65535 → Z.shiftr (r + a * 65536) 16 = a.
Proof. intros Hr. rewrite Z.shiftr_div_pow2 by lia. change (2 ^ 16) with 65536. rewrite Z.div_add by lia. rewrite Z.div_small by lia. lia. Qed.
Lemma incl_border x : bits_incl x BORDER_REGION = Z.testbit x 15.
Proof.
  unfold bits_incl. change BORDER_REGION with (2 ^ 15).
  assert (Z.land x (2 ^ 15) = if Z.testbit x 15 then 2 ^ 15 else 0) as ->.
  { apply Z.bits_inj'. intros m Hm. rewrite Z.land_spec. destruct (decide (m = 15)) as [->|].
    - rewrite Z.pow2_bits_true by lia. rewrite andb_true_r. destruct (Z.testbit x 15); [by rewrite Z.pow2_bits_true by lia|done].
    - rewrite (Z.pow2_bits_false 15 m) by lia. rewrite andb_false_r. destruct (Z.testbit x 15); [by rewrite Z.pow2_bits_false by lia|by rewrite Z.bits_0]. }
  by destruct (Z.testbit x 15).
Qed.
Lemma incl_border_lor x y : bits_incl (Z.lor x y) BORDER_REGION = Z.testbit x 15 || Z.testbit y 15.
Proof. rewrite incl_border. apply Z.lor_spec. Qed.

Lemma land_mask_reg (r v : Z) (b1 b2 : bool) :
  0 ≤ r ≤ 65535 →
  v = (let r1 := if b1 then Z.lor r BORDER_VERTEX else r in if b2 then Z.lor r1 AREA_BORDER else r1) →
  Z.land v REGION_MASK = r ∧ Z.testbit v 17 = b2 ∧ Z.testbit v 16 = b1.
Proof.
  cbv zeta. intros Hr ->.
  assert (Hhi : ∀ m, 16 ≤ m → Z.testbit r m = false).
  { intros m Hm. destruct (decide (r = 0)) as [->|]; [apply Z.testbit_0_l|]. apply Z.bits_above_log2; [lia|].
    apply Z.log2_lt_pow2; [lia|]. pose proof (Z.pow_le_mono_r 2 16 m). lia. }
  split.
  - apply Z.bits_inj'. intros m Hm. rewrite Z.land_spec.
    assert (Z.testbit REGION_MASK m = (m <? 16)) as ->.
    { change REGION_MASK with (Z.ones 16). rewrite Z.testbit_ones by lia. lia. }
    destruct (Z.ltb_spec m 16) as [Hlt|Hge]; [|rewrite andb_false_r; symmetry; by apply Hhi].
    rewrite andb_true_r.
    assert (Z.testbit BORDER_VERTEX m = false) as E1.
    { change BORDER_VERTEX with (2 ^ 16). apply Z.pow2_bits_false. lia. }
    assert (Z.testbit AREA_BORDER m = false) as E2.
    { change AREA_BORDER with (2 ^ 17). apply Z.pow2_bits_false. lia. }
    destruct b1, b2; rewrite ?Z.lor_spec, ?E1, ?E2, ?orb_false_r; done.
  - pose proof (Hhi 17 ltac:(lia)) as E. pose proof (Hhi 16 ltac:(lia)) as E'. split; destruct b1, b2; rewrite ?Z.lor_spec, ?E, ?E'; done.
Qed.

Section walk.
  Context (ch : chf) (Hwf : wf_chf ch).
  Hypothesis (Hw16 : Z.of_nat (ch_w ch) ≤ 65535) (Hh16 : Z.of_nat (ch_h ch) ≤ 65535).
  Hypothesis (Hsym : symmetric ch) (Hr16 : regions_u16 ch).
  Let w := ch_w ch.
  Let h := ch_h ch.
  Let n := length (ch_spans ch).

  (** A position of the walk: column, span, direction. *)
  Definition pos : Type := nat * nat * nat.
  Definition p_c (s : pos) : nat := s.1.1.
  Definition p_i (s : pos) : nat := s.1.2.
  Definition p_d (s : pos) : nat := s.2.

  Definition valid (r : Z) (s : pos) : Prop :=
    in_cell ch (p_c s) (p_i s) ∧ (p_d s < 4)%nat ∧ region_of ch (p_i s) = Some r.

  (** The neighbour, if it is in the same region. *)
  Definition go (s : pos) : option (nat * nat) :=
    match nbr ch (p_c s) (p_i s) (p_d s) with
    | Some (c', j) => if decide (region_of ch j = region_of ch (p_i s)) then Some (c', j) else None
    | None => None
    end.
  Definition edge (s : pos) : Prop := go s = None.
  Global Instance edge_dec s : Decision (edge s).
  Proof. unfold edge. apply _. Defined.

  Definition next (s : pos) : pos :=
    match go s with
    | Some (c', j) => (c', j, (p_d s + 3) mod 4)%nat
    | None => (p_c s, p_i s, (p_d s + 1) mod 4)%nat
    end.

  Lemma nbr_sym c i d c' j :
    in_cell ch c i → (d < 4)%nat → nbr ch c i d = Some (c', j) → nbr ch c' j ((d + 2) mod 4) = Some (c, i).
  Proof.
    intros Hin Hd Hn. pose proof (nbr_in_cell ch Hwf c i d c' j Hd Hin Hn) as Hin'.
    unfold nbr in Hn. apply bind_Some in Hn as (s & Hs & Hn). apply bind_Some in Hn as (v & Hv & Hn).
    apply bind_Some in Hn as (c2 & Hc2 & Hn). apply bind_Some in Hn as (cell' & Hc' & [= -> <-]).
    pose proof Hin as (cell & Hcell & Hi). unfold index_range in Hi. apply elem_of_seq in Hi.
    assert (0 ≤ v) as Hv0 by (apply con_range in Hv; lia).
    assert (linked ch c (i - cc_index cell) d c' (Z.to_nat v)) as Hl.
    { exists s. split; [|by rewrite Z2Nat.id]. exists cell. split; [done|]. split; [lia|].
      by replace (cc_index cell + (i - cc_index cell))%nat with i by lia. }
    apply Hsym in Hl; [|done]. destruct Hl as (s' & (cell2 & Hcell2 & Hk2 & Hs') & Hv' & Hn').
    assert (cell2 = cell') as -> by congruence. unfold nbr. rewrite Hs'. cbn [mbind option_bind]. rewrite Hv'. cbn [mbind option_bind].
    rewrite Hn'. cbn [mbind option_bind]. rewrite Hcell. cbn [mbind option_bind]. do 2 f_equal. lia.
  Qed.

  Lemma next_valid r s : valid r s → valid r (next s).
  Proof.
    intros (Hin & Hd & Hr). unfold next, go. destruct (nbr ch _ _ _) as [[c' j]|] eqn:En.
    - case_decide as E.
      + split; [by eapply nbr_in_cell|]. split; [by apply Nat.mod_upper_bound|]. cbn. congruence.
      + split; [done|]. split; [by apply Nat.mod_upper_bound|]. done.
    - split; [done|]. split; [by apply Nat.mod_upper_bound|]. done.
  Qed.

  Lemma go_some s c' j : go s = Some (c', j) → nbr ch (p_c s) (p_i s) (p_d s) = Some (c', j) ∧ region_of ch j = region_of ch (p_i s).
  Proof. unfold go. destruct (nbr ch _ _ _) as [[c2 j2]|]; [|done]. case_decide; [|done]. by intros [= -> ->]. Qed.

  Lemma mod4_add k a b : (a < 4)%nat → (b < 4)%nat → ((a + k) mod 4 = (b + k) mod 4 → a = b)%nat.
  Proof.
    intros Ha Hb E. pose proof (Nat.div_mod_eq (a + k) 4). pose proof (Nat.div_mod_eq (b + k) 4).
    pose proof (Nat.mod_upper_bound (a + k) 4). pose proof (Nat.mod_upper_bound (b + k) 4). lia.
  Qed.
  Lemma mod4_back a b : (a < 4)%nat → (b < 4)%nat → ((a + 1) mod 4 = (b + 3) mod 4 → (b + 2) mod 4 = a)%nat.
  Proof. intros Ha Hb. destruct a as [|[|[|[|a]]]]; [..|lia]; (destruct b as [|[|[|[|b]]]]; [..|lia]); cbn; lia. Qed.

  Lemma turn_move_absurd r s t c' j :
    valid r s → valid r t → go s = None → go t = Some (c', j) →
    next s = next t → False.
  Proof.
    intros (Hs1 & Hs2 & Hs3) (Ht1 & Ht2 & Ht3) Es Et E. unfold next in E. rewrite Es, Et in E. injection E as E1 E2 E3.
    apply go_some in Et as [En Er]. pose proof (nbr_sym _ _ _ _ _ Ht1 Ht2 En) as Eb.
    assert ((p_d t + 2) mod 4 = p_d s)%nat as Ed. { by apply mod4_back. }
    rewrite Ed, <-E1, <-E2 in Eb. unfold go in Es. rewrite Eb in Es. rewrite decide_True in Es; [done|congruence].
  Qed.

  Lemma next_inj r s t : valid r s → valid r t → next s = next t → s = t.
  Proof.
    intros Hs Ht E. destruct (go s) as [[c1 j1]|] eqn:Es; destruct (go t) as [[c2 j2]|] eqn:Et.
    - destruct Hs as (Hs1 & Hs2 & Hs3). destruct Ht as (Ht1 & Ht2 & Ht3).
      unfold next in E. rewrite Es, Et in E. injection E as -> -> E3.
      assert (p_d s = p_d t) as Ed by (by apply (mod4_add 3)).
      apply go_some in Es as [En1 _]. apply go_some in Et as [En2 _].
      pose proof (nbr_sym _ _ _ _ _ Hs1 Hs2 En1) as B1. pose proof (nbr_sym _ _ _ _ _ Ht1 Ht2 En2) as B2.
      rewrite Ed in B1. rewrite B1 in B2. injection B2 as Ec Ei.
      destruct s as [[a b] c], t as [[a' b'] c']. unfold p_c, p_i, p_d in *. cbn in *. congruence.
    - exfalso. by eapply (turn_move_absurd r t s).
    - exfalso. by eapply (turn_move_absurd r s t).
    - destruct Hs as (Hs1 & Hs2 & Hs3). destruct Ht as (Ht1 & Ht2 & Ht3).
      unfold next in E. rewrite Es, Et in E. injection E as Ec Ei E3.
      assert (p_d s = p_d t) as Ed by (by apply (mod4_add 1)).
      destruct s as [[a b] c], t as [[a' b'] c']. unfold p_c, p_i, p_d in *. cbn in *. congruence.
  Qed.

  (** Positions are determined by span and direction. *)
  Definition key_of (s : pos) : nat * nat := (p_i s, p_d s).
  Lemma key_inj r s t : valid r s → valid r t → key_of s = key_of t → s = t.
  Proof.
    intros (Hs1 & _) (Ht1 & _) E. injection E as E1 E2.
    destruct s as [[a b] c], t as [[a' b'] c']. unfold p_c, p_i, p_d in *. cbn in *. subst.
    by rewrite (in_cell_unique ch Hwf a a' b').
  Qed.
  Definition region_keys (r : Z) : list (nat * nat) :=
    i ← filter (λ i, region_of ch i = Some r) (seq 0 n); (λ d, (i, d)) <$> seq 0 4.
  Lemma region_keys_length r : length (region_keys r) = (4 * region_size ch r)%nat.
  Proof.
    unfold region_keys, region_size. fold n. generalize (filter (λ i, region_of ch i = Some r) (seq 0 n)). intros l.
    induction l as [|a l IH]; [done|]. change (a :: l) with ([a] ++ l). rewrite bind_app, app_length, IH. cbn. lia.
  Qed.
  Lemma key_in r s : valid r s → key_of s ∈ region_keys r.
  Proof.
    intros (H1 & H2 & H3). unfold region_keys. apply elem_of_list_bind. exists (p_i s). split.
    - apply elem_of_list_fmap. exists (p_d s). split; [done|]. apply elem_of_seq. lia.
    - apply elem_of_list_filter. split; [done|]. apply elem_of_seq. pose proof (in_cell_bound ch Hwf _ _ H1) as Hb. fold n in Hb. lia.
  Qed.

  Notation iter := (it next).

  Lemma walk_returns r s : valid r s → ∃ T, (T ≤ 4 * region_size ch r)%nat ∧ returns next s T.
  Proof.
    intros Hs. rewrite <-region_keys_length.
    apply (first_return next (valid r) key_of (region_keys r)); [apply next_valid|apply next_inj|apply key_inj|apply key_in|done].
  Qed.
  Lemma iter_valid r k s : valid r s → valid r (iter k s).
  Proof. intros Hs. apply (it_P next (valid r)); [apply next_valid|done]. Qed.
  Lemma orbit_sym r s t : valid r s → same_orbit next s t → same_orbit next t s.
  Proof.
    intros Hs. apply (same_orbit_sym next (valid r) key_of (region_keys r)); [apply next_valid|apply next_inj|apply key_inj|apply key_in|done].
  Qed.

  Lemma iter_distinct r s T a b :
    valid r s → returns next s T → (a < T)%nat → (b < T)%nat → iter a s = iter b s → a = b.
  Proof.
    apply (returns_distinct next (valid r) key_of (region_keys r)); [apply next_valid|apply next_inj|apply key_inj|apply key_in].
  Qed.
  Lemma orbit_first r s T t :
    valid r s → returns next s T → same_orbit next s t → ∃ k, (k < T)%nat ∧ iter k s = t.
  Proof.
    apply (same_orbit_first next (valid r) key_of (region_keys r)); [apply next_valid|apply next_inj|apply key_inj|apply key_in].
  Qed.

  (** ** Corners *)
  Definition c_start (s : pos) : Z * Z :=
    (Z.of_nat (p_c s mod w) + nth (p_d s) [0; 0; 1; 1] 0, Z.of_nat (p_c s / w) + nth (p_d s) [0; 1; 1; 0] 0).
  Definition c_end (s : pos) : Z * Z :=
    (Z.of_nat (p_c s mod w) + nth (p_d s) [0; 1; 1; 0] 0, Z.of_nat (p_c s / w) + nth (p_d s) [1; 1; 0; 0] 0).

  Lemma c_unit s : (p_d s < 4)%nat → unit_apart (c_start s) (c_end s).
  Proof.
    unfold unit_apart, c_start, c_end. cbn [fst snd]. destruct (p_d s) as [|[|[|[|d]]]]; [..|lia]; intros _; cbn [nth]; lia.
  Qed.
  Lemma c_turn s : (p_d s < 4)%nat → go s = None → c_start (next s) = c_end s.
  Proof.
    intros Hd Hg. unfold next. rewrite Hg. unfold c_start, c_end. cbn.
    destruct (p_d s) as [|[|[|[|d]]]]; [done..|lia].
  Qed.
  Lemma c_move r s c' j : valid r s → go s = Some (c', j) → c_start (next s) = c_start s.
  Proof.
    intros (Hin & Hd & Hr) Hg. unfold next. rewrite Hg. apply go_some in Hg as [Hn _]. apply nbr_col in Hn.
    pose proof (in_cell_lt ch Hwf _ _ Hin) as Hc. destruct (cell_coords ch _ Hc) as (Hw & Hx & Hz & Ec).
    fold w h in Hw, Hx, Hz, Ec, Hn. unfold c_start. unfold nb_col in Hn.
    case_decide as Hi; [|done]. apply (inj Some) in Hn. set (x := (p_c s mod w)%nat) in *. set (z := (p_c s / w)%nat) in *.
    set (dx := nth (p_d s) [-1; 0; 1; 0] 0) in *. set (dz := nth (p_d s) [0; 1; 0; -1] 0) in *.
    assert (Ecx : (c' mod w)%nat = Z.to_nat (Z.of_nat x + dx)).
    { rewrite <-Hn, Nat.mod_add by done. rewrite Nat.mod_small by lia. done. }
    assert (Ecz : (c' / w)%nat = Z.to_nat (Z.of_nat z + dz)).
    { rewrite <-Hn, Nat.div_add, Nat.div_small by lia. done. }
    assert (Hd' : (p_d s < 4)%nat) by done.
    change (p_c (c', j, (p_d s + 3) mod 4)%nat) with c'. change (p_d (c', j, (p_d s + 3) mod 4)%nat) with ((p_d s + 3) mod 4)%nat.
    rewrite Ecx, Ecz, !Z2Nat.id by lia. fold x z. unfold dx, dz. clearbody x z. clear -Hd'.
    destruct (p_d s) as [|[|[|[|d]]]]; [..|lia]; cbn; f_equal; lia.
  Qed.

  (** A chain of sides from corner [p] to corner [q]. *)
  Fixpoint chain (p : Z * Z) (l : list pos) (q : Z * Z) : Prop :=
    match l with
    | [] => p = q
    | s :: l' => c_start s = p ∧ chain (c_end s) l' q
    end.
  Lemma chain_walk r s m k :
    valid r s → chain (c_start (iter m s)) (filter edge ((λ k, iter k s) <$> seq m k)) (c_start (iter (m + k) s)).
  Proof.
    intros Hs. revert m. induction k as [|k IH]; intros m.
    - cbn. by rewrite Nat.add_0_r.
    - cbn [seq fmap list_fmap]. rewrite filter_cons. pose proof (iter_valid r m s Hs) as Hv. specialize (IH (S m)).
      replace (S m + k)%nat with (m + S k)%nat in IH by lia. rewrite it_S in IH. case_decide as Hg.
      + cbn [chain]. split; [done|]. rewrite c_turn in IH; [done|apply Hv|done].
      + destruct (go (iter m s)) as [[c' j]|] eqn:E; [|done]. by rewrite (c_move r _ c' j Hv E) in IH.
  Qed.

  Lemma chain_lookup p l q k s :
    chain p l q → l !! k = Some s →
    c_start s = (match k with O => p | S k' => default p (c_end <$> l !! k') end).
  Proof.
    revert p k. induction l as [|a l IH]; intros p k [] Hk; [by rewrite lookup_nil in Hk..|].
    destruct k as [|k]; [by injection Hk as <-|]. cbn in Hk. specialize (IH _ k H0 Hk). rewrite IH.
    destruct k as [|k]; [done|]. change ((a :: l) !! S k) with (l !! k).
    destruct (lookup_lt_is_Some_2 l k) as [b Hb]. { apply lookup_lt_Some in Hk. lia. } by rewrite Hb.
  Qed.
  Lemma chain_last p l q : chain p l q → l ≠ [] → c_end <$> last l = Some q.
  Proof.
    revert p. induction l as [|a l IH]; intros p Hc Hne; [done|]. destruct Hc as [_ Hc].
    destruct l as [|b l]; [cbn in *; congruence|]. change (last (a :: b :: l)) with (last (b :: l)). by apply (IH (c_end a)).
  Qed.

  (** ** Neighbour lookups with [con_indices] *)
  Lemma con_idx c i d s :
    in_cell ch c i → (d < 4)%nat → ch_spans ch !! i = Some s →
    ∃ o, con s d = Done o ∧
    match o with
    | None => nbr ch c i d = None
    | Some v => ∃ c' j, nbr ch c i d = Some (c', j) ∧ in_cell ch c' j ∧
        con_indices ch (Z.of_nat (c mod w)) (Z.of_nat (c / w)) d v = Done (Z.of_nat (c' mod w), Z.of_nat (c' / w), j)
    end.
  Proof.
    intros Hin Hd Hs. destruct (con_nbr ch Hwf c i d s Hw16 Hh16 Hin Hd Hs) as (o & Hc & Ho).
    exists o. split; [done|]. destruct o as [v|]; [|done]. destruct Ho as (c' & j & Hn & Hin' & E).
    exists c', j. split; [done|]. split; [done|].
    pose proof (nbr_col ch _ _ _ _ _ Hn) as Hcol. fold w h in Hcol, E. unfold nb_col in Hcol. case_decide as Hi; [|done]. apply (inj Some) in Hcol.
    assert (Ex : nth d [-1; 0; 1; 0] 0 = dir_offset_x d) by (destruct d as [|[|[|[|d]]]]; [done..|lia]).
    assert (Ez : nth d [0; 1; 0; -1] 0 = dir_offset_z d) by (destruct d as [|[|[|[|d]]]]; [done..|lia]).
    rewrite Ex, Ez in *. unfold con_indices. fold w. unfold nb_index in E.
    set (ax := Z.of_nat (c mod w) + _) in *. set (az := Z.of_nat (c / w) + _) in *. clearbody ax az.
    unfold wrap_u16 in E. rewrite !Z.mod_small in E by lia. unfold cell_at, ch_column_index in E. fold w in E.
    replace (ax + az * Z.of_nat w <? 0) with false by lia.
    replace (Z.to_nat (ax + az * Z.of_nat w)) with (Z.to_nat ax + Z.to_nat az * w)%nat by lia.
    destruct (get (ch_cells ch) (Z.to_nat ax + Z.to_nat az * w)) as [cell| |]; [|done|done]. cbn in *. injection E as E1 E2 <-.
    do 3 f_equal; lia.
  Qed.

  Lemma span_some c i : in_cell ch c i → ∃ s, ch_spans ch !! i = Some s ∧ region_of ch i = Some (cs_reg s).
  Proof.
    intros Hin. destruct (lookup_lt_is_Some_2 (ch_spans ch) i) as [s Hs]; [by eapply in_cell_bound|].
    exists s. split; [done|]. unfold region_of. by rewrite Hs.
  Qed.
  Lemma area_some c i : in_cell ch c i → ∃ a, ch_areas ch !! i = Some a.
  Proof. intros Hin. apply lookup_lt_is_Some_2. by eapply in_cell_area. Qed.

  Lemma tag_some c i : in_cell ch c i → ∃ r a, tag ch i = Some (r, a) ∧ 0 ≤ r ≤ 65535 ∧ corner_reg ch i = Done (r + a * 65536).
  Proof.
    intros Hin. destruct (span_some c i Hin) as (s & Hs & Hr). destruct (area_some c i Hin) as (a & Ha).
    exists (cs_reg s), a. split; [unfold tag; rewrite Hr; cbn; by rewrite Ha|]. pose proof (Hr16 _ _ Hr) as Hb. split; [done|].
    unfold corner_reg. rewrite (get_some _ _ _ Hs). cbn [obind]. rewrite (get_some _ _ _ Ha). cbn [obind].
    by rewrite word_eq.
  Qed.
  (** The word of a span, and the highest of a height and a floor. *)
  Definition word_of (j : nat) : Z := match tag ch j with Some (r, a) => r + a * 65536 | None => 0 end.
  Definition top (y : Z) (o : option nat) : Z := match o with Some j => Z.max y (default 0 (floor_of ch j)) | None => y end.
  Definition placed (o : option nat) : Prop := match o with Some j => ∃ c, in_cell ch c j | None => True end.
  Lemma corner_reg_word c i : in_cell ch c i → corner_reg ch i = Done (word_of i).
  Proof. intros Hin. destruct (tag_some c i Hin) as (r & a & E & _ & ->). unfold word_of. by rewrite E. Qed.

  Lemma corner_side_spec c i s d1 d2 y :
    in_cell ch c i → ch_spans ch !! i = Some s → (d1 < 4)%nat → (d2 < 4)%nat →
    ∃ a b, goes ch (Some i) d1 a ∧ goes ch a d2 b ∧ placed a ∧ placed b ∧
      corner_side ch (c mod w) (c / w) s d1 d2 y = Done (top (top y a) b, word_of <$> a, word_of <$> b).
  Proof.
    intros Hin Hs H1 H2. unfold corner_side. destruct (con_idx c i d1 s Hin H1 Hs) as (o & -> & Ho). cbn [obind].
    destruct o as [v|].
    2: { exists None, None. split; [|done]. intros j Hst. destruct (proj1 (step_nbr ch Hwf _ _ _ j Hin H1) Hst) as (c' & Hc'). congruence. }
    destruct Ho as (c' & j & Hn & Hin' & ->). cbn [obind]. pose proof (nbr_step ch Hwf _ _ _ _ _ H1 Hin Hn) as Hst.
    destruct (span_some c' j Hin') as (sa & Hsa & _). rewrite (get_some _ _ _ Hsa). cbn [obind].
    rewrite (corner_reg_word _ _ Hin'). cbn [obind].
    destruct (con_idx c' j d2 sa Hin' H2 Hsa) as (o & -> & Ho). cbn [obind].
    destruct o as [v2|].
    2: { exists (Some j), None. split; [done|]. split.
      - intros j' Hst'. destruct (proj1 (step_nbr ch Hwf _ _ _ j' Hin' H2) Hst') as (c2 & Hc'). congruence.
      - split; [by exists c'|]. split; [done|]. cbn [fmap option_fmap option_map top]. unfold floor_of. by rewrite Hsa. }
    destruct Ho as (c2 & j2 & Hn2 & Hin2 & ->). cbn [obind].
    destruct (span_some c2 j2 Hin2) as (sb & Hsb & _). rewrite (get_some _ _ _ Hsb). cbn [obind].
    rewrite (corner_reg_word _ _ Hin2). cbn [obind].
    exists (Some j), (Some j2). split; [done|]. split; [by eapply (nbr_step ch Hwf)|]. split; [by exists c'|]. split; [by exists c2|].
    cbn [fmap option_fmap option_map top]. unfold floor_of. by rewrite Hsa, Hsb.
  Qed.

  Lemma goes_fun o d a b : (d < 4)%nat → goes ch o d a → goes ch o d b → a = b.
  Proof.
    intros Hd. destruct o as [i|]; [|cbn; congruence]. destruct a as [a|], b as [b|]; cbn; intros H1 H2; [|by destruct (H2 a)|by destruct (H1 b)|done].
    f_equal. by eapply (step_fun ch Hwf).
  Qed.

  Definition wordo (o : option nat) : Z := default 0 (word_of <$> o).
  Lemma wordo_cases o : placed o → (o = None ∧ wordo o = 0) ∨ ∃ p r a, o = Some p ∧ tag ch p = Some (r, a) ∧ 0 ≤ r ≤ 65535 ∧ wordo o = r + a * 65536.
  Proof.
    destruct o as [p|]; [|by left]. intros (c & Hin). right. destruct (tag_some c p Hin) as (r & a & E & Hr & _). exists p, r, a.
    split; [done|]. split; [done|]. split; [done|]. unfold wordo, word_of. cbn. by rewrite E.
  Qed.
  Lemma pattern_iff o1 o2 o3 o4 : placed o1 → placed o2 → placed o3 → placed o4 →
    border_pattern (wordo o1) (wordo o2) (wordo o3) (wordo o4) = true ↔
    ∃ p1 p2 p3 p4 r a r3 r4 a3, o1 = Some p1 ∧ o2 = Some p2 ∧ o3 = Some p3 ∧ o4 = Some p4 ∧
      tag ch p1 = Some (r, a) ∧ tag ch p2 = Some (r, a) ∧ tag ch p3 = Some (r3, a3) ∧ tag ch p4 = Some (r4, a3) ∧
      border_flag r ∧ ¬ border_flag r3 ∧ ¬ border_flag r4 ∧ (r3, a3) ≠ (0, 0) ∧ (r4, a3) ≠ (0, 0).
  Proof.
    intros H1 H2 H3 H4. unfold border_pattern, border_flag. rewrite !andb_true_iff, !negb_true_iff, !Z.eqb_eq, !Z.eqb_neq.
    rewrite incl_border, incl_border_lor.
    destruct (wordo_cases o1 H1) as [[-> ->]|(p1 & r1 & a1 & -> & E1 & Hr1 & ->)]; [split; [lia|naive_solver]|].
    destruct (wordo_cases o2 H2) as [[-> ->]|(p2 & r2 & a2 & -> & E2 & Hr2 & ->)]; [split; [lia|naive_solver]|].
    destruct (wordo_cases o3 H3) as [[-> ->]|(p3 & r3 & a3 & -> & E3 & Hr3 & ->)]; [split; [lia|naive_solver]|].
    destruct (wordo_cases o4 H4) as [[-> ->]|(p4 & r4 & a4 & -> & E4 & Hr4 & ->)]; [split; [lia|naive_solver]|].
    rewrite !word_bit15 by done. rewrite !word_shift by done. split.
    - intros [[[[E B] N] [[[Z1 Z2] Z3] Z4]] A]. assert (r1 = r2 ∧ a1 = a2) as [<- <-] by lia. subst a4.
      apply Z.leb_le in B. apply orb_false_iff in N as [N3%Z.leb_gt N4%Z.leb_gt].
      exists p1, p2, p3, p4, r1, a1, r3, r4, a3. repeat (split; [done || lia|]). split; intros [= -> ->]; lia.
    - intros (q1 & q2 & q3 & q4 & r & a & r3' & r4' & a3' & [= <-] & [= <-] & [= <-] & [= <-] & F1 & F2 & F3 & F4 & B & N3 & N4 & V3 & V4).
      rewrite E1 in F1. rewrite E2 in F2. rewrite E3 in F3. rewrite E4 in F4. injection F1 as <- <-. injection F2 as -> ->.
      injection F3 as <- <-. injection F4 as <- ->.
      assert (r3 ≠ 0 ∨ a3 ≠ 0) by (destruct (decide (r3 = 0)), (decide (a3 = 0)); subst; auto; done).
      assert (r4 ≠ 0 ∨ a3 ≠ 0) by (destruct (decide (r4 = 0)), (decide (a3 = 0)); subst; auto; done).
      repeat split; lia.
  Qed.

  Lemma top_ge y o : y ≤ top y o.
  Proof. destruct o; cbn; lia. Qed.
  Lemma top_cases y o : placed o → top y o = y ∨ ∃ j, o = Some j ∧ floor_of ch j = Some (top y o).
  Proof.
    destruct o as [j|]; [|by left]. intros (c & Hin). destruct (span_some c j Hin) as (s & Hs & _). cbn. unfold floor_of. rewrite Hs. cbn.
    destruct (Z.max_spec y (cs_y s)) as [[_ ->]|[_ ->]]; [right; exists j; by rewrite Hs|by left].
  Qed.
  Lemma top_floor y o j v : o = Some j → floor_of ch j = Some v → v ≤ top y o.
  Proof. intros -> E. cbn. rewrite E. cbn. lia. Qed.

  Lemma corner_height_spec c i d :
    in_cell ch c i → (d < 4)%nat →
    runs (get_corner_height ch (c mod w) (c / w) i d) (λ '(y, isb), corner_top ch i d y ∧ (isb = true ↔ border_corner ch i d)).
  Proof.
    intros Hin Hd. unfold get_corner_height. destruct (span_some c i Hin) as (s & Hs & _). rewrite (get_some _ _ _ Hs). cbn [obind].
    set (d' := ((d + 1) mod 4)%nat). assert (d' < 4)%nat as Hd1 by (by apply Nat.mod_upper_bound).
    rewrite (corner_reg_word _ _ Hin). cbn [obind].
    destruct (corner_side_spec c i s d d' (cs_y s) Hin Hs Hd Hd1) as (a & c1 & G1 & G2 & Pa & Pc1 & ->). cbn [obind].
    destruct (corner_side_spec c i s d' d (top (top (cs_y s) a) c1) Hin Hs Hd1 Hd) as (b & c2 & G3 & G4 & Pb & Pc2 & ->). cbn [obind runs].
    assert (corner ch i d a b c1 c2) as HC by (by repeat split). split.
    - exists a, b, c1, c2. split; [done|]. set (y1 := top (cs_y s) a). set (y2 := top y1 c1). set (y3 := top y2 b). split.
      + destruct (top_cases y3 c2 Pc2) as [->|(j & -> & E)]; [|exists (Some j), j; split; [set_solver|done]]. subst y3.
        destruct (top_cases y2 b Pb) as [->|(j & -> & E)]; [|exists (Some j), j; split; [set_solver|done]]. subst y2.
        destruct (top_cases y1 c1 Pc1) as [->|(j & -> & E)]; [|exists (Some j), j; split; [set_solver|done]]. subst y1.
        destruct (top_cases (cs_y s) a Pa) as [->|(j & -> & E)]; [|exists (Some j), j; split; [set_solver|done]].
        exists (Some i), i. split; [set_solver|]. split; [done|]. unfold floor_of. by rewrite Hs.
      + pose proof (top_ge (cs_y s) a). pose proof (top_ge y1 c1). pose proof (top_ge y2 b). pose proof (top_ge y3 c2). fold y1 y2 y3 in H, H0, H1.
        intros j v Hj E. rewrite !elem_of_cons in Hj. destruct Hj as [[= ->]|[Hj|[Hj|[Hj|[Hj|Hj%elem_of_nil]]]]]; [..|done].
        * unfold floor_of in E. rewrite Hs in E. cbn in E. injection E as <-. lia.
        * pose proof (top_floor (cs_y s) a j v (eq_sym Hj) E). fold y1 in H3. lia.
        * pose proof (top_floor y2 b j v (eq_sym Hj) E). fold y3 in H3. lia.
        * pose proof (top_floor y1 c1 j v (eq_sym Hj) E). fold y2 in H3. lia.
        * pose proof (top_floor y3 c2 j v (eq_sym Hj) E). lia.
    - set (cc := match c2 with Some _ => c2 | None => c1 end).
      replace (match word_of <$> c2 with Some r => r | None => default 0 (word_of <$> c1) end) with (wordo cc) by (by subst cc; destruct c2).
      change (default 0 (word_of <$> a)) with (wordo a). change (default 0 (word_of <$> b)) with (wordo b).
      change (word_of i) with (wordo (Some i)).
      assert (placed cc) as Pcc by (subst cc; by destruct c2). assert (placed (Some i)) as Pi by (by exists c).
      rewrite !orb_true_iff, !pattern_iff by done. split.
      + intros [[[H|H]|H]|H]; exists a, b, c1, c2; [exists 0%nat|exists 1%nat|exists 2%nat|exists 3%nat]; (split; [done|]; split; [lia|]); fold cc;
          destruct H as (p1 & p2 & p3 & p4 & r & ar & r3 & r4 & a3 & H1 & H2 & H3 & H4 & H5);
          exists p1, p2, p3, p4, r, ar, r3, r4, a3; rewrite ?H1, ?H2, ?H3, ?H4; cbn; rewrite ?H1, ?H2, ?H3, ?H4; by repeat (split; [done|]).
      + intros (a' & b' & c1' & c2' & k & (F1 & F2 & F3 & F4) & Hk & Hse). fold d' in F2, F3.
        pose proof (goes_fun _ _ _ _ Hd F1 G1) as ->. pose proof (goes_fun _ _ _ _ Hd1 F2 G3) as ->.
        pose proof (goes_fun _ _ _ _ Hd1 F3 G2) as ->. pose proof (goes_fun _ _ _ _ Hd F4 G4) as ->.
        fold cc in Hse. destruct Hse as (p1 & p2 & p3 & p4 & r & ar & r3 & r4 & a3 & H1 & H2 & H3 & H4 & H5).
        destruct k as [|[|[|[|k]]]]; [..|lia]; cbn in H1, H2, H3, H4; injection H1 as H1; injection H2 as H2; injection H3 as H3; injection H4 as H4;
          [left; left; left|left; left; right|left; right|right]; exists p1, p2, p3, p4, r, ar, r3, r4, a3; do 4 (split; [congruence|]); exact H5.
  Qed.

  (** The raw vertex of a side. *)
  Definition vertex_of (area : Z) (s : pos) (v : rawv) : Prop :=
    vpos v.1 = c_end s ∧ beyond ch area (p_i s) (p_d s) v.2 ∧ corner_top ch (p_i s) (p_d s) (vy v.1) ∧
    (Z.testbit v.2 16 = true ↔ border_corner ch (p_i s) (p_d s)).

  Lemma side_vertex_spec area s :
    in_cell ch (p_c s) (p_i s) → (p_d s < 4)%nat →
    runs (side_vertex ch (p_c s mod w) (p_c s / w) (p_i s) (p_d s) area) (vertex_of area s).
  Proof.
    intros Hin Hd. unfold side_vertex. eapply runs_bind; [by apply corner_height_spec|]. intros [py isb] [Htop Hisb].
    pose proof (in_cell_lt ch Hwf _ _ Hin) as Hc. destruct (cell_coords ch _ Hc) as (Hw & Hx & Hz & Ec). fold w h in Hw, Hx, Hz, Ec.
    assert (side_corner (Z.of_nat (p_c s mod w)) (Z.of_nat (p_c s / w)) (p_d s) = Done (c_end s)) as ->.
    { unfold side_corner, c_end. set (x := (p_c s mod w)%nat) in *. set (z := (p_c s / w)%nat) in *. clearbody x z.
      destruct (p_d s) as [|[|[|[|d]]]]; [..|lia]; unfold chk_u16, U16_MAX; rewrite ?chk_in by lia; cbn; rewrite ?Z.add_0_r; done. }
    destruct (c_end s) as [px pz] eqn:Eend. cbn [obind].
    destruct (span_some _ _ Hin) as (sp & Hsp & _). rewrite (get_some _ _ _ Hsp). cbn [obind].
    destruct (con_idx _ _ _ sp Hin Hd Hsp) as (o & -> & Ho). cbn [obind]. destruct o as [v|].
    - destruct Ho as (c' & j & Hn & Hin' & ->). cbn [obind].
      destruct (span_some _ _ Hin') as (sa & Hsa & Hra). rewrite (get_some _ _ _ Hsa). cbn [obind].
      destruct (area_some _ _ Hin') as (a & Ha). rewrite (get_some _ _ _ Ha). cbn [obind runs].
      split; [done|]. cbn [snd]. match goal with |- beyond _ _ _ _ ?v ∧ _ => destruct (land_mask_reg (cs_reg sa) v isb (negb (area =? a))) as (E1 & E2 & E3) end; [by apply (Hr16 j)|done|].
      pose proof (nbr_step ch Hwf _ _ _ _ _ Hd Hin Hn) as Hst. rewrite E3. split; [|done]. split.
      + intros j' Hst'. assert (j' = j) as -> by (by eapply (step_fun ch Hwf)). rewrite E1, E2. split; [done|].
        rewrite Ha. destruct (Z.eqb_spec area a); cbn; split; try done; congruence.
      + intros Hno. by destruct (Hno j).
    - cbn [obind runs]. split; [done|]. cbn [snd]. match goal with |- beyond _ _ _ _ ?v ∧ _ => destruct (land_mask_reg 0 v isb false) as (E1 & E2 & E3) end; [lia|done|].
      rewrite E3. split; [|done].
      split; [|done]. intros j Hst. destruct (proj1 (step_nbr ch Hwf _ _ _ j Hin Hd) Hst) as (c' & Hc'). congruence.
  Qed.

  (** ** The loop *)
  Definition bit (flags : list Z) (i d : nat) : bool := Z.testbit (default 0 (flags !! i)) (Z.of_nat d).
  Definition bit_at (flags : list Z) (s : pos) : bool := bit flags (p_i s) (p_d s).

  Definition flags_ok (flags : list Z) : Prop := length flags = n ∧ ∀ i f, flags !! i = Some f → 0 ≤ f ≤ 15.

  Lemma clear_bit f d : 0 ≤ f ≤ 15 → (d < 4)%nat → 0 ≤ Z.ldiff f (Z.shiftl 1 (Z.of_nat d)) ≤ 15.
  Proof.
    intros Hf Hd. assert (∃ k, (k < 16)%nat ∧ f = Z.of_nat k) as (k & Hk & ->) by (exists (Z.to_nat f); lia). clear Hf.
    destruct d as [|[|[|[|d]]]]; [..|lia]; (do 16 (destruct k as [|k]; [by vm_compute|])); lia.
  Qed.

  Lemma testbit_clear f d d' : Z.testbit (Z.ldiff f (Z.shiftl 1 (Z.of_nat d))) (Z.of_nat d') = Z.testbit f (Z.of_nat d') && negb (Nat.eqb d d').
  Proof.
    rewrite Z.ldiff_spec. f_equal. f_equal. rewrite Z.shiftl_1_l.
    destruct (Nat.eqb_spec d d') as [->|Hne]; [by rewrite Z.pow2_bits_true by lia|]. apply Z.pow2_bits_false. lia.
  Qed.

  Lemma put_flag flags i f d :
    flags_ok flags → flags !! i = Some f → (d < 4)%nat →
    runs (put flags i (Z.ldiff f (Z.shiftl 1 (Z.of_nat d)))) (λ flags', flags_ok flags' ∧
      ∀ i' d', bit flags' i' d' = bit flags i' d' && negb ((i =? i')%nat && (d =? d')%nat)).
  Proof.
    intros [Hl Hr] Hi Hd. assert (i < length flags)%nat as Hlt by (by eapply lookup_lt_Some).
    rewrite (put_lt _ _ _ Hlt). cbn [runs]. split.
    - split; [by rewrite insert_length|]. intros i' f' Hi'. destruct (decide (i = i')) as [<-|Hne].
      + rewrite list_lookup_insert in Hi' by done. injection Hi' as <-. apply clear_bit; [by eapply Hr|done].
      + rewrite list_lookup_insert_ne in Hi' by done. by eapply Hr.
    - intros i' d'. unfold bit. destruct (Nat.eqb_spec i i') as [<-|Hne].
      + rewrite list_lookup_insert by done. rewrite Hi. cbn. apply testbit_clear.
      + rewrite list_lookup_insert_ne by done. by rewrite andb_true_r.
  Qed.

  Definition trace (s : pos) (m k : nat) : list pos := filter edge ((λ k, iter k s) <$> seq m k).

  Lemma trace_elem s m k t : t ∈ trace s m k ↔ edge t ∧ ∃ a, (m ≤ a < m + k)%nat ∧ t = iter a s.
  Proof.
    unfold trace. rewrite elem_of_list_filter, elem_of_list_fmap. split.
    - intros (He & a & -> & Ha). apply elem_of_seq in Ha. split; [done|]. exists a. split; [lia|done].
    - intros (He & a & Ha & ->). split; [done|]. exists a. split; [done|]. apply elem_of_seq. lia.
  Qed.

  Section loop.
    Context (r : Z) (s0 : pos) (T : nat) (area : Z).
    Hypothesis (Hs0 : valid r s0) (HT : returns next s0 T).

    Lemma iter_closed m : (m < T)%nat → p_i (iter (S m) s0) = p_i s0 → p_d (iter (S m) s0) = p_d s0 → S m = T.
    Proof.
      intros Hm Hi Hd. destruct HT as (H1 & H2 & H3).
      assert (iter (S m) s0 = s0) as E. { apply (key_inj r); [by apply iter_valid|done|]. unfold key_of. by rewrite Hi, Hd. }
      destruct (decide (S m < T)%nat); [|lia]. exfalso. by apply (H3 (S m)); [lia|lia|].
    Qed.

    Lemma walk_build_spec k m flags pts :
      (m < T)%nat → (T - m ≤ k)%nat → flags_ok flags →
      (∀ a, (m ≤ a < T)%nat → bit_at flags (iter a s0) = bool_decide (edge (iter a s0))) →
      runs (walk_build_loop k ch area (p_i s0) (p_d s0) (p_c (iter m s0) mod w) (p_c (iter m s0) / w)
              (p_i (iter m s0)) (p_d (iter m s0)) flags pts) (λ '(flags', pts'), flags_ok flags' ∧
        (∀ i d, bit flags' i d = bit flags i d && negb (bool_decide ((i, d) ∈ key_of <$> trace s0 m (T - m)))) ∧
        ∃ vs, pts' = pts ++ vs ∧ Forall2 (vertex_of area) (trace s0 m (T - m)) vs).
    Proof.
      revert m flags pts. induction k as [|k IH]; intros m flags pts Hm Hk Hok Hbits; [lia|].
      cbn [walk_build_loop]. pose proof (iter_valid r m s0 Hs0) as (Hin & Hd & Hr).
      assert (Etr : trace s0 m (T - m) = (if decide (edge (iter m s0)) then [iter m s0] else []) ++ trace s0 (S m) (T - S m)).
      { unfold trace. replace (T - m)%nat with (S (T - S m)) by lia. cbn [seq fmap list_fmap]. rewrite filter_cons. by case_decide. }
      set (s := iter m s0) in *.
      destruct (lookup_lt_is_Some_2 flags (p_i s)) as [f Hf]. { rewrite (proj1 Hok). by eapply in_cell_bound. }
      rewrite (get_some _ _ _ Hf). cbn [obind].
      assert (Z.testbit f (Z.of_nat (p_d s)) = bool_decide (edge s)) as ->.
      { pose proof (Hbits m ltac:(lia)) as Hb. fold s in Hb. rewrite <-Hb. unfold bit_at, bit. by rewrite Hf. }
      case_bool_decide as He.
      - rewrite decide_True in Etr by done.
        assert (En : next s = (p_c s, p_i s, (p_d s + 1) mod 4)%nat). { unfold next. unfold edge in He. by rewrite He. }
        eapply runs_bind; [by apply side_vertex_spec|]. intros v Hv.
        eapply runs_bind; [by apply put_flag|]. intros flags1 [Hok1 Hb1].
        assert (Hnew : ∀ a, (S m ≤ a < T)%nat → bit_at flags1 (iter a s0) = bool_decide (edge (iter a s0))).
        { intros a Ha. unfold bit_at. rewrite Hb1. fold (bit_at flags (iter a s0)). rewrite Hbits by lia.
          destruct ((p_i s =? p_i (iter a s0))%nat && (p_d s =? p_d (iter a s0))%nat) eqn:E; [|by rewrite andb_true_r].
          exfalso. apply andb_prop in E as [E1 E2]. apply Nat.eqb_eq in E1, E2.
          assert (s = iter a s0) as Es. { apply (key_inj r); [by apply iter_valid|by apply iter_valid|]. unfold key_of. congruence. }
          assert (m = a); [|lia]. eapply (iter_distinct r); [exact Hs0|exact HT|exact Hm|apply Ha|exact Es]. }
        assert (Hpi : p_i (iter (S m) s0) = p_i s ∧ p_d (iter (S m) s0) = ((p_d s + 1) mod 4)%nat ∧ p_c (iter (S m) s0) = p_c s).
        { rewrite it_S. fold s. rewrite En. done. }
        destruct Hpi as (Hpi & Hpd & Hpc).
        destruct ((p_i s0 =? p_i s)%nat && (p_d s0 =? (p_d s + 1) mod 4)%nat) eqn:Estop.
        + apply andb_prop in Estop as [E1 E2]. apply Nat.eqb_eq in E1, E2.
          assert (S m = T) as ET. { apply iter_closed; [lia|congruence|congruence]. }
          cbn [runs]. assert (trace s0 (S m) (T - S m) = []) as E0 by (by replace (T - S m)%nat with 0%nat by lia).
          rewrite E0, app_nil_r in Etr. rewrite Etr. split; [done|]. split.
          * intros i d. rewrite Hb1. f_equal. f_equal. unfold key_of. cbn.
            destruct (Nat.eqb_spec (p_i s) i); destruct (Nat.eqb_spec (p_d s) d); cbn; symmetry;
              [apply bool_decide_eq_true; subst; left|apply bool_decide_eq_false; intros [= ? ?]%elem_of_list_singleton; congruence..].
          * exists [v]. split; [done|]. by constructor.
        + pose proof (IH (S m) flags1 (pts ++ [v])) as H. rewrite Hpi, Hpd, Hpc in H.
          assert (S m < T)%nat as HmT.
          { destruct (decide (S m = T)) as [ET|]; [|lia]. exfalso. apply andb_false_iff in Estop.
            destruct HT as (_ & HTs & _). rewrite <-ET in HTs. destruct Estop as [E|E]; apply Nat.eqb_neq in E; congruence. }
          eapply runs_mono; [apply H; [done|lia|done|done]|].
          intros [flags2 pts2] (Hok2 & Hb2 & vs & -> & HF). split; [done|]. rewrite Etr. split.
          * intros i d. rewrite Hb2, Hb1, <-andb_assoc. f_equal. cbn [app fmap list_fmap].
            assert (bool_decide ((i, d) ∈ key_of s :: (key_of <$> trace s0 (S m) (T - S m))) =
              ((p_i s =? i)%nat && (p_d s =? d)%nat) || bool_decide ((i, d) ∈ key_of <$> trace s0 (S m) (T - S m))) as ->.
            { apply Bool.eq_true_iff_eq. rewrite orb_true_iff, andb_true_iff, !Nat.eqb_eq, !bool_decide_eq_true, elem_of_cons.
              unfold key_of at 1. split; (intros [E|E]; [left|by right]); [by injection E as -> ->|by destruct E as [-> ->]]. }
            by rewrite negb_orb.
          * exists (v :: vs). split; [by rewrite <-app_assoc|]. cbn. by constructor.
      - rewrite decide_False in Etr by done. cbn [app] in Etr.
        destruct (go s) as [[c' j]|] eqn:Eg; [|done].
        assert (En : next s = (c', j, (p_d s + 3) mod 4)%nat). { unfold next. by rewrite Eg. }
        pose proof (go_some _ _ _ Eg) as [Hn _].
        destruct (span_some _ _ Hin) as (sp & Hsp & _). rewrite (get_some _ _ _ Hsp). cbn [obind].
        destruct (con_nbr ch Hwf _ _ _ sp Hw16 Hh16 Hin Hd Hsp) as (o & -> & Ho). cbn [obind].
        destruct o as [v|]; [|congruence]. destruct Ho as (c2 & j2 & Hn2 & _ & E). rewrite Hn in Hn2. injection Hn2 as <- <-.
        fold w in E. rewrite E. cbn [obind].
        assert (Hpi : p_i (iter (S m) s0) = j ∧ p_d (iter (S m) s0) = ((p_d s + 3) mod 4)%nat ∧ p_c (iter (S m) s0) = c').
        { rewrite it_S. fold s. rewrite En. done. }
        destruct Hpi as (Hpi & Hpd & Hpc). rewrite Etr.
        destruct ((p_i s0 =? j)%nat && (p_d s0 =? (p_d s + 3) mod 4)%nat) eqn:Estop.
        + apply andb_prop in Estop as [E1 E2]. apply Nat.eqb_eq in E1, E2.
          assert (S m = T) as ET. { apply iter_closed; [lia|congruence|congruence]. }
          cbn [runs]. assert (trace s0 (S m) (T - S m) = []) as -> by (by replace (T - S m)%nat with 0%nat by lia).
          split; [done|]. split.
          * intros i d. rewrite bool_decide_eq_false_2 by (by intros ?%elem_of_nil). by rewrite andb_true_r.
          * exists []. split; [by rewrite app_nil_r|]. constructor.
        + pose proof (IH (S m) flags pts) as H. rewrite Hpi, Hpd, Hpc in H.
          assert (S m < T)%nat as HmT.
          { destruct (decide (S m = T)) as [ET|]; [|lia]. exfalso. apply andb_false_iff in Estop.
            destruct HT as (_ & HTs & _). rewrite <-ET in HTs. destruct Estop as [E'|E']; apply Nat.eqb_neq in E'; congruence. }
          apply H; [done|lia|done|]. intros a Ha. apply Hbits. lia.
    Qed.
  End loop.

  (** ** Marking *)
  Definition good (flags : list Z) (i : nat) : Prop :=
    ∀ c d, in_cell ch c i → (d < 4)%nat →
      bit flags i d = true ↔ (∀ r, region_of ch i = Some r → inner r) ∧ edge (c, i, d).

  Lemma small_bits (f : Z) (d : nat) : 0 ≤ f ≤ 15 → (d < 4)%nat →
    0 ≤ Z.lor f (Z.shiftl 1 (Z.of_nat d)) ≤ 15 ∧ 0 ≤ Z.lxor f 15 ≤ 15.
  Proof.
    intros Hf Hd. assert (∃ k, (k < 16)%nat ∧ f = Z.of_nat k) as (k & Hk & ->) by (exists (Z.to_nat f); lia). clear Hf.
    destruct d as [|[|[|[|d]]]]; [..|lia]; (do 16 (destruct k as [|k]; [by vm_compute|])); lia.
  Qed.
  Lemma flip_bit f d : (d < 4)%nat → Z.testbit (Z.lxor f 15) (Z.of_nat d) = negb (Z.testbit f (Z.of_nat d)).
  Proof.
    intros Hd. rewrite Z.lxor_spec. change 15 with (Z.ones 4). rewrite Z.testbit_ones_nonneg by lia.
    replace (Z.of_nat d <? 4) with true by lia. by destruct (Z.testbit f _).
  Qed.
  Lemma set_bit f d d' : Z.testbit (Z.lor f (Z.shiftl 1 (Z.of_nat d))) (Z.of_nat d') = Z.testbit f (Z.of_nat d') || (d =? d')%nat.
  Proof.
    rewrite Z.lor_spec. f_equal. rewrite Z.shiftl_1_l.
    destruct (Nat.eqb_spec d d') as [->|Hne]; [by rewrite Z.pow2_bits_true by lia|]. apply Z.pow2_bits_false. lia.
  Qed.

  Lemma mark_dir_spec c i d s res :
    in_cell ch c i → ch_spans ch !! i = Some s → (d < 4)%nat → cs_reg s ≠ 0 →
    mark_dir ch (c mod w) (c / w) s d res =
    Done (if bool_decide (edge (c, i, d)) then res else Z.lor res (Z.shiftl 1 (Z.of_nat d))).
  Proof.
    intros Hin Hs Hd Hr. unfold mark_dir. destruct (con_idx c i d s Hin Hd Hs) as (o & -> & Ho). cbn [obind].
    assert (Ri : region_of ch i = Some (cs_reg s)) by (unfold region_of; by rewrite Hs).
    assert (Eg : go (c, i, d) = match nbr ch c i d with
      Some (c', j) => if decide (region_of ch j = region_of ch i) then Some (c', j) else None | None => None end) by done.
    destruct o as [v|].
    - destruct Ho as (c' & j & Hn & Hin' & ->). cbn [obind]. destruct (span_some _ _ Hin') as (sa & Hsa & Ra).
      rewrite (get_some _ _ _ Hsa). cbn [obind]. rewrite Hn, Ra, Ri in Eg.
      destruct (Z.eqb_spec (cs_reg sa) (cs_reg s)) as [E|E].
      + rewrite decide_True in Eg by congruence. rewrite bool_decide_eq_false_2; [done|]. unfold edge. by rewrite Eg.
      + rewrite decide_False in Eg by congruence. by rewrite bool_decide_eq_true_2.
    - rewrite Ho in Eg. cbn [obind]. unfold REG_NONE. replace (0 =? cs_reg s) with false by lia.
      by rewrite bool_decide_eq_true_2.
  Qed.

  Lemma mark_dirs c i s :
    in_cell ch c i → ch_spans ch !! i = Some s → cs_reg s ≠ 0 →
    runs (foldM (mark_dir ch (c mod w) (c / w) s) (seq 0 4) 0) (λ res, 0 ≤ res ≤ 15 ∧
      ∀ d, (d < 4)%nat → Z.testbit res (Z.of_nat d) = negb (bool_decide (edge (c, i, d)))).
  Proof.
    intros Hin Hs Hr.
    eapply runs_mono; [apply (foldM_seq_inv (λ k res, 0 ≤ res ≤ 15 ∧
      ∀ d, (d < 4)%nat → Z.testbit res (Z.of_nat d) = (d <? k)%nat && negb (bool_decide (edge (c, i, d)))))|].
    - split; [lia|]. intros d Hd. apply Z.testbit_0_l.
    - intros k res Hk [Hb Ht]. rewrite (mark_dir_spec c i) by (done || lia). cbn [runs]. case_bool_decide as He.
      + split; [done|]. intros d Hd. rewrite Ht by done. destruct (Nat.eqb_spec d k) as [->|Hne].
        * rewrite bool_decide_eq_true_2 by done. by rewrite !andb_false_r.
        * f_equal. lia.
      + split; [by apply small_bits; [done|lia]|]. intros d Hd. rewrite set_bit, Ht by done.
        destruct (Nat.eqb_spec k d) as [->|Hne].
        * rewrite bool_decide_eq_false_2 by done. rewrite orb_true_r. symmetry. apply andb_true_iff. split; [lia|done].
        * rewrite orb_false_r. f_equal. lia.
    - cbv beta. intros res [Hb Ht]. split; [done|]. intros d Hd. rewrite Ht by done. replace (d <? 0 + 4)%nat with true by lia. done.
  Qed.

  Lemma inner_iff r : 0 ≤ r ≤ 65535 → (r =? REG_NONE) || is_border r = false ↔ inner r.
  Proof.
    intros Hr. rewrite is_border_iff by done. unfold inner, border_flag, REG_NONE. rewrite orb_false_iff. lia.
  Qed.

  Lemma mark_span_spec c i flags :
    in_cell ch c i → flags_ok flags →
    runs (mark_span ch (c mod w) (c / w) i flags) (λ flags', flags_ok flags' ∧ good flags' i ∧
      ∀ i', i' ≠ i → flags' !! i' = flags !! i').
  Proof.
    intros Hin [Hl Hf]. destruct (span_some _ _ Hin) as (s & Hs & Ri). unfold mark_span.
    rewrite (get_some _ _ _ Hs). cbn [obind].
    assert (Hi : (i < length flags)%nat). { rewrite Hl. by eapply in_cell_bound. }
    assert (Hput : ∀ v, 0 ≤ v ≤ 15 → flags_ok (<[i := v]> flags) ∧ (∀ i', i' ≠ i → <[i := v]> flags !! i' = flags !! i')).
    { intros v Hv. split.
      - split; [by rewrite insert_length|]. intros i' f Hi'. destruct (decide (i = i')) as [<-|Hne].
        + rewrite list_lookup_insert in Hi' by done. by injection Hi' as <-.
        + rewrite list_lookup_insert_ne in Hi' by done. by eapply Hf.
      - intros i' Hne. by rewrite list_lookup_insert_ne. }
    pose proof (Hr16 i _ Ri) as Hr. destruct ((cs_reg s =? REG_NONE) || is_border (cs_reg s)) eqn:Enb.
    - rewrite put_lt by done. cbn [runs]. destruct (Hput 0) as [H1 H2]; [lia|]. split; [done|]. split; [|done].
      intros c' d _ Hd. unfold bit. rewrite list_lookup_insert by done. cbn [from_option id]. rewrite Z.testbit_0_l. split; [done|].
      intros [Hall _]. specialize (Hall _ Ri). apply inner_iff in Hall; [congruence|done].
    - apply inner_iff in Enb; [|done]. eapply runs_bind; [apply (mark_dirs c i); [done|done|apply Enb]|].
      intros res [Hb Ht]. rewrite put_lt by done. cbn [runs].
      destruct (Hput (Z.lxor res 15)) as [H1 H2]; [by apply (small_bits res 0); [|lia]|]. split; [done|]. split; [|done].
      intros c' d Hin' Hd. assert (c' = c) as -> by (by eapply (in_cell_unique ch Hwf)).
      unfold bit. rewrite list_lookup_insert by done. cbn [from_option id]. rewrite flip_bit, Ht, negb_involutive by done.
      rewrite bool_decide_eq_true. split; [|tauto]. intros He. split; [|done]. intros r' Hr'. congruence.
  Qed.

  Lemma mark_boundaries_spec :
    runs (mark_boundaries ch) (λ flags, flags_ok flags ∧ ∀ i, (i < n)%nat → good flags i).
  Proof.
    unfold mark_boundaries.
    eapply runs_mono; [apply (for_cells_inv' (λ c flags, flags_ok flags ∧
      ∀ i, (i < cell_start (ch_cells ch) c)%nat → good flags i))|].
    - split; [split; [apply repeat_length|]|].
      + intros i f Hi. apply repeat_lookup_Some in Hi as [-> _]. lia.
      + intros i Hi. change (i < 0)%nat in Hi. lia.
    - intros c flags Hc [Hok Hg].
      destruct (lookup_lt_is_Some_2 (ch_cells ch) c) as [cell Hcell]. { by rewrite (cells_len ch Hwf). }
      rewrite (cell_at_some ch c cell Hc Hcell). cbn [obind].
      eapply runs_mono; [apply (foldM_inv (λ pre flags, flags_ok flags ∧
        ∀ i, (i < cell_start (ch_cells ch) c)%nat ∨ i ∈ pre → good flags i))|].
      + split; [done|]. intros i [Hi|[]%elem_of_nil]. by apply Hg.
      + intros pre i post flags1 El [Hok1 Hg1].
        assert (Hin : in_cell ch c i). { exists cell. split; [done|]. rewrite El. set_solver. }
        eapply runs_mono; [by apply mark_span_spec|]. intros flags2 (Hok2 & Hgi & Hsame). split; [done|].
        intros i' Hi'. destruct (decide (i' = i)) as [->|Hne]; [done|].
        assert (good flags1 i') as Hg'. { apply Hg1. destruct Hi' as [?|?%elem_of_app]; [by left|]. right. set_solver. }
        intros c' d Hin' Hd. rewrite <-(Hg' c' d Hin' Hd). unfold bit. by rewrite Hsame.
      + cbv beta. intros flags1 [Hok1 Hg1]. split; [done|]. intros i Hi. apply Hg1.
        destruct (decide (i < cell_start (ch_cells ch) c)%nat) as [|Hge]; [by left|right].
        assert (in_cell ch c i) as (cell' & Hcell' & Hi'). { apply (in_cell_range ch Hwf). split; [done|].
          replace (c + 1)%nat with (S c) in Hi by lia. lia. }
        congruence.
    - cbv beta. intros flags [Hok Hg]. split; [done|]. intros i Hi. apply Hg. fold w h. pose proof (wf_total _ Hwf) as Ht.
      rewrite (cells_len ch Hwf) in Ht. fold w h n in Ht. lia.
  Qed.

  (** ** The flags between walks *)
  Definition flags_inv (flags : list Z) : Prop :=
    flags_ok flags ∧
    (∀ r s, valid r s → bit_at flags s = true → inner r ∧ edge s) ∧
    (∀ r s t, valid r s → edge s → edge t → same_orbit next s t → bit_at flags s = true → bit_at flags t = true).

  Lemma orbit_valid r s t : valid r s → same_orbit next s t → valid r t.
  Proof. intros Hs [k <-]. by apply iter_valid. Qed.

  Lemma marked_inv flags : flags_ok flags → (∀ i, (i < n)%nat → good flags i) → flags_inv flags.
  Proof.
    intros Hok Hg.
    assert (Hiff : ∀ r s, valid r s → bit_at flags s = true ↔ inner r ∧ edge s).
    { intros r s (Hin & Hd & Hr). unfold bit_at. rewrite (Hg (p_i s) (in_cell_bound ch Hwf _ _ Hin) _ _ Hin Hd).
      destruct s as [[c i] d]. unfold p_c, p_i, p_d in *. cbn [fst snd] in *. split; intros [H1 H2]; (split; [|done]); [by apply H1|].
      intros r' Hr'. congruence. }
    split; [done|]. split; [intros r s Hs; by apply Hiff|]. intros r s t Hs He Ht Ho Hb.
    apply (Hiff r) in Hb as [Hi _]; [|done]. apply (Hiff r); [by eapply orbit_valid|done].
  Qed.

  (** Clearing the bits of a closed set of edges. *)
  Lemma clear_inv r flags flags' (tr : list pos) :
    flags_inv flags → flags_ok flags' →
    (∀ t, t ∈ tr → valid r t) →
    (∀ s t, s ∈ tr → edge t → same_orbit next s t → t ∈ tr) →
    (∀ i d, bit flags' i d = bit flags i d && negb (bool_decide ((i, d) ∈ key_of <$> tr))) →
    flags_inv flags'.
  Proof.
    intros (Hok & Hb & Ho) Hok' Hv Hcl Hbits.
    assert (Hiff : ∀ r' s, valid r' s → bit_at flags' s = true ↔ bit_at flags s = true ∧ s ∉ tr).
    { intros r' s Hs. unfold bit_at. rewrite Hbits, andb_true_iff, negb_true_iff, bool_decide_eq_false.
      assert ((p_i s, p_d s) ∈ key_of <$> tr ↔ s ∈ tr) as ->; [|done].
      rewrite elem_of_list_fmap. split; [|intros Hin; by exists s].
      intros (t & E & Ht). pose proof (Hv t Ht) as Hvt.
      assert (s = t) as ->; [|done]. apply (key_inj r); [|done|done].
      destruct Hs as (H1 & H2 & H3). split; [done|]. split; [done|]. injection E as E1 E2. rewrite E1. apply Hvt. }
    split; [done|]. split.
    - intros r' s Hs Hbs. apply (Hiff r') in Hbs as [Hbs _]; [|done]. by apply Hb.
    - intros r' s t Hs Hes Het Hst Hbs. apply (Hiff r') in Hbs as [Hbs Hns]; [|done].
      apply (Hiff r'); [by eapply orbit_valid|]. split; [by eapply Ho|].
      intros Hin. apply Hns. eapply Hcl; [done|done|]. by eapply orbit_sym.
  Qed.

  Lemma first_dir_spec f (ds : list nat) : (∃ d, d ∈ ds ∧ Z.testbit f (Z.of_nat d) = true) →
    ∃ d, first_dir f ds = Done d ∧ d ∈ ds ∧ Z.testbit f (Z.of_nat d) = true.
  Proof.
    induction ds as [|a ds IH]; intros (d & Hd & Hb); [by apply elem_of_nil in Hd|]. cbn [first_dir].
    destruct (Z.testbit f (Z.of_nat a)) eqn:E.
    - exists a. split; [done|]. split; [left|done].
    - apply elem_of_cons in Hd as [->|Hd]; [congruence|]. destruct IH as (d' & H1 & H2 & H3); [by exists d|].
      exists d'. split; [done|]. split; [by right|done].
  Qed.
  Lemma some_bit f : 0 ≤ f ≤ 15 → f ≠ 0 → ∃ d, (d < 4)%nat ∧ Z.testbit f (Z.of_nat d) = true.
  Proof.
    intros Hf Hne. destruct (Z.testbit f 0) eqn:E0; [by exists 0%nat; split; [lia|]|].
    destruct (Z.testbit f 1) eqn:E1; [by exists 1%nat; split; [lia|]|].
    destruct (Z.testbit f 2) eqn:E2; [by exists 2%nat; split; [lia|]|].
    destruct (Z.testbit f 3) eqn:E3; [by exists 3%nat; split; [lia|]|].
    exfalso. assert (∃ k, (k < 16)%nat ∧ f = Z.of_nat k) as (k & Hk & ->) by (exists (Z.to_nat f); lia). clear Hf.
    do 16 (destruct k as [|k]; [done|]). lia.
  Qed.
  Lemma high_bit f d : 0 ≤ f ≤ 15 → Z.testbit f (Z.of_nat d) = true → (d < 4)%nat.
  Proof.
    intros Hf Hb. destruct (decide (d < 4)%nat) as [|Hge]; [done|]. exfalso.
    destruct (decide (f = 0)) as [->|]; [by rewrite Z.testbit_0_l in Hb|].
    rewrite Z.bits_above_log2 in Hb; [done|lia|]. apply Z.log2_lt_pow2; [lia|]. pose proof (Z.pow_le_mono_r 2 4 (Z.of_nat d)). lia.
  Qed.

  (** The sides of a closed walk. *)
  Definition closed_walk (r : Z) (tr : list pos) : Prop :=
    tr ≠ [] ∧ NoDup tr ∧ (∀ s, s ∈ tr → valid r s ∧ edge s) ∧
    (∀ k s t, tr !! k = Some s → tr !! ((k + 1) mod length tr)%nat = Some t → c_end s = c_start t).

  Lemma trace_closed r s0 T : valid r s0 → returns next s0 T → edge s0 → closed_walk r (trace s0 0 T).
  Proof.
    intros Hs0 HT He. assert (Hin : s0 ∈ trace s0 0 T).
    { apply trace_elem. split; [done|]. exists 0%nat. destruct HT as (? & _). split; [lia|done]. }
    split; [by intros E; rewrite E in Hin; apply elem_of_nil in Hin|]. split.
    { unfold trace. apply NoDup_filter. apply NoDup_fmap_2_strong; [|apply NoDup_seq].
      intros a b Ha Hb. apply elem_of_seq in Ha, Hb. apply (iter_distinct r s0 T); [done|done|lia|lia]. }
    split. { intros s (H1 & a & _ & ->)%trace_elem. split; [by apply iter_valid|done]. }
    pose proof (chain_walk r s0 0 T Hs0) as Hch. fold (trace s0 0 T) in Hch. change (0 + T)%nat with T in Hch.
    assert (it next T s0 = s0) as E by apply HT. rewrite E in Hch. change (it next 0 s0) with s0 in Hch.
    set (tr := trace s0 0 T) in *. intros k s t Hs Ht.
    assert (k < length tr)%nat as Hk by (by eapply lookup_lt_Some).
    destruct (decide (k + 1 = length tr)%nat) as [El|Hne].
    - rewrite El, Nat.mod_same in Ht by lia. apply (chain_lookup _ _ _ _ _ Hch) in Ht. rewrite Ht.
      assert (c_end <$> last tr = Some (c_start s0)) as Hl by (by eapply chain_last; [|by intros E0; rewrite E0 in Hin; apply elem_of_nil in Hin]).
      rewrite last_lookup in Hl. replace (pred (length tr)) with k in Hl by lia. rewrite Hs in Hl. exact (f_equal (default (0, 0)) Hl).
    - rewrite Nat.mod_small in Ht by lia. apply (chain_lookup _ _ _ _ _ Hch) in Ht. rewrite Nat.add_1_r in Ht. rewrite Hs in Ht. by cbn in Ht.
  Qed.

  Lemma edge_side r s : valid r s → edge s → side ch r (p_i s) (p_d s).
  Proof.
    intros (Hin & Hd & Hr) He. split; [done|]. split; [done|]. intros j Hst Hj.
    destruct (proj1 (step_nbr ch Hwf _ _ _ j Hin Hd) Hst) as (c' & Hn). unfold edge, go in He. rewrite Hn in He.
    rewrite decide_True in He; [done|congruence].
  Qed.
  Lemma side_edge r c i d : in_cell ch c i → side ch r i d → valid r (c, i, d) ∧ edge (c, i, d).
  Proof.
    intros Hin (Hd & Hr & Hno). split; [done|]. unfold edge, go. cbn [p_c p_i p_d fst snd].
    destruct (nbr ch c i d) as [[c' j]|] eqn:En; [|done]. rewrite decide_False; [done|]. rewrite Hr. apply Hno. by eapply (nbr_step ch Hwf).
  Qed.

  (** The first side met from a position on. *)
  Lemma seeks_walk r u k t l : valid r u → filter edge ((λ k, iter k u) <$> seq 0 k) = t :: l → seeks ch r (p_i u) (p_d u) (key_of t).
  Proof.
    revert u. induction k as [|k IH]; intros u Hu; [done|]. cbn [seq fmap list_fmap]. rewrite filter_cons. case_decide as He.
    - intros [= -> _]. constructor. by apply edge_side.
    - change (it next 0 u) with u in He. unfold edge in He. destruct (go u) as [[c' j]|] eqn:Eg; [|done].
      pose proof (go_some _ _ _ Eg) as [Hn Hr]. pose proof Hu as (Hin & Hd & Hru).
      assert (next u = (c', j, (p_d u + 3) mod 4)%nat) as En by (unfold next; by rewrite Eg).
      intros E. eapply seeks_on; [by eapply (nbr_step ch Hwf)|by rewrite Hr|].
      pose proof (next_valid r u Hu) as Hv. rewrite En in Hv. apply (IH _ Hv).
      etrans; [|exact E]. apply (f_equal (filter edge)). change (list_fmap nat pos (λ k0, it next k0 u) (seq 1 k)) with ((λ k0, it next k0 u) <$> seq 1 k).
      rewrite <-fmap_S_seq, <-list_fmap_compose. apply list_fmap_ext. intros _ a _. unfold compose.
      replace (S a) with (a + 1)%nat by lia. rewrite (it_add next a 1 u). change (it next 1 u) with (next u). by rewrite En.
  Qed.
  Definition walk_follows (r : Z) (tr : list pos) : Prop :=
    ∀ k s t, tr !! k = Some s → tr !! ((k + 1) mod length tr)%nat = Some t → seeks ch r (p_i s) ((p_d s + 1) mod 4)%nat (key_of t).
  Lemma filter_split {A} (P : A → Prop) `{∀ x, Decision (P x)} l k x : filter P l !! k = Some x →
    ∃ l1 l2, l = l1 ++ x :: l2 ∧ P x ∧ filter P l2 = drop (S k) (filter P l).
  Proof.
    revert k. induction l as [|a l IH]; intros k Hk; [done|]. rewrite filter_cons in *. case_decide as Ha.
    - destruct k as [|k]; [injection Hk as ->; exists [], l; done|]. destruct (IH k Hk) as (l1 & l2 & -> & Hx & E). exists (a :: l1), l2. done.
    - destruct (IH k Hk) as (l1 & l2 & -> & Hx & E). exists (a :: l1), l2. done.
  Qed.
  Lemma trace_follows r s0 T : valid r s0 → returns next s0 T → edge s0 → walk_follows r (trace s0 0 T).
  Proof.
    intros Hs0 HT He k s t Hs Ht. pose proof (lookup_lt_Some _ _ _ Hs) as Hk. unfold trace in Hs. apply filter_split in Hs as (l1 & l2 & El & Hes & E2). fold (trace s0 0 T) in E2.
    set (a := length l1).
    assert (a < T)%nat as Ha. { apply (f_equal length) in El. rewrite fmap_length, seq_length, app_length in El. cbn in El. unfold a. lia. }
    assert (s = iter a s0) as Es.
    { assert ((l1 ++ s :: l2) !! a = Some s) as H. { unfold a. rewrite lookup_app_r by lia. by rewrite Nat.sub_diag. }
      rewrite <-El, list_lookup_fmap, lookup_seq_lt in H by done. by injection H. }
    assert (l2 = (λ k, iter k s0) <$> seq (S a) (T - S a)) as E2'.
    { apply list_eq. intros b. assert (l2 !! b = (l1 ++ s :: l2) !! (S a + b)%nat) as ->.
      { unfold a. rewrite lookup_app_r by lia. by replace (S (length l1) + b - length l1)%nat with (S b) by lia. }
      rewrite <-El, !list_lookup_fmap. destruct (decide (b < T - S a)%nat) as [Hb|Hb].
      - rewrite !lookup_seq_lt by lia. done.
      - by rewrite !lookup_seq_ge by lia. }
    assert (returns next s0 T) as (_ & HT2 & _) by done.
    assert (next s = (p_c s, p_i s, (p_d s + 1) mod 4)%nat) as En. { unfold next. unfold edge in Hes. by rewrite Hes. }
    assert (Hvs : valid r s). { rewrite Es. by apply iter_valid. }
    pose proof (next_valid r s Hvs) as Hvn.
    assert (∃ l, filter edge ((λ k, iter k (next s)) <$> seq 0 (T - a)) = t :: l) as (l & E).
    { assert (((λ k, iter k (next s)) <$> seq 0 (T - a)) = l2 ++ [s0]) as ->.
      { replace (T - a)%nat with (T - S a + 1)%nat by lia. rewrite seq_app, fmap_app. f_equal.
        - rewrite E2'. apply list_eq. intros b. rewrite !list_lookup_fmap. destruct (decide (b < T - S a)%nat) as [Hb|Hb].
          + rewrite !lookup_seq_lt by done. cbn [fmap option_fmap option_map]. apply (f_equal Some). rewrite Es. change (next (it next a s0)) with (it next (S a) s0). rewrite <-it_add. f_equal. lia.
          + by rewrite !lookup_seq_ge by lia.
        - cbn [seq fmap list_fmap Nat.add]. apply (f_equal (λ x, [x])). rewrite Es. change (next (it next a s0)) with (it next (S a) s0). rewrite <-it_add. rewrite <-HT2 at 2. f_equal. lia. }
      rewrite filter_app, filter_cons_True, filter_nil by done. rewrite E2.
      set (tr := trace s0 0 T) in *.
      destruct (decide (k + 1 < length tr)%nat) as [Hlt|Hge].
      - rewrite Nat.mod_small in Ht by lia. rewrite Nat.add_1_r in Ht. rewrite (drop_S _ _ _ Ht). cbn. by eexists.
      - replace (k + 1)%nat with (length tr) in Ht by lia. rewrite Nat.mod_same in Ht by lia.
        rewrite drop_ge by lia. cbn. exists []. f_equal. unfold tr, trace in Ht. destruct T as [|T']; [lia|].
        cbn [seq fmap list_fmap] in Ht. rewrite filter_cons_True in Ht by done. by injection Ht. }
    pose proof (seeks_walk r (next s) _ t l Hvn E) as Hsk. by rewrite En in Hsk.
  Qed.

  Lemma walk_spec c i r f area flags :
    in_cell ch c i → region_of ch i = Some r → flags_inv flags → flags !! i = Some f → f ≠ 0 →
    ch_areas ch !! i = Some area → (Z.of_nat (region_size ch r) ≤ 10000) →
    runs (walk_contour_build ch (c mod w) (c / w) i flags) (λ '(flags', raw), flags_inv flags' ∧ ∃ tr,
      closed_walk r tr ∧ inner r ∧ (∀ s, s ∈ tr → bit_at flags s = true) ∧
      (∀ i d, bit flags' i d = bit flags i d && negb (bool_decide ((i, d) ∈ key_of <$> tr))) ∧
      Forall2 (vertex_of area) tr raw ∧ (∀ d, (d < 2)%nat → bit flags i d = true → (c, i, d) ∈ tr) ∧ walk_follows r tr).
  Proof.
    intros Hin Hr Hinv Hf Hne Ha Hsz. pose proof Hinv as (Hok & Hb & Ho). pose proof (proj2 Hok _ _ Hf) as Hf15.
    unfold walk_contour_build. rewrite (get_some _ _ _ Hf). cbn [obind].
    destruct (first_dir_spec f (seq 0 8)) as (d & Efd & _ & Hd).
    { destruct (some_bit f Hf15 Hne) as (d & Hd & Hbd). exists d. split; [apply elem_of_seq; lia|done]. }
    assert (Hd0 : bit flags i 0 = true → d = 0%nat).
    { unfold bit. rewrite Hf. cbn [from_option id]. intros E0. cbn [seq first_dir] in Efd. rewrite E0 in Efd. by injection Efd as <-. }
    assert (Hd1 : bit flags i 0 = false → bit flags i 1 = true → d = 1%nat).
    { unfold bit. rewrite Hf. cbn [from_option id]. intros E0 E1. cbn [seq first_dir] in Efd. rewrite E0, E1 in Efd. by injection Efd as <-. }
    rewrite Efd. cbn [obind]. rewrite (get_some _ _ _ Ha). cbn [obind]. pose proof (high_bit _ _ Hf15 Hd) as Hd4.
    set (s0 := (c, i, d) : pos). assert (Hs0 : valid r s0) by done.
    assert (Hb0 : bit_at flags s0 = true). { unfold bit_at, bit, s0, p_i, p_d. cbn [fst snd]. by rewrite Hf. }
    destruct (Hb r s0 Hs0 Hb0) as [Hinner He0]. destruct (walk_returns r s0 Hs0) as (T & HTle & HT).
    assert (0 < T)%nat as HT0 by (destruct HT as (? & _); lia).
    eapply runs_mono; [apply (walk_build_spec r s0 T area Hs0 HT MAX_WALK 0 flags [])|].
    - done.
    - unfold MAX_WALK. lia.
    - done.
    - intros a Ha'. apply Bool.eq_true_iff_eq. rewrite bool_decide_eq_true. split.
      + intros Hba. by eapply Hb; [apply (iter_valid r)|].
      + intros Hea. eapply Ho; [exact Hs0|done|done|by exists a|done].
    - intros [flags' raw] (Hok' & Hbits & vs & -> & HF). rewrite Nat.sub_0_r in Hbits, HF.
      pose proof (trace_closed r s0 T Hs0 HT He0) as Hcl.
      assert (Htr : ∀ s, s ∈ trace s0 0 T ↔ edge s ∧ same_orbit next s0 s).
      { intros s. rewrite trace_elem. split; intros [H1 H2]; (split; [done|]).
        - destruct H2 as (a & _ & ->). by exists a.
        - destruct (orbit_first r s0 T s Hs0 HT H2) as (k & Hk & <-). exists k. split; [lia|done]. }
      split.
      + eapply (clear_inv r flags flags' (trace s0 0 T)); [done|done| | |done].
        * intros t Ht. by apply Hcl.
        * intros s t Hs Het Hst. apply Htr in Hs as [Hes Hos]. apply Htr. split; [done|]. by eapply same_orbit_trans.
      + exists (trace s0 0 T). split; [done|]. split; [done|]. split; [|split; [done|split; [done|]]].
        * intros s [Hes Hos]%Htr. eapply Ho; [exact Hs0|done|done|done|done].
        * split; [|by apply trace_follows]. intros e Hlt Ee. apply Htr.
          assert (edge (c, i, e)) as Hee. { apply (Hb r); [split; [done|split; [cbn; lia|done]]|done]. }
          split; [done|]. destruct (bit flags i 0) eqn:E0.
          -- assert (s0 = (c, i, 0%nat)) as Es by (unfold s0; by rewrite (Hd0 eq_refl)).
             destruct e as [|[|e]]; [by exists 0%nat| |lia]. exists 1%nat. rewrite it_S. change (it next 0 s0) with s0. rewrite Es in He0 |- *.
             unfold next. unfold edge in He0. by rewrite He0.
          -- destruct e as [|[|e]]; [congruence| |lia]. exists 0%nat. change (it next 0 s0) with s0. unfold s0. by rewrite (Hd1 eq_refl Ee).
  Qed.

  (** A span all of whose sides are marked is a loop of its own. *)
  Lemma single_inv c i r flags :
    in_cell ch c i → region_of ch i = Some r → flags_inv flags → flags !! i = Some 15 → flags_inv (<[i := 0]> flags).
  Proof.
    intros Hin Hr Hinv Hf. pose proof Hinv as (Hok & Hb & Ho). pose proof (in_cell_bound ch Hwf _ _ Hin) as Hi. fold n in Hi.
    assert (Hv : ∀ d, (d < 4)%nat → valid r (c, i, d)) by done.
    assert (He : ∀ d, (d < 4)%nat → edge (c, i, d)).
    { intros d Hd. apply (Hb r); [by apply Hv|]. unfold bit_at, bit, p_i, p_d. cbn [fst snd]. rewrite Hf. cbn [from_option id].
      destruct d as [|[|[|[|d]]]]; [done..|lia]. }
    eapply (clear_inv r flags _ ((λ d, (c, i, d)) <$> seq 0 4)); [done| | | |].
    - destruct Hok as [Hl Hle]. split; [by rewrite insert_length|]. intros i' f' Hi'. destruct (decide (i = i')) as [<-|Hne].
      + rewrite list_lookup_insert in Hi' by lia. injection Hi' as <-. lia.
      + rewrite list_lookup_insert_ne in Hi' by done. by eapply Hle.
    - intros t (d & -> & Hd%elem_of_seq)%elem_of_list_fmap. apply Hv. lia.
    - intros s t (d & -> & Hd%elem_of_seq)%elem_of_list_fmap _ [k <-].
      assert (∀ k, ∃ d', (d' < 4)%nat ∧ iter k (c, i, d) = (c, i, d')) as H.
      { intros m. induction m as [|m (d' & Hd' & IH)]; [exists d; split; [lia|done]|].
        exists ((d' + 1) mod 4)%nat. split; [by apply Nat.mod_upper_bound|]. rewrite it_S, IH. unfold next.
        specialize (He d' Hd'). unfold edge in He. by rewrite He. }
      destruct (H k) as (d' & Hd' & ->). apply elem_of_list_fmap. exists d'. split; [done|]. apply elem_of_seq. lia.
    - intros i' d'. unfold bit. destruct (decide (i = i')) as [<-|Hne].
      + rewrite list_lookup_insert by (rewrite (proj1 Hok); done). rewrite Hf. cbn [from_option id]. rewrite Z.testbit_0_l.
        symmetry. destruct (decide (d' < 4)%nat) as [Hd|Hd].
        * rewrite bool_decide_eq_true_2; [by rewrite andb_false_r|]. apply elem_of_list_fmap. exists (c, i, d'). split; [done|].
          apply elem_of_list_fmap. exists d'. split; [done|]. apply elem_of_seq. lia.
        * destruct (Z.testbit 15 (Z.of_nat d')) eqn:E; [|done]. apply high_bit in E; lia.
      + rewrite list_lookup_insert_ne by done. rewrite bool_decide_eq_false_2; [by rewrite andb_true_r|].
        intros (s & E & (d & -> & _)%elem_of_list_fmap)%elem_of_list_fmap. injection E as E1 E2. cbn in E1. congruence.
  Qed.

  (** ** Positions *)
  Lemma walk_loop r area tr raw : closed_walk r tr → Forall2 (vertex_of area) tr raw → lattice_loop raw.
  Proof.
    intros (Hne & _ & Hv & Hcyc) HF. pose proof (Forall2_length _ _ _ HF) as El. split.
    - intros ->. by destruct tr.
    - intros k p q Hp Hq. rewrite <-El in Hq. eapply Forall2_lookup_r in HF as HF1; [|exact Hp]. eapply Forall2_lookup_r in HF as HF2; [|exact Hq].
      destruct HF1 as (s & Hs & [Es _]). destruct HF2 as (t & Ht & [Et _]). rewrite Es, Et, (Hcyc k s t Hs Ht).
      apply c_unit. apply Hv. by eapply elem_of_list_lookup_2.
  Qed.
End walk.
