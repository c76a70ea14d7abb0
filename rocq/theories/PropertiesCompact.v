(** Theorems for properties C11-C17: compact heightfields. *)
From Verif Require Import Base ModelMath ModelHeightfield ModelFilters ModelHistory ModelCompact
  SpecHeightfield SpecCompact HeapProofs InsertProofs FilterProofs HistoryProofs PackProofs
  CompactProofs LinkProofs PropertiesHeightfield ExampleFields.
Local Open Scope Z_scope.

(** ** C11 *)
Theorem C11_packing :
  ∀ (s : cspan) (d : nat), (d < 4)%nat →
  (* connections *)
  (∀ nb, runs (set_con s d nb) (λ s',
     con s' d = Done (match nb with
                      | None => None
                      | Some v => if v mod 64 =? 63 then None else Some (v mod 64)
                      end) ∧
     (∀ d', (d' < 4)%nat → d' ≠ d → con s' d' = con s d') ∧
     cs_height s' = cs_height s ∧ cs_y s' = cs_y s ∧ cs_reg s' = cs_reg s)) ∧
  (* representable connection values read back *)
  (∀ v, 0 ≤ v < 63 → runs (set_con s d (Some v)) (λ s', con s' d = Done (Some v))) ∧
  (* heights *)
  (∀ h, 0 ≤ h ≤ 255 → cs_height (set_height s h) = h ∧
     con (set_height s h) d = con s d ∧
     cs_y (set_height s h) = cs_y s ∧ cs_reg (set_height s h) = cs_reg s) ∧
  (* the data stays a 32-bit word *)
  (0 ≤ cs_data s < 2 ^ 32 →
     (∀ nb, runs (set_con s d nb) (λ s', 0 ≤ cs_data s' < 2 ^ 32)) ∧
     ∀ h, 0 ≤ cs_data (set_height s h) < 2 ^ 32).
Proof.
  intros s d Hd. unfold set_con, con, cs_height, set_height.
  replace (6 <=? d)%nat with false by lia. cbn [runs cs_y cs_reg cs_data].
  split_and!.
  - intros nb. split_and!; try done.
    + f_equal. destruct nb as [v|]; [by apply con_set_wrap|by apply con_set_none].
    + intros d' Hd' Hne. replace (6 <=? d')%nat with false by lia. f_equal. by apply con_set_other.
    + by apply height_set_con.
  - intros v Hv. f_equal. by apply con_set_some.
  - intros h Hh. split_and!; try done.
    + by apply height_set_height.
    + f_equal. by apply con_set_height.
  - intros Hw. split.
    + intros nb. by apply set_con_word.
    + intros h. by apply set_height_word.
Qed.

(** "[con] after [set_con(d, Some v)] is [Some v]" fails for the two kinds of
    unrepresentable value, and directions 4 and 5 overwrite the height. *)
Theorem C11_unrepresentable_refuted :
  (∃ s d s', (d < 4)%nat ∧ set_con s d (Some 63) = Done s' ∧ con s' d = Done None) ∧
  (∃ s d s', (d < 4)%nat ∧ set_con s d (Some 64) = Done s' ∧ con s' d = Done (Some 0)) ∧
  (∃ s s', set_con s 4 (Some 1) = Done s' ∧ cs_height s' ≠ cs_height s) ∧
  (∀ s nb, set_con s 6 nb = Panicked).
Proof.
  split_and!.
  - exists (CS 5 0 0), 2%nat. eexists. split_and!; [lia|by vm_compute..].
  - exists (CS 5 0 0), 2%nat. eexists. split_and!; [lia|by vm_compute..].
  - exists (CS 5 0 0). eexists. split; [by vm_compute|]. vm_compute. done.
  - done.
Qed.
Example C11_witness :
  runs (set_con (CS 7 3 (Z.shiftl 200 24 + 63 * 64 + 5)) 2 (Some 41)) (λ s,
    con s 0 = Done (Some 5) ∧ con s 1 = Done None ∧ con s 2 = Done (Some 41) ∧ con s 3 = Done (Some 0) ∧
    cs_height s = 200).
Proof. vm_compute. done. Qed.

(** ** C12 *)
Theorem C12_lists_walkable_spans :
  ∀ hf O wh wc, reachable hf → field_opens hf O → countable O →
  runs (into_compact hf wh wc) (λ r, ∀ ch, r = Some ch →
    ch_w ch = hf_w hf ∧ ch_h ch = hf_h hf ∧ ch_wh ch = wh ∧ ch_wc ch = wc ∧
    ch_border ch = 0 ∧ ch_maxdist ch = 0 ∧ ch_maxreg ch = 0 ∧
    lists_opens ch O ∧ Forall (λ s, cs_reg s = 0) (ch_spans ch)).
Proof.
  intros hf O wh wc Hre HO Hc. destruct (reachable_ok _ Hre) as [cols Hok].
  apply (field_opens_rep _ cols) in HO as ->; [|done].
  eapply runs_mono; [by apply (into_compact_spec _ _ wh wc Hok)|].
  intros r [_ H] ch Hr. destruct (H _ Hr) as (? & ? & ? & ? & ? & ? & ? & ? & ? & ? & ? & Hf).
  split_and!; try done. eapply Forall_impl; [exact Hf|]. intros s [? ?]. done.
Qed.

(** ** C13 *)
Theorem C13_connections_exact :
  ∀ hf O wh wc, reachable hf → field_opens hf O → countable O →
  runs (into_compact hf wh wc) (λ r, ∀ ch, r = Some ch →
    (* [v] is the lowest traversable span, restricted to the first 62 layers *)
    connects ch wh wc O ∧
    (* so with at most 62 spans per column nothing is lost *)
    (Forall (λ o, length o ≤ 62)%nat O →
     ∀ c o k p d s, O !! c = Some o → o !! k = Some p → (d < 4)%nat →
     ch_spans ch !! (first_index O c + k)%nat = Some s →
     match connection s d with
     | Some v => ∃ c' o', nb_col (hf_w hf) (hf_h hf) (c mod hf_w hf) (c / hf_w hf) d = Some c' ∧
                   O !! c' = Some o' ∧ lowest_traversable wh wc p o' (Z.to_nat v)
     | None => ∀ c' o' q, nb_col (hf_w hf) (hf_h hf) (c mod hf_w hf) (c / hf_w hf) d = Some c' →
                 O !! c' = Some o' → q ∈ o' → ¬ traversable wh wc p q
     end)).
Proof.
  intros hf O wh wc Hre HO Hc. destruct (reachable_ok _ Hre) as [cols Hok].
  apply (field_opens_rep _ cols) in HO as ->; [|done].
  eapply runs_mono; [by apply (into_compact_spec _ _ wh wc Hok)|].
  intros r [_ H] ch Hr. destruct (H _ Hr) as (Hw & Hh & _ & _ & _ & _ & _ & _ & _ & HL & Hcon & _).
  split; [done|]. intros Hsm c o k p d s Ho Hk Hd Hs.
  pose proof (Hcon c o k p d s Ho Hk Hd Hs) as Hex. rewrite Hw, Hh in Hex.
  destruct (connection s d) as [v|] eqn:Ev.
  - by destruct (proj1 (Hex v) eq_refl) as [_ ?].
  - intros c' o' q Hn Ho' Hq Ht. apply elem_of_list_lookup in Hq as [j Hj].
    assert (∃ j0, lowest_traversable wh wc p o' j0) as [j0 Hlow].
    { revert j q Hj Ht. induction j as [j IH] using lt_wf_ind. intros q Hj Ht.
      destruct (decide (Exists (λ q, travb wh wc p q = true) (take j o'))) as [He|Hne].
      - apply Exists_exists in He as (q' & Hq' & Ht'). apply elem_of_take in Hq' as (j' & Hj' & Hlt).
        apply (IH j' Hlt q' Hj'). by apply travb_spec.
      - exists j. split; [exists q; done|]. intros j' q' Hlt Hj' Ht'. apply Hne. apply Exists_exists.
        exists q'. split; [apply elem_of_take; eauto|]. by apply travb_spec. }
    rewrite Forall_lookup in Hsm. pose proof (Hsm _ _ Ho') as Hl. cbn in Hl.
    assert (j0 < length o')%nat. { destruct Hlow as [(q0 & ? & _) _]. by eapply lookup_lt_Some. }
    assert (None = Some (Z.of_nat j0)); [|done].
    apply Hex. split; [lia|]. exists c', o'. by rewrite Nat2Z.id.
Qed.

(** ** C14 *)
(** Any reachable heightfield, climb below height. *)
Theorem C14_symmetric :
  ∀ hf O wh wc, reachable hf → field_opens hf O → Z.of_nat (length (concat O)) < 2 ^ 32 →
  Forall (λ o, length o ≤ 62)%nat O → wc < wh →
  runs (into_compact hf wh wc) (λ r, ∀ ch, r = Some ch → symmetric ch).
Proof.
  intros hf O wh wc Hre HO Hc Hsm Hlt. destruct (reachable_ok _ Hre) as [cols Hok].
  apply (field_opens_rep _ cols) in HO as ->; [|done].
  eapply runs_mono; [apply (into_compact_spec _ _ wh wc Hok)|].
  { split; [|done]. eapply Forall_impl; [done|]. cbn. lia. }
  intros r [_ H] ch Hr. destruct (H _ Hr) as (Hw & Hh & _ & _ & _ & _ & _ & _ & _ & HL & Hcon & _).
  apply (connects_symmetric ch wh wc 0 (opens_of cols)); [done|done| |done|lia].
  apply Forall_lookup. intros c o Ho. unfold opens_of in Ho. rewrite list_lookup_fmap in Ho.
  apply fmap_Some in Ho as (kl & Hk & ->). destruct (ok_fine _ _ Hok _ _ Hk) as [Hg Ha].
  apply (opens_stacked (-1)); [lia|by apply good_sorted|].
  apply Forall_lookup. intros i a Hi. destruct (proj1 Hg _ _ Hi). lia.
Qed.

(** When every span is at least one unit thick, as the rasterizer makes them,
    climb and height may be equal. *)
Theorem C14_symmetric_thick :
  ∀ hf O wh wc, reachable hf → field_opens hf O → Z.of_nat (length (concat O)) < 2 ^ 32 →
  Forall (λ o, length o ≤ 62)%nat O → wc ≤ wh →
  (∀ c l a, is_column hf c l → a ∈ l → c_min a < c_max a) →
  runs (into_compact hf wh wc) (λ r, ∀ ch, r = Some ch → symmetric ch).
Proof.
  intros hf O wh wc Hre HO Hc Hsm Hlt Hthick. destruct (reachable_ok _ Hre) as [cols Hok].
  apply (field_opens_rep _ cols) in HO as ->; [|done].
  eapply runs_mono; [apply (into_compact_spec _ _ wh wc Hok)|].
  { split; [|done]. eapply Forall_impl; [done|]. cbn. lia. }
  intros r [_ H] ch Hr. destruct (H _ Hr) as (Hw & Hh & _ & _ & _ & _ & _ & _ & _ & HL & Hcon & _).
  apply (connects_symmetric ch wh wc 1 (opens_of cols)); [done|done| |done|lia].
  apply Forall_lookup. intros c o Ho. unfold opens_of in Ho. rewrite list_lookup_fmap in Ho.
  apply fmap_Some in Ho as (kl & Hk & ->). destruct (ok_fine _ _ Hok _ _ Hk) as [Hg Ha].
  apply (opens_stacked (-1)); [lia|by apply good_sorted|].
  apply Forall_forall. intros a Hin. enough (c_min a < c_max a) by lia.
  apply (Hthick c kl.*2); [|done]. apply (is_column_rep _ cols); [apply Hok|]. eauto.
Qed.

(** Witnesses: running insertions and compacting. *)
Definition built (w h : nat) (l : list insertion) : hfield :=
  match run_ops (OpInsert <$> l) (new_hf w h geo0) with Done hf => hf | _ => new_hf 0 0 geo0 end.
Definition compacted (hf : hfield) (wh wc : Z) : chf :=
  match into_compact hf wh wc with
  | Done (Some ch) => ch
  | _ => mkChf 0 0 0 0 0 0 0 geo0 [] [] [] []
  end.
Definition is_done {A} (m : outcome A) : bool := match m with Done _ => true | _ => false end.
Definition is_ok {A} (m : outcome (option A)) : bool := match m with Done (Some _) => true | _ => false end.
Lemma built_reachable w h l :
  Forall valid_insertion l →
  is_done (run_ops (OpInsert <$> l) (new_hf w h geo0)) = true → reachable (built w h l).
Proof.
  intros Hv E. exists w, h, geo0, (OpInsert <$> l). split.
  - apply Forall_fmap. eapply Forall_impl; [done|]. done.
  - unfold built. by destruct (run_ops _ _).
Qed.
Lemma compacted_ok hf wh wc :
  is_ok (into_compact hf wh wc) = true → into_compact hf wh wc = Done (Some (compacted hf wh wc)).
Proof. unfold compacted. by destruct (into_compact hf wh wc) as [[?|]| |]. Qed.

(** Checking a column by computation. *)
Fixpoint links_b (m : gmap key span) (o : option key) (l : list (key * cell)) : bool :=
  match l with
  | [] => match o with None => true | _ => false end
  | (k, a) :: l' =>
    match o, m !! k with
    | Some k', Some s => (k' =? k)%positive && (s_min s =? c_min a) && (s_max s =? c_max a) &&
                         (s_area s =? c_area a) && links_b m (s_next s) l'
    | _, _ => false
    end
  end.
Lemma links_b_ok m o l : links_b m o l = true → links m o l None.
Proof.
  revert o. induction l as [|[k a] l IH]; intros o; cbn; [by destruct o|].
  destruct o as [k'|]; [|done]. destruct (m !! k) as [s|] eqn:Ek; [|done].
  intros H. apply andb_prop in H as [H Hl]. apply andb_prop in H as [H Ha].
  apply andb_prop in H as [H Hx]. apply andb_prop in H as [Hk Hn].
  apply Pos.eqb_eq in Hk as ->. split; [done|]. exists (s_next s). split; [|by apply IH].
  destruct s, a; cbn in *. repeat f_equal; lia.
Qed.
Lemma column_b_ok hf c kl l :
  match hf_cols hf !! c with Some o => links_b (hf_alloc hf) o kl | None => false end = true →
  kl.*2 = l → is_column hf c l.
Proof.
  intros H E. destruct (hf_cols hf !! c) as [o|] eqn:Ho; [|done].
  exists kl. split; [|done]. exists o. split; [done|]. by apply links_b_ok.
Qed.

(** One-way connections with climb above height. *)
Definition ow_ins : list insertion :=
  [mkIns 0 0 1 (ex_span 0 3 255); mkIns 1 0 1 (ex_span 0 1 255); mkIns 1 0 1 (ex_span 5 6 255)].
Definition ow_hf : hfield := built 2 1 ow_ins.
Definition ow_ch : chf := compacted ow_hf 2 10.
(** One-way connections with climb equal to height and zero-thickness spans. *)
Definition oe_ins : list insertion :=
  [mkIns 0 0 1 (ex_span 0 0 255); mkIns 1 0 1 (ex_span 0 0 255); mkIns 1 0 1 (ex_span 4 4 255)].
Definition oe_hf : hfield := built 2 1 oe_ins.
Definition oe_ch : chf := compacted oe_hf 4 4.

Ltac valid_ins :=
  repeat (apply List.Forall_cons; [unfold valid_insertion; cbn; lia|]); constructor.
Lemma one_way ch c k d c' k' :
  (d < 4)%nat → linked_b ch c k d c' k' = true → linked_b ch c' k' ((d + 2) mod 4) c k = false →
  ¬ symmetric ch.
Proof.
  intros Hd H1 H2 Hs. apply linked_b_iff in H1. specialize (Hs _ _ _ _ _ Hd H1).
  apply linked_b_iff in Hs. congruence.
Qed.

Theorem C14_one_way_refuted :
  (∃ hf wh wc ch, reachable hf ∧ wh < wc ∧ into_compact hf wh wc = Done (Some ch) ∧ ¬ symmetric ch) ∧
  (∃ hf wh wc ch, reachable hf ∧ wh = wc ∧ into_compact hf wh wc = Done (Some ch) ∧ ¬ symmetric ch).
Proof.
  split.
  - exists ow_hf, 2, 10, ow_ch. split_and!.
    + apply (built_reachable 2 1 ow_ins); [valid_ins|by vm_compute].
    + lia.
    + apply compacted_ok. by vm_compute.
    + apply (one_way _ 1 1 0 0 0); [lia|by vm_compute..].
  - exists oe_hf, 4, 4, oe_ch. split_and!.
    + apply (built_reachable 2 1 oe_ins); [valid_ins|by vm_compute].
    + lia.
    + apply compacted_ok. by vm_compute.
    + apply (one_way _ 1 1 0 0 0); [lia|by vm_compute..].
Qed.

(** ** C15 *)
Theorem C15_error_iff :
  ∀ hf O wh wc, reachable hf → field_opens hf O → countable O →
  runs (into_compact hf wh wc) (λ r, r = None ↔ too_many_layers hf wh wc O).
Proof.
  intros hf O wh wc Hre HO Hc. destruct (reachable_ok _ Hre) as [cols Hok].
  apply (field_opens_rep _ cols) in HO as ->; [|done].
  eapply runs_mono; [by apply (into_compact_spec _ _ wh wc Hok)|]. by intros r [? _].
Qed.

(** A tower of [n] floors in column 1 beside one floor as high as the last. *)
Definition tower (n : nat) : list insertion :=
  mkIns 0 0 1 (ex_span (4 * Z.of_nat n - 4) (4 * Z.of_nat n - 3) 255) ::
  ((λ i, mkIns 1 0 1 (ex_span (4 * Z.of_nat i) (4 * Z.of_nat i + 1) 255)) <$> seq 0 n).
Lemma tower_valid n : (1 ≤ n ≤ 1000)%nat → Forall valid_insertion (tower n).
Proof.
  intros Hn. apply Forall_cons. split; [unfold valid_insertion; cbn; lia|].
  apply Forall_fmap, Forall_forall. intros i Hi. apply elem_of_seq in Hi.
  unfold valid_insertion. cbn. lia.
Qed.
Definition tw_hf : hfield := built 2 1 (tower 63).
Definition tw_ch : chf := compacted tw_hf 2 1.

(** "If it returns [Ok], no traversable neighbour was dropped" is false: the
    63rd layer is dropped in silence, and its connection is then one-way. *)
Theorem C15_silent_drop_refuted :
  ∃ hf wh wc ch s,
    reachable hf ∧ wc < wh ∧ into_compact hf wh wc = Done (Some ch) ∧
    (* span 0 of cell 0 *)
    span_in ch 0 0 s ∧ connection s 2 = None ∧
    (∃ l0 l1 p q, is_column hf 0 l0 ∧ is_column hf 1 l1 ∧
       opens l0 !! 0%nat = Some p ∧ opens l1 !! 62%nat = Some q ∧ traversable wh wc p q) ∧
    ¬ symmetric ch.
Proof.
  exists tw_hf, 2, 1, tw_ch. eexists.
  assert (reachable tw_hf) as Hre.
  { apply (built_reachable 2 1 (tower 63)); [apply tower_valid; lia|by vm_compute]. }
  split_and!.
  - done.
  - lia.
  - apply compacted_ok. by vm_compute.
  - eexists. split_and!; [by vm_compute|cbn; lia|by vm_compute].
  - by vm_compute.
  - exists [Cell 248 249 255], ((λ i, Cell (4 * Z.of_nat i) (4 * Z.of_nat i + 1) 255) <$> seq 0 63).
    exists (Open 249 255 255), (Open 249 255 255). split_and!; [| |by vm_compute|by vm_compute|unfold traversable; cbn; lia].
    + apply (column_b_ok _ _ [(1%positive, Cell 248 249 255)]); by vm_compute.
    + apply (column_b_ok _ _ ((λ i, (Pos.of_nat (i + 2), Cell (4 * Z.of_nat i) (4 * Z.of_nat i + 1) 255)) <$> seq 0 63));
        by vm_compute.
  - apply (one_way _ 1 62 0 0 0); [lia|by vm_compute..].
Qed.

(** With 64 layers the error is reported. *)
Example C15_error_witness : reachable (built 2 1 (tower 64)) ∧ into_compact (built 2 1 (tower 64)) 2 1 = Done None.
Proof.
  split; [|by vm_compute].
  apply (built_reachable 2 1 (tower 64)); [apply tower_valid; lia|by vm_compute].
Qed.

(** ** C16 *)
Theorem C16_total :
  ∀ hf O wh wc, reachable hf → field_opens hf O → countable O →
  runs (into_compact hf wh wc) (λ _, True).
Proof.
  intros hf O wh wc Hre HO Hc. destruct (reachable_ok _ Hre) as [cols Hok].
  apply (field_opens_rep _ cols) in HO as ->; [|done].
  eapply runs_mono; [by apply (into_compact_spec _ _ wh wc Hok)|]. done.
Qed.

Theorem C16_counter_overflow :
  ∀ hf O wh wc, reachable hf → field_opens hf O → Z.of_nat (length (concat O)) < 2 ^ 32 →
  (∃ o, o ∈ O ∧ (256 ≤ length o)%nat) →
  into_compact hf wh wc = Panicked.
Proof.
  intros hf O wh wc Hre HO Hc (o & Ho & Hl). destruct (reachable_ok _ Hre) as [cols Hok].
  apply (field_opens_rep _ cols) in HO as ->; [|done].
  apply (into_compact_panics _ cols); [done|done|]. intros Hf.
  rewrite Forall_forall in Hf. specialize (Hf _ Ho). cbn in Hf. lia.
Qed.
Example C16_counter_overflow_witness :
  reachable (built 2 1 (tower 256)) ∧ into_compact (built 2 1 (tower 256)) 2 1 = Panicked.
Proof.
  split; [|by vm_compute].
  apply (built_reachable 2 1 (tower 256)); [apply tower_valid; lia|by vm_compute].
Qed.

(** ** C17 *)
Theorem C17_compaction_well_formed :
  ∀ hf O wh wc, reachable hf → field_opens hf O → countable O →
  runs (into_compact hf wh wc) (λ r, ∀ ch, r = Some ch → wf_chf ch).
Proof.
  intros hf O wh wc Hre HO Hc. destruct (reachable_ok _ Hre) as [cols Hok].
  apply (field_opens_rep _ cols) in HO as ->; [|done].
  eapply runs_mono; [by apply (into_compact_spec _ _ wh wc Hok)|].
  intros r [_ H] ch Hr. destruct (H _ Hr) as (_ & _ & _ & _ & _ & _ & _ & _ & _ & HL & Hcon & _).
  by eapply lists_opens_wf.
Qed.

Theorem C17_following_a_connection :
  ∀ ch x z cell i s d v, wf_chf ch →
  (x < ch_w ch)%nat → (z < ch_h ch)%nat → cell_at ch x z = Done cell → i ∈ index_range cell →
  ch_spans ch !! i = Some s → (d < 4)%nat → con s d = Done (Some v) →
  runs (con_indices ch (Z.of_nat x) (Z.of_nat z) d v) (λ '(ax, az, ai),
    0 ≤ ax < Z.of_nat (ch_w ch) ∧ 0 ≤ az < Z.of_nat (ch_h ch) ∧
    ax = Z.of_nat x + nth d [-1; 0; 1; 0] 0 ∧ az = Z.of_nat z + nth d [0; 1; 0; -1] 0 ∧
    (ai < length (ch_spans ch))%nat ∧ (ai < length (ch_areas ch))%nat ∧
    ∃ cell', cell_at ch (Z.to_nat ax) (Z.to_nat az) = Done cell' ∧ ai ∈ index_range cell').
Proof.
  intros ch x z cell i s d v Hwf Hx Hz Hcell Hi Hs Hd Hv.
  apply get_done in Hcell. unfold con in Hv. replace (6 <=? d)%nat with false in Hv by lia.
  injection Hv as Hv.
  destruct (wf_con _ Hwf x z cell i s d v Hx Hz Hcell Hi Hs Hd Hv) as (c' & cell' & Hn & Hc' & Hk).
  unfold con_indices.
  assert (Ex : nth d [-1; 0; 1; 0] 0 = dir_offset_x d) by (destruct d as [|[|[|[|d]]]]; [done..|lia]).
  assert (Ez : nth d [0; 1; 0; -1] 0 = dir_offset_z d) by (destruct d as [|[|[|[|d]]]]; [done..|lia]).
  unfold nb_col in Hn. rewrite Ex, Ez in *.
  set (ax := Z.of_nat x + _) in *. set (az := Z.of_nat z + _) in *. clearbody ax az.
  case_decide as Hin; [|done]. injection Hn as Hn.
  replace (ax + az * Z.of_nat (ch_w ch)) with (Z.of_nat c').
  2:{ subst c'. rewrite Nat2Z.inj_add, Nat2Z.inj_mul, !Z2Nat.id by lia. done. }
  replace (Z.of_nat c' <? 0) with false by lia. rewrite Nat2Z.id. rewrite (get_some _ _ _ Hc'). cbn [obind runs].
  assert (cc_index cell' + Z.to_nat v < length (ch_spans ch))%nat as Hb.
  { rewrite <-(wf_total _ Hwf). rewrite (wf_start _ Hwf _ _ Hc') by lia.
    unfold cell_start. rewrite firstn_all.
    rewrite <-(take_drop_middle _ _ _ Hc') at 2. rewrite fmap_app, fmap_cons, sum_list_app.
    cbn. lia. }
  split_and!; try lia; try done.
  - rewrite (wf_areas _ Hwf). done.
  - exists cell'. split.
    + unfold cell_at, ch_column_index. rewrite Hn. by apply get_some.
    + unfold index_range. apply elem_of_seq. lia.
Qed.

Definition ex_ch : chf := compacted ex_hf 60 50.
Example compact_witness :
  reachable ex_hf ∧ (∃ O, field_opens ex_hf O ∧ countable O ∧ Forall (λ o, length o ≤ 62)%nat O ∧
     O !! 3%nat = Some [Open 48 255 255]) ∧
  into_compact ex_hf 60 50 = Done (Some ex_ch) ∧ linked ex_ch 3 0 2 4 0.
Proof.
  split_and!.
  - apply ex_hf_reachable.
  - destruct (reachable_ok _ ex_hf_reachable) as [cols Hok]. exists (opens_of cols).
    pose proof Hok as [Hr Hl Hf].
    assert (HO : field_opens ex_hf (opens_of cols)) by (by apply (field_opens_rep _ cols)).
    assert (Hsz : (length (concat cols) = 2)%nat).
    { destruct (rep_concat _ _ Hr) as [Hnd Hdom].
      transitivity (size (hf_alloc ex_hf)); [|by vm_compute].
      rewrite <-(fmap_length fst). rewrite <-(size_list_to_set (C := gset key)) by done.
      rewrite <-size_dom. f_equal. by rewrite Hdom. }
    assert (Hone : Forall (λ o, length o ≤ 2)%nat (opens_of cols)).
    { apply Forall_lookup. intros c o Ho. unfold opens_of in Ho. rewrite list_lookup_fmap in Ho.
      apply fmap_Some in Ho as (kl & Hk & ->). rewrite opens_rec_length.
      etransitivity; [apply filter_length|]. rewrite fmap_length.
      rewrite <-Hsz. apply elem_of_list_lookup_2 in Hk. apply elem_of_list_split in Hk as (p & q & ->).
      rewrite concat_app. cbn. rewrite !app_length. lia. }
    split; [exact HO|]. split; [split|split].
    + eapply Forall_impl; [exact Hone|]. cbn. lia.
    + rewrite <-(walkable_count_spec _ _ Hr). vm_compute. done.
    + eapply Forall_impl; [exact Hone|]. cbn. lia.
    + destruct ex_hf_columns as [_ Hc3]. apply (is_column_rep _ cols) in Hc3 as (kl & Hk & E); [|done].
      unfold opens_of. rewrite list_lookup_fmap, Hk. cbn. rewrite E. by vm_compute.
  - apply compacted_ok. by vm_compute.
  - apply linked_b_iff. by vm_compute.
Qed.

Print Assumptions C11_packing.
Print Assumptions C11_unrepresentable_refuted.
Print Assumptions C12_lists_walkable_spans.
Print Assumptions C13_connections_exact.
Print Assumptions C14_symmetric.
Print Assumptions C14_symmetric_thick.
Print Assumptions C14_one_way_refuted.
Print Assumptions C15_error_iff.
Print Assumptions C15_silent_drop_refuted.
Print Assumptions C16_total.
Print Assumptions C16_counter_overflow.
Print Assumptions C17_compaction_well_formed.
Print Assumptions C17_following_a_connection.
