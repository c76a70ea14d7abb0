(** The span graph of a well-formed compact heightfield. *)
From Verif Require Import Base ModelMath ModelHeightfield ModelFilters ModelCompact ModelDistance
  SpecHeightfield SpecCompact SpecDistance CompactProofs LinkProofs PackProofs.
Local Open Scope Z_scope.

Section graph.
  Context (ch : chf) (Hwf : wf_chf ch).
  Let w := ch_w ch.
  Let h := ch_h ch.

  Lemma cells_len : length (ch_cells ch) = (w * h)%nat.
  Proof. apply (wf_cells _ Hwf). Qed.

  Lemma in_cell_lt c i : in_cell ch c i → (c < w * h)%nat.
  Proof. intros (cell & Hc & _). rewrite <-cells_len. by eapply lookup_lt_Some. Qed.

  Lemma cell_start_S c cell :
    ch_cells ch !! c = Some cell →
    cell_start (ch_cells ch) (S c) = (cell_start (ch_cells ch) c + cc_count cell)%nat.
  Proof.
    intros Hc. unfold cell_start. rewrite (take_S_r _ _ _ Hc), fmap_app, sum_list_app. cbn. lia.
  Qed.

  Lemma cell_start_mono c c' :
    (c ≤ c')%nat → (cell_start (ch_cells ch) c ≤ cell_start (ch_cells ch) c')%nat.
  Proof.
    intros Hle. unfold cell_start. replace (take c (ch_cells ch)) with (take c (take c' (ch_cells ch)))
      by (rewrite take_take; f_equal; lia).
    rewrite <-(take_drop c (take c' (ch_cells ch))) at 2. rewrite fmap_app, sum_list_app. lia.
  Qed.

  (** Cells hold contiguous index ranges. *)
  Lemma in_cell_range c i :
    in_cell ch c i ↔
    (c < w * h)%nat ∧
    (cell_start (ch_cells ch) c ≤ i < cell_start (ch_cells ch) (S c))%nat.
  Proof.
    split.
    - intros Hin. split; [by eapply in_cell_lt|]. destruct Hin as (cell & Hc & Hi).
      unfold index_range in Hi. apply elem_of_seq in Hi. rewrite (cell_start_S _ _ Hc).
      rewrite <-(wf_start _ Hwf _ _ Hc) by lia. lia.
    - intros [Hc Hi]. rewrite <-cells_len in Hc. destruct (lookup_lt_is_Some_2 _ _ Hc) as [cell Hcell].
      exists cell. split; [done|]. rewrite (cell_start_S _ _ Hcell) in Hi.
      unfold index_range. apply elem_of_seq. rewrite (wf_start _ Hwf _ _ Hcell) by lia. lia.
  Qed.

  Lemma in_cell_unique c c' i : in_cell ch c i → in_cell ch c' i → c = c'.
  Proof.
    rewrite !in_cell_range. intros [_ H1] [_ H2].
    destruct (lt_eq_lt_dec c c') as [[Hlt| ->]|Hlt]; [exfalso|done|exfalso].
    - pose proof (cell_start_mono (S c) c'). lia.
    - pose proof (cell_start_mono (S c') c). lia.
  Qed.

  Lemma in_cell_bound c i : in_cell ch c i → (i < length (ch_spans ch))%nat.
  Proof.
    rewrite in_cell_range. intros [Hc Hi]. rewrite <-(wf_total _ Hwf), cells_len.
    pose proof (cell_start_mono (S c) (w * h)). lia.
  Qed.

  Lemma in_cell_ex i : (i < length (ch_spans ch))%nat → ∃ c, in_cell ch c i.
  Proof.
    intros Hi. rewrite <-(wf_total _ Hwf), cells_len in Hi.
    assert (∀ n, (n ≤ w * h)%nat → (i < cell_start (ch_cells ch) n)%nat → ∃ c, in_cell ch c i) as H.
    { induction n as [|n IH]; intros Hn Hlt; [by change (i < 0)%nat in Hlt; lia|].
      destruct (decide (i < cell_start (ch_cells ch) n)%nat); [apply IH; [lia|done]|].
      exists n. apply in_cell_range. lia. }
    by apply (H (w * h)%nat).
  Qed.

  Lemma in_cell_area c i : in_cell ch c i → (i < length (ch_areas ch))%nat.
  Proof. rewrite (wf_areas _ Hwf). apply in_cell_bound. Qed.

  (** *** Neighbours *)
  Definition nbr (c i d : nat) : option (nat * nat) :=
    s ← ch_spans ch !! i;
    v ← connection s d;
    c' ← nb_col w h (c mod w) (c / w) d;
    cell' ← ch_cells ch !! c';
    Some (c', cc_index cell' + Z.to_nat v)%nat.

  Lemma cell_coords c : (c < w * h)%nat →
    w ≠ 0%nat ∧ (c mod w < w)%nat ∧ (c / w < h)%nat ∧ c = (c mod w + c / w * w)%nat.
  Proof.
    intros Hc. assert (w ≠ 0)%nat by lia. split_and!; [done|..].
    - by apply Nat.mod_upper_bound.
    - apply Nat.div_lt_upper_bound; lia.
    - rewrite (Nat.div_mod_eq c w) at 1. lia.
  Qed.

  Lemma nbr_in_cell c i d c' j :
    (d < 4)%nat → in_cell ch c i → nbr c i d = Some (c', j) → in_cell ch c' j.
  Proof.
    intros Hd Hin Hn. pose proof (in_cell_lt _ _ Hin) as Hc. destruct (cell_coords c Hc) as (Hw & Hx & Hz & Ec).
    destruct Hin as (cell & Hcell & Hi).
    unfold nbr in Hn. apply bind_Some in Hn as (s & Hs & Hn). apply bind_Some in Hn as (v & Hv & Hn).
    apply bind_Some in Hn as (c2 & Hc2 & Hn). apply bind_Some in Hn as (cell' & Hc' & [= <- <-]).
    destruct (wf_con _ Hwf (c mod w) (c / w) cell i s d v) as (c3 & cell3 & Hn3 & Hc3 & Hlt); try done.
    { fold w. by rewrite <-Ec. }
    fold w h in Hn3. rewrite Hc2 in Hn3. injection Hn3 as <-. rewrite Hc' in Hc3. injection Hc3 as <-.
    exists cell'. split; [done|]. unfold index_range. apply elem_of_seq. lia.
  Qed.

  Lemma step_nbr c i d j :
    in_cell ch c i → (d < 4)%nat → step ch i d j ↔ ∃ c', nbr c i d = Some (c', j).
  Proof.
    intros Hin Hd. split.
    - intros (c1 & k & c' & k' & cell & cell' & (s & (cell1 & Hcell1 & Hk & Hs) & Hv & Hn) & Hcell & Hcell' & -> & ->).
      rewrite Hcell in Hcell1. injection Hcell1 as <-.
      assert (c1 = c) as ->.
      { apply (in_cell_unique _ _ (cc_index cell + k)); [|done]. exists cell. split; [done|].
        unfold index_range. apply elem_of_seq. lia. }
      exists c'. unfold nbr. rewrite Hs. cbn. rewrite Hv. cbn. fold w h in Hn. rewrite Hn. cbn. rewrite Hcell'. cbn.
      by rewrite Nat2Z.id.
    - intros (c' & Hn). pose proof Hin as (cell & Hcell & Hi).
      unfold index_range in Hi. apply elem_of_seq in Hi.
      unfold nbr in Hn. apply bind_Some in Hn as (s & Hs & Hn). apply bind_Some in Hn as (v & Hv & Hn).
      apply bind_Some in Hn as (c2 & Hc2 & Hn). apply bind_Some in Hn as (cell' & Hc' & [= <- <-]).
      exists c, (i - cc_index cell)%nat, c2, (Z.to_nat v), cell, cell'.
      assert (0 ≤ v) by (apply con_range in Hv; lia).
      split_and!; [|done|done|lia|done].
      exists s. split_and!; [| |done].
      + exists cell. split_and!; [done|lia|]. by replace (cc_index cell + (i - cc_index cell))%nat with i by lia.
      + by rewrite Z2Nat.id.
  Qed.

  Lemma nbr_step c i d c' j :
    (d < 4)%nat → in_cell ch c i → nbr c i d = Some (c', j) → step ch i d j.
  Proof. intros Hd Hin Hn. apply (step_nbr c); eauto. Qed.

  Lemma step_in_cell i d j :
    (d < 4)%nat → step ch i d j → ∃ c c', in_cell ch c i ∧ in_cell ch c' j ∧ nbr c i d = Some (c', j).
  Proof.
    intros Hd Hst. pose proof Hst as (c & k & c' & k' & cell & cell' & (s & (cell1 & Hcell1 & Hk & Hs) & Hv & Hn) & Hcell & Hcell' & -> & ->).
    rewrite Hcell in Hcell1. injection Hcell1 as <-.
    assert (in_cell ch c (cc_index cell + k)) as Hin.
    { exists cell. split; [done|]. unfold index_range. apply elem_of_seq. lia. }
    destruct (proj1 (step_nbr c _ d _ Hin Hd) Hst) as (c2 & Hn2).
    exists c, c2. split_and!; [done| |done]. by eapply nbr_in_cell.
  Qed.

  Lemma step_fun i d j j' : (d < 4)%nat → step ch i d j → step ch i d j' → j = j'.
  Proof.
    intros Hd H1 H2. destruct (step_in_cell _ _ _ Hd H1) as (c & c1 & Hc & _ & Hn1).
    destruct (proj1 (step_nbr c _ d _ Hc Hd) H2) as (c2 & Hn2). congruence.
  Qed.

  Lemma step_bound i d j : (d < 4)%nat → step ch i d j → (i < length (ch_spans ch))%nat ∧ (j < length (ch_spans ch))%nat.
  Proof.
    intros Hd Hs. destruct (step_in_cell _ _ _ Hd Hs) as (c & c' & Hi & Hj & _).
    split; by eapply in_cell_bound.
  Qed.

  (** The neighbour's column. *)
  Lemma nbr_col c i d c' j : nbr c i d = Some (c', j) → nb_col w h (c mod w) (c / w) d = Some c'.
  Proof.
    unfold nbr. intros Hn. apply bind_Some in Hn as (s & Hs & Hn). apply bind_Some in Hn as (v & Hv & Hn).
    by apply bind_Some in Hn as (c2 & Hc2 & [cell [_ [= <- _]]]%bind_Some).
  Qed.

  (** The code's neighbour computation. *)
  Lemma con_nbr c i d s :
    Z.of_nat w ≤ 65535 → Z.of_nat h ≤ 65535 →
    in_cell ch c i → (d < 4)%nat → ch_spans ch !! i = Some s →
    ∃ o, con s d = Done o ∧
    match o with
    | None => nbr c i d = None
    | Some v => ∃ c' j, nbr c i d = Some (c', j) ∧ in_cell ch c' j ∧
        nb_index ch (c mod w) (c / w) d v = Done ((c' mod w)%nat, (c' / w)%nat, j)
    end.
  Proof.
    intros Hw16 Hh16 Hin Hd Hs. unfold con. replace (6 <=? d)%nat with false by lia. eexists. split; [done|].
    fold (connection s d). destruct (connection s d) as [v|] eqn:Hv.
    2:{ unfold nbr. rewrite Hs. cbn. by rewrite Hv. }
    pose proof (in_cell_lt _ _ Hin) as Hc. destruct (cell_coords c Hc) as (Hw & Hx & Hz & Ec).
    pose proof Hin as (cell & Hcell & Hi).
    destruct (wf_con _ Hwf (c mod w) (c / w) cell i s d v) as (c' & cell' & Hn & Hc' & Hlt); try done.
    { fold w. by rewrite <-Ec. }
    exists c', (cc_index cell' + Z.to_nat v)%nat.
    assert (nbr c i d = Some (c', cc_index cell' + Z.to_nat v)%nat) as Hnbr.
    { unfold nbr. rewrite Hs. cbn. rewrite Hv. cbn. fold w h in Hn. rewrite Hn. cbn. by rewrite Hc'. }
    split_and!; [done|by eapply nbr_in_cell|].
    unfold nb_index.
    assert (Ex : nth d [-1; 0; 1; 0] 0 = dir_offset_x d) by (destruct d as [|[|[|[|d]]]]; [done..|lia]).
    assert (Ez : nth d [0; 1; 0; -1] 0 = dir_offset_z d) by (destruct d as [|[|[|[|d]]]]; [done..|lia]).
    unfold nb_col in Hn. rewrite Ex, Ez in Hn. fold w h in Hn.
    set (ax := Z.of_nat (c mod w) + _) in *. set (az := Z.of_nat (c / w) + _) in *. clearbody ax az.
    case_decide as Hin2; [|done]. injection Hn as <-.
    unfold wrap_u16. rewrite !Z.mod_small by lia.
    unfold cell_at, ch_column_index. fold w. rewrite (get_some _ _ _ Hc'). cbn [obind].
    assert (Z.to_nat ax < w)%nat by lia.
    rewrite Nat.mod_add, Nat.div_add by done. rewrite Nat.mod_small, Nat.div_small by done. done.
  Qed.

  Lemma cell_at_some c cell : (c < w * h)%nat → ch_cells ch !! c = Some cell →
    cell_at ch (c mod w) (c / w) = Done cell.
  Proof.
    intros Hc Hcell. destruct (cell_coords c Hc) as (Hw & Hx & Hz & Ec).
    unfold cell_at, ch_column_index. fold w. rewrite <-Ec. by apply get_some.
  Qed.

  (** Direction 0 and 3 lead to earlier columns, 1 and 2 to later ones. *)
  Lemma nb_col_dir0 c c' : (c < w * h)%nat → nb_col w h (c mod w) (c / w) 0 = Some c' →
    (c = c' + 1)%nat ∧ (c' mod w + 1 = c mod w)%nat ∧ (c' / w = c / w)%nat.
  Proof.
    intros Hc. destruct (cell_coords c Hc) as (Hw & Hx & Hz & Ec). unfold nb_col. cbn.
    case_decide; [|done]. intros [= <-].
    replace (Z.to_nat (Z.of_nat (c mod w) + -1)) with (c mod w - 1)%nat by lia.
    replace (Z.to_nat (Z.of_nat (c / w) + 0)) with (c / w)%nat by lia.
    split_and!; [lia|..].
    - rewrite Nat.mod_add by done. rewrite Nat.mod_small by lia. lia.
    - rewrite Nat.div_add by done. rewrite Nat.div_small by lia. done.
  Qed.
  Lemma nb_col_dir2 c c' : (c < w * h)%nat → nb_col w h (c mod w) (c / w) 2 = Some c' →
    (c' = c + 1)%nat ∧ (c' mod w = c mod w + 1)%nat ∧ (c' / w = c / w)%nat.
  Proof.
    intros Hc. destruct (cell_coords c Hc) as (Hw & Hx & Hz & Ec). unfold nb_col. cbn.
    case_decide; [|done]. intros [= <-].
    replace (Z.to_nat (Z.of_nat (c mod w) + 1)) with (c mod w + 1)%nat by lia.
    replace (Z.to_nat (Z.of_nat (c / w) + 0)) with (c / w)%nat by lia.
    split_and!; [lia|..].
    - rewrite Nat.mod_add by done. by rewrite Nat.mod_small by lia.
    - rewrite Nat.div_add by done. rewrite Nat.div_small by lia. done.
  Qed.
  Lemma nb_col_dir3 c c' : (c < w * h)%nat → nb_col w h (c mod w) (c / w) 3 = Some c' →
    (c = c' + w)%nat ∧ (c' mod w = c mod w)%nat ∧ (c' / w + 1 = c / w)%nat.
  Proof.
    intros Hc. destruct (cell_coords c Hc) as (Hw & Hx & Hz & Ec). unfold nb_col. cbn.
    case_decide; [|done]. intros [= <-].
    replace (Z.to_nat (Z.of_nat (c mod w) + 0)) with (c mod w)%nat by lia.
    replace (Z.to_nat (Z.of_nat (c / w) + -1)) with (c / w - 1)%nat by lia.
    split_and!; [nia|..].
    - rewrite Nat.mod_add by done. by rewrite Nat.mod_small by lia.
    - rewrite Nat.div_add by done. rewrite Nat.div_small by lia. lia.
  Qed.
  Lemma nb_col_dir1 c c' : (c < w * h)%nat → nb_col w h (c mod w) (c / w) 1 = Some c' →
    (c' = c + w)%nat ∧ (c' mod w = c mod w)%nat ∧ (c' / w = c / w + 1)%nat.
  Proof.
    intros Hc. destruct (cell_coords c Hc) as (Hw & Hx & Hz & Ec). unfold nb_col. cbn.
    case_decide; [|done]. intros [= <-].
    replace (Z.to_nat (Z.of_nat (c mod w) + 0)) with (c mod w)%nat by lia.
    replace (Z.to_nat (Z.of_nat (c / w) + 1)) with (c / w + 1)%nat by lia.
    split_and!; [nia|..].
    - rewrite Nat.mod_add by done. by rewrite Nat.mod_small by lia.
    - rewrite Nat.div_add by done. rewrite Nat.div_small by lia. lia.
  Qed.
End graph.
