(** [into_compact]: the neighbour search. *)
From Verif Require Import Base ModelMath ModelHeightfield ModelFilters ModelHistory ModelCompact
  SpecHeightfield SpecCompact HeapProofs InsertProofs FilterProofs HistoryProofs PackProofs
  CompactProofs.
Local Open Scope Z_scope.

(** ** Concatenated columns *)
Lemma concat_lookup {A} (O : list (list A)) c o k :
  O !! c = Some o → (k < length o)%nat →
  concat O !! (length (concat (take c O)) + k)%nat = o !! k.
Proof.
  revert c. induction O as [|o0 O IH]; intros [|c] Hc Hk; cbn in *; [done|done| |].
  - injection Hc as ->. by rewrite lookup_app_l.
  - rewrite app_length. rewrite lookup_app_r by lia. rewrite <-(IH c) by done. f_equal. lia.
Qed.

Lemma concat_lookup_inv {A} (O : list (list A)) i p :
  concat O !! i = Some p → ∃ c o k, O !! c = Some o ∧ o !! k = Some p ∧
    i = (length (concat (take c O)) + k)%nat.
Proof.
  revert i. induction O as [|o0 O IH]; intros i Hi; cbn in Hi; [done|].
  apply lookup_app_Some in Hi as [Hi|[Hge Hi]].
  - exists 0%nat, o0, i. done.
  - destruct (IH _ Hi) as (c & o & k & Hc & Hk & E). exists (S c), o, k. split_and!; [done|done|].
    cbn. rewrite app_length. lia.
Qed.

Lemma concat_take_mono {A} (O : list (list A)) c c' o :
  O !! c = Some o → (c < c')%nat →
  (length (concat (take c O)) + length o ≤ length (concat (take c' O)))%nat.
Proof.
  intros Hc Hlt. rewrite <-app_length, <-(concat_take_S O c o Hc).
  replace (take (S c) O) with (take (S c) (take c' O)) by (rewrite take_take; f_equal; lia).
  apply concat_take_le.
Qed.

Lemma concat_index_inj {A} (O : list (list A)) c c' o o' k k' :
  O !! c = Some o → O !! c' = Some o' → (k < length o)%nat → (k' < length o')%nat →
  (length (concat (take c O)) + k = length (concat (take c' O)) + k')%nat → c = c' ∧ k = k'.
Proof.
  intros Hc Hc' Hk Hk' E.
  destruct (lt_eq_lt_dec c c') as [[Hlt| ->]|Hlt].
  - pose proof (concat_take_mono _ _ _ _ Hc Hlt). lia.
  - split; [done|lia].
  - pose proof (concat_take_mono _ _ _ _ Hc' Hlt). lia.
Qed.

(** ** The pure search *)
Definition travb (wh wc : Z) (p q : ospan) : bool :=
  (wh <=? Z.min (o_y p + o_h p) (o_y q + o_h q) - Z.max (o_y p) (o_y q)) &&
  (Z.abs (o_y q - o_y p) <=? wc).

Lemma travb_spec wh wc p q : travb wh wc p q = true ↔ traversable wh wc p q.
Proof. unfold travb, traversable. lia. Qed.

Fixpoint srch (wh wc : Z) (p : ospan) (o : list ospan) (j maxl : Z) : option Z * Z :=
  match o with
  | [] => (None, maxl)
  | q :: o' =>
    if travb wh wc p q then
      if MAX_LAYERS <=? j then srch wh wc p o' (j + 1) (Z.max maxl j) else (Some j, maxl)
    else srch wh wc p o' (j + 1) maxl
  end.

Definition ofine (p : ospan) : Prop :=
  0 ≤ o_y p ∧ 0 ≤ o_h p ≤ 255 ∧ o_y p + o_h p ≤ 65535.

Lemma link_search_spec wh wc o j0 nidx i d p si s0 spans maxl :
  (d < 4)%nat → ofine p → Forall ofine o →
  cs_y si = o_y p → cs_height si = o_h p →
  spans !! i = Some s0 → (j0 + length o ≤ 255)%nat →
  (∀ j q, o !! j = Some q → ∃ s, spans !! (nidx + j0 + j)%nat = Some s ∧
     cs_y s = o_y q ∧ cs_height s = o_h q) →
  link_search (seq (nidx + j0) (length o)) nidx i d wh wc si spans maxl =
  let r := srch wh wc p o (Z.of_nat j0) maxl in
  Done (match r.1 with
        | Some v => <[i := CS (cs_y s0) (cs_reg s0) (set_con_bits (cs_data s0) d (Some v))]> spans
        | None => spans
        end, r.2).
Proof.
  intros Hd Hp Ho Hy Hh Hi. revert j0 maxl.
  induction o as [|q o IH]; intros j0 maxl Hlen Hsp; [done|].
  apply Forall_cons in Ho as [Hq Ho]. specialize (IH Ho).
  cbn [length seq link_search].
  destruct (Hsp 0%nat q eq_refl) as (sq & Hsq & Hqy & Hqh). rewrite Nat.add_0_r in Hsq.
  rewrite (get_some _ _ _ Hsq). cbn [obind].
  rewrite Hy, Hh, Hqy, Hqh. unfold ofine in Hp, Hq.
  unfold chk_u16. rewrite !chk_in by (unfold U16_MAX; lia). cbn [obind srch].
  assert (Hrest : ∀ m, link_search (seq (S (nidx + j0)) (length o)) nidx i d wh wc si spans m =
    let r := srch wh wc p o (Z.of_nat j0 + 1) m in
    Done (match r.1 with
        | Some v => <[i := CS (cs_y s0) (cs_reg s0) (set_con_bits (cs_data s0) d (Some v))]> spans
        | None => spans
        end, r.2)).
  { intros m. rewrite <-Nat.add_succ_r. rewrite IH.
    - replace (Z.of_nat (S j0)) with (Z.of_nat j0 + 1) by lia. done.
    - cbn in Hlen. lia.
    - intros j q' Hj. destruct (Hsp (S j) q' Hj) as (s & Hs & ? & ?). exists s. split_and!; [|done|done].
      by replace (nidx + S j0 + j)%nat with (nidx + j0 + S j)%nat by lia. }
  unfold travb.
  destruct (wh <=? _) eqn:E1; cbn [negb orb andb]; [|apply Hrest].
  destruct (Z.abs (o_y q - o_y p) <=? wc) eqn:E2; cbn [negb]; [|apply Hrest].
  replace (Z.of_nat (nidx + j0) - Z.of_nat nidx) with (Z.of_nat j0) by lia.
  replace (Z.of_nat j0 <? 0) with false by lia. cbn [orb].
  destruct (MAX_LAYERS <=? Z.of_nat j0) eqn:E3; [apply Hrest|].
  rewrite (get_some _ _ _ Hi). cbn [obind]. unfold set_con.
  replace (6 <=? d)%nat with false by lia. cbn [obind].
  rewrite put_lt by (by eapply lookup_lt_Some). cbn. unfold wrap_u8. rewrite Z.mod_small; [done|].
  unfold MAX_LAYERS, NOT_CONNECTED in E3. lia.
Qed.

Lemma srch_fst wh wc p o j m v :
  0 ≤ j → (srch wh wc p o j m).1 = Some v ↔
  j ≤ v < 62 ∧ lowest_traversable wh wc p o (Z.to_nat (v - j)).
Proof.
  revert j m. induction o as [|q o IH]; intros j m Hj; cbn [srch].
  - split; [done|]. intros [_ [(q & Hq & _) _]]. done.
  - assert (Hbig : MAX_LAYERS ≤ j → (srch wh wc p o (j + 1) (Z.max m j)).1 = Some v → False).
    { intros Hge. rewrite IH by lia. unfold MAX_LAYERS, NOT_CONNECTED in Hge. lia. }
    destruct (travb wh wc p q) eqn:E.
    + apply travb_spec in E. destruct (Z.leb_spec MAX_LAYERS j).
      * split; [by intros ?%Hbig|]. unfold MAX_LAYERS, NOT_CONNECTED in *. lia.
      * cbn. split.
        -- intros [= <-]. rewrite Z.sub_diag. cbn. unfold MAX_LAYERS, NOT_CONNECTED in *. split; [lia|].
           split; [exists q; done|]. intros; lia.
        -- intros [Hv [_ Hlow]]. f_equal. destruct (decide (v = j)); [done|].
           exfalso. apply (Hlow 0%nat q); [lia|done|done].
    + assert (¬ traversable wh wc p q) as Hn by (rewrite <-travb_spec; by rewrite E).
      rewrite IH by lia. split.
      * intros [Hv [(q' & Hq' & Ht) Hlow]]. split; [lia|].
        replace (Z.to_nat (v - j)) with (S (Z.to_nat (v - (j + 1)))) by lia. split.
        -- exists q'. done.
        -- intros [|j'] q'' Hlt Hj'; cbn in Hj'; [by injection Hj' as <-|].
           apply (Hlow j'); [lia|done].
      * intros [Hv [(q' & Hq' & Ht) Hlow]].
        destruct (decide (v = j)) as [->|].
        { rewrite Z.sub_diag in Hq'. cbn in Hq'. injection Hq' as <-. done. }
        replace (Z.to_nat (v - j)) with (S (Z.to_nat (v - (j + 1)))) in * by lia.
        split; [lia|]. split; [exists q'; done|].
        intros j' q'' Hlt Hj'. apply (Hlow (S j')); [lia|done].
Qed.

Lemma srch_snd wh wc p o j m :
  0 ≤ j →
  (m ≤ (srch wh wc p o j m).2) ∧
  (62 < (srch wh wc p o j m).2 ↔ 62 < m ∨
   (∃ j' q, o !! j' = Some q ∧ traversable wh wc p q ∧ 63 ≤ j + Z.of_nat j') ∧
   (∀ j' q, o !! j' = Some q → traversable wh wc p q → 62 ≤ j + Z.of_nat j')).
Proof.
  revert j m. induction o as [|q o IH]; intros j m Hj; cbn [srch].
  { cbn. split; [lia|]. split; [by left|]. intros [?|[(j' & q & Hq & _) _]]; done. }
  destruct (travb wh wc p q) eqn:E.
  - apply travb_spec in E. destruct (Z.leb_spec MAX_LAYERS j).
    + unfold MAX_LAYERS, NOT_CONNECTED in *.
      destruct (IH (j + 1) (Z.max m j) ltac:(lia)) as [I1 I2]. split; [lia|]. rewrite I2. split.
      * intros [Hm|[(j' & q' & Hq' & Ht & Hge) Hall]].
        -- destruct (decide (62 < m)); [by left|]. right. split.
           ++ exists 0%nat, q. split_and!; [done|done|lia].
           ++ intros [|j'] q' ? ?; lia.
        -- right. split.
           ++ exists (S j'), q'. split_and!; [done|done|lia].
           ++ intros [|j2] q2 ? ?; lia.
      * intros [Hm|[(j' & q' & Hq' & Ht & Hge) Hall]]; [left; lia|].
        destruct j' as [|j']; [left; lia|]. right. split.
        -- exists j', q'. split_and!; [done|done|lia].
        -- intros j2 q2 ? ?; lia.
    + cbn. split; [lia|]. split; [by left|]. intros [?|[_ Hall]]; [done|].
      specialize (Hall 0%nat q eq_refl E). unfold MAX_LAYERS, NOT_CONNECTED in *. lia.
  - assert (¬ traversable wh wc p q) as Hn by (rewrite <-travb_spec; by rewrite E).
    destruct (IH (j + 1) m ltac:(lia)) as [I1 I2]. split; [lia|]. rewrite I2.
    split; (intros [?|[(j' & q' & Hq' & Ht & Hge) Hall]]; [by left|right]); split.
    + exists (S j'), q'. split_and!; [done|done|lia].
    + intros [|j2] q2 Hj2 Ht2; [cbn in Hj2; injection Hj2 as <-; done|].
      specialize (Hall j2 q2 Hj2 Ht2). lia.
    + destruct j' as [|j']; [cbn in Hq'; injection Hq' as <-; done|].
      exists j', q'. split_and!; [done|done|lia].
    + intros j2 q2 Hj2 Ht2. specialize (Hall (S j2) q2 Hj2 Ht2). lia.
Qed.

Lemma srch_fst_max wh wc p o j m m' : (srch wh wc p o j m).1 = (srch wh wc p o j m').1.
Proof.
  revert j m m'. induction o as [|q o IH]; intros j m m'; [done|]. cbn.
  repeat case_match; done || apply IH.
Qed.

(** ** The whole linking pass *)
Section link.
  Context (hf : hfield) (O : list (list ospan)) (cells : list ccell) (wh wc : Z).
  Context (HO : length O = (hf_w hf * hf_h hf)%nat).
  Context (Hsm : Forall (λ o, length o ≤ 255)%nat O).
  Context (Hfine : Forall (Forall ofine) O).
  Context (Hcells : ∀ c o, O !! c = Some o → ∃ cell, cells !! c = Some cell ∧ cell_ok O c o cell).

  Let w := hf_w hf.
  Let h := hf_h hf.

  (** Expected connection of open span [p] of cell [c] in direction [d]. *)
  Definition exp_con (c : nat) (p : ospan) (d : nat) : option Z :=
    match nb_col w h (c mod w) (c / w) d with
    | None => None
    | Some c' => match O !! c' with Some o' => (srch wh wc p o' 0 0).1 | None => None end
    end.
  Definition exp_ovf (c : nat) (p : ospan) (d : nat) : Prop :=
    ∃ c' o', nb_col w h (c mod w) (c / w) d = Some c' ∧ O !! c' = Some o' ∧ overflows wh wc p o'.

  Record link_inv (dn : nat → nat → nat → Prop) (st : list cspan * Z) : Prop := LinkInv {
    li_len : length st.1 = length (concat O);
    li_span : ∀ i p, concat O !! i = Some p → ∃ s, st.1 !! i = Some s ∧
      cs_y s = o_y p ∧ cs_height s = o_h p ∧ cs_reg s = 0 ∧ 0 ≤ cs_data s < 2 ^ 32;
    li_con : ∀ c o k p d s, O !! c = Some o → o !! k = Some p → (d < 4)%nat → dn c k d →
      st.1 !! (first_index O c + k)%nat = Some s → con_bits (cs_data s) d = exp_con c p d;
    li_max : 0 ≤ st.2 ∧ (62 < st.2 ↔ ∃ c o k p d, O !! c = Some o ∧ o !! k = Some p ∧
      (d < 4)%nat ∧ dn c k d ∧ exp_ovf c p d)
  }.

  Lemma link_inv_ext dn dn' st :
    (∀ c o k d, O !! c = Some o → (k < length o)%nat → (d < 4)%nat → dn c k d ↔ dn' c k d) →
    link_inv dn st → link_inv dn' st.
  Proof.
    intros He [L1 L2 L3 [L4 L5]]. split; [done|done| |].
    - intros c o k p d s Hc Hk Hd Hdn. apply (L3 c o); [done|done|done|].
      eapply He; [done| |done|done]. by eapply lookup_lt_Some.
    - split; [done|]. rewrite L5. split; intros (c & o & k & p & d & Hc & Hk & Hd & Hdn & Hov);
        exists c, o, k, p, d; split_and!; try done; (eapply He; [done| |done|done]; by eapply lookup_lt_Some).
  Qed.

  Lemma nb_col_spec x z d :
    (x < w)%nat → (z < h)%nat → (d < 4)%nat →
    let nx := Z.of_nat x + dir_offset_x d in
    let nz := Z.of_nat z + dir_offset_z d in
    nb_col w h x z d = if contains hf nx nz then Some (column_index hf (Z.to_nat nx) (Z.to_nat nz)) else None.
  Proof.
    intros Hx Hz Hd nx nz. unfold nb_col.
    assert (Ex : nth d [-1; 0; 1; 0] 0 = dir_offset_x d) by (destruct d as [|[|[|[|d]]]]; [done..|lia]).
    assert (Ez : nth d [0; 1; 0; -1] 0 = dir_offset_z d) by (destruct d as [|[|[|[|d]]]]; [done..|lia]).
    rewrite Ex, Ez. fold nx nz. unfold contains. fold w h.
    case_decide.
    - replace ((0 <=? nx) && (nx <? Z.of_nat w) && (0 <=? nz) && (nz <? Z.of_nat h)) with true by lia.
      done.
    - replace ((0 <=? nx) && (nx <? Z.of_nat w) && (0 <=? nz) && (nz <? Z.of_nat h)) with false by lia.
      done.
  Qed.

  Lemma nb_col_lt x z d c' : nb_col w h x z d = Some c' → (c' < length O)%nat.
  Proof.
    unfold nb_col. set (nx := Z.of_nat x + _). set (nz := Z.of_nat z + _). clearbody nx nz.
    case_decide as Hin; [|done]. intros [= <-]. rewrite HO. fold w h.
    assert (Z.to_nat nx < w)%nat by lia. assert (Z.to_nat nz < h)%nat by lia. nia.
  Qed.

  Lemma link_dir_spec x z c o k p d st dn :
    (x < w)%nat → (z < h)%nat → c = (x + z * w)%nat → (d < 4)%nat →
    O !! c = Some o → o !! k = Some p → ¬ dn c k d →
    link_inv dn st →
    runs (link_dir hf cells wh wc x z (first_index O c + k) d st)
      (link_inv (λ c' k' d', dn c' k' d' ∨ (c' = c ∧ k' = k ∧ d' = d))).
  Proof.
    intros Hx Hz Ec Hd Hc Hk Hndn [L1 L2 L3 [L4 L5]]. destruct st as [spans maxl]. cbn [fst snd] in *.
    assert (Hmod : (c mod w)%nat = x) by (subst c; rewrite Nat.mod_add by lia; by rewrite Nat.mod_small).
    assert (Hdiv : (c / w)%nat = z) by (subst c; rewrite Nat.div_add by lia; by rewrite Nat.div_small).
    assert (Hkl : (k < length o)%nat) by (by eapply lookup_lt_Some).
    set (i := (first_index O c + k)%nat).
    assert (Hci : concat O !! i = Some p).
    { unfold i, first_index. by rewrite (concat_lookup O c o k). }
    destruct (L2 _ _ Hci) as (s0 & Hs0 & Hy0 & Hh0 & Hr0 & Hw0).
    unfold link_dir. rewrite (get_some _ _ _ Hs0). cbn [obind].
    unfold set_con at 1. replace (6 <=? d)%nat with false by lia. cbn [obind].
    rewrite put_lt by (by eapply lookup_lt_Some). cbn [obind].
    set (s1 := CS (cs_y s0) (cs_reg s0) (set_con_bits (cs_data s0) d None)).
    assert (Hil : (i < length spans)%nat) by (by eapply lookup_lt_Some).
    (* the final step: writing [nbv] into direction d *)
    assert (Hfin : ∀ nbv maxl', (match nbv with Some v => 0 ≤ v < 63 | None => True end) →
        nbv = exp_con c p d → (maxl ≤ maxl') → (62 < maxl' ↔ 62 < maxl ∨ exp_ovf c p d) →
        link_inv (λ c' k' d', dn c' k' d' ∨ (c' = c ∧ k' = k ∧ d' = d))
          (<[i := CS (cs_y s0) (cs_reg s0) (set_con_bits (set_con_bits (cs_data s0) d None) d nbv)]> spans, maxl')).
    { intros nbv maxl' Hnv Hexp Hmono Hmax. split; cbn [fst snd].
      - by rewrite insert_length.
      - intros i' p' Hi'. destruct (decide (i' = i)) as [->|Hne].
        + rewrite list_lookup_insert by done. eexists. split; [done|].
          rewrite Hci in Hi'. injection Hi' as <-. cbn. unfold cs_height. cbn.
          rewrite !height_set_con by done. split_and!; [done|done|done|..];
            by apply set_con_word, set_con_word.
        + rewrite list_lookup_insert_ne by done. by apply L2.
      - intros c' o' k' p' d' s' Hc' Hk' Hd' Hdn' Hs'.
        assert (Hkl' : (k' < length o')%nat) by (by eapply lookup_lt_Some).
        destruct (decide ((first_index O c' + k')%nat = i)) as [E|Hne].
        + unfold i, first_index in E.
          destruct (concat_index_inj O c' c o' o k' k Hc' Hc Hkl' Hkl E) as [-> ->].
          rewrite Hc in Hc'. injection Hc' as <-. rewrite Hk in Hk'. injection Hk' as <-.
          fold i in Hs'. rewrite list_lookup_insert in Hs' by done. injection Hs' as <-. cbn.
          destruct (decide (d' = d)) as [->|Hned].
          * rewrite <-Hexp. destruct nbv as [v|]; [by apply con_set_some|by apply con_set_none].
          * rewrite !con_set_other by done. apply (L3 c o k); [done|done|done| |done].
            destruct Hdn' as [?|(_ & _ & ?)]; done.
        + rewrite list_lookup_insert_ne in Hs' by done. apply (L3 c' o' k'); [done|done|done| |done].
          destruct Hdn' as [?|(-> & -> & ->)]; [done|]. done.
      - split; [lia|]. rewrite Hmax, L5. split.
        + intros [(c' & o' & k' & p' & d' & ? & ? & ? & ? & ?)|Hov].
          * exists c', o', k', p', d'. split_and!; try done. by left.
          * exists c, o, k, p, d. split_and!; try done. by right.
        + intros (c' & o' & k' & p' & d' & Hc' & Hk' & ? & [?|(-> & -> & ->)] & ?).
          * left. exists c', o', k', p', d'. done.
          * right. rewrite Hc in Hc'. injection Hc' as <-. rewrite Hk in Hk'. by injection Hk' as <-. }
    assert (Hnone : ∀ data, set_con_bits (set_con_bits data d None) d None = set_con_bits data d None).
    { intros data. apply Z.bits_inj'. intros n Hn. rewrite !testbit_set_con by done. by case_match. }
    pose proof (nb_col_spec x z d Hx Hz Hd) as Hnb. cbn zeta in Hnb.
    destruct (contains hf _ _) eqn:Econt; cbn [negb].
    2:{ cbn. unfold s1. rewrite <-Hnone. apply Hfin; [done| |lia|].
        - unfold exp_con. by rewrite Hmod, Hdiv, Hnb.
        - split; [by left|]. intros [?|(c' & o' & Hn & _)]; [done|]. rewrite Hmod, Hdiv, Hnb in Hn. done. }
    set (c' := column_index hf _ _) in *.
    pose proof (nb_col_lt _ _ _ _ Hnb) as Hlt'. destruct (lookup_lt_is_Some_2 _ _ Hlt') as [o' Ho'].
    destruct (Hcells _ _ Ho') as (ncell & Hncell & Hcnt & Hidx).
    rewrite (get_some _ _ _ Hncell). cbn [obind].
    rewrite (get_some _ i s1) by (by rewrite list_lookup_insert). cbn [obind].
    unfold index_range. rewrite Hcnt.
    assert (Hofine : ∀ c o, O !! c = Some o → Forall ofine o).
    { intros. rewrite Forall_lookup in Hfine. eauto. }
    assert (Hpf : ofine p). { pose proof (Hofine _ _ Hc) as Hf. rewrite Forall_lookup in Hf. eauto. }
    pose proof (link_search_spec wh wc o' 0 (cc_index ncell) i d p s1 s1 (<[i:=s1]> spans) maxl Hd Hpf
      (Hofine _ _ Ho')) as Hls.
    rewrite Nat.add_0_r in Hls. cbn zeta in Hls. rewrite Hls; clear Hls.
    - cbn [runs]. change (Z.of_nat 0) with 0.
      destruct (srch_snd wh wc p o' 0 maxl ltac:(lia)) as [S1 S2].
      assert (Hmx : 62 < (srch wh wc p o' 0 maxl).2 ↔ 62 < maxl ∨ exp_ovf c p d).
      { rewrite S2. unfold exp_ovf, overflows. rewrite Hmod, Hdiv, Hnb.
        split; (intros [?|Hx']; [by left|right]).
        - exists c', o'. destruct Hx' as [(j & q & ? & ? & ?) Ha]. split_and!; [done|done| |].
          + exists j, q. split_and!; [done|done|lia].
          + intros j2 q2 Hq1 Hq2. specialize (Ha _ _ Hq1 Hq2). lia.
        - destruct Hx' as (c2 & o2 & [= <-] & Ho2 & (j & q & ? & ? & ?) & Ha).
          rewrite Ho' in Ho2. injection Ho2 as <-. split.
          + exists j, q. split_and!; [done|done|lia].
          + intros j2 q2 Hq1 Hq2. specialize (Ha _ _ Hq1 Hq2). lia. }
      assert (Hex : (srch wh wc p o' 0 maxl).1 = exp_con c p d).
      { unfold exp_con. rewrite Hmod, Hdiv, Hnb, Ho'. apply srch_fst_max. }
      destruct ((srch wh wc p o' 0 maxl).1) as [v|] eqn:Ev.
      + rewrite list_insert_insert. cbn [s1 cs_y cs_reg cs_data].
        apply srch_fst in Ev as [? _]; [|lia]. apply Hfin; [cbn; lia|done|done|done].
      + unfold s1. rewrite <-(Hnone (cs_data s0)). apply Hfin; done.
    - unfold s1. done.
    - unfold s1, cs_height. cbn. rewrite height_set_con by done. done.
    - by rewrite list_lookup_insert.
    - rewrite Forall_lookup in Hsm. specialize (Hsm _ _ Ho'). cbn in Hsm. lia.
    - intros j q Hj.
      assert (Hjl : (j < length o')%nat) by (by eapply lookup_lt_Some).
      assert (Hci' : concat O !! (first_index O c' + j)%nat = Some q).
      { unfold first_index. by rewrite (concat_lookup O c' o' j). }
      rewrite Hidx by (by intros ->).
      destruct (decide ((first_index O c' + j)%nat = i)) as [Ei|Hne].
      + rewrite Ei in *. rewrite list_lookup_insert by done. rewrite Hci in Hci'. injection Hci' as <-.
        eexists. split; [done|]. unfold s1, cs_height. cbn. by rewrite height_set_con.
      + rewrite list_lookup_insert_ne by done. destruct (L2 _ _ Hci') as (s & ? & ? & ? & _). eauto.
  Qed.

  Lemma link_cell_spec x z st :
    (x < w)%nat → (z < h)%nat → let c := (x + z * w)%nat in
    link_inv (λ c' _ _, c' < c)%nat st →
    runs (link_cell hf cells wh wc x z st) (link_inv (λ c' _ _, c' < c + 1)%nat).
  Proof.
    intros Hx Hz c Hinv. unfold link_cell. fold w. fold c.
    assert (Hcl : (c < length O)%nat) by (rewrite HO; unfold c; fold w h; nia).
    destruct (lookup_lt_is_Some_2 _ _ Hcl) as [o Ho].
    destruct (Hcells _ _ Ho) as (cell & Hcell & Hcnt & Hidx).
    rewrite (get_some _ _ _ Hcell). cbn [obind]. unfold index_range. rewrite Hcnt.
    destruct (decide (o = [])) as [->|Hne].
    { cbn. eapply link_inv_ext; [|exact Hinv]. intros c' o' k d Hc' Hk _. cbn beta. split; [lia|].
      intros. destruct (decide (c' = c)) as [->|]; [|lia]. rewrite Ho in Hc'. injection Hc' as <-.
      cbn in Hk. lia. }
    rewrite (Hidx Hne).
    eapply runs_mono.
    { apply (foldM_seq_inv (λ i, link_inv (λ c' k' _, c' < c ∨ (c' = c ∧ k' < i - first_index O c))%nat)).
      - eapply link_inv_ext; [|exact Hinv]. intros. cbn beta. lia.
      - intros i st' Hi Hinv'. set (k := (i - first_index O c)%nat) in *.
        replace i with (first_index O c + k)%nat by lia.
        destruct (lookup_lt_is_Some_2 o k) as [p Hp]; [lia|].
        eapply runs_mono.
        { apply (foldM_seq_inv (λ d, link_inv (λ c' k' d', c' < c ∨ (c' = c ∧ k' < k) ∨ (c' = c ∧ k' = k ∧ d' < d))%nat)
             _ 0 4).
          - eapply link_inv_ext; [|exact Hinv']. intros. cbn beta. lia.
          - intros d st'' Hd Hinv''. eapply runs_mono.
            + eapply (link_dir_spec x z c o k p d st''); [done|done|done|lia|done|done| |exact Hinv''].
              cbn beta. lia.
            + intros st3. apply link_inv_ext. intros. cbn beta. lia. }
        intros st3. apply link_inv_ext. intros. cbn beta. lia. }
    intros st3. apply link_inv_ext. intros c' o' k d Hc' Hk Hd. cbn beta.
    destruct (decide (c' = c)) as [->|]; [|lia]. rewrite Ho in Hc'. injection Hc' as <-. lia.
  Qed.

  Lemma link_all_spec spans :
    length spans = length (concat O) →
    (∀ i p, concat O !! i = Some p → ∃ s, spans !! i = Some s ∧
      cs_y s = o_y p ∧ cs_height s = o_h p ∧ cs_reg s = 0 ∧ 0 ≤ cs_data s < 2 ^ 32) →
    runs (for_cells (hf_w hf) (hf_h hf) (link_cell hf cells wh wc) (spans, 0))
      (link_inv (λ _ _ _, True)).
  Proof.
    intros Hl Hs. eapply runs_mono.
    { apply (for_cells_inv (λ n, link_inv (λ c' _ _, c' < n)%nat)).
      - split; cbn; [done|done|intros; lia|]. split; [lia|]. split; [lia|].
        intros (c & _ & _ & _ & _ & _ & _ & _ & ? & _). lia.
      - intros x z st Hx Hz Hinv. by apply link_cell_spec. }
    intros st. apply link_inv_ext. intros c o k d Hc _ _. cbn beta. split; [done|]. intros _.
    apply lookup_lt_Some in Hc. by rewrite HO in Hc.
  Qed.
End link.

(** ** The result of [into_compact] *)
Lemma field_opens_rep hf cols O :
  hf_ok hf cols → field_opens hf O ↔ O = opens_of cols.
Proof.
  intros [Hr Hl Hf]. split.
  - intros [HO Hcol]. apply list_eq. intros c. unfold opens_of. rewrite list_lookup_fmap.
    destruct (O !! c) as [o|] eqn:Ho.
    + destruct (Hcol _ _ Ho) as (l & Hc & <-). apply (is_column_rep _ cols) in Hc as (kl & Hk & <-); [|done].
      rewrite Hk. cbn. by rewrite opens_rec_eq.
    + apply lookup_ge_None in Ho. rewrite (lookup_ge_None_2 cols) by lia. done.
  - intros ->. split; [unfold opens_of; by rewrite fmap_length|].
    intros c o Ho. unfold opens_of in Ho. rewrite list_lookup_fmap in Ho.
    apply fmap_Some in Ho as (kl & Hk & ->). exists kl.*2. split; [|apply opens_rec_eq].
    apply (is_column_rep _ cols); [done|]. eauto.
Qed.

Lemma opens_of_fine hf cols :
  hf_ok hf cols → Forall (Forall ofine) (opens_of cols).
Proof.
  intros [Hr Hl Hf]. apply Forall_lookup. intros c o Ho. unfold opens_of in Ho.
  rewrite list_lookup_fmap in Ho. apply fmap_Some in Ho as (kl & Hk & ->).
  destruct (Hf _ _ Hk) as [Hg Ha]. apply Forall_forall. intros p Hp.
  destruct (opens_fine (-1) kl.*2 p) as (? & ? & ? & _); [lia|by apply good_sorted|done|done|].
  unfold ofine. lia.
Qed.

Lemma into_compact_spec hf cols wh wc :
  hf_ok hf cols → let O := opens_of cols in countable O →
  runs (into_compact hf wh wc) (λ r,
    (r = None ↔ too_many_layers hf wh wc O) ∧
    ∀ ch, r = Some ch →
      ch_w ch = hf_w hf ∧ ch_h ch = hf_h hf ∧ ch_wh ch = wh ∧ ch_wc ch = wc ∧
      ch_border ch = 0 ∧ ch_maxdist ch = 0 ∧ ch_maxreg ch = 0 ∧ ch_dist ch = [] ∧
      ch_geo ch = grow_geo (hf_geo hf) wh ∧
      lists_opens ch O ∧ connects ch wh wc O ∧ Forall (λ s, cs_reg s = 0 ∧ 0 ≤ cs_data s < 2 ^ 32) (ch_spans ch)).
Proof.
  intros Hok O Hsmall. pose proof Hok as [Hr Hl Hf].
  assert (HO : length O = (hf_w hf * hf_h hf)%nat) by (unfold O, opens_of; by rewrite fmap_length).
  unfold into_compact. rewrite (walkable_count_spec _ _ Hr). fold O.
  eapply runs_bind; [apply fill_all_spec; [done|exact Hsmall]|]. fold O.
  intros st [Fs Fa Fn Fl Fc].
  assert (Htk : take (hf_w hf * hf_h hf) O = O) by (apply take_ge; lia).
  assert (Hfi : first_index O (hf_w hf * hf_h hf) = length (concat O)) by (unfold first_index; by rewrite Htk).
  rewrite Htk, Hfi, Nat.sub_diag in Fs, Fa. cbn [repeat] in Fs, Fa. rewrite app_nil_r in Fs, Fa.
  pose proof (opens_of_fine _ _ Hok) as Hofine. fold O in Hofine.
  assert (Hcells : ∀ c o, O !! c = Some o → ∃ cell, fl_cells st !! c = Some cell ∧ cell_ok O c o cell).
  { intros c o Ho. destruct (Fc _ _ Ho) as (cell & ? & Hd). exists cell. split; [done|].
    rewrite decide_True in Hd; [done|]. apply lookup_lt_Some in Ho. lia. }
  eapply runs_bind.
  { apply (link_all_spec hf O (fl_cells st) wh wc HO (proj1 Hsmall) Hofine Hcells).
    - rewrite Fs. by rewrite fmap_length.
    - intros i p Hp. rewrite Fs, list_lookup_fmap, Hp. cbn. eexists. split; [done|].
      assert (ofine p) as (? & ? & ?).
      { apply concat_lookup_inv in Hp as (c & o & k & Hc & Hk & _). rewrite Forall_lookup in Hofine.
        specialize (Hofine _ _ Hc). rewrite Forall_lookup in Hofine. eauto. }
      rewrite mk_span_height by done. split_and!; try done; apply set_height_word; cbn; lia. }
  intros [spans maxl] [L1 L2 L3 [L4 L5]]. cbn [fst snd] in *.
  assert (Hmx : MAX_LAYERS <? maxl = true ↔ too_many_layers hf wh wc O).
  { rewrite Z.ltb_lt. change MAX_LAYERS with 62. rewrite L5. unfold too_many_layers, exp_ovf. split.
    - intros (c & o & k & p & d & ? & ? & ? & _ & c' & o' & ? & ? & ?). exists c, o, k, p, d, c', o'. done.
    - intros (c & o & k & p & d & c' & o' & ? & ? & ? & ? & ? & ?).
      exists c, o, k, p, d. split_and!; try done. exists c', o'. done. }
  destruct (MAX_LAYERS <? maxl); cbn [runs].
  { split; [|done]. split; [|done]. intros _. by apply Hmx. }
  split. { split; [done|]. intros H%Hmx. done. }
  intros ch [= <-]. cbn. split_and!; try done.
  - split; cbn; try done.
    + by rewrite Fa, fmap_length.
    + intros i p Hp. destruct (L2 _ _ Hp) as (s & ? & ? & ? & ?). exists s. split_and!; try done.
      by rewrite Fa, list_lookup_fmap, Hp.
  - intros c o k p d s Ho Hk Hd Hs v. cbn in *.
    unfold connection. rewrite (L3 c o k p d s Ho Hk Hd I Hs). unfold exp_con.
    destruct (nb_col _ _ _ _ d) as [c'|] eqn:Hn.
    2:{ split; [done|]. intros (_ & c' & o' & ? & _). done. }
    destruct (O !! c') as [o'|] eqn:Ho'.
    2:{ split; [done|]. intros (_ & c2 & o' & [= <-] & E & _). congruence. }
    rewrite srch_fst by lia. rewrite Z.sub_0_r. split.
    + intros [? ?]. split; [done|]. exists c', o'. done.
    + intros (? & c2 & o2 & [= <-] & E & ?). split; [done|]. congruence.
  - apply Forall_lookup. intros i s Hs. assert (i < length (concat O))%nat as Hi.
    { rewrite <-L1. by eapply lookup_lt_Some. }
    destruct (lookup_lt_is_Some_2 _ _ Hi) as [p Hp]. destruct (L2 _ _ Hp) as (s' & Hs' & _ & _ & ? & ?).
    rewrite Hs in Hs'. by injection Hs' as <-.
Qed.

Lemma into_compact_panics hf cols wh wc :
  hf_ok hf cols → let O := opens_of cols in
  Z.of_nat (length (concat O)) < 2 ^ 32 → ¬ Forall (λ o, length o ≤ 255)%nat O →
  into_compact hf wh wc = Panicked.
Proof.
  intros Hok O Ht Hb. unfold into_compact. rewrite (walkable_count_spec _ _ (ok_rep _ _ Hok)).
  by rewrite (fill_all_panic _ _ Hok Ht Hb).
Qed.

(** ** Consequences for the table *)
Lemma lists_opens_start ch O c :
  lists_opens ch O → cell_start (ch_cells ch) c = first_index O c.
Proof.
  intros [L1 L2 L3 L4 L5 L6]. unfold cell_start, first_index.
  assert (E : cc_count <$> ch_cells ch = length <$> O).
  { apply list_eq. intros i. rewrite !list_lookup_fmap. destruct (O !! i) as [o|] eqn:Ho.
    - destruct (L5 _ _ Ho) as (cell & -> & Hc & _). cbn. by rewrite Hc.
    - apply lookup_ge_None in Ho. rewrite (lookup_ge_None_2 (ch_cells ch)) by lia. done. }
  rewrite fmap_take, E, <-fmap_take. generalize (take c O). intros T.
  induction T as [|o T IH]; [done|]. rewrite fmap_cons. cbn. rewrite app_length. f_equal.
  exact IH.
Qed.

Lemma nb_col_inv w h c d c' :
  (c < w * h)%nat → (d < 4)%nat → nb_col w h (c mod w) (c / w) d = Some c' →
  (c' < w * h)%nat ∧ nb_col w h (c' mod w) (c' / w) ((d + 2) mod 4) = Some c.
Proof.
  intros Hc Hd. assert (w ≠ 0)%nat by lia.
  pose proof (Nat.div_mod_eq c w) as Ec.
  assert (c mod w < w)%nat by (by apply Nat.mod_upper_bound).
  assert (c / w < h)%nat by (apply Nat.div_lt_upper_bound; lia).
  set (x := (c mod w)%nat) in *. set (z := (c / w)%nat) in *. clearbody x z.
  unfold nb_col at 1. intros E.
  assert (∃ x' z', (x' < w)%nat ∧ (z' < h)%nat ∧ c' = (x' + z' * w)%nat ∧
     Z.of_nat x' = Z.of_nat x + nth d [-1; 0; 1; 0] 0 ∧
     Z.of_nat z' = Z.of_nat z + nth d [0; 1; 0; -1] 0) as (x' & z' & Hx & Hz & -> & Ex & Ez).
  { revert E. set (nx := Z.of_nat x + _). set (nz := Z.of_nat z + _). clearbody nx nz.
    case_decide; [|done]. intros [= <-]. exists (Z.to_nat nx), (Z.to_nat nz). split_and!; try lia. }
  clear E. split; [nia|].
  rewrite Nat.mod_add, Nat.div_add by done. rewrite Nat.mod_small, Nat.div_small by done. cbn [Nat.add].
  assert (nth ((d + 2) mod 4) [-1; 0; 1; 0] 0 = - nth d [-1; 0; 1; 0] 0) as E1
    by (destruct d as [|[|[|[|d]]]]; [done..|lia]).
  assert (nth ((d + 2) mod 4) [0; 1; 0; -1] 0 = - nth d [0; 1; 0; -1] 0) as E2
    by (destruct d as [|[|[|[|d]]]]; [done..|lia]).
  unfold nb_col. rewrite E1, E2, Ex, Ez.
  set (a := nth d _ _) in *. set (b := nth d _ _) in *. clearbody a b.
  rewrite decide_True by lia. f_equal.
  replace (Z.to_nat (Z.of_nat x + a + - a)) with x by lia.
  replace (Z.to_nat (Z.of_nat z + b + - b)) with z by lia. lia.
Qed.

Lemma lists_opens_span_in ch O c k s :
  lists_opens ch O → span_in ch c k s ↔
  ∃ o, O !! c = Some o ∧ (k < length o)%nat ∧ ch_spans ch !! (first_index O c + k)%nat = Some s.
Proof.
  intros [L1 L2 L3 L4 L5 L6]. split.
  - intros (cell & Hc & Hk & Hs). assert (c < length O)%nat as Hl.
    { rewrite L2, <-L1. by eapply lookup_lt_Some. }
    destruct (lookup_lt_is_Some_2 _ _ Hl) as [o Ho]. destruct (L5 _ _ Ho) as (cell' & Hc' & Hcnt & Hi).
    rewrite Hc in Hc'. injection Hc' as <-. exists o. split; [done|]. split; [lia|].
    rewrite <-Hi; [done|]. intros ->. cbn in *. lia.
  - intros (o & Ho & Hk & Hs). destruct (L5 _ _ Ho) as (cell & Hc & Hcnt & Hi). exists cell.
    split_and!; [done|lia|]. rewrite Hi; [done|]. intros ->. cbn in *. lia.
Qed.

Lemma lists_opens_wf ch wh wc O :
  lists_opens ch O → connects ch wh wc O → wf_chf ch.
Proof.
  intros HL Hcon. pose proof (lists_opens_start ch O) as Hst.
  pose proof HL as [L1 L2 L3 L4 L5 L6].
  split.
  - done.
  - lia.
  - intros c cell Hc Hn. rewrite Hst by done. assert (c < length O)%nat as Hl.
    { rewrite L2, <-L1. by eapply lookup_lt_Some. }
    destruct (lookup_lt_is_Some_2 _ _ Hl) as [o Ho]. destruct (L5 _ _ Ho) as (cell' & Hc' & Hcnt & Hi).
    rewrite Hc in Hc'. injection Hc' as <-. apply Hi. intros ->. cbn in *. lia.
  - rewrite Hst by done. rewrite L3. unfold first_index. by rewrite take_ge by lia.
  - intros x z cell i s d v Hx Hz Hcell Hi Hs Hd Hv.
    set (c := (x + z * ch_w ch)%nat) in *.
    assert (c < length O)%nat as Hl by (rewrite L2; unfold c; nia).
    destruct (lookup_lt_is_Some_2 _ _ Hl) as [o Ho]. destruct (L5 _ _ Ho) as (cell' & Hc' & Hcnt & Hidx).
    rewrite Hcell in Hc'. injection Hc' as <-. unfold index_range in Hi. apply elem_of_seq in Hi.
    set (k := (i - cc_index cell)%nat). assert (k < length o)%nat by lia.
    destruct (lookup_lt_is_Some_2 o k) as [p Hp]; [done|].
    assert (first_index O c + k = i)%nat as Ei.
    { rewrite <-Hidx; [lia|]. intros ->. cbn in *. lia. }
    destruct (Hcon c o k p d s Ho Hp Hd ltac:(by rewrite Ei) v) as [Hc1 _].
    destruct (Hc1 Hv) as (Hr & c' & o' & Hn & Ho' & (q & Hq & _) & _).
    assert (c mod ch_w ch = x)%nat as Ex by (unfold c; rewrite Nat.mod_add by lia; by apply Nat.mod_small).
    assert (c / ch_w ch = z)%nat as Ez by (unfold c; rewrite Nat.div_add by lia; by rewrite Nat.div_small).
    rewrite Ex, Ez in Hn. destruct (L5 _ _ Ho') as (cell' & Hcell' & Hcnt' & _).
    exists c', cell'. split_and!; [done|done|]. rewrite Hcnt'. by eapply lookup_lt_Some.
Qed.

(** Open spans of a column are stacked without overlap. *)
Definition stacked (m : Z) (o : list ospan) : Prop :=
  ∀ j k p q, (j < k)%nat → o !! j = Some p → o !! k = Some q → o_y p + o_h p + m ≤ o_y q.

Lemma opens_above lo l m q :
  0 ≤ m → sorted_from lo l → Forall (λ a, c_min a + m ≤ c_max a) l → q ∈ opens_rec l → top_of l + m ≤ o_y q.
Proof.
  revert lo. induction l as [|s l IH]; intros lo Hm Hs Hth Hq; [by apply elem_of_nil in Hq|].
  apply Forall_cons in Hth as [Ht Hth]. cbn in Hs. destruct Hs as (H1 & H2 & H3 & Hs).
  cbn [opens_rec top_of] in *.
  assert (q ∈ opens_rec l → c_min s + m ≤ o_y q) as Hrec.
  { intros Hq'. specialize (IH _ Hm Hs Hth Hq'). destruct l as [|s' l]; [by apply elem_of_nil in Hq'|].
    cbn in *. lia. }
  case_decide; [|auto]. apply elem_of_cons in Hq as [->|Hq]; [|auto]. cbn. lia.
Qed.

Lemma opens_stacked lo l m :
  0 ≤ m → sorted_from lo l → Forall (λ a, c_min a + m ≤ c_max a) l → stacked m (opens_rec l).
Proof.
  intros Hm. revert lo. induction l as [|s l IH]; intros lo Hs Hth; [done|].
  apply Forall_cons in Hth as [Ht Hth]. cbn in Hs. destruct Hs as (H1 & H2 & H3 & Hs).
  cbn [opens_rec]. case_decide; [|by eapply IH].
  intros [|j] [|k] p q Hlt Hp Hq; [lia| |lia|].
  - cbn in Hp, Hq. injection Hp as <-. cbn. apply elem_of_list_lookup_2 in Hq.
    pose proof (opens_above _ _ _ _ Hm Hs Hth Hq). lia.
  - cbn in Hp, Hq. eapply (IH _ Hs Hth j k); [lia|done..].
Qed.

Lemma traversable_sym wh wc p q : traversable wh wc p q → traversable wh wc q p.
Proof. unfold traversable. lia. Qed.

Lemma traversable_unique wh wc m o j k p q r :
  stacked m o → wc < wh + m → o !! j = Some q → o !! k = Some r →
  traversable wh wc p q → traversable wh wc p r → j = k.
Proof.
  intros Hst Hlt Hj Hk Hq Hr. unfold traversable in *.
  destruct (lt_eq_lt_dec j k) as [[Hjk| ->]|Hjk]; [exfalso|done|exfalso].
  - specialize (Hst j k q r Hjk Hj Hk). lia.
  - specialize (Hst k j r q Hjk Hk Hj). lia.
Qed.

Lemma connects_symmetric ch wh wc m O :
  lists_opens ch O → connects ch wh wc O →
  Forall (stacked m) O → Forall (λ o, length o ≤ 62)%nat O → wc < wh + m →
  symmetric ch.
Proof.
  intros HL Hcon Hst Hsm Hlt c k d c' k' Hd (s & Hs & Hv & Hn).
  pose proof HL as [L1 L2 L3 L4 L5 L6].
  apply (lists_opens_span_in ch O) in Hs as (o & Ho & Hk & Hs); [|done].
  destruct (lookup_lt_is_Some_2 _ _ Hk) as [p Hp].
  destruct (Hcon c o k p d s Ho Hp Hd Hs (Z.of_nat k')) as [Hc1 _].
  destruct (Hc1 Hv) as (_ & c2 & o' & Hn2 & Ho' & (q & Hq & Ht) & Hlow).
  rewrite Hn in Hn2. injection Hn2 as <-. rewrite Nat2Z.id in *.
  assert (c < ch_w ch * ch_h ch)%nat as Hcl by (rewrite <-L2; by eapply lookup_lt_Some).
  destruct (nb_col_inv _ _ _ _ _ Hcl Hd Hn) as [Hcl' Hn'].
  assert (k' < length o')%nat as Hk' by (by eapply lookup_lt_Some).
  assert (concat O !! (first_index O c' + k')%nat = Some q) as Hqc.
  { unfold first_index. by rewrite (concat_lookup O c' o'). }
  destruct (L6 _ _ Hqc) as (s' & Hs' & _).
  assert (d < 4 → (d + 2) mod 4 < 4)%nat as Hd' by (intros; by apply Nat.mod_upper_bound).
  exists s'. split_and!.
  - apply (lists_opens_span_in ch O); [done|]. exists o'. done.
  - apply (Hcon c' o' k' q _ s' Ho' Hq (Hd' Hd) Hs').
    rewrite Forall_lookup in Hsm. specialize (Hsm _ _ Ho). cbn in Hsm. split; [lia|].
    exists c, o. split; [done|split; [done|split]].
    + exists p. rewrite Nat2Z.id. split; [done|]. by apply traversable_sym.
    + intros j r Hj Hr Htr. rewrite Nat2Z.id in Hj.
      assert (j = k); [|lia]. rewrite Forall_lookup in Hst.
      eapply (traversable_unique wh wc m o j k q r p); [by eapply Hst|done|done|done|done|].
      by apply traversable_sym.
  - done.
Qed.
