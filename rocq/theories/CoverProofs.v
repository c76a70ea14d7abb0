(** Coverage of the watershed: which walkable spans end up in a region. *)
From Verif Require Import Base ModelMath ModelHeightfield ModelFilters ModelCompact ModelDistance ModelRegions
  SpecHeightfield SpecCompact SpecDistance SpecRegions CompactProofs LinkProofs PackProofs
  GraphProofs SweepProofs DistanceProofs FlowProofs GivesProofs WatershedProofs.
Local Open Scope Z_scope.

(** ** Marks only grow *)
Definition keeps (R R' : list Z) : Prop :=
  length R' = length R ∧ ∀ i r, R !! i = Some r → r ≠ 0 → R' !! i = Some r.

Lemma keeps_refl R : keeps R R.
Proof. done. Qed.
Lemma keeps_trans R R' R'' : keeps R R' → keeps R' R'' → keeps R R''.
Proof. intros [H1 H2] [H3 H4]. split; [congruence|]. auto. Qed.
Lemma keeps_zero R R' i : keeps R R' → R' !! i = Some 0 → R !! i = Some 0.
Proof.
  intros [H1 H2] Hi. destruct (lookup_lt_is_Some_2 R i) as [r Hr].
  { rewrite <-H1. by eapply lookup_lt_Some. }
  destruct (decide (r = 0)) as [->|Hne]; [done|]. pose proof (H2 i r Hr Hne). congruence.
Qed.

Lemma elem_of_idx stk i : i ∈ idx stk ↔ ∃ e, e ∈ stk ∧ e_i e = Some i.
Proof. unfold idx. rewrite elem_of_list_omap. done. Qed.

Section cover.
  Context (ch : chf) (Hwf : wf_chf ch) (Hw16 : Z.of_nat (ch_w ch) ≤ 65535) (Hh16 : Z.of_nat (ch_h ch) ≤ 65535).
  Context (HD : length (ch_dist ch) = length (ch_spans ch)).
  Context (Hd0 : ∀ i d, ch_dist ch !! i = Some d → 0 ≤ d).
  Let w := ch_w ch.
  Let h := ch_h ch.
  Let n := length (ch_spans ch).

  (** What makes the flood reject span [i]: going through the directions in
      order, a neighbour of the same area is met that has a region or, turning
      once, leads to one; and none of the earlier neighbours is painted. *)
  Definition blocked_by (P : nat → Prop) (R : list Z) (i d j : nat) : Prop :=
    (d < 4)%nat ∧ step ch i d j ∧ ch_areas ch !! j = ch_areas ch !! i ∧ ¬ P j ∧
    (∀ d' j', (d' < d)%nat → step ch i d' j' → ch_areas ch !! j' = ch_areas ch !! i → ¬ P j') ∧
    (R !! j ≠ Some 0 ∨
     ∃ k, step ch j ((d + 1) mod 4) k ∧ ch_areas ch !! k = ch_areas ch !! i ∧ R !! k ≠ Some 0).
  Definition blocked (P : nat → Prop) (R : list Z) (i : nat) : Prop := ∃ d j, blocked_by P R i d j.

  Lemma blocked_mono P R R' i : keeps R R' → blocked P R i → blocked P R' i.
  Proof.
    intros Hk (d & j & H1 & H2 & H3 & H4 & H5 & H6). exists d, j. split_and!; [done..|].
    destruct H6 as [H6|(k & Hs & Ha & H6)]; [left|right; exists k; split_and!; [done..|]];
      (intros Hz; apply H6; by eapply keeps_zero).
  Qed.

  Lemma flood_foreign_free P base M id area c i s m :
    winv ch P base M id → in_cell ch c i → ch_spans ch !! i = Some s → ch_areas ch !! i = Some area →
    m_reg M !! i = Some 0 → ¬ blocked P (m_reg M) i → (m ≤ 4)%nat →
    (∀ d' j', (d' < 4 - m)%nat → step ch i d' j' → ch_areas ch !! j' = ch_areas ch !! i → ¬ P j') →
    runs (flood_foreign ch (<[i := id]> (m_reg M)) area id (c mod w) (c / w) s (seq (4 - m) m)) (λ r, r = 0).
  Proof.
    intros Hw Hin Hs Hai Hi0 Hnb. pose proof (wi_lenR _ _ _ _ _ Hw) as HR. fold n in HR.
    induction m as [|m IH]; intros Hm Hpre; [done|].
    cbn [seq flood_foreign]. set (d := (4 - S m)%nat) in *. replace (S d) with (4 - m)%nat by lia.
    assert (d < 4)%nat as Hd by lia. specialize (IH ltac:(lia)).
    assert ((∀ j, step ch i d j → ch_areas ch !! j = ch_areas ch !! i → ¬ P j) →
      runs (flood_foreign ch (<[i := id]> (m_reg M)) area id (c mod w) (c / w) s (seq (4 - m) m)) (λ r, r = 0)) as Hnext.
    { intros Hd'. apply IH. intros d' j' Hlt. destruct (decide (d' = d)) as [->|]; [by apply Hd'|]. apply Hpre. lia. }
    clear IH.
    assert (∀ j v, m_reg M !! j = Some 0 → <[i := id]> (m_reg M) !! j = Some v → v = 0 ∨ v = id) as Hval.
    { intros j v Hj Hv. destruct (decide (i = j)) as [<-|Hne].
      - rewrite list_lookup_insert in Hv by (by eapply lookup_lt_Some). right. congruence.
      - rewrite list_lookup_insert_ne in Hv by done. left. congruence. }
    assert (∀ j v, <[i := id]> (m_reg M) !! j = Some v → negb (v =? 0) && negb (v =? id) = true → m_reg M !! j ≠ Some 0) as Hnz.
    { intros j v Hv Hb Hz. destruct (Hval j v Hz Hv); lia. }
    apply runs_ends. apply (nb_ends ch Hwf Hw16 Hh16) with (i := i); [done|done|done| |].
    { intros Hno. apply runs_ends. apply Hnext. intros j Hj. by destruct (Hno j). }
    intros c' j Hst Hin' Hj. apply ends_get; [by rewrite (areas_len ch Hwf)|]. intros a Ha.
    assert (∀ j', step ch i d j' → j' = j) as Huniq by (intros j' Hj'; by eapply (step_fun ch Hwf i d)).
    destruct (Z.eqb_spec a area) as [->|Hne]; cbn [negb].
    2:{ apply runs_ends. apply Hnext. intros j' Hj' Haj. rewrite (Huniq _ Hj') in Haj. congruence. }
    apply ends_get; [rewrite insert_length; lia|]. intros nr Hnr. destruct (is_border nr) eqn:Eb; [done|].
    assert (¬ P j) as HnP.
    { intros HP. destruct (decide (i = j)) as [<-|Hij].
      - destruct (wi_dom _ _ _ _ _ Hw i 0 Hi0) as [[_ ?]|[? _]]; [lia|done].
      - rewrite list_lookup_insert_ne in Hnr by done. rewrite is_border_iff in Eb by (by eapply winv_u16).
        destruct (wi_dom _ _ _ _ _ Hw j nr Hnr) as [[_ ?]|[? _]]; [lia|done]. }
    assert (∀ j', step ch i d j' → ch_areas ch !! j' = ch_areas ch !! i → ¬ P j') as HnP'.
    { intros j' Hj' _. by rewrite (Huniq _ Hj'). }
    specialize (Hnext HnP'). unfold REG_NONE.
    assert (ch_areas ch !! j = ch_areas ch !! i) as Haj by congruence.
    destruct (negb (nr =? 0) && negb (nr =? id)) eqn:E1.
    { destruct Hnb. exists d, j. split_and!; try done. left. by apply (Hnz j nr). }
    apply ends_get; [done|]. intros sa Hsa.
    apply (nb_ends ch Hwf Hw16 Hh16) with (i := j); [done|apply Nat.mod_upper_bound; lia|done| |].
    { intros _. by apply runs_ends. }
    intros c2 k Hst2 Hin2 Hk. apply ends_get; [by rewrite (areas_len ch Hwf)|]. intros a2 Ha2.
    destruct (Z.eqb_spec a2 area) as [->|]; cbn [negb]; [|by apply runs_ends].
    apply ends_get; [rewrite insert_length; lia|]. intros nr2 Hnr2.
    destruct (negb (nr2 =? 0) && negb (nr2 =? id)) eqn:E2; [|by apply runs_ends].
    destruct Hnb. exists d, j. split_and!; try done. right. exists k. split_and!; [done|congruence|]. by apply (Hnz k nr2).
  Qed.

  (** A free span that is not blocked gets a region when it is flooded. *)
  Lemma flood_region_cover P base M id e i level :
    winv ch P base M id → e_i e = Some i → at_span ch e i → walkable_span ch i → m_reg M !! i = Some 0 →
    runs (flood_region ch e level id M) (λ '(M', found),
      keeps (m_reg M) (m_reg M') ∧ (¬ blocked P (m_reg M) i → m_reg M' !! i = Some id)).
  Proof.
    intros Hw Ei Hat Hwalk Hi0. pose proof Hat as (c & Hin & Ex & Ez).
    pose proof (in_cell_bound ch Hwf c i Hin) as Hin_n. fold n in Hin_n.
    pose proof (wi_id _ _ _ _ _ Hw) as Hid. destruct Hwalk as (area & Ha & Hane).
    assert (HRl : length (m_reg M) = n) by apply (wi_lenR _ _ _ _ _ Hw).
    unfold flood_region. rewrite Ei. cbn [unwrap obind]. rewrite (get_some _ _ _ Ha). cbn [obind].
    rewrite !put_lt; [|rewrite (wi_lenD _ _ _ _ _ Hw); exact Hin_n|by rewrite HRl]. cbn [obind].
    set (M1 := Marks _ _).
    assert (finv ch (m_reg M) (m_dist M) id area M1 [e] []) as F1.
    { by apply (finv_start ch Hwf Hw16 Hh16 HD P base). }
    assert (∀ lv fuel, (1 + 4 * n ≤ fuel)%nat →
      runs (flood_loop fuel ch area id lv M1 [e] 0) (λ '(M', _), keeps (m_reg M) (m_reg M'))) as Hkeeps.
    { intros lv fuel Hf. eapply runs_mono.
      { apply (λ H1 H2, flood_loop_spec ch Hwf Hw16 Hh16 HD (m_reg M) (m_dist M) id area H1 H2 lv fuel M1 [e] [] F1);
          [exact HRl|lia|cbn; fold n; lia]. }
      intros [M' count] (acc' & F' & _). split; [rewrite (f_lenR _ _ _ _ _ _ _ _ F'); done|].
      intros j r Hj Hr. by apply (f_old _ _ _ _ _ _ _ _ F'). }
    assert (¬ blocked P (m_reg M) i → runs (flood_loop (4 * length (ch_spans ch) + 2) ch area id (Z.max 0 (level - 2)) M1 [e] 0)
      (λ '(M', _), m_reg M' !! i = Some id)) as Hgot.
    { intros Hq. replace (4 * length (ch_spans ch) + 2)%nat with (S (4 * n + 1)) by (fold n; lia). cbn [flood_loop].
      rewrite Ei. destruct (in_cell_span ch Hwf c i Hin) as [s Hs]. rewrite (get_some _ _ _ Hs). cbn [obind].
      rewrite Ex, Ez. eapply runs_bind.
      { apply (flood_foreign_free P base M id area c i s 4); try done; lia. }
      intros ar ->. change (negb (0 =? REG_NONE)) with false. cbv iota.
      pose proof (finv_accept ch HD _ _ _ _ HRl _ _ _ _ _ F1 Ei) as F'.
      eapply runs_bind.
      { apply (λ H, flood_dirs_spec ch Hwf Hw16 Hh16 HD (m_reg M) (m_dist M) id area HRl H (Z.max 0 (level - 2)) c i s M1 [] [i]);
          [lia|done|done|left| |done]. intros d Hd%elem_of_seq. lia. }
      intros [M' stk'] [F2 Hl]. cbn [length seq] in Hl.
      eapply runs_mono.
      { apply (λ H1 H2, flood_loop_spec ch Hwf Hw16 Hh16 HD (m_reg M) (m_dist M) id area H1 H2 (Z.max 0 (level - 2)) (4 * n + 1) M' stk' [i] F2);
          [exact HRl|lia|]. cbn [length]. fold n. lia. }
      intros [M2 count] (acc & F & _ & Hsub). specialize (Hsub i ltac:(left)).
      destruct (f_new _ _ _ _ _ _ _ _ F i Hi0) as [_ [[_ Hn]|[? _]]]; [|done]. set_solver. }
    specialize (Hkeeps (Z.max 0 (level - 2)) (4 * length (ch_spans ch) + 2)%nat ltac:(fold n; lia)).
    destruct (flood_loop _ ch area id _ M1 [e] 0) as [[M' count]| |]; [|done|done]. cbn. split; [done|].
    intros Hq. by apply Hgot.
  Qed.

  Lemma mark_new_cover P base level stk M id :
    winv ch P base M id → (∀ e, e ∈ stk → ent_ok ch e) →
    gives (mark_new ch level stk M id) (λ res, ∀ M' id', res = Some (M', id') →
      keeps (m_reg M) (m_reg M') ∧ ∀ i, i ∈ idx stk → m_reg M' !! i = Some 0 → ¬ ¬ blocked P (m_reg M') i).
  Proof.
    revert M id. induction stk as [|e stk IH]; intros M id Hw Hs.
    { apply gives_done. intros M' id' [= <- <-]. split; [done|]. intros i Hi. by apply elem_of_nil in Hi. }
    cbn [mark_new].
    assert (∀ e', e' ∈ stk → ent_ok ch e') as Hs' by (intros; apply Hs; by right).
    assert (∀ i, i ∈ idx (e :: stk) → e_i e = Some i ∨ i ∈ idx stk) as Hidx.
    { intros i (e' & [->|He']%elem_of_cons & Ei)%elem_of_idx; [by left|right]. apply elem_of_idx. eauto. }
    destruct (e_i e) as [i|] eqn:Ei.
    2:{ eapply gives_mono; [by apply IH|]. intros res H M' id' E. destruct (H M' id' E) as [H1 H2]. split; [done|].
        intros k Hk. destruct (Hidx k Hk) as [?|?]; [done|]. by apply H2. }
    destruct (Hs e ltac:(left) i Ei) as [Hat Hwalk].
    apply gives_get. intros r Hr. unfold REG_NONE. destruct (Z.eqb_spec r 0) as [->|Hr0]; cbn [negb].
    2:{ eapply gives_mono; [by apply IH|]. intros res H M' id' E. destruct (H M' id' E) as [H1 H2]. split; [done|].
        intros k Hk. destruct (Hidx k Hk) as [[= <-]|?]; [|by apply H2]. destruct H1 as [_ H1]. rewrite (H1 _ _ Hr Hr0). congruence. }
    intros res ([M1 found] & E1 & E)%obind_done.
    pose proof (flood_region_cover P base M id e i level Hw Ei Hat Hwalk Hr) as HC. rewrite E1 in HC. destruct HC as [Hk1 Hq1].
    pose proof (flood_region_spec ch Hwf Hw16 Hh16 HD P base M id e i level Hw Ei Hat Hwalk Hr) as HS. rewrite E1 in HS. destruct HS as [HS _].
    pose proof (wi_id _ _ _ _ _ Hw) as Hid.
    assert (∀ id1, winv ch P base M1 id1 → mark_new ch level stk M1 id1 = Done res → ∀ M' id', res = Some (M', id') →
      keeps (m_reg M) (m_reg M') ∧ ∀ i0, i0 ∈ idx (e :: stk) → m_reg M' !! i0 = Some 0 → ¬ ¬ blocked P (m_reg M') i0) as Hgo.
    { intros id1 Hw1 Em M' id' Er. destruct (IH M1 id1 Hw1 Hs' res Em M' id' Er) as [H1 H2].
      split; [by eapply keeps_trans|]. intros k Hk. destruct (Hidx k Hk) as [[= <-]|?]; [|by apply H2].
      intros Hz Hq. assert (¬ blocked P (m_reg M) i) as Hqi.
      { intros Hb. apply Hq. eapply blocked_mono; [|exact Hb]. by eapply keeps_trans. }
      specialize (Hq1 Hqi). destruct H1 as [_ H1]. rewrite (H1 i id Hq1 ltac:(lia)) in Hz. injection Hz as ->. lia. }
    destruct found; [|by apply (Hgo id)].
    unfold REG_MAX in E. destruct (Z.eqb_spec id 65535) as [->|Hne]; [by injection E as <-|].
    apply obind_done in E as (id1 & Eid & E). unfold reg_add, chk_u16, U16_MAX in Eid. rewrite chk_in in Eid by lia.
    injection Eid as <-. apply (Hgo (id + 1)); [|done]. apply HS. lia.
  Qed.

  (** ** Expansion *)
  Lemma expand_loop_cover P base max_iter level iter id fuel M stk :
    winv ch P base M id → (∀ e, e ∈ stk → open_ent ch M e) →
    gives (expand_loop fuel ch max_iter level iter M stk) (λ '(M', stk'),
      keeps (m_reg M) (m_reg M') ∧
      (∀ i, i ∈ idx stk → m_reg M' !! i = Some 0 → i ∈ idx stk') ∧
      (level ≤ 0 → ∀ i, i ∈ idx stk → m_reg M' !! i = Some 0 → ∀ d j, ¬ good ch M' i d j)).
  Proof.
    revert iter M stk. induction fuel as [|fuel IH]; intros iter M stk Hw Hstk; [apply gives_fuel|].
    cbn [expand_loop]. destruct stk as [|e0 stk0].
    { apply gives_done. split; [done|]. split; [done|]. intros _ i Hi. by apply elem_of_nil in Hi. }
    set (stk := e0 :: stk0) in *.
    intros [M' stk'] ([[stk1 failed] dirt] & E1 & E)%obind_done.
    apply obind_done in E as (M1 & E2 & E).
    pose proof (expand_round_spec ch Hwf Hw16 Hh16 HD P base M id stk Hw Hstk) as HS. rewrite E1 in HS.
    destruct HS as (H1 & H2 & H3 & H4 & H5 & H6).
    pose proof (wi_lenR _ _ _ _ _ Hw) as HR. pose proof (wi_lenD _ _ _ _ _ Hw) as HDl.
    assert (∀ t, t ∈ dirt → (dt_i t < n)%nat) as Hdb.
    { intros t Ht. destruct (H5 t Ht) as [H _]. unfold n. rewrite <-HR. by eapply lookup_lt_Some. }
    pose proof (apply_dirty_spec ch Hwf Hw16 Hh16 HD M dirt HR HDl Hdb) as HS. rewrite E2 in HS.
    destruct HS as (HR' & HD' & Hch).
    assert (winv ch P base M1 id) as Hw'.
    { apply (winv_grow ch HD P base M); try done. intros i Hi. destruct (Hch i) as [?|(t & Ht & <- & E3 & E4)]; [by left|].
      right. destruct (H5 t Ht) as [H7 H8]. split; [done|]. eauto. }
    assert (∀ e, e ∈ stk1 → open_ent ch M1 e) as Hstk'.
    { intros e He. destruct (H4 e He) as [[Hok Hop] Hng]. split; [done|]. intros i Ei.
      destruct (Hch i) as [[-> _]|(t & Ht & <- & _)]; [by apply Hop|].
      destruct (H5 t Ht) as [_ (d & j & x & Hg & _)]. exfalso. by eapply (Hng _ Ei). }
    assert (keeps (m_reg M) (m_reg M1)) as Hk1.
    { split; [congruence|]. intros i r Hi Hr. destruct (Hch i) as [[-> _]|(t & Ht & <- & _)]; [done|].
      destruct (H5 t Ht) as [H7 _]. congruence. }
    assert (∀ i, i ∈ idx stk → m_reg M1 !! i = Some 0 → i ∈ idx stk1) as Hin1.
    { intros i Hi Hz. destruct (H6 i Hi) as [?|Hdi]; [done|].
      pose proof (apply_dirty_hits ch Hwf Hw16 Hh16 HD M dirt i HR HDl Hdb Hdi) as HH. rewrite E2 in HH.
      destruct HH as (t & Ht & <- & Et). destruct (H5 t Ht) as [_ (d & j & x & Hg & Hj & _)].
      destruct Hg as (_ & _ & _ & r & x' & Hr & Hne & _). congruence. }
    assert (expand_loop fuel ch max_iter level iter M1 stk1 = Done (M', stk') ∨
            expand_loop fuel ch max_iter level (iter + 1) M1 stk1 = Done (M', stk') ∨
            M' = M1 ∧ stk' = stk1 ∧ (0 < level ∨ failed = length stk1)) as Hcase.
    { destruct (Nat.eqb_spec failed (length stk1)); [injection E as <- <-; right; right; by auto|].
      destruct (Z.ltb_spec 0 level); [|by auto]. destruct (max_iter <=? iter + 1); [injection E as <- <-; right; right; by auto|by auto]. }
    assert (∀ it, expand_loop fuel ch max_iter level it M1 stk1 = Done (M', stk') →
      keeps (m_reg M) (m_reg M') ∧ (∀ i, i ∈ idx stk → m_reg M' !! i = Some 0 → i ∈ idx stk') ∧
      (level ≤ 0 → ∀ i, i ∈ idx stk → m_reg M' !! i = Some 0 → ∀ d j, ¬ good ch M' i d j)) as Hrec.
    { intros it Hit. pose proof (IH it M1 stk1 Hw' Hstk' _ Hit) as (G1 & G2 & G3).
      split; [by eapply keeps_trans|]. split.
      - intros i Hi Hz. apply G2; [|done]. apply Hin1; [done|]. by eapply keeps_zero.
      - intros Hl i Hi Hz. apply G3; [done| |done]. apply Hin1; [done|]. by eapply keeps_zero. }
    destruct Hcase as [Hc|[Hc|(-> & -> & Hc)]]; [by eapply Hrec..|].
    split; [done|]. split; [done|]. intros Hl i Hi Hz d j Hg. destruct Hc as [|Hc]; [lia|].
    assert (dirt = []) as -> by (destruct dirt; [done|cbn [length] in H2; clearbody stk; lia]). cbn in E2. injection E2 as <-.
    specialize (Hin1 i Hi Hz). apply elem_of_idx in Hin1 as (e & He & Ei). destruct (H4 e He) as [_ Hng].
    by apply (Hng i Ei d j).
  Qed.

  Lemma fill_stack_cover R :
    gives (fill_stack ch 0 R) (λ stk, ∀ i, walkable_span ch i → R !! i = Some 0 → i ∈ idx stk).
  Proof.
    unfold fill_stack. eapply gives_mono.
    { apply (gives_cells (λ c stk, ∀ c' i, (c' < c)%nat → in_cell ch c' i → walkable_span ch i → R !! i = Some 0 → i ∈ idx stk)).
      { intros c' i ?. lia. }
      intros c stk Hc I. rewrite <-(cells_len ch Hwf) in Hc. destruct (lookup_lt_is_Some_2 _ _ Hc) as [cell Hcell].
      rewrite (cells_len ch Hwf) in Hc. rewrite (cell_at_some ch c cell Hc Hcell). cbn [obind].
      eapply gives_mono.
      { apply (gives_inv (λ pre stk', (∀ i, i ∈ idx stk → i ∈ idx stk') ∧
          ∀ i, i ∈ pre → walkable_span ch i → R !! i = Some 0 → i ∈ idx stk')).
        { split; [done|]. intros i Hi. by apply elem_of_nil in Hi. }
        intros pre i post stk' El [I1 I2].
        apply gives_get. intros d Hd. apply gives_get. intros r Hr. apply gives_get. intros a Ha.
        unfold REG_NONE, is_walkable, NOT_WALKABLE.
        destruct ((0 <=? d) && (r =? 0) && negb (a =? 0)) eqn:Eb; apply gives_done.
        - unfold idx in *. split.
          + intros k Hk. rewrite omap_app. apply elem_of_app. left. by apply I1.
          + intros k [Hk| ->%elem_of_list_singleton]%elem_of_app Hwk Hz; rewrite omap_app; apply elem_of_app; [left; by apply I2|right].
            cbn. left.
        - split; [done|]. intros k [Hk| ->%elem_of_list_singleton]%elem_of_app Hwk Hz; [by apply I2|].
          destruct Hwk as (a' & Ha' & Hne). pose proof (Hd0 _ _ Hd). assert (a' = a) as -> by congruence.
          assert (r = 0) as -> by congruence. lia. }
      intros stk' [J1 J2] c' i Hc' Hin Hwk Hz. destruct (decide (c' = c)) as [->|].
      - apply J2; [|done..]. destruct Hin as (cell' & Hcell' & Hi). congruence.
      - apply J1. apply (I c'); [lia|done..]. }
    intros stk H i Hwk Hz. pose proof Hwk as (a & Ha & _).
    assert (i < n)%nat as Hi by (unfold n; rewrite <-(wf_areas _ Hwf); by eapply lookup_lt_Some).
    destruct (in_cell_ex ch Hwf i Hi) as [c Hin]. apply (H c); [|done..]. by apply (in_cell_lt ch Hwf c i).
  Qed.

  Lemma drop_assigned_cover R stk :
    gives (drop_assigned R stk) (λ stk', ∀ i, i ∈ idx stk → R !! i = Some 0 → i ∈ idx stk').
  Proof.
    unfold drop_assigned. induction stk as [|e stk IH]; cbn [mapM_o].
    { apply gives_done. done. }
    intros stk' (e' & E1 & (stk1 & E2 & [= <-])%obind_done)%obind_done. specialize (IH _ E2).
    intros i (e2 & [->|He]%elem_of_cons & Ei)%elem_of_idx Hz.
    - rewrite Ei in E1. rewrite (get_some _ _ _ Hz) in E1. cbn in E1. injection E1 as <-. apply elem_of_idx.
      exists e. split; [left|done].
    - assert (i ∈ idx stk1) as Hi by (apply IH; [apply elem_of_idx; eauto|done]).
      apply elem_of_idx in Hi as (e3 & ? & ?). apply elem_of_idx. exists e3. split; [by right|done].
  Qed.

  Lemma append_stacks_cover src dst R :
    gives (append_stacks src dst R) (λ dst', ∀ i, i ∈ idx dst ∨ i ∈ idx src ∧ R !! i = Some 0 → i ∈ idx dst').
  Proof.
    unfold append_stacks. eapply gives_mono.
    { apply (gives_inv (λ pre dst', ∀ i, i ∈ idx dst ∨ i ∈ idx pre ∧ R !! i = Some 0 → i ∈ idx dst')).
      { intros i [?|[Hi _]]; [done|]. by apply elem_of_nil in Hi. }
      intros pre e post dst' El I.
      assert (∀ i, i ∈ idx (pre ++ [e]) → i ∈ idx pre ∨ e_i e = Some i) as Hsplit.
      { intros i (e' & [He'| ->%elem_of_list_singleton]%elem_of_app & Ei)%elem_of_idx; [left; apply elem_of_idx; eauto|by right]. }
      destruct (e_i e) as [i|] eqn:Ei.
      2:{ apply gives_done. intros k [Hk|[Hk Hz]]; apply I; [by left|]. destruct (Hsplit k Hk) as [?|?]; [by right|done]. }
      apply gives_get. intros r Hr. unfold REG_NONE. destruct (Z.eqb_spec r 0) as [->|Hne]; cbn [negb]; apply gives_done.
      - intros k Hk. unfold idx in *. rewrite omap_app. apply elem_of_app.
        destruct Hk as [Hk|[Hk Hz]]; [left; apply I; by left|]. destruct (Hsplit k Hk) as [?|[= <-]]; [left; apply I; by right|right].
        cbn. rewrite Ei. left.
      - intros k [Hk|[Hk Hz]]; apply I; [by left|]. destruct (Hsplit k Hk) as [?|[= <-]]; [by right|congruence]. }
    done.
  Qed.

  Definition in_stack (S : list (list entry)) (k : Z) (i : nat) : Prop :=
    ∃ stk, S !! Z.to_nat k = Some stk ∧ i ∈ idx stk.

  Lemma sort_cells_cover level R :
    gives (sort_cells_by_level ch level R) (λ S, ∀ i d, walkable_span ch i → R !! i = Some 0 → ch_dist ch !! i = Some d →
      Z.max 0 (Z.shiftr level 1 - Z.shiftr d 1) < 8 → in_stack S (Z.max 0 (Z.shiftr level 1 - Z.shiftr d 1)) i).
  Proof.
    unfold sort_cells_by_level. set (L := Z.shiftr level 1).
    assert (∀ S k st e i k', 0 ≤ k → 0 ≤ k' → S !! Z.to_nat k = Some st → in_stack S k' i →
      in_stack (<[Z.to_nat k := st ++ [e]]> S) k' i) as Hput.
    { intros S k st e i k' Hk Hk' Hst (stk & Hs & Hi). destruct (decide (k = k')) as [<-|Hne].
      - exists (st ++ [e]). rewrite list_lookup_insert by (by eapply lookup_lt_Some). split; [done|].
        unfold idx in *. rewrite omap_app. apply elem_of_app. left. congruence.
      - exists stk. rewrite list_lookup_insert_ne by lia. done. }
    eapply gives_mono.
    { apply (gives_cells (λ c S, ∀ c' i d, (c' < c)%nat → in_cell ch c' i → walkable_span ch i → R !! i = Some 0 →
        ch_dist ch !! i = Some d → Z.max 0 (L - Z.shiftr d 1) < 8 → in_stack S (Z.max 0 (L - Z.shiftr d 1)) i)).
      { intros c' i d ?. lia. }
      intros c S Hc I. rewrite <-(cells_len ch Hwf) in Hc. destruct (lookup_lt_is_Some_2 _ _ Hc) as [cell Hcell].
      rewrite (cells_len ch Hwf) in Hc. rewrite (cell_at_some ch c cell Hc Hcell). cbn [obind].
      eapply gives_mono.
      { apply (gives_inv (λ pre S', (∀ i k, 0 ≤ k → in_stack S k i → in_stack S' k i) ∧
          ∀ i d, i ∈ pre → walkable_span ch i → R !! i = Some 0 →
          ch_dist ch !! i = Some d → Z.max 0 (L - Z.shiftr d 1) < 8 → in_stack S' (Z.max 0 (L - Z.shiftr d 1)) i)).
        { split; [done|]. intros i d Hi. by apply elem_of_nil in Hi. }
        intros pre i post S' El [I1 I2].
        apply gives_get. intros a Ha. apply gives_get. intros r Hr. unfold REG_NONE, is_walkable, NOT_WALKABLE.
        destruct (negb (negb (a =? 0)) || negb (r =? 0)) eqn:Eb.
        { apply gives_done. split; [done|]. intros k d [Hk| ->%elem_of_list_singleton]%elem_of_app Hwk Hz; [by apply I2|].
          destruct Hwk as (a' & Ha' & Hne). assert (a' = a) as -> by congruence. assert (r = 0) as -> by congruence. lia. }
        apply gives_get. intros d Hd. set (k := Z.max 0 (L - Z.shiftr d 1)).
        destruct (Z.leb_spec 8 k) as [Hge|Hlt].
        { apply gives_done. split; [done|]. intros k' d' [Hk| ->%elem_of_list_singleton]%elem_of_app Hwk Hz Hd'; [by apply I2|].
          assert (d' = d) as -> by congruence. lia. }
        apply gives_get. intros st Hst. apply gives_put_end. intros Hlen. split.
        - intros i' k' Hk' Hi'. apply Hput; [lia|done|done|]. by apply I1.
        - intros i' d' [Hk| ->%elem_of_list_singleton]%elem_of_app Hwk Hz Hd' Hlt'.
          + apply Hput; [lia|lia|done|]. by apply I2.
          + assert (d' = d) as -> by congruence. fold k. exists (st ++ [Ent (c mod ch_w ch) (c / ch_w ch) (Some i)]).
            rewrite list_lookup_insert by done. split; [done|]. unfold idx. rewrite omap_app. apply elem_of_app. right. cbn. left. }
      intros S' [J1 J2] c' i d Hc' Hin Hwk Hz Hd Hlt. destruct (decide (c' = c)) as [->|].
      - apply J2; [|done..]. destruct Hin as (cell' & Hcell' & Hi). congruence.
      - apply J1; [lia|]. apply (I c'); [lia|done..]. }
    intros S H i d Hwk Hz. pose proof Hwk as (a & Ha & _).
    assert (i < n)%nat as Hi by (unfold n; rewrite <-(wf_areas _ Hwf); by eapply lookup_lt_Some).
    destruct (in_cell_ex ch Hwf i Hi) as [c Hin]. apply (H c); [|done..]. by apply (in_cell_lt ch Hwf c i).
  Qed.

  (** What the stacks hold when the loop over the levels is entered. *)
  Definition stocked (level sid : Z) (S : list (list entry)) (R : list Z) : Prop :=
    ∀ i d, walkable_span ch i → R !! i = Some 0 → ch_dist ch !! i = Some d →
      Z.max 0 (Z.shiftr level 1 - Z.shiftr d 1) ≤ 7 - sid →
      in_stack S (sid + Z.max 0 (Z.shiftr level 1 - Z.shiftr d 1)) i.

  Lemma expand_stack_cover P base max_iter level M stk id :
    winv ch P base M id → (∀ e, e ∈ stk → ent_ok ch e) →
    gives (expand_regions ch max_iter level M stk false) (λ '(M', stk'),
      keeps (m_reg M) (m_reg M') ∧ ∀ i, i ∈ idx stk → m_reg M' !! i = Some 0 → i ∈ idx stk').
  Proof.
    intros Hw Hs. unfold expand_regions. pose proof (wi_lenR _ _ _ _ _ Hw) as HR.
    intros [M' stk'] (stk0 & E0 & E)%obind_done.
    pose proof (drop_assigned_cover (m_reg M) stk stk0 E0) as H0.
    pose proof (drop_assigned_spec ch Hwf (m_reg M) stk HR Hs) as H1. rewrite E0 in H1.
    pose proof (expand_loop_cover P base max_iter level 0 id _ M stk0 Hw H1 _ E) as (H2 & H3 & _).
    split; [done|]. intros i Hi Hz. apply H3; [|done]. apply H0; [done|]. by eapply keeps_zero.
  Qed.

  Lemma level_loop_cover P base fuel level sid stacks M id :
    winv ch P base M id → stacks_ok ch stacks → -1 ≤ sid ≤ 7 → 0 < level → level mod 2 = 0 →
    (sid ≠ -1 → sid ≠ 7 → stocked level sid stacks (m_reg M)) →
    gives (level_loop fuel ch level sid stacks M id) (λ res, ∀ M' id', res = Some (M', id') →
      ∀ i, walkable_span ch i → m_reg M' !! i = Some 0 → ¬ ¬ blocked P (m_reg M') i).
  Proof.
    revert level sid stacks M id. induction fuel as [|fuel IH]; intros level sid stacks M id Hw Hs Hsid Hpos Hev HJ.
    { cbn [level_loop]. replace (0 <? level) with true by lia. apply gives_fuel. }
    cbn [level_loop]. replace (0 <? level) with true by lia.
    replace (Z.max 0 (level - 2)) with (level - 2) by lia.
    set (lv := level - 2). set (sd := (sid + 1) mod 8).
    assert (0 ≤ sd ≤ 7) as Hsd by (unfold sd; lia).
    pose proof (wi_lenR _ _ _ _ _ Hw) as HR. pose proof Hs as [Hs8 _].
    intros res (S1 & E1 & E)%obind_done.
    assert (stacks_ok ch S1 ∧ stocked lv sd S1 (m_reg M)) as [Hs1 HJ1].
    { destruct (Z.eqb_spec sd 0) as [Es|Hne].
      - split.
        + pose proof (sort_cells_spec ch Hwf HD lv (m_reg M) HR) as H. by rewrite E1 in H.
        + intros i d Hwk Hz Hd Hlt. rewrite Es in Hlt |- *. pose proof (sort_cells_cover lv (m_reg M) S1 E1 i d Hwk Hz Hd ltac:(lia)) as H.
          done.
      - assert (sd = sid + 1 ∧ 0 ≤ sid ≤ 6) as [Esd Hsid6] by (unfold sd in *; lia).
        apply obind_done in E1 as (src & Esrc%get_done & E1). apply obind_done in E1 as (dst & Edst%get_done & E1).
        apply obind_done in E1 as (dst' & Ed & [Hlt ->]%put_done).
        pose proof (append_stacks_cover src dst (m_reg M) dst' Ed) as Ha.
        pose proof (append_stacks_spec ch Hwf src dst (m_reg M) HR (stacks_get ch _ _ _ Hs Esrc) (stacks_get ch _ _ _ Hs Edst)) as Hok.
        rewrite Ed in Hok. split; [apply stacks_put; [done|done|lia|done]|].
        intros i d Hwk Hz Hd Hk. specialize (HJ ltac:(lia) ltac:(lia) i d Hwk Hz Hd).
        assert (Z.shiftr lv 1 = Z.shiftr level 1 - 1) as EL by (rewrite !Z.shiftr_div_pow2 by lia; change (2 ^ 1) with 2; unfold lv; lia).
        rewrite EL in Hk |- *. revert Hk HJ. generalize (Z.shiftr level 1) as L, (Z.shiftr d 1) as q. intros L q Hk HJ.
        destruct (decide (L ≤ q)) as [Hq|Hq].
        + replace (Z.max 0 (L - 1 - q)) with 0 by lia. replace (Z.max 0 (L - q)) with 0 in HJ by lia.
          destruct (HJ ltac:(lia)) as (stk & Hstk & Hi). rewrite Z.add_0_r in *.
          exists dst'. rewrite list_lookup_insert by lia. split; [done|]. apply Ha. right. split; [|done].
          replace (Z.to_nat sd - 1)%nat with (Z.to_nat sid) in Esrc by lia. congruence.
        + replace (Z.max 0 (L - q)) with (Z.max 0 (L - 1 - q) + 1) in HJ by lia.
          destruct (HJ ltac:(lia)) as (stk & Hstk & Hi). set (k := Z.max 0 (L - 1 - q)) in *.
          replace (sid + (k + 1)) with (sd + k) in Hstk by lia.
          destruct (decide (k = 0)) as [Ek|Ek].
          * rewrite Ek, Z.add_0_r in *. exists dst'. rewrite list_lookup_insert by lia. split; [done|]. apply Ha. left. congruence.
          * exists stk. rewrite list_lookup_insert_ne by lia. done. }
    pose proof Hs1 as [Hs18 _].
    apply obind_done in E as (stk & Estk%get_done & E). apply obind_done in E as ([M1 stk'] & E2 & E).
    pose proof (stacks_get ch _ _ _ Hs1 Estk) as Hstk.
    pose proof (expand_regions_spec ch Hwf Hw16 Hh16 HD P base 8 lv M stk false id Hw Hstk) as H2. rewrite E2 in H2.
    destruct H2 as [Hw1 Hok'].
    pose proof (expand_stack_cover P base 8 lv M stk id Hw Hstk _ E2) as [Hk1 Hst1].
    apply obind_done in E as (S2 & [Hlt2 ->]%put_done & E). apply obind_done in E as ([[M2 id2]|] & E3 & E).
    2:{ injection E as <-. done. }
    pose proof (mark_new_spec ch Hwf Hw16 Hh16 HD P base lv stk' M1 id Hw1 Hok') as Hw2. rewrite E3 in Hw2. cbn in Hw2.
    pose proof (mark_new_cover P base lv stk' M1 id Hw1 Hok' _ E3 M2 id2 eq_refl) as [Hk2 Hnew].
    pose proof (keeps_trans _ _ _ Hk1 Hk2) as Hk12.
    assert (stocked lv sd (<[Z.to_nat sd := stk']> S1) (m_reg M2)) as HJ2.
    { intros i d Hwk Hz Hd Hk. destruct (HJ1 i d Hwk ltac:(by eapply keeps_zero) Hd Hk) as (st & Hst & Hi).
      set (k := Z.max 0 _) in *. destruct (decide (k = 0)) as [Ek|Ek].
      - rewrite Ek, Z.add_0_r in *. exists stk'. rewrite list_lookup_insert by lia. split; [done|].
        apply Hst1; [congruence|]. by eapply keeps_zero.
      - exists st. rewrite list_lookup_insert_ne by lia. done. }
    destruct (decide (0 < lv)) as [Hl|Hl].
    - refine (IH lv sd _ M2 id2 Hw2 _ _ Hl _ _ res E).
      + apply stacks_put; [done|done|lia|done].
      + lia.
      + unfold lv. lia.
      + done.
    - assert (lv = 0) as Hl0 by lia.
      assert (level_loop fuel ch lv sd (<[Z.to_nat sd := stk']> S1) M2 id2 = Done (Some (M2, id2))) as El.
      { rewrite Hl0. by destruct fuel. }
      rewrite El in E. injection E as <-. intros M' id' [= <- <-] i Hwk Hz.
      assert (∃ d, ch_dist ch !! i = Some d) as [d Hd].
      { apply lookup_lt_is_Some_2. rewrite HD, <-(wf_areas _ Hwf). destruct Hwk as (a & Ha & _). by eapply lookup_lt_Some. }
      assert (Z.max 0 (Z.shiftr lv 1 - Z.shiftr d 1) = 0) as Ez.
      { rewrite Hl0. pose proof (Hd0 i d Hd). assert (0 ≤ Z.shiftr d 1) by (by apply Z.shiftr_nonneg). rewrite Z.shiftr_0_l. lia. }
      destruct (HJ2 i d Hwk Hz Hd ltac:(lia)) as (st & Hst & Hi). rewrite Ez, Z.add_0_r in Hst.
      rewrite list_lookup_insert in Hst by lia. injection Hst as <-. by apply Hnew.
  Qed.

  (** ** Nothing stays blocked *)
  (** Cells left in direction [d]. *)
  Definition room (d c : nat) : nat :=
    match d with
    | 0 => c mod w
    | 1 => h - c / w
    | 2 => w - c mod w
    | _ => c / w
    end%nat.

  Lemma room_step c i d c' j : (d < 4)%nat → in_cell ch c i → nbr ch c i d = Some (c', j) → (room d c' < room d c)%nat.
  Proof.
    intros Hd Hin Hn. pose proof (in_cell_lt ch Hwf c i Hin) as Hc. pose proof (nbr_col ch c i d c' j Hn) as Hcol.
    pose proof (in_cell_lt ch Hwf c' j (nbr_in_cell ch Hwf c i d c' j Hd Hin Hn)) as Hc'.
    destruct (cell_coords ch c' Hc') as (Hw & Hx & Hz & _).
    destruct d as [|[|[|[|d]]]]; [| | | |lia]; unfold room, w, h.
    - apply (nb_col_dir0 ch c c' Hc) in Hcol. lia.
    - apply (nb_col_dir1 ch c c' Hc) in Hcol. lia.
    - apply (nb_col_dir2 ch c c' Hc) in Hcol. lia.
    - apply (nb_col_dir3 ch c c' Hc) in Hcol. lia.
  Qed.

  (** If free spans have free neighbours only, apart from painted ones, no free
      span is blocked. *)
  Lemma blocked_absurd (P : nat → Prop) (R : list Z) (Free : nat → Prop) :
    (∀ i, Free i → R !! i = Some 0) →
    (∀ i d j, Free i → (d < 4)%nat → step ch i d j → ch_areas ch !! j = ch_areas ch !! i → ¬ P j → ¬ ¬ Free j) →
    (∀ i, Free i → ¬ ¬ blocked P R i) → ∀ i, ¬ Free i.
  Proof.
    intros Hfree Hclosed Hb.
    assert (∀ D d i j, (d ≤ D)%nat → Free i → ¬ blocked_by P R i d j) as H.
    2:{ intros i Hi. apply (Hb i Hi). intros (d & j & Hd). by apply (H d d i j). }
    induction D as [|D IHD].
    all: intros d i j Hd Hi Hbl.
    all: pose proof Hbl as (Hd4 & Hst & _).
    all: destruct (step_in_cell ch Hwf i d j Hd4 Hst) as (c & c' & Hin & Hin' & Hn).
    all: remember (room d c) as m eqn:Em.
    all: revert i j c c' Hd4 Hi Hbl Hst Hin Hin' Hn Em; induction m as [m IHm] using lt_wf_ind.
    all: intros i j c c' Hd4 Hi Hbl Hst Hin Hin' Hn Em.
    all: destruct Hbl as (_ & _ & Ha & HnP & Hbefore & Hr).
    all: apply (Hclosed i d j Hi Hd4 Hst Ha HnP); intros Hj.
    all: destruct Hr as [Hr|(k & Hk & Hak & Hr)]; [by apply Hr, Hfree|].
    all: assert (((d + 1) mod 4) < 4)%nat as Hm4 by (apply Nat.mod_upper_bound; lia).
    all: assert (¬ ¬ P k) as HPk by
      (intros HnPk; apply (Hclosed j _ k Hj Hm4 Hk ltac:(congruence) HnPk); intros Hkf; by apply Hr, Hfree).
    all: apply (Hb j Hj); intros (d2 & j2 & Hbl2).
    all: pose proof Hbl2 as (Hd24 & Hst2 & Ha2 & HnP2 & Hbefore2 & _).
    all: assert (¬ ((d + 1) mod 4 < d2)%nat) as Hlt by (intros Hlt; apply HPk; apply (Hbefore2 _ k Hlt Hk); congruence).
    all: assert (d2 ≠ (d + 1) mod 4)%nat as Hne by
      (intros ->; apply HPk; by rewrite (step_fun ch Hwf j _ k j2 Hd24 Hk Hst2)).
    all: assert (d2 ≤ d)%nat as Hle by
      (destruct (decide (d = 3)%nat) as [->|]; [change ((3 + 1) mod 4)%nat with 0%nat in *; lia|
       rewrite Nat.mod_small in Hlt, Hne by lia; lia]).
    all: destruct (step_in_cell ch Hwf j d2 j2 Hd24 Hst2) as (c1 & c2 & Hin1 & Hin2 & Hn2).
    all: pose proof (in_cell_unique ch Hwf c1 c' j Hin1 Hin') as ->.
    - assert (d2 = d) as -> by lia.
      apply (IHm (room d c') ltac:(subst m; by eapply room_step) j j2 c' c2); done.
    - destruct (decide (d2 ≤ D)%nat) as [Hs|Hs]; [by apply (IHD d2 j j2)|].
      assert (d2 = d) as -> by lia.
      apply (IHm (room d c') ltac:(subst m; by eapply room_step) j j2 c' c2); done.
  Qed.

  (** ** The whole watershed *)
  Lemma watershed_facts b M id :
    1 ≤ ch_maxdist ch → watershed ch b = Done (Some (M, id)) →
    winv ch (painted ch b) (base_id b) M id ∧
    (∀ i, walkable_span ch i → m_reg M !! i = Some 0 → ¬ ¬ blocked (painted ch b) (m_reg M) i) ∧
    (∀ i, walkable_span ch i → m_reg M !! i = Some 0 → ∀ d j, ¬ good ch M i d j).
  Proof.
    intros Hm E.
    unfold watershed in E. apply obind_done in E as (l0 & El & E). unfold chk_u16, chk, U16_MAX in El.
    destruct ((0 <=? ch_maxdist ch + 1) && (ch_maxdist ch + 1 <=? 65535)) eqn:Eb; [|done]. injection El as <-.
    assert (ch_maxdist ch < 65535) as Hm2 by lia. clear Eb.
    apply obind_done in E as ([R id0] & E0 & E).
    pose proof (paint_borders_spec ch Hwf Hw16 Hh16 HD b) as HP. change REG_NONE with 0 in E0; unfold n in *. rewrite E0 in HP. destruct HP as (HR & -> & Hp). fold (base_id b) in E.
    set (lv := Z.ldiff (ch_maxdist ch + 1) 1) in *.
    assert (lv = 2 * ((ch_maxdist ch + 1) / 2)) as Elv.
    { unfold lv. change 1 with (Z.ones 1) at 2. rewrite Z.ldiff_ones_r by lia. rewrite Z.shiftl_mul_pow2, Z.shiftr_div_pow2 by lia.
      change (2 ^ 1) with 2. lia. }
    assert (1 ≤ base_id b ≤ 5) as Hbase by (unfold base_id; destruct (0 <? b); lia).
    pose proof (winv_start ch HD b R HR Hp (base_id b) ltac:(lia)) as Hw0.
    apply obind_done in E as (res & E1 & E). destruct res as [[M1 id1]|]; [|done].
    assert (stacks_ok ch (repeat [] 8)) as Hs0.
    { split; [done|]. intros stk Hstk e He. cbn in Hstk.
      repeat (apply elem_of_cons in Hstk as [->|Hstk]; [by apply elem_of_nil in He|]). by apply elem_of_nil in Hstk. }
    pose proof (level_loop_spec ch Hwf Hw16 Hh16 HD (painted ch b) (base_id b) (Z.to_nat lv) lv (-1) (repeat [] 8) _ _ Hw0 Hs0 ltac:(lia) ltac:(lia)) as Hw1.
    rewrite E1 in Hw1. cbn in Hw1.
    pose proof (level_loop_cover (painted ch b) (base_id b) (Z.to_nat lv) lv (-1) (repeat [] 8) _ _ Hw0 Hs0 ltac:(lia) ltac:(lia) ltac:(lia) ltac:(lia) _ E1 M1 id1 eq_refl) as Hb.
    apply obind_done in E as ([M2 stk2] & E2 & E). injection E as -> <-.
    pose proof (expand_regions_spec ch Hwf Hw16 Hh16 HD (painted ch b) (base_id b) 64 0 M1 [] true id1 Hw1 ltac:(intros e He; by apply elem_of_nil in He)) as Hw2.
    rewrite E2 in Hw2. destruct Hw2 as [Hw2 _].
    unfold expand_regions in E2. apply obind_done in E2 as (stk0 & E3 & E2).
    pose proof (fill_stack_cover (m_reg M1) stk0 E3) as Hfill.
    pose proof (fill_stack_spec ch Hwf HD 0 (m_reg M1) (wi_lenR _ _ _ _ _ Hw1)) as Hok. rewrite E3 in Hok.
    pose proof (expand_loop_cover (painted ch b) (base_id b) 64 0 0 id1 _ M1 stk0 Hw1 Hok _ E2) as (Hk & _ & Hfix).
    specialize (Hfix ltac:(lia)).
    split; [done|]. split.
    - intros k Hwk Hz Hnb. apply (Hb k Hwk); [by eapply keeps_zero|]. intros Hbl. apply Hnb. by eapply blocked_mono.
    - intros k Hwk Hz. apply Hfix; [|done]. apply Hfill; [done|]. by eapply keeps_zero.
  Qed.

  Lemma watershed_cover b M id :
    1 ≤ ch_maxdist ch → Z.of_nat n < 32764 → watershed ch b = Done (Some (M, id)) →
    ∀ i, walkable_span ch i → ¬ painted ch b i → m_reg M !! i ≠ Some 0.
  Proof.
    intros Hm Hn E. destruct (watershed_facts b M id Hm E) as (Hw2 & Hb & Hfix).
    assert (1 ≤ base_id b ≤ 5) as Hbase by (unfold base_id; destruct (0 <? b); lia).
    intros i Hwk HnP Hz. revert Hwk Hz.
    assert (¬ (walkable_span ch i ∧ m_reg M !! i = Some 0)) as Hno; [|by auto].
    apply (blocked_absurd (painted ch b) (m_reg M) (λ i, walkable_span ch i ∧ m_reg M !! i = Some 0)).
    - intros k [_ ?]. done.
    - intros k d j [Hwk Hz] Hd Hst Ha HnPj Hc. apply Hc. split.
      { destruct Hwk as (a & Hka & Hne). exists a. split; [congruence|done]. }
      assert (j < n)%nat as Hjn by (by eapply (step_bound ch Hwf k d j)).
      destruct (lookup_lt_is_Some_2 (m_reg M) j) as [r Hr]. { by rewrite (wi_lenR _ _ _ _ _ Hw2). }
      destruct (decide (r = 0)) as [->|Hne]; [done|]. exfalso.
      apply (Hfix k Hwk Hz d j). split; [done|]. split; [done|]. split; [done|].
      destruct (lookup_lt_is_Some_2 (m_dist M) j) as [x Hx]. { by rewrite (wi_lenD _ _ _ _ _ Hw2). }
      exists r, x. pose proof (cnt_zero_lt _ _ Hz) as Hcnt. rewrite (wi_lenR _ _ _ _ _ Hw2) in Hcnt. fold n in Hcnt.
      pose proof (wi_dist _ _ _ _ _ Hw2 j x Hx). pose proof (wi_id _ _ _ _ _ Hw2).
      destruct (wi_dom _ _ _ _ _ Hw2 j r Hr) as [[? _]|[_ ?]]; [done|].
      split_and!; [done|done|lia|done|lia].
    - intros k [Hwk Hz]. by apply Hb.
  Qed.

  (** Without a positive distance no level is processed. *)
  Lemma watershed_flat b M id :
    ch_maxdist ch = 0 → watershed ch b = Done (Some (M, id)) → ∀ i, ¬ painted ch b i → (i < n)%nat → m_reg M !! i = Some 0.
  Proof.
    intros Hm E i HnP Hi. unfold watershed in E. rewrite Hm in E.
    change (chk_u16 (0 + 1)) with (Done 1) in E. apply obind_done in E as (l0 & El & E). injection El as <-.
    change (Z.ldiff 1 1) with 0 in E. apply obind_done in E as ([R id0] & E0 & E).
    pose proof (paint_borders_spec ch Hwf Hw16 Hh16 HD b) as HP. change REG_NONE with 0 in E0. rewrite E0 in HP. destruct HP as (HR & _ & Hp).
    apply obind_done in E as (res & El & E). cbn in El. injection El as <-.
    apply obind_done in E as ([M2 stk2] & E2 & E). injection E as <- <-.
    pose proof (winv_start ch HD b R HR Hp 1 ltac:(lia)) as Hw0.
    pose proof (expand_regions_spec ch Hwf Hw16 Hh16 HD (painted ch b) 1 64 0 _ [] true 1 Hw0 ltac:(intros e He; by apply elem_of_nil in He)) as Hw2.
    rewrite E2 in Hw2. destruct Hw2 as [Hw2 _].
    destruct (lookup_lt_is_Some_2 (m_reg M2) i) as [r Hr]. { by rewrite (wi_lenR _ _ _ _ _ Hw2). }
    rewrite Hr. destruct (wi_dom _ _ _ _ _ Hw2 i r Hr) as [[? _]|[_ ?]]; [done|]. f_equal. lia.
  Qed.
End cover.
