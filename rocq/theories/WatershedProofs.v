(** The watershed: painting, flooding and expansion. *)
From Verif Require Import Base ModelMath ModelHeightfield ModelFilters ModelCompact ModelDistance ModelRegions
  SpecHeightfield SpecCompact SpecDistance SpecRegions CompactProofs LinkProofs PackProofs
  GraphProofs SweepProofs DistanceProofs FlowProofs.
Local Open Scope Z_scope.

(** ** Border flag *)
Lemma is_border_iff r : 0 ≤ r ≤ 65535 → is_border r = (32768 <=? r).
Proof.
  intros Hr. unfold is_border, BORDER_REGION.
  assert (Z.land r 32768 = if Z.testbit r 15 then 32768 else 0) as ->.
  { apply Z.bits_inj'. intros k Hk. rewrite Z.land_spec. change 32768 with (2 ^ 15).
    rewrite Z.pow2_bits_eqb by lia.
    destruct (Z.eqb_spec 15 k) as [<-|Hne].
    - rewrite andb_true_r. destruct (Z.testbit r 15); [by rewrite Z.pow2_bits_true|by rewrite Z.testbit_0_l].
    - rewrite andb_false_r. destruct (Z.testbit r 15); [rewrite Z.pow2_bits_false by lia; done|by rewrite Z.testbit_0_l]. }
  assert (Z.testbit r 15 = (32768 <=? r)) as ->.
  { rewrite Z.testbit_odd, Z.shiftr_div_pow2 by lia. change (2 ^ 15) with 32768.
    destruct (Z.leb_spec 32768 r).
    - by replace (r / 32768) with 1 by lia.
    - by replace (r / 32768) with 0 by lia. }
  by destruct (32768 <=? r).
Qed.

(** ** Joined spans *)
Section joined.
  Context (ch : chf).
  Lemma adjacent_sym i j : adjacent ch i j → adjacent ch j i.
  Proof. intros (d & Hd & [H|H]); exists d; auto. Qed.
  Lemma joined_in (S : nat → Prop) i j : joined ch S i j → S i ∧ S j.
  Proof. induction 1; naive_solver. Qed.
  Lemma joined_mono (S T : nat → Prop) i j :
    (∀ k, S k → T k) → joined ch S i j → joined ch T i j.
  Proof. intros HST. induction 1; [constructor; auto|econstructor; eauto]. Qed.
  Lemma joined_trans (S : nat → Prop) i j k : joined ch S i j → joined ch S j k → joined ch S i k.
  Proof. induction 1; [done|]. intros. econstructor; eauto. Qed.
  Lemma joined_adj (S : nat → Prop) i j : S i → S j → adjacent ch i j → joined ch S i j.
  Proof. intros. econstructor; [done..|]. by constructor. Qed.
  Lemma joined_sym (S : nat → Prop) i j : joined ch S i j → joined ch S j i.
  Proof.
    induction 1 as [|i j k Hi Ha Hj IH]; [by constructor|].
    eapply joined_trans; [exact IH|]. apply joined_adj; [by apply joined_in in Hj as [? _]|done|by apply adjacent_sym].
  Qed.
End joined.

(** ** Counting assigned spans *)
Definition cnt (R : list Z) : Z := Z.of_nat (length (filter (λ r, r ≠ 0) R)).

Lemma cnt_cons r R : cnt (r :: R) = (if decide (r ≠ 0) then 1 else 0) + cnt R.
Proof. unfold cnt. rewrite filter_cons. case_decide; cbn [length]; lia. Qed.

Lemma cnt_bound R : 0 ≤ cnt R ≤ Z.of_nat (length R).
Proof. unfold cnt. pose proof (filter_length (λ r, r ≠ 0) R). lia. Qed.

Lemma cnt_mono R R' :
  length R = length R' → (∀ i r, R !! i = Some r → r ≠ 0 → ∃ r', R' !! i = Some r' ∧ r' ≠ 0) → cnt R ≤ cnt R'.
Proof.
  revert R'. induction R as [|r R IH]; intros [|r' R'] Hl H; try done.
  rewrite !cnt_cons. assert (cnt R ≤ cnt R').
  { apply IH; [by injection Hl|]. intros i. apply (H (S i)). }
  case_decide as Hr; [|case_decide; lia].
  destruct (H 0%nat r eq_refl Hr) as (r2 & [= <-] & Hr2). rewrite decide_True by done. lia.
Qed.

Lemma cnt_strict R R' i r' :
  length R = length R' → (∀ i r, R !! i = Some r → r ≠ 0 → ∃ r', R' !! i = Some r' ∧ r' ≠ 0) →
  R !! i = Some 0 → R' !! i = Some r' → r' ≠ 0 → cnt R + 1 ≤ cnt R'.
Proof.
  revert R' i. induction R as [|r R IH]; intros [|r2 R'] i Hl H Hi Hi' Hr'; try done.
  rewrite !cnt_cons. destruct i as [|i].
  - injection Hi as ->. injection Hi' as ->. rewrite (decide_False (P := 0 ≠ 0)) by lia.
    rewrite decide_True by done. assert (cnt R ≤ cnt R'); [|lia].
    apply cnt_mono; [by injection Hl|]. intros j. apply (H (S j)).
  - assert (cnt R + 1 ≤ cnt R').
    { apply (IH R' i); try done; [by injection Hl|]. intros j. apply (H (S j)). }
    case_decide as Hr; [|case_decide; lia].
    destruct (H 0%nat r eq_refl Hr) as (r3 & [= <-] & Hr3). rewrite decide_True by done. lia.
Qed.

Lemma cnt_zero_lt R i : R !! i = Some 0 → cnt R + 1 ≤ Z.of_nat (length R).
Proof.
  intros Hi. pose proof (cnt_strict R (<[i:=1]> R) i 1) as H.
  pose proof (cnt_bound (<[i:=1]> R)) as Hb. rewrite insert_length in Hb.
  enough (cnt R + 1 ≤ cnt (<[i:=1]> R)) by lia. apply H; [by rewrite insert_length| |done| |done].
  - intros j r Hj Hr. destruct (decide (i = j)) as [<-|]; [congruence|]. exists r.
    by rewrite list_lookup_insert_ne.
  - apply list_lookup_insert. by eapply lookup_lt_Some.
Qed.

Lemma nodup_bound (l : list nat) n : NoDup l → (∀ i, i ∈ l → (i < n)%nat) → (length l ≤ n)%nat.
Proof.
  intros Hn Hb. rewrite <-(seq_length n 0). apply submseteq_length, NoDup_submseteq; [done|].
  intros i Hi. apply elem_of_seq. specialize (Hb i Hi). lia.
Qed.

Section watershed.
  Context (ch : chf) (Hwf : wf_chf ch) (Hw16 : Z.of_nat (ch_w ch) ≤ 65535) (Hh16 : Z.of_nat (ch_h ch) ≤ 65535).
  Context (HD : length (ch_dist ch) = length (ch_spans ch)).
  Let w := ch_w ch.
  Let h := ch_h ch.
  Let n := length (ch_spans ch).

  Lemma areas_len : length (ch_areas ch) = n.
  Proof. apply (wf_areas _ Hwf). Qed.

  (** The span an entry stands for. *)
  Definition at_span (e : entry) (i : nat) : Prop :=
    ∃ c, in_cell ch c i ∧ e_x e = (c mod w)%nat ∧ e_z e = (c / w)%nat.
  Definition ent_ok (e : entry) : Prop :=
    ∀ i, e_i e = Some i → at_span e i ∧ walkable_span ch i.

  Record winv (P : nat → Prop) (base : Z) (M : marks) (id : Z) : Prop := WInv {
    wi_lenR : length (m_reg M) = n;
    wi_lenD : length (m_dist M) = n;
    wi_walk : ∀ i r, m_reg M !! i = Some r → r ≠ 0 → walkable_span ch i;
    wi_dom : ∀ i r, m_reg M !! i = Some r →
      (P i ∧ 32768 ≤ r ≤ 65535) ∨ (¬ P i ∧ 0 ≤ r < id);
    wi_area : ∀ i j r, m_reg M !! i = Some r → m_reg M !! j = Some r → r ≠ 0 → r < 32768 →
      ch_areas ch !! i = ch_areas ch !! j;
    wi_free : ∀ i j r, m_reg M !! i = Some r → m_reg M !! j = Some r → r ≠ 0 → ¬ P i → ¬ P j →
      joined ch (λ l, m_reg M !! l = Some r) i j;
    wi_low : ∀ i r, m_reg M !! i = Some r → r ≠ 0 → ¬ P i → base ≤ r;
    wi_zero : ∀ i, m_reg M !! i = Some 0 → m_dist M !! i = Some 0;
    wi_dist : ∀ i d, m_dist M !! i = Some d → 0 ≤ d ≤ 2 * cnt (m_reg M);
    wi_id : 1 ≤ base ≤ id ∧ id ≤ 65535 ∧ id ≤ base + cnt (m_reg M)
  }.

  Lemma wi_conn P base M id : winv P base M id →
    ∀ i j r, m_reg M !! i = Some r → m_reg M !! j = Some r → r ≠ 0 → r < 32768 →
    joined ch (λ l, m_reg M !! l = Some r) i j.
  Proof.
    clear HD Hw16 Hh16. intros Hw i j r Hi Hj Hr Hlt. apply (wi_free _ _ _ _ Hw); try done.
    - destruct (wi_dom _ _ _ _ Hw i r Hi) as [[_ ?]|[? _]]; [lia|done].
    - destruct (wi_dom _ _ _ _ Hw j r Hj) as [[_ ?]|[? _]]; [lia|done].
  Qed.

  Lemma winv_u16 P base M id i r : winv P base M id → m_reg M !! i = Some r → 0 ≤ r ≤ 65535.
  Proof.
    clear HD Hw16 Hh16. intros Hw Hi. pose proof (wi_id _ _ _ _ Hw). destruct (wi_dom _ _ _ _ Hw i r Hi) as [[_ ?]|[_ ?]]; lia.
  Qed.

  (** Neighbour accesses never fail. *)
  Lemma nb_ends {B A} c i d s (k : nat → nat → nat → outcome A) (k0 : outcome A) Q :
    in_cell ch c i → (d < 4)%nat → ch_spans ch !! i = Some s →
    ((∀ j, ¬ step ch i d j) → ends B k0 Q) →
    (∀ c' j, step ch i d j → in_cell ch c' j → (j < n)%nat →
       ends B (k (c' mod w)%nat (c' / w)%nat j) Q) →
    ends B (let! o := con s d in
            match o with
            | None => k0
            | Some v => let! (ax, az, ai) := nb_index ch (c mod w) (c / w) d v in k ax az ai
            end) Q.
  Proof.
    intros Hin Hd Hs H0 Hk. destruct (con_step ch Hwf Hw16 Hh16 c i d s Hin Hd Hs) as (o & -> & Ho).
    cbn [obind]. destruct o as [v|]; [|by apply H0].
    destruct Ho as (c' & j & Hst & Hin' & E). unfold w. rewrite E. cbn [obind].
    apply Hk; [done..|]. by eapply in_cell_bound.
  Qed.

  (** ** Flooding *)
  Lemma flood_foreign_safe R area region c i s ds :
    length R = n → in_cell ch c i → ch_spans ch !! i = Some s → (∀ d, d ∈ ds → (d < 4)%nat) →
    runs (flood_foreign ch R area region (c mod w) (c / w) s ds) (λ _, True).
  Proof.
    intros HR Hin Hs. induction ds as [|d ds IH]; intros Hds; [done|]. cbn [flood_foreign].
    assert (IH' := IH ltac:(intros; apply Hds; by right)). clear IH.
    apply runs_ends. apply nb_ends with (i := i); [done|apply Hds; left|done| |].
    { intros _. by apply runs_ends. }
    intros c' j Hst Hin' Hj. apply ends_get; [by rewrite areas_len|]. intros a Ha.
    destruct (negb (a =? area)); [by apply runs_ends|].
    apply ends_get; [lia|]. intros nr Hnr. destruct (is_border nr); [done|].
    destruct (negb _ && negb _); [done|]. apply ends_get; [done|]. intros sa Hsa.
    apply nb_ends with (i := j); [done|apply Nat.mod_upper_bound; lia|done| |].
    { intros _. by apply runs_ends. }
    intros c2 j2 _ Hin2 Hj2. apply ends_get; [by rewrite areas_len|]. intros a2 _.
    destruct (negb (a2 =? area)); [by apply runs_ends|]. apply ends_get; [lia|]. intros nr2 _.
    destruct (negb _ && negb _); [done|]. by apply runs_ends.
  Qed.

  Definition idx (stk : list entry) : list nat := omap e_i stk.

  Section flood.
    Context (R0 D0 : list Z) (region area : Z).
    Context (HR0 : length R0 = n) (Hreg : region ≠ 0).

    Record finv (M : marks) (stk : list entry) (acc : list nat) : Prop := FInv {
      f_lenR : length (m_reg M) = n;
      f_lenD : length (m_dist M) = n;
      f_old : ∀ i r, R0 !! i = Some r → r ≠ 0 → m_reg M !! i = Some r ∧ m_dist M !! i = D0 !! i;
      f_new : ∀ i, R0 !! i = Some 0 → m_dist M !! i = Some 0 ∧
        (m_reg M !! i = Some 0 ∧ i ∉ acc ++ idx stk ∨ m_reg M !! i = Some region ∧ i ∈ acc ++ idx stk);
      f_ent : ∀ e, e ∈ stk → ∃ i, e_i e = Some i ∧ at_span e i;
      f_all : ∀ i, i ∈ acc ++ idx stk → R0 !! i = Some 0 ∧ ch_areas ch !! i = Some area;
      f_nodup : NoDup (acc ++ idx stk);
      f_tree : ∀ i j, i ∈ acc → j ∈ acc → joined ch (λ l, l ∈ acc) i j;
      f_front : ∀ i, i ∈ idx stk → acc = [] ∨ ∃ j, j ∈ acc ∧ adjacent ch j i;
      f_first : acc = [] → (length stk ≤ 1)%nat
    }.

    Lemma finv_bound M stk acc : finv M stk acc → (length acc ≤ n)%nat.
    Proof.
      intros F. apply nodup_bound.
      - pose proof (f_nodup _ _ _ F) as Hn. by apply NoDup_app in Hn as [? _].
      - intros i Hi. destruct (f_all _ _ _ F i) as [H _]; [set_solver|].
        rewrite <-HR0. by eapply lookup_lt_Some.
    Qed.

    Lemma finv_reject M e stk acc i :
      finv M (e :: stk) acc → e_i e = Some i →
      finv (Marks (<[i := 0]> (m_reg M)) (m_dist M)) stk acc.
    Proof.
      intros F Ei. assert (Eidx : idx (e :: stk) = i :: idx stk) by (unfold idx; cbn; by rewrite Ei).
      pose proof (f_nodup _ _ _ F) as Hn. rewrite Eidx in Hn.
      assert (i ∉ acc ++ idx stk) as Hni.
      { apply NoDup_app in Hn as (_ & H1 & H2). apply NoDup_cons in H2 as [H2 _].
        intros [?|?]%elem_of_app; [|done]. apply (H1 i); [done|left]. }
      assert (R0 !! i = Some 0) as Hi0.
      { apply (f_all _ _ _ F). rewrite Eidx. set_solver. }
      assert (i < length (m_reg M))%nat as Hil.
      { rewrite (f_lenR _ _ _ F), <-HR0. by eapply lookup_lt_Some. }
      split; cbn [m_reg m_dist].
      - rewrite insert_length. apply (f_lenR _ _ _ F).
      - apply (f_lenD _ _ _ F).
      - intros j r Hj Hr. rewrite list_lookup_insert_ne by congruence. by apply (f_old _ _ _ F).
      - intros j Hj. destruct (f_new _ _ _ F j Hj) as [Hd Hc]. split; [done|].
        destruct (decide (i = j)) as [<-|Hne].
        + left. by rewrite list_lookup_insert.
        + rewrite list_lookup_insert_ne by done. rewrite Eidx in Hc. set_solver.
      - intros e' He'. apply (f_ent _ _ _ F). by right.
      - intros j Hj. apply (f_all _ _ _ F). rewrite Eidx. set_solver.
      - apply NoDup_app in Hn as (H1 & H2 & H3). apply NoDup_app. apply NoDup_cons in H3 as [_ H3].
        split_and!; [done| |done]. intros j Hj Hj2. apply (H2 j Hj). by right.
      - apply (f_tree _ _ _ F).
      - intros j Hj. apply (f_front _ _ _ F). rewrite Eidx. by right.
      - intros E. pose proof (f_first _ _ _ F E) as Hf. cbn in Hf. lia.
    Qed.

    Lemma finv_accept M e stk acc i :
      finv M (e :: stk) acc → e_i e = Some i → finv M stk (i :: acc).
    Proof.
      intros F Ei. assert (Eidx : idx (e :: stk) = i :: idx stk) by (unfold idx; cbn; by rewrite Ei).
      assert (Hp : (i :: acc) ++ idx stk ≡ₚ acc ++ idx (e :: stk)).
      { rewrite Eidx. cbn. apply Permutation_middle. }
      split.
      - apply (f_lenR _ _ _ F).
      - apply (f_lenD _ _ _ F).
      - apply (f_old _ _ _ F).
      - intros j Hj. destruct (f_new _ _ _ F j Hj) as [Hd Hc]. split; [done|]. by rewrite Hp.
      - intros e' He'. apply (f_ent _ _ _ F). by right.
      - intros j Hj. apply (f_all _ _ _ F). by rewrite <-Hp.
      - rewrite Hp. apply (f_nodup _ _ _ F).
      - assert (∀ j, j ∈ acc → joined ch (λ l, l ∈ i :: acc) i j) as Hij.
        { intros j Hj. destruct (f_front _ _ _ F i) as [E|(k & Hk & Ha)].
          { rewrite Eidx. left. }
          - rewrite E in Hj. by apply elem_of_nil in Hj.
          - econstructor; [left|by apply adjacent_sym|].
            eapply joined_mono; [|by apply (f_tree _ _ _ F)]. intros; by right. }
        intros j k [->|Hj]%elem_of_cons [->|Hk]%elem_of_cons.
        + constructor. left.
        + by apply Hij.
        + by apply joined_sym, Hij.
        + eapply joined_mono; [|by apply (f_tree _ _ _ F)]. intros; by right.
      - intros j Hj. right. destruct (f_front _ _ _ F j) as [E|(k & Hk & Ha)].
        { rewrite Eidx. by right. }
        + pose proof (f_first _ _ _ F E) as Hf. cbn in Hf. destruct stk; [|cbn in Hf; lia].
          by apply elem_of_nil in Hj.
        + exists k. split; [by right|done].
      - done.
    Qed.

    Lemma finv_push M stk acc e j k :
      finv M stk acc → e_i e = Some j → at_span e j → (j < n)%nat →
      m_reg M !! j = Some 0 → ch_areas ch !! j = Some area → k ∈ acc → adjacent ch k j →
      finv (Marks (<[j := region]> (m_reg M)) (<[j := 0]> (m_dist M))) (e :: stk) acc.
    Proof.
      intros F Ei Hat Hj Hj0 Haj Hk Ha.
      assert (Eidx : idx (e :: stk) = j :: idx stk) by (unfold idx; cbn; by rewrite Ei).
      assert (Hp : acc ++ idx (e :: stk) ≡ₚ j :: acc ++ idx stk).
      { rewrite Eidx. symmetry. apply Permutation_middle. }
      assert (R0 !! j = Some 0) as Hr0.
      { rewrite <-HR0 in Hj. destruct (lookup_lt_is_Some_2 _ _ Hj) as [r Hr].
        destruct (decide (r = 0)) as [->|Hne]; [done|]. destruct (f_old _ _ _ F j r Hr Hne). congruence. }
      assert (j ∉ acc ++ idx stk) as Hnj.
      { destruct (f_new _ _ _ F j Hr0) as [_ [[_ ?]|[? _]]]; [done|congruence]. }
      assert (j < length (m_reg M))%nat by (by rewrite (f_lenR _ _ _ F)).
      assert (j < length (m_dist M))%nat by (by rewrite (f_lenD _ _ _ F)).
      split; cbn [m_reg m_dist].
      - rewrite insert_length. apply (f_lenR _ _ _ F).
      - rewrite insert_length. apply (f_lenD _ _ _ F).
      - intros i r Hi Hr. rewrite !list_lookup_insert_ne by congruence. by apply (f_old _ _ _ F).
      - intros i Hi. destruct (f_new _ _ _ F i Hi) as [Hd Hc]. rewrite Hp.
        destruct (decide (j = i)) as [<-|Hne].
        + rewrite !list_lookup_insert by done. split; [done|]. right. split; [done|left].
        + rewrite !list_lookup_insert_ne by done. split; [done|]. set_solver.
      - intros e' [->|He']%elem_of_cons; [eauto|]. by apply (f_ent _ _ _ F).
      - intros i. rewrite Hp. intros [->|Hi]%elem_of_cons; [done|]. by apply (f_all _ _ _ F).
      - rewrite Hp. constructor; [done|]. apply (f_nodup _ _ _ F).
      - apply (f_tree _ _ _ F).
      - intros i. rewrite Eidx. intros [->|Hi]%elem_of_cons; [eauto|]. by apply (f_front _ _ _ F).
      - intros ->. by apply elem_of_nil in Hk.
    Qed.

    Lemma flood_dirs_spec level c i s M stk acc ds :
      in_cell ch c i → ch_spans ch !! i = Some s → i ∈ acc → (∀ d, d ∈ ds → (d < 4)%nat) →
      finv M stk acc →
      runs (foldM (flood_dir ch area region level (c mod w) (c / w) s) ds (M, stk))
        (λ '(M', stk'), finv M' stk' acc ∧ (length stk' ≤ length stk + length ds)%nat).
    Proof.
      intros Hin Hs Hi Hds F0. apply runs_ends.
      eapply ends_mono.
      { apply (ends_inv False (λ pre (st : marks * list entry),
          finv st.1 st.2 acc ∧ (length st.2 ≤ length stk + length pre)%nat)).
        { cbn. split; [done|lia]. }
        intros pre d post [M' stk'] -> [F Hl]. cbn [fst snd] in F, Hl. unfold flood_dir.
        assert (finv M' stk' acc ∧ (length stk' ≤ length stk + length (pre ++ [d]))%nat) as Hsame.
        { split; [done|]. rewrite app_length. cbn. lia. }
        apply nb_ends with (i := i); [done|apply Hds; set_solver|done|done|].
        intros c' j Hst Hin' Hj. apply ends_get; [by rewrite areas_len|]. intros a Ha.
        destruct (Z.eqb_spec a area) as [->|]; [|done]. cbn [negb].
        apply ends_get; [by rewrite HD|]. intros dj _.
        apply ends_get; [by rewrite (f_lenR _ _ _ F)|]. intros r Hr.
        destruct (level <=? dj); [|done]. cbn [andb]. unfold REG_NONE.
        destruct (Z.eqb_spec r 0) as [->|]; [|done].
        apply ends_put; [by rewrite (f_lenR _ _ _ F)|]. apply ends_put; [by rewrite (f_lenD _ _ _ F)|].
        cbn. split; [|rewrite app_length; cbn; lia].
        apply finv_push with (j := j) (k := i); try done.
        - exists c'. done.
        - exists d. split; [apply Hds; set_solver|]. by left. }
      intros [M' stk']. done.
    Qed.

    Lemma flood_loop_spec level fuel M stk acc :
      finv M stk acc → (length stk + 4 * (n - length acc) ≤ fuel)%nat →
      runs (flood_loop fuel ch area region level M stk (length acc))
        (λ '(M', count), ∃ acc', finv M' [] acc' ∧ count = length acc' ∧ ∀ j, j ∈ acc → j ∈ acc').
    Proof.
      revert M stk acc. induction fuel as [|fuel IH]; intros M stk acc F Hf.
      - destruct stk as [|e stk]; cbn in *; [by eauto|lia].
      - destruct stk as [|e stk]; [cbn; by eauto|]. cbn [flood_loop].
        destruct (f_ent _ _ _ F e) as (i & Ei & c & Hin & Ex & Ez); [left|]. rewrite Ei.
        destruct (in_cell_span ch Hwf c i Hin) as [s Hs]. rewrite (get_some _ _ _ Hs). cbn [obind].
        rewrite Ex, Ez. cbn [length] in Hf.
        eapply runs_bind; [apply (flood_foreign_safe _ area region c i s); try done|].
        { apply (f_lenR _ _ _ F). }
        { intros d Hd%elem_of_seq. lia. }
        intros ar _. destruct (negb (ar =? REG_NONE)).
        + rewrite put_lt by (rewrite (f_lenR _ _ _ F); by eapply in_cell_bound). cbn [obind].
          apply IH; [by eapply finv_reject|lia].
        + pose proof (finv_accept _ _ _ _ _ F Ei) as F'. pose proof (finv_bound _ _ _ F') as Hb.
          cbn [length] in Hb.
          eapply runs_bind.
          { apply (flood_dirs_spec level c i s M stk (i :: acc)); try done; [left|]. intros d Hd%elem_of_seq. lia. }
          intros [M' stk'] [F2 Hl]. cbn [length seq] in Hl.
          eapply runs_mono; [apply (IH M' stk' (i :: acc)); [done|]; cbn [length]; lia|].
          intros [M3 count] (acc' & ? & ? & Hsub). exists acc'. split; [done|]. split; [done|]. intros j Hj. apply Hsub. by right.
    Qed.
  End flood.

  Lemma finv_start P base M id e i area :
    winv P base M id → e_i e = Some i → at_span e i → m_reg M !! i = Some 0 → ch_areas ch !! i = Some area →
    finv (m_reg M) (m_dist M) id area (Marks (<[i := id]> (m_reg M)) (<[i := 0]> (m_dist M))) [e] [].
  Proof.
    intros Hw Ei Hat Hi0 Ha. pose proof Hat as (c & Hin & _).
    pose proof (in_cell_bound ch Hwf c i Hin) as Hin_n. fold n in Hin_n.
    assert (Eidx : idx [e] = [i]) by (unfold idx; cbn; by rewrite Ei).
    split; cbn [m_reg m_dist].
    - rewrite insert_length. apply (wi_lenR _ _ _ _ Hw).
    - rewrite insert_length. apply (wi_lenD _ _ _ _ Hw).
    - intros j r Hj Hr. by rewrite !list_lookup_insert_ne by congruence.
    - intros j Hj. rewrite Eidx. cbn [app]. destruct (decide (i = j)) as [<-|Hne].
      + rewrite !list_lookup_insert; [|by rewrite (wi_lenR _ _ _ _ Hw)|by rewrite (wi_lenD _ _ _ _ Hw)].
        split; [done|]. right. split; [done|left].
      + rewrite !list_lookup_insert_ne by done. split; [by apply (wi_zero _ _ _ _ Hw)|]. left. set_solver.
    - intros e' ->%elem_of_list_singleton. eauto.
    - rewrite Eidx. cbn [app]. intros j ->%elem_of_list_singleton. done.
    - rewrite Eidx. apply NoDup_singleton.
    - intros j k Hj. by apply elem_of_nil in Hj.
    - intros j _. by left.
    - cbn. lia.
  Qed.

  Lemma flood_region_spec P base M id e i level :
    winv P base M id → e_i e = Some i → at_span e i → walkable_span ch i →
    m_reg M !! i = Some 0 →
    runs (flood_region ch e level id M) (λ '(M', found),
      (if found : bool then id < 65535 → winv P base M' (id + 1) else winv P base M' id) ∧
      (found = true → cnt (m_reg M) + 1 ≤ cnt (m_reg M'))).
  Proof.
    intros Hw Ei Hat Hwalk Hi0. pose proof Hat as (c & Hin & _).
    pose proof (in_cell_bound ch Hwf c i Hin) as Hin_n. fold n in Hin_n.
    pose proof (wi_id _ _ _ _ Hw) as Hid. destruct Hwalk as (area & Ha & Hane).
    unfold flood_region. rewrite Ei. cbn [unwrap obind]. rewrite (get_some _ _ _ Ha). cbn [obind].
    rewrite !put_lt; [|by rewrite (wi_lenD _ _ _ _ Hw)|by rewrite (wi_lenR _ _ _ _ Hw)]. cbn [obind].
    set (M1 := Marks _ _).
    assert (finv (m_reg M) (m_dist M) id area M1 [e] []) as F1.
    { by apply (finv_start P base). }
    eapply runs_bind.
    { apply (λ H1 H2, flood_loop_spec (m_reg M) (m_dist M) id area H1 H2
        (Z.max 0 (level - 2)) _ M1 [e] [] F1); [apply (wi_lenR _ _ _ _ Hw)|lia|]. cbn [length]. fold n. lia. }
    intros [M' count] (acc & F & -> & _). cbn [runs].
    assert (∀ j r, m_reg M !! j = Some r → r ≠ 0 → m_reg M' !! j = Some r) as Hold.
    { intros j r Hj Hr. by apply (f_old _ _ _ _ _ _ _ F). }
    assert (∀ j r, m_reg M' !! j = Some r → r ≠ 0 → j ∈ acc ∧ r = id ∨ j ∉ acc ∧ m_reg M !! j = Some r) as Hnew.
    { intros j r Hj Hr. assert (j < length (m_reg M))%nat as Hjl.
      { rewrite (wi_lenR _ _ _ _ Hw), <-(f_lenR _ _ _ _ _ _ _ F). by eapply lookup_lt_Some. }
      destruct (lookup_lt_is_Some_2 _ _ Hjl) as [r0 Hr0].
      destruct (decide (r0 = 0)) as [->|Hne].
      - destruct (f_new _ _ _ _ _ _ _ F j Hr0) as [_ [[? _]|[? Hacc]]]; [congruence|].
        cbn in Hacc. rewrite app_nil_r in Hacc. left. split; [done|congruence].
      - right. split; [|rewrite (Hold _ _ Hr0 Hne) in Hj; congruence]. intros Hacc.
        destruct (f_all _ _ _ _ _ _ _ F j) as [? _]; [set_solver|congruence]. }
    assert (∀ j, j ∈ acc → m_reg M !! j = Some 0 ∧ m_reg M' !! j = Some id ∧ ch_areas ch !! j = Some area) as Hacc.
    { intros j Hj. destruct (f_all _ _ _ _ _ _ _ F j) as [H1 H2]; [set_solver|]. split_and!; [done| |done].
      destruct (f_new _ _ _ _ _ _ _ F j H1) as [_ [[_ ?]|[? _]]]; [set_solver|done]. }
    assert (Hmono : cnt (m_reg M) ≤ cnt (m_reg M')).
    { apply cnt_mono; [by rewrite (wi_lenR _ _ _ _ Hw), (f_lenR _ _ _ _ _ _ _ F)|]. intros j r Hj Hr. exists r. auto. }
    assert (Hstrict : acc ≠ [] → cnt (m_reg M) + 1 ≤ cnt (m_reg M')).
    { intros Hne. destruct acc as [|j acc']; [done|]. destruct (Hacc j) as (H1 & H2 & _); [left|].
      apply (cnt_strict _ _ j id); try done; [by rewrite (wi_lenR _ _ _ _ Hw), (f_lenR _ _ _ _ _ _ _ F)| |lia].
      intros k r Hk Hr. exists r. auto. }
    assert (∀ id', (id' = id ∧ acc = [] ∨ id' = id + 1 ∧ acc ≠ [] ∧ id < 65535) → winv P base M' id') as Hinv.
    { intros id' Hid'. split.
      - apply (f_lenR _ _ _ _ _ _ _ F).
      - apply (f_lenD _ _ _ _ _ _ _ F).
      - intros j r Hj Hr. destruct (Hnew j r Hj Hr) as [[Hja ->]|[_ Hj0]].
        + destruct (Hacc j Hja) as (_ & _ & H3). exists area. done.
        + by eapply (wi_walk _ _ _ _ Hw).
      - intros j r Hj. destruct (decide (r = 0)) as [->|Hr].
        + assert (j < length (m_reg M))%nat as Hjl.
          { rewrite (wi_lenR _ _ _ _ Hw), <-(f_lenR _ _ _ _ _ _ _ F). by eapply lookup_lt_Some. }
          destruct (lookup_lt_is_Some_2 _ _ Hjl) as [r0 Hr0].
          destruct (decide (r0 = 0)) as [->|Hne]; [|rewrite (Hold _ _ Hr0 Hne) in Hj; congruence].
          destruct (wi_dom _ _ _ _ Hw j 0 Hr0) as [[_ ?]|[? _]]; [lia|]. right. split; [done|]. lia.
        + destruct (Hnew j r Hj Hr) as [[Hja ->]|[_ Hj0]].
          * destruct (Hacc j Hja) as (H1 & _ & _).
            destruct (wi_dom _ _ _ _ Hw j 0 H1) as [[_ ?]|[? _]]; [lia|]. right. split; [done|].
            destruct Hid' as [[_ ->]|(-> & _)]; [by apply elem_of_nil in Hja|lia].
          * destruct (wi_dom _ _ _ _ Hw j r Hj0) as [?|[? ?]]; [by left|]. right. split; [done|]. lia.
      - intros j k r Hj Hk Hr Hb.
        destruct (Hnew j r Hj Hr) as [[Hja ->]|[_ Hj0]]; destruct (Hnew k _ Hk Hr) as [[Hka Hke]|[_ Hk0]].
        + destruct (Hacc j Hja) as (_ & _ & ->). by destruct (Hacc k Hka) as (_ & _ & ->).
        + destruct (wi_dom _ _ _ _ Hw k id Hk0) as [[_ ?]|[_ ?]]; lia.
        + subst r. destruct (wi_dom _ _ _ _ Hw j id Hj0) as [[_ ?]|[_ ?]]; lia.
        + by eapply (wi_area _ _ _ _ Hw).
      - intros j k r Hj Hk Hr HPj HPk.
        destruct (Hnew j r Hj Hr) as [[Hja ->]|[_ Hj0]]; destruct (Hnew k _ Hk Hr) as [[Hka Hke]|[_ Hk0]].
        + eapply joined_mono; [|by apply (f_tree _ _ _ _ _ _ _ F)]. cbn. intros l Hl. by destruct (Hacc l Hl) as (_ & ? & _).
        + destruct (wi_dom _ _ _ _ Hw k id Hk0) as [[? _]|[_ ?]]; [done|lia].
        + subst r. destruct (wi_dom _ _ _ _ Hw j id Hj0) as [[? _]|[_ ?]]; [done|lia].
        + eapply joined_mono; [|by apply (wi_free _ _ _ _ Hw j k r)]. cbn. auto.
      - intros j r Hj Hr HPj. destruct (Hnew j r Hj Hr) as [[Hja ->]|[_ Hj0]]; [lia|]. by apply (wi_low _ _ _ _ Hw j).
      - intros j Hj. assert (j < length (m_reg M))%nat as Hjl.
        { rewrite (wi_lenR _ _ _ _ Hw), <-(f_lenR _ _ _ _ _ _ _ F). by eapply lookup_lt_Some. }
        destruct (lookup_lt_is_Some_2 _ _ Hjl) as [r0 Hr0].
        destruct (decide (r0 = 0)) as [->|Hne]; [|rewrite (Hold _ _ Hr0 Hne) in Hj; congruence].
        by destruct (f_new _ _ _ _ _ _ _ F j Hr0).
      - intros j d Hj. assert (j < length (m_reg M))%nat as Hjl.
        { rewrite (wi_lenR _ _ _ _ Hw), <-(f_lenD _ _ _ _ _ _ _ F). by eapply lookup_lt_Some. }
        destruct (lookup_lt_is_Some_2 _ _ Hjl) as [r0 Hr0].
        destruct (decide (r0 = 0)) as [->|Hne].
        + destruct (f_new _ _ _ _ _ _ _ F j Hr0) as [E _]. pose proof (cnt_bound (m_reg M')). assert (d = 0) by congruence. lia.
        + destruct (f_old _ _ _ _ _ _ _ F j r0 Hr0 Hne) as [_ E]. rewrite E in Hj.
          pose proof (wi_dist _ _ _ _ Hw j d Hj). lia.
      - destruct Hid' as [[-> _]|(-> & Hne & Hlt)]; [lia|]. specialize (Hstrict Hne). lia. }
    destruct (Nat.ltb_spec 0 (length acc)) as [Hpos|Hpos].
    - assert (acc ≠ []) by (by destruct acc; [cbn in Hpos; lia|]). split; [|by intros _; apply Hstrict].
      intros Hlt. apply Hinv. right. split_and!; [lia|done|done].
    - assert (acc = []) by (destruct acc; [done|cbn in Hpos; lia]). split; [|done]. apply Hinv. by left.
  Qed.

  Lemma mark_new_spec P base level stk M id :
    winv P base M id → (∀ e, e ∈ stk → ent_ok e) →
    runs (mark_new ch level stk M id) (λ res,
      match res with
      | None => 65535 ≤ base + Z.of_nat n
      | Some (M', id') => winv P base M' id'
      end).
  Proof.
    revert M id. induction stk as [|e stk IH]; intros M id Hw Hs; [done|]. cbn [mark_new].
    assert (∀ e', e' ∈ stk → ent_ok e') as Hs' by (intros; apply Hs; by right).
    destruct (e_i e) as [i|] eqn:Ei; [|by apply IH].
    destruct (Hs e ltac:(left) i Ei) as [Hat Hwalk]. pose proof Hat as (c & Hin & _).
    assert (i < length (m_reg M))%nat as Hi.
    { rewrite (wi_lenR _ _ _ _ Hw). by eapply in_cell_bound. }
    destruct (get_lt _ _ Hi) as (r & -> & Hr). cbn [obind]. unfold REG_NONE.
    destruct (Z.eqb_spec r 0) as [->|]; cbn [negb]; [|by apply IH].
    eapply runs_bind; [by apply (flood_region_spec P base M id e i level)|].
    intros [M' found] [Hf Hc]. pose proof (wi_id _ _ _ _ Hw) as Hid. destruct found; [|by apply IH].
    unfold REG_MAX. destruct (Z.eqb_spec id 65535) as [->|Hne].
    - cbn. specialize (Hc eq_refl). pose proof (cnt_zero_lt _ _ Hr) as Hb. rewrite (wi_lenR _ _ _ _ Hw) in Hb. lia.
    - unfold reg_add, chk_u16, U16_MAX. rewrite chk_in by lia. cbn [obind]. apply IH; [|done]. apply Hf. lia.
  Qed.

  (** ** Expansion *)
  Definition good (M : marks) (i d j : nat) : Prop :=
    (d < 4)%nat ∧ step ch i d j ∧ ch_areas ch !! j = ch_areas ch !! i ∧
    ∃ r x, m_reg M !! j = Some r ∧ r ≠ 0 ∧ r < 32768 ∧ m_dist M !! j = Some x ∧ x + 2 < 65535.

  (** What span [i] takes over. *)
  Definition taken (M : marks) (i : nat) (r d2 : Z) : Prop :=
    ∃ d j x, good M i d j ∧ m_reg M !! j = Some r ∧ m_dist M !! j = Some x ∧ d2 = x + 2.

  Lemma winv_grow P base M M' id :
    winv P base M id → length (m_reg M') = n → length (m_dist M') = n →
    (∀ i, (i < n)%nat →
       (m_reg M' !! i = m_reg M !! i ∧ m_dist M' !! i = m_dist M !! i) ∨
       (m_reg M !! i = Some 0 ∧ ∃ r d2, taken M i r d2 ∧ m_reg M' !! i = Some r ∧ m_dist M' !! i = Some d2)) →
    winv P base M' id.
  Proof.
    intros Hw HlR HlD Hch.
    assert (Hlt : ∀ i r, m_reg M' !! i = Some r → (i < n)%nat).
    { intros i r Hi. rewrite <-HlR. by eapply lookup_lt_Some. }
    assert (Hkeep : ∀ i r, m_reg M !! i = Some r → r ≠ 0 → m_reg M' !! i = Some r).
    { intros i r Hi Hr. assert (i < n)%nat as Hn.
      { rewrite <-(wi_lenR _ _ _ _ Hw). by eapply lookup_lt_Some. }
      destruct (Hch i Hn) as [[-> _]|[? _]]; [done|congruence]. }
    assert (Hfrom : ∀ i r, m_reg M' !! i = Some r → r ≠ 0 →
      m_reg M !! i = Some r ∨
      (m_reg M !! i = Some 0 ∧ r < 32768 ∧ ∃ j, adjacent ch i j ∧ ch_areas ch !! j = ch_areas ch !! i ∧ m_reg M !! j = Some r)).
    { intros i r Hi Hr. destruct (Hch i (Hlt _ _ Hi)) as [[<- _]|(H0 & r' & d2 & (d & j & x & Hg & Hj & _) & Hr' & _)]; [by left|].
      right. assert (r' = r) as -> by congruence. destruct Hg as (Hd & Hst & Ha & r3 & x3 & H3 & _ & Hb & _).
      split_and!; [done|congruence|]. exists j. split_and!; [|done|done]. exists d. split; [done|by left]. }
    assert (Hmono : cnt (m_reg M) ≤ cnt (m_reg M')).
    { apply cnt_mono; [by rewrite (wi_lenR _ _ _ _ Hw), HlR|]. intros i r Hi Hr. eauto. }
    split; [done|done|..].
    - intros i r Hi Hr. destruct (Hfrom i r Hi Hr) as [H|(_ & _ & j & _ & Ha & Hj)].
      + by eapply (wi_walk _ _ _ _ Hw).
      + destruct (wi_walk _ _ _ _ Hw j r Hj Hr) as (a & Ha' & Hne). exists a. split; [congruence|done].
    - intros i r Hi. destruct (Hch i (Hlt _ _ Hi)) as [[E _]|(H0 & r' & d2 & (d & j & x & Hg & Hj & _) & Hr' & _)].
      + apply (wi_dom _ _ _ _ Hw). congruence.
      + assert (r' = r) as -> by congruence. destruct Hg as (Hd & Hst & Ha & r3 & x3 & H3 & Hr3 & Hb & _).
        assert (r3 = r) as -> by congruence. right.
        destruct (wi_dom _ _ _ _ Hw i 0 H0) as [[_ ?]|[HP _]]; [lia|].
        destruct (wi_dom _ _ _ _ Hw j r Hj) as [[_ ?]|[_ ?]]; [lia|]. split; [done|]. lia.
    - assert (∀ i r, m_reg M' !! i = Some r → r ≠ 0 → ∃ i', m_reg M !! i' = Some r ∧ ch_areas ch !! i' = ch_areas ch !! i) as Hrep.
      { intros i r Hi Hr. destruct (Hfrom i r Hi Hr) as [H|(_ & _ & j & _ & Ha & Hj)]; eauto. }
      intros i j r Hi Hj Hr Hb. destruct (Hrep i r Hi Hr) as (i' & Hi' & <-). destruct (Hrep j r Hj Hr) as (j' & Hj' & <-).
      by eapply (wi_area _ _ _ _ Hw).
    - assert (∀ i r, m_reg M' !! i = Some r → r ≠ 0 → ¬ P i →
        ∃ i', m_reg M !! i' = Some r ∧ ¬ P i' ∧ joined ch (λ l, m_reg M' !! l = Some r) i i') as Hrep.
      { intros i r Hi Hr HP. destruct (Hfrom i r Hi Hr) as [H|(_ & Hb & j & Hadj & _ & Hj)].
        - exists i. split; [done|]. split; [done|]. by constructor.
        - exists j. split; [done|]. split; [|apply joined_adj; auto].
          destruct (wi_dom _ _ _ _ Hw j r Hj) as [[_ ?]|[? _]]; [lia|done]. }
      intros i j r Hi Hj Hr HPi HPj. destruct (Hrep i r Hi Hr HPi) as (i' & Hi' & HPi' & J1). destruct (Hrep j r Hj Hr HPj) as (j' & Hj' & HPj' & J2).
      eapply joined_trans; [exact J1|]. eapply joined_trans; [|apply joined_sym; exact J2].
      eapply joined_mono; [|by apply (wi_free _ _ _ _ Hw i' j' r)]. cbn. auto.
    - intros i r Hi Hr HP. destruct (Hfrom i r Hi Hr) as [H|(_ & Hb & j & _ & _ & Hj)]; [by apply (wi_low _ _ _ _ Hw i)|].
      apply (wi_low _ _ _ _ Hw j); [done|done|]. destruct (wi_dom _ _ _ _ Hw j r Hj) as [[_ ?]|[? _]]; [lia|done].
    - intros i Hi. destruct (Hch i (Hlt _ _ Hi)) as [[E1 E2]|(H0 & r' & d2 & (d & j & x & Hg & Hj & _) & Hr' & _)].
      + rewrite E2. apply (wi_zero _ _ _ _ Hw). congruence.
      + destruct Hg as (_ & _ & _ & r3 & x3 & H3 & Hr3 & _). congruence.
    - intros i d Hi. assert (i < n)%nat as Hn by (rewrite <-HlD; by eapply lookup_lt_Some).
      destruct (Hch i Hn) as [[E1 E2]|(H0 & r' & d2 & (d' & j & x & Hg & Hj & Hx & ->) & Hr' & Hd')].
      + rewrite E2 in Hi. pose proof (wi_dist _ _ _ _ Hw i d Hi). lia.
      + destruct Hg as (_ & _ & _ & r3 & x3 & H3 & Hr3 & _). assert (r3 = r') as -> by congruence.
        assert (cnt (m_reg M) + 1 ≤ cnt (m_reg M')).
        { apply (cnt_strict _ _ i r'); try done; [by rewrite (wi_lenR _ _ _ _ Hw), HlR|]. intros k r Hk Hr. eauto. }
        pose proof (wi_dist _ _ _ _ Hw j x Hx). assert (d = x + 2) by congruence. lia.
    - pose proof (wi_id _ _ _ _ Hw). lia.
  Qed.

  Definition B : Prop := 32768 ≤ Z.of_nat n.

  Lemma expand_dirs_spec P base M id c i s a :
    winv P base M id → in_cell ch c i → ch_spans ch !! i = Some s → ch_areas ch !! i = Some a →
    m_reg M !! i = Some 0 →
    ends B (foldM (expand_dir ch M (c mod w) (c / w) s a) (seq 0 4) (0, 65535)) (λ '(r, d2),
      (r = 0 ∧ ∀ d j, ¬ good M i d j) ∨ (r ≠ 0 ∧ taken M i r d2)).
  Proof.
    intros Hw Hin Hs Ha H0. eapply ends_mono.
    { apply (ends_seq_inv B (λ k (rd : Z * Z),
        (rd.1 = 0 ∧ rd.2 = 65535 ∧ ∀ d j, (d < k)%nat → ¬ good M i d j) ∨
        (rd.1 ≠ 0 ∧ taken M i rd.1 rd.2)) _ 0 4).
      - left. cbn. split_and!; [done..|]. lia.
      - intros d [r d2] Hd I. cbn [fst snd] in I. unfold expand_dir.
        assert ((∀ j, ¬ good M i d j) → ((r = 0 ∧ d2 = 65535 ∧ ∀ d' j, (d' < d + 1)%nat → ¬ good M i d' j) ∨
           (r ≠ 0 ∧ taken M i r d2))) as Hkeep.
        { intros Hng. destruct I as [(-> & -> & I)|I]; [left|by right]. split_and!; [done..|].
          intros d' j Hd'. destruct (decide (d' = d)) as [->|]; [apply Hng|]. apply I. lia. }
        apply nb_ends with (i := i); [done|lia|done| |].
        { intros Hno. cbn. apply Hkeep. intros j (_ & Hst & _). by apply (Hno j). }
        intros c' j Hst Hin' Hj.
        assert (∀ j', good M i d j' → j' = j) as Huniq.
        { intros j' (Hd4 & Hst' & _). by eapply (step_fun ch Hwf i d). }
        apply ends_get; [by rewrite areas_len|]. intros aj Haj.
        destruct (Z.eqb_spec aj a) as [->|Hne]; cbn [negb].
        2:{ cbn. apply Hkeep. intros j' Hg. pose proof (Huniq _ Hg) as ->. destruct Hg as (_ & _ & E & _). congruence. }
        apply ends_get; [by rewrite (wi_lenR _ _ _ _ Hw)|]. intros ar Har.
        apply ends_get; [by rewrite (wi_lenD _ _ _ _ Hw)|]. intros ad Had.
        pose proof (wi_dist _ _ _ _ Hw j ad Had) as Hadb. pose proof (cnt_zero_lt _ _ H0) as Hcb.
        rewrite (wi_lenR _ _ _ _ Hw) in Hcb. fold n in Hcb.
        unfold chk_u16, chk, U16_MAX.
        destruct ((0 <=? ad + 2) && (ad + 2 <=? 65535)) eqn:Echk.
        2:{ cbn. unfold B. lia. }
        cbn [obind]. unfold REG_NONE.
        rewrite is_border_iff by (by eapply winv_u16). cbn [fst snd].
        destruct (negb (ar =? 0) && negb (32768 <=? ar) && (ad + 2 <? d2)) eqn:Eb.
        + cbn. right. split; [lia|]. exists d, j, ad. split_and!; [|done|done|done].
          split; [lia|]. split; [done|]. split; [congruence|]. exists ar, ad. split_and!; [done|lia|lia|done|].
          destruct I as [(_ & -> & _)|(_ & d' & j' & x' & (_ & _ & _ & r3 & x3 & _ & _ & _ & Hx3 & Hlt) & _ & Hx' & ->)]; [lia|].
          assert (x3 = x') as -> by congruence. lia.
        + cbn. destruct I as [(-> & -> & I)|I]; [|by right]. apply Hkeep. intros j' Hg. pose proof (Huniq _ Hg) as ->.
          destruct Hg as (_ & _ & _ & r3 & x3 & Hr3 & Hne3 & Hb3 & Hx3 & Hlt).
          assert (r3 = ar) as -> by congruence. assert (x3 = ad) as -> by congruence. lia. }
    intros [r d2] [(E1 & _ & I)|I]; cbn [fst snd] in *; [left|by right].
    split; [done|]. intros d j Hg. apply (I d j); [|done]. by destruct Hg.
  Qed.

  Definition open_ent (M : marks) (e : entry) : Prop :=
    ent_ok e ∧ ∀ i, e_i e = Some i → m_reg M !! i = Some 0.

  Lemma expand_round_spec P base M id stk :
    winv P base M id → (∀ e, e ∈ stk → open_ent M e) →
    ends B (foldM (expand_entry ch M) stk ([], 0%nat, [])) (λ '(stk', failed, dirt),
      length stk' = length stk ∧ (failed + length dirt = length stk)%nat ∧
      (length (idx stk') + length dirt = length (idx stk))%nat ∧
      (∀ e, e ∈ stk' → open_ent M e ∧ ∀ i, e_i e = Some i → ∀ d j, ¬ good M i d j) ∧
      (∀ t, t ∈ dirt → m_reg M !! dt_i t = Some 0 ∧ taken M (dt_i t) (dt_reg t) (dt_dist t)) ∧
      (∀ i, i ∈ idx stk → i ∈ idx stk' ∨ ∃ t, t ∈ dirt ∧ dt_i t = i)).
  Proof.
    intros Hw Hstk. eapply ends_mono.
    { apply (ends_inv B (λ pre (st : list entry * nat * list dirty),
        length st.1.1 = length pre ∧ (st.1.2 + length st.2 = length pre)%nat ∧
        (length (idx st.1.1) + length st.2 = length (idx pre))%nat ∧
        (∀ e, e ∈ st.1.1 → open_ent M e ∧ ∀ i, e_i e = Some i → ∀ d j, ¬ good M i d j) ∧
        (∀ t, t ∈ st.2 → m_reg M !! dt_i t = Some 0 ∧ taken M (dt_i t) (dt_reg t) (dt_dist t)) ∧
        (∀ i, i ∈ idx pre → i ∈ idx st.1.1 ∨ ∃ t, t ∈ st.2 ∧ dt_i t = i))).
      - cbn. split_and!; [done..| | |]; intros ? ?%elem_of_nil; done.
      - intros pre e post [[stk' failed] dirt] El (I1 & I2 & I3 & I4 & I5 & I6). cbn [fst snd] in *.
        destruct (Hstk e) as [Hok Hopen]; [rewrite El; set_solver|].
        unfold expand_entry. destruct (e_i e) as [i|] eqn:Ei.
        2:{ cbn. rewrite !app_length. cbn [length]. unfold idx in *. rewrite !omap_app. cbn. rewrite Ei, !app_nil_r.
            split_and!; [lia|lia|done| |done|done].
            intros e' [He'| ->%elem_of_list_singleton]%elem_of_app; [by apply I4|]. split; [split; [done|congruence]|congruence]. }
        specialize (Hopen i eq_refl). destruct (Hok i Ei) as [(c & Hin & Ex & Ez) Hwalk].
        rewrite (get_some _ _ _ Hopen). cbn [obind].
        destruct (in_cell_span ch Hwf c i Hin) as [s Hs]. destruct Hwalk as (a & Ha & Hane).
        rewrite (get_some _ _ _ Ha), (get_some _ _ _ Hs). cbn [obind]. rewrite Ex, Ez.
        eapply ends_bind; [by apply (expand_dirs_spec P base M id c i s a)|].
        intros [r d2] [[-> Hng]|[Hr Ht]]; unfold REG_NONE.
        + cbn. rewrite !app_length. cbn [length]. unfold idx in *. rewrite !omap_app, !app_length. cbn. rewrite Ei. cbn.
          split_and!; [lia|lia|lia| |done|].
          * intros e' [He'| ->%elem_of_list_singleton]%elem_of_app; [by apply I4|].
            split; [split; [done|]|]; rewrite Ei; intros ? [= <-]; [done|by apply Hng].
          * intros k [Hk|Hk]%elem_of_app; [|left; set_solver]. destruct (I6 k Hk) as [?|?]; [left; set_solver|by right].
        + replace (r =? 0) with false by lia. cbn. rewrite !app_length. cbn [length].
          unfold idx in *. rewrite !omap_app, !app_length. cbn. rewrite Ei. cbn.
          split_and!; [lia|lia|lia| | |].
          * intros e' [He'| ->%elem_of_list_singleton]%elem_of_app; [by apply I4|]. done.
          * intros t [Ht'| ->%elem_of_list_singleton]%elem_of_app; [by apply I5|]. done.
          * intros k [Hk| ->%elem_of_list_singleton]%elem_of_app; [|right; eexists; split; [by apply elem_of_app; right; left|done]].
            destruct (I6 k Hk) as [?|(t & ? & ?)]; [left; set_solver|right]. exists t. set_solver. }
    intros [[stk' failed] dirt]. done.
  Qed.

  Lemma apply_dirty_spec M dirt :
    length (m_reg M) = n → length (m_dist M) = n → (∀ t, t ∈ dirt → (dt_i t < n)%nat) →
    runs (foldM apply_dirty dirt M) (λ M', length (m_reg M') = n ∧ length (m_dist M') = n ∧
      ∀ i, (m_reg M' !! i = m_reg M !! i ∧ m_dist M' !! i = m_dist M !! i) ∨
        ∃ t, t ∈ dirt ∧ dt_i t = i ∧ m_reg M' !! i = Some (dt_reg t) ∧ m_dist M' !! i = Some (dt_dist t)).
  Proof.
    intros HR HlD Hd.
    apply (foldM_inv (λ pre M', length (m_reg M') = n ∧ length (m_dist M') = n ∧
      ∀ i, (m_reg M' !! i = m_reg M !! i ∧ m_dist M' !! i = m_dist M !! i) ∨
        ∃ t, t ∈ pre ∧ dt_i t = i ∧ m_reg M' !! i = Some (dt_reg t) ∧ m_dist M' !! i = Some (dt_dist t))).
    - split_and!; [done..|]. intros i. by left.
    - intros pre t post M' El (H1 & H2 & H3). unfold apply_dirty.
      assert (dt_i t < n)%nat by (apply Hd; rewrite El; set_solver).
      rewrite !put_lt by lia. cbn [obind runs m_reg m_dist]. rewrite !insert_length. split_and!; [done..|].
      intros i. destruct (decide (dt_i t = i)) as [<-|Hne].
      + right. exists t. rewrite !list_lookup_insert by lia. split_and!; [set_solver|done..].
      + rewrite !list_lookup_insert_ne by done. destruct (H3 i) as [?|(t' & ? & ?)]; [by left|].
        right. exists t'. split; [set_solver|done].
  Qed.

  Lemma apply_dirty_hits M dirt i :
    length (m_reg M) = n → length (m_dist M) = n → (∀ t, t ∈ dirt → (dt_i t < n)%nat) → (∃ t, t ∈ dirt ∧ dt_i t = i) →
    runs (foldM apply_dirty dirt M) (λ M', ∃ t, t ∈ dirt ∧ dt_i t = i ∧ m_reg M' !! i = Some (dt_reg t)).
  Proof.
    intros HR HlD Hd (t0 & Ht0 & E0). eapply runs_mono.
    { apply (foldM_inv (λ pre M', length (m_reg M') = n ∧ length (m_dist M') = n ∧
        ((∃ t, t ∈ pre ∧ dt_i t = i) → ∃ t, t ∈ pre ∧ dt_i t = i ∧ m_reg M' !! i = Some (dt_reg t)))).
      - split_and!; [done..|]. intros (t & ?%elem_of_nil & _). done.
      - intros pre t post M' El (H1 & H2 & H3). unfold apply_dirty.
        assert (dt_i t < n)%nat by (apply Hd; rewrite El; set_solver).
        rewrite !put_lt by lia. cbn [obind runs m_reg m_dist]. rewrite !insert_length. split_and!; [done..|].
        intros (t' & Ht' & Et'). destruct (decide (dt_i t = i)) as [<-|Hne].
        + exists t. rewrite list_lookup_insert by lia. split_and!; [set_solver|done..].
        + rewrite list_lookup_insert_ne by done. destruct H3 as (t2 & ? & ? & ?).
          { exists t'. split; [|done]. apply elem_of_app in Ht' as [?| ->%elem_of_list_singleton]; [done|congruence]. }
          exists t2. split; [set_solver|done]. }
    intros M' (_ & _ & H). apply H. eauto.
  Qed.

  Lemma expand_loop_spec P base max_iter level iter id fuel M stk :
    winv P base M id → (∀ e, e ∈ stk → open_ent M e) → (length (idx stk) < fuel)%nat →
    ends B (expand_loop fuel ch max_iter level iter M stk) (λ '(M', stk'),
      winv P base M' id ∧ ∀ e, e ∈ stk' → ent_ok e).
  Proof.
    revert iter M stk. induction fuel as [|fuel IH]; intros iter M stk Hw Hstk Hf; [lia|].
    cbn [expand_loop]. destruct stk as [|e0 stk0]; [cbn; split; [done|]; intros ? ?%elem_of_nil; done|].
    set (stk := e0 :: stk0) in *.
    eapply ends_bind; [by apply (expand_round_spec P base M id)|].
    intros [[stk' failed] dirt] (H1 & H2 & H3 & H4 & H5 & _).
    assert (∀ t, t ∈ dirt → (dt_i t < n)%nat) as Hdb.
    { intros t Ht. destruct (H5 t Ht) as [H _]. rewrite <-(wi_lenR _ _ _ _ Hw). by eapply lookup_lt_Some. }
    eapply ends_bind.
    { apply ends_runs, (apply_dirty_spec M dirt); [apply (wi_lenR _ _ _ _ Hw)|apply (wi_lenD _ _ _ _ Hw)|done]. }
    intros M' (HR' & HD' & Hch).
    assert (winv P base M' id) as Hw'.
    { apply (winv_grow P base M); try done. intros i Hi. destruct (Hch i) as [?|(t & Ht & <- & E1 & E2)]; [by left|].
      right. destruct (H5 t Ht) as [H6 H7]. split; [done|]. eauto. }
    assert (∀ e, e ∈ stk' → open_ent M' e) as Hstk'.
    { intros e He. destruct (H4 e He) as [[Hok Hop] Hng]. split; [done|]. intros i Ei.
      destruct (Hch i) as [[-> _]|(t & Ht & <- & _)]; [by apply Hop|].
      destruct (H5 t Ht) as [_ (d & j & x & Hg & _)]. exfalso. by eapply (Hng _ Ei). }
    assert (∀ e, e ∈ stk' → ent_ok e) as Hok' by (intros e He; by apply Hstk').
    destruct (Nat.eqb_spec failed (length stk')) as [|Hne]; [done|].
    assert (length (idx stk') < fuel)%nat by lia.
    destruct (0 <? level); [destruct (max_iter <=? iter + 1); [done|]|]; by apply IH.
  Qed.

  Lemma fill_stack_spec level R :
    length R = n →
    runs (fill_stack ch level R) (λ stk, ∀ e, e ∈ stk → ent_ok e ∧ ∀ i, e_i e = Some i → R !! i = Some 0).
  Proof.
    intros HR. apply runs_ends. unfold fill_stack.
    apply (ends_cells False (λ _ stk, ∀ e, e ∈ stk → ent_ok e ∧ ∀ i, e_i e = Some i → R !! i = Some 0)).
    { intros e ?%elem_of_nil. done. }
    intros c stk Hc I. rewrite <-(cells_len ch Hwf) in Hc. destruct (lookup_lt_is_Some_2 _ _ Hc) as [cell Hcell].
    rewrite (cells_len ch Hwf) in Hc. rewrite (cell_at_some ch c cell Hc Hcell). cbn [obind].
    apply ends_keep; [done|]. intros i stk' Hi I'.
    assert (in_cell ch c i) as Hin by (by exists cell).
    pose proof (in_cell_bound ch Hwf c i Hin) as Hb. fold n in Hb.
    apply ends_get; [by rewrite HD|]. intros d _. apply ends_get; [lia|]. intros r Hr.
    apply ends_get; [by rewrite areas_len|]. intros a Ha. unfold REG_NONE, is_walkable.
    destruct ((level <=? d) && (r =? 0) && _) eqn:Eb; [|done]. cbn.
    intros e [He| ->%elem_of_list_singleton]%elem_of_app; [by apply I'|].
    apply andb_prop in Eb as [Eb E3]. apply andb_prop in Eb as [_ E2]. apply Z.eqb_eq in E2. subst r.
    split.
    - intros ? [= <-]. split; [by exists c|]. exists a. split; [done|]. unfold NOT_WALKABLE in E3. lia.
    - by intros ? [= <-].
  Qed.

  Lemma drop_assigned_spec R stk :
    length R = n → (∀ e, e ∈ stk → ent_ok e) →
    runs (drop_assigned R stk) (λ stk', ∀ e, e ∈ stk' → ent_ok e ∧ ∀ i, e_i e = Some i → R !! i = Some 0).
  Proof.
    intros HR Hs. apply runs_ends. unfold drop_assigned. eapply ends_mono.
    { apply (ends_mapM False _ stk (λ _ e, ent_ok e ∧ ∀ i, e_i e = Some i → R !! i = Some 0)).
      intros k e He. assert (ent_ok e) as Hok by (apply Hs; by eapply elem_of_list_lookup_2).
      destruct (e_i e) as [i|] eqn:Ei; [|cbn; split; [done|congruence]].
      destruct (Hok i Ei) as [(c & Hin & _) _].
      apply ends_get; [rewrite HR; by eapply in_cell_bound|]. intros r Hr. unfold REG_NONE.
      destruct (Z.eqb_spec r 0) as [->|]; cbn; [|done]. split; [done|]. congruence. }
    intros stk' [_ H] e [k He]%elem_of_list_lookup. by apply (H k).
  Qed.

  Lemma expand_regions_spec P base max_iter level M stk fill id :
    winv P base M id → (∀ e, e ∈ stk → ent_ok e) →
    ends B (expand_regions ch max_iter level M stk fill) (λ '(M', stk'),
      winv P base M' id ∧ ∀ e, e ∈ stk' → ent_ok e).
  Proof.
    intros Hw Hs. unfold expand_regions. pose proof (wi_lenR _ _ _ _ Hw) as HR.
    eapply (ends_bind B _ _ (λ stk0, ∀ e, e ∈ stk0 → open_ent M e)).
    { apply ends_runs. destruct fill; [by apply fill_stack_spec|by apply drop_assigned_spec]. }
    intros stk0 Hs0. apply expand_loop_spec; [done..|]. unfold idx.
    assert (∀ l : list entry, (length (omap e_i l) ≤ length l)%nat) as Hle.
    { induction l as [|e l IH]; [done|]. cbn. destruct (e_i e); cbn; lia. }
    specialize (Hle stk0). lia.
  Qed.

  (** ** Levels *)
  Definition stacks_ok (S : list (list entry)) : Prop :=
    length S = 8%nat ∧ ∀ stk, stk ∈ S → ∀ e, e ∈ stk → ent_ok e.

  Lemma sort_cells_spec level R :
    length R = n → runs (sort_cells_by_level ch level R) stacks_ok.
  Proof.
    intros HR. apply runs_ends. unfold sort_cells_by_level.
    apply (ends_cells False (λ _, stacks_ok)).
    { split; [done|]. intros stk Hstk e He. cbn in Hstk. repeat (apply elem_of_cons in Hstk as [->|Hstk]; [by apply elem_of_nil in He|]).
      by apply elem_of_nil in Hstk. }
    intros c stk Hc I. rewrite <-(cells_len ch Hwf) in Hc. destruct (lookup_lt_is_Some_2 _ _ Hc) as [cell Hcell].
    rewrite (cells_len ch Hwf) in Hc. rewrite (cell_at_some ch c cell Hc Hcell). cbn [obind].
    apply ends_keep; [done|]. intros i S Hi [I1 I2].
    assert (in_cell ch c i) as Hin by (by exists cell).
    pose proof (in_cell_bound ch Hwf c i Hin) as Hb. fold n in Hb.
    apply ends_get; [by rewrite areas_len|]. intros a Ha. apply ends_get; [lia|]. intros r Hr. unfold is_walkable.
    destruct (negb _ || negb _) eqn:Eb; [done|]. apply orb_false_elim in Eb as [E1 _].
    apply ends_get; [by rewrite HD|]. intros d _.
    destruct (Z.leb_spec 8 (Z.max 0 (Z.shiftr level 1 - Z.shiftr d 1))) as [|Hlt]; [done|].
    set (sid := Z.max 0 _) in *. assert (0 ≤ sid) by lia. clearbody sid.
    apply ends_get; [lia|]. intros st Hst. rewrite put_lt by lia. cbn. split; [by rewrite insert_length|].
    intros stk' [k Hk]%elem_of_list_lookup e He.
    destruct (decide (Z.to_nat sid = k)) as [<-|Hne].
    - rewrite list_lookup_insert in Hk by lia. injection Hk as <-.
      apply elem_of_app in He as [He| ->%elem_of_list_singleton].
      + apply (I2 st); [by eapply elem_of_list_lookup_2|done].
      + intros ? [= <-]. split; [by exists c|]. exists a. split; [done|]. unfold NOT_WALKABLE in E1. lia.
    - rewrite list_lookup_insert_ne in Hk by done. apply (I2 stk'); [by eapply elem_of_list_lookup_2|done].
  Qed.

  Lemma append_stacks_spec src dst R :
    length R = n → (∀ e, e ∈ src → ent_ok e) → (∀ e, e ∈ dst → ent_ok e) →
    runs (append_stacks src dst R) (λ dst', ∀ e, e ∈ dst' → ent_ok e).
  Proof.
    intros HR Hs Hd. apply runs_ends. unfold append_stacks. apply ends_keep; [done|].
    intros e dst' He I. destruct (e_i e) as [i|] eqn:Ei; [|done].
    destruct (Hs e He i Ei) as [(c & Hin & _) _].
    apply ends_get; [rewrite HR; by eapply in_cell_bound|]. intros r _. destruct (negb _); [done|].
    cbn. intros e' [He'| ->%elem_of_list_singleton]%elem_of_app; [by apply I|by apply Hs].
  Qed.

  Lemma stacks_get S k stk : stacks_ok S → S !! k = Some stk → ∀ e, e ∈ stk → ent_ok e.
  Proof. intros [_ H] Hk. apply H. by eapply elem_of_list_lookup_2. Qed.

  Lemma stacks_put S k stk : stacks_ok S → (k < 8)%nat → (∀ e, e ∈ stk → ent_ok e) → stacks_ok (<[k := stk]> S).
  Proof.
    intros [H1 H2] Hk Hs. split; [by rewrite insert_length|]. intros stk' [j Hj]%elem_of_list_lookup.
    destruct (decide (k = j)) as [<-|Hne].
    - rewrite list_lookup_insert in Hj by lia. by injection Hj as <-.
    - rewrite list_lookup_insert_ne in Hj by done. apply H2. by eapply elem_of_list_lookup_2.
  Qed.

  Lemma level_loop_spec P base fuel level sid stacks M id :
    winv P base M id → stacks_ok stacks → -1 ≤ sid ≤ 7 → level ≤ Z.of_nat fuel →
    ends B (level_loop fuel ch level sid stacks M id) (λ res,
      match res with
      | None => 65535 ≤ base + Z.of_nat n
      | Some (M', id') => winv P base M' id'
      end).
  Proof.
    revert level sid stacks M id. induction fuel as [|fuel IH]; intros level sid stacks M id Hw Hs Hsid Hf.
    - cbn [level_loop]. destruct (Z.ltb_spec 0 level); [lia|done].
    - cbn [level_loop]. destruct (Z.ltb_spec 0 level) as [Hpos|]; [|done].
      set (lv := Z.max 0 (level - 2)). assert (lv ≤ Z.of_nat fuel) as Hlv by lia. clearbody lv.
      set (sd := (sid + 1) mod 8). assert (0 ≤ sd ≤ 7) as Hsd by (unfold sd; lia). clearbody sd.
      pose proof (wi_lenR _ _ _ _ Hw) as HR. pose proof Hs as [Hs8 _].
      eapply (ends_bind B _ _ stacks_ok).
      { destruct (Z.eqb_spec sd 0) as [|Hne]; [apply ends_runs; by apply sort_cells_spec|].
        apply ends_get; [lia|]. intros src Hsrc. apply ends_get; [lia|]. intros dst Hdst.
        eapply ends_bind.
        { apply ends_runs, (append_stacks_spec src dst); [done|by eapply stacks_get|by eapply stacks_get]. }
        intros dst' Hd'. rewrite put_lt by lia. cbn. apply stacks_put; [done|lia|done]. }
      intros stacks1 Hs1. pose proof Hs1 as [Hs18 _]. apply ends_get; [lia|]. intros stk Hstk.
      eapply ends_bind; [apply (expand_regions_spec P base 8 lv M stk false id); [done|by eapply stacks_get]|].
      intros [M1 stk'] [Hw1 Hok']. rewrite put_lt by lia. cbn [obind].
      eapply ends_bind; [apply ends_runs; by apply (mark_new_spec P base)|].
      intros [[M2 id']|]; [|done]. intros Hw2. apply IH; [done| |lia|done]. apply stacks_put; [done|lia|done].
  Qed.

  (** ** Painting *)
  Definition paints (T : nat → Prop) (r : Z) (R R' : list Z) : Prop :=
    length R' = length R ∧
    ∀ i, (i < n)%nat → (T i ∧ R' !! i = Some r) ∨ (¬ T i ∧ R' !! i = R !! i).

  Lemma paints_fold {A} (T : A → nat → Prop) r (f : A → list Z → outcome (list Z)) l R :
    length R = n → (∀ a R, a ∈ l → length R = n → runs (f a R) (paints (T a) r R)) →
    runs (foldM f l R) (paints (λ i, ∃ a, a ∈ l ∧ T a i) r R).
  Proof.
    intros HR Hf. eapply runs_mono.
    { apply (foldM_inv (λ pre R', length R' = n ∧ paints (λ i, ∃ a, a ∈ pre ∧ T a i) r R R')).
      - split; [done|]. split; [done|]. intros i Hi. right. split; [|done]. intros (a & ?%elem_of_nil & _). done.
      - intros pre a post R' El [HR' [_ I]]. eapply runs_mono; [apply Hf; [rewrite El; set_solver|done]|].
        intros R2 [HR2 I2]. split; [lia|]. split; [lia|]. intros i Hi.
        destruct (I2 i Hi) as [[Ht E]|[Hnt E]].
        + left. split; [|done]. exists a. set_solver.
        + destruct (I i Hi) as [[(b & Hb & Ht) E']|[Hn E']].
          * left. split; [|congruence]. exists b. set_solver.
          * right. split; [|congruence]. intros (b & [Hb| ->%elem_of_list_singleton]%elem_of_app & Ht); [|done].
            apply Hn. eauto. }
    intros R' [_ H]. exact H.
  Qed.

  Lemma paints_ext T T' r R R' : (∀ i, T i ↔ T' i) → paints T r R R' → paints T' r R R'.
  Proof. intros HT [H1 H2]. split; [done|]. intros i Hi. destruct (H2 i Hi) as [[? ?]|[? ?]]; [left|right]; by rewrite <-HT. Qed.

  Lemma paint_rect_spec x0 x1 z0 z1 r R :
    length R = n → (x1 ≤ w)%nat → (z1 ≤ h)%nat →
    runs (paint_rect_region ch x0 x1 z0 z1 r R)
      (paints (λ i, walkable_span ch i ∧ ∃ x z, (x0 ≤ x < x1)%nat ∧ (z0 ≤ z < z1)%nat ∧ in_cell ch (x + z * w) i) r R).
  Proof.
    intros HR Hx1 Hz1. eapply runs_mono.
    { apply (paints_fold (λ z i, ∃ x, x ∈ seq x0 (x1 - x0) ∧ walkable_span ch i ∧ in_cell ch (x + z * w) i)); [done|].
      intros z R1 Hz%elem_of_seq HR1.
      apply (paints_fold (λ x i, walkable_span ch i ∧ in_cell ch (x + z * w) i)); [done|].
      intros x R2 Hx%elem_of_seq HR2.
      assert (x + z * w < w * h)%nat as Hc by nia.
      pose proof Hc as Hc'. unfold w, h in Hc'. rewrite <-(wf_cells _ Hwf) in Hc'. destruct (lookup_lt_is_Some_2 _ _ Hc') as [cell Hcell].
      unfold cell_at, ch_column_index. fold w in Hcell |- *. rewrite (get_some _ _ _ Hcell). cbn [obind].
      eapply runs_mono.
      { apply (paints_fold (λ j i, i = j ∧ walkable_span ch i)); [done|]. intros j R3 Hj HR3.
        assert (in_cell ch (x + z * w) j) as Hin by (by exists cell).
        pose proof (in_cell_bound ch Hwf _ j Hin) as Hb. fold n in Hb.
        assert (j < length (ch_areas ch))%nat as Hb2 by (by rewrite areas_len).
        destruct (get_lt _ _ Hb2) as (a & -> & Ha). cbn [obind]. unfold is_walkable, NOT_WALKABLE.
        destruct (Z.eqb_spec a 0) as [->|Hne]; cbn [negb].
        - cbn. split; [done|]. intros i Hi. right. split; [|done]. intros [-> (a & Ha' & Hna)]. congruence.
        - rewrite put_lt by lia. cbn. split; [by rewrite insert_length|]. intros i Hi.
          destruct (decide (i = j)) as [->|Hne'].
          + left. rewrite list_lookup_insert by lia. split; [|done]. split; [done|]. by exists a.
          + right. rewrite list_lookup_insert_ne by done. split; [|done]. by intros [-> _]. }
      intros R3. apply paints_ext. intros i. split.
      - intros (j & Hj & -> & Hw). split; [done|]. by exists cell.
      - intros [Hw (cell' & Hc2 & Hi)]. exists i. split; [|done]. congruence. }
    intros R'. apply paints_ext. intros i. split.
    - intros (z & Hz%elem_of_seq & x & Hx%elem_of_seq & Hw & Hin). split; [done|]. exists x, z. split_and!; [lia..|done].
    - intros (Hw & x & z & Hx & Hz & Hin). exists z. split; [apply elem_of_seq; lia|]. exists x. split; [apply elem_of_seq; lia|]. done.
  Qed.

  Definition painted (b : Z) (i : nat) : Prop := 0 < b ∧ near_edge ch b i ∧ walkable_span ch i.

  Lemma paint_borders_spec b :
    runs (paint_borders ch b (repeat 0 n)) (λ '(R, id), length R = n ∧ id = (if 0 <? b then 5 else 1) ∧
      ∀ i, (i < n)%nat → (painted b i ∧ ∃ r, R !! i = Some r ∧ 32768 ≤ r ≤ 32772) ∨ (¬ painted b i ∧ R !! i = Some 0)).
  Proof.
    unfold paint_borders. destruct (Z.ltb_spec 0 b) as [Hb|Hb].
    2:{ cbn. split_and!; [apply repeat_length|done|]. intros i Hi. right. split; [intros [? _]; lia|by apply repeat_lookup]. }
    set (bw := Z.to_nat (Z.min b (Z.of_nat (ch_w ch)))). set (bh := Z.to_nat (Z.min b (Z.of_nat (ch_h ch)))).
    assert (length (repeat 0 n) = n) as H0 by apply repeat_length.
    eapply runs_bind; [apply (paint_rect_spec 0 bw 0 (ch_h ch) _ _ H0); unfold bw, bh, w, h; lia|]. intros R1 [L1 P1].
    eapply runs_bind; [apply (paint_rect_spec (ch_w ch - bw) (ch_w ch) 0 (ch_h ch) (to_border 2) R1); [lia|unfold w, h; lia..]|]. intros R2 [L2 P2].
    eapply runs_bind; [apply (paint_rect_spec 0 (ch_w ch) 0 bh (to_border 3) R2); [lia|unfold bw, bh, w, h; lia..]|]. intros R3 [L3 P3].
    eapply runs_bind; [apply (paint_rect_spec 0 (ch_w ch) (ch_h ch - bh) (ch_h ch) (to_border 4) R3); [lia|unfold w, h; lia..]|]. intros R4 [L4 P4].
    cbn [runs]. split_and!; [lia|done|]. intros i Hi.
    assert (∀ x z, (x < w)%nat → (z < h)%nat → in_cell ch (x + z * w) i → walkable_span ch i →
      (Z.of_nat x < b ∨ Z.of_nat w ≤ Z.of_nat x + b ∨ Z.of_nat z < b ∨ Z.of_nat h ≤ Z.of_nat z + b) → painted b i) as Hpaint.
    { intros x z Hx Hz Hin Hw He. split; [done|]. split; [|done]. exists x, z. done. }
    destruct (P4 i Hi) as [[(Hw & x & z & Hx & Hz & Hin) E4]|[N4 E4]].
    { left. split; [|eexists; split; [done|by vm_compute]]. apply (Hpaint x z); try done; unfold w, h, bw, bh in *; lia. }
    destruct (P3 i Hi) as [[(Hw & x & z & Hx & Hz & Hin) E3]|[N3 E3]].
    { left. split; [|eexists; split; [by rewrite E4|by vm_compute]]. apply (Hpaint x z); try done; unfold w, h, bw, bh in *; lia. }
    destruct (P2 i Hi) as [[(Hw & x & z & Hx & Hz & Hin) E2]|[N2 E2]].
    { left. split; [|eexists; split; [by rewrite E4, E3|by vm_compute]]. apply (Hpaint x z); try done; unfold w, h, bw, bh in *; lia. }
    destruct (P1 i Hi) as [[(Hw & x & z & Hx & Hz & Hin) E1]|[N1 E1]].
    { left. split; [|eexists; split; [by rewrite E4, E3, E2|by vm_compute]]. apply (Hpaint x z); try done; unfold w, h, bw, bh in *; lia. }
    right. split; [|rewrite E4, E3, E2, E1; by apply repeat_lookup].
    intros (_ & (x & z & Hx & Hz & Hin & He) & Hw). unfold w, h, bw, bh in *.
    destruct He as [He|[He|[He|He]]].
    - apply N1. split; [done|]. exists x, z. split_and!; [lia..|done].
    - apply N2. split; [done|]. exists x, z. split_and!; [lia..|done].
    - apply N3. split; [done|]. exists x, z. split_and!; [lia..|done].
    - apply N4. split; [done|]. exists x, z. split_and!; [lia..|done].
  Qed.

  Definition base_id (b : Z) : Z := if 0 <? b then 5 else 1.

  Lemma winv_start b R :
    length R = n → (∀ i, (i < n)%nat →
    (painted b i ∧ ∃ r, R !! i = Some r ∧ 32768 ≤ r ≤ 32772) ∨ (¬ painted b i ∧ R !! i = Some 0)) →
    ∀ base, 1 ≤ base ≤ 65535 → winv (painted b) base (Marks R (repeat 0 n)) base.
  Proof.
    intros HR Hp base Hbase.
    assert (Hcases : ∀ i r, R !! i = Some r → (painted b i ∧ 32768 ≤ r ≤ 32772) ∨ (¬ painted b i ∧ r = 0)).
    { intros i r Hi. assert (i < n)%nat as Hn by (rewrite <-HR; by eapply lookup_lt_Some).
      destruct (Hp i Hn) as [[Ht (r' & E & Hr)]|[Hnt E]]; [left|right]; (split; [done|]); [assert (r' = r) by congruence; by subst|congruence]. }
    pose proof (cnt_bound R).
    split; cbn [m_reg m_dist].
    - done.
    - apply repeat_length.
    - intros i r Hi Hr. destruct (Hcases i r Hi) as [[(_ & _ & ?) _]|[_ ?]]; done.
    - intros i r Hi. destruct (Hcases i r Hi) as [[? ?]|[? ->]]; [left|right]; (split; [done|]; lia).
    - intros i j r Hi Hj Hr Hb. destruct (Hcases i r Hi) as [[_ ?]|[_ ?]]; lia.
    - intros i j r Hi Hj Hr HP. destruct (Hcases i r Hi) as [[? _]|[_ ?]]; done.
    - intros i r Hi Hr HP. destruct (Hcases i r Hi) as [[? _]|[_ ?]]; done.
    - intros i Hi. apply repeat_lookup. rewrite <-HR. by eapply lookup_lt_Some.
    - intros i d [-> _]%repeat_lookup_Some. lia.
    - lia.
  Qed.

  Lemma watershed_spec b :
    0 ≤ ch_maxdist ch < 65535 →
    ends B (watershed ch b) (λ res,
      match res with
      | None => 65535 ≤ base_id b + Z.of_nat n
      | Some (M, id) => winv (painted b) (base_id b) M id
      end).
  Proof.
    intros Hm. unfold watershed. unfold chk_u16, U16_MAX. rewrite chk_in by lia. cbn [obind]. fold n.
    eapply ends_bind; [apply ends_runs, paint_borders_spec|]. intros [R id] (HR & -> & Hp). fold (base_id b).
    set (lv := Z.ldiff (ch_maxdist ch + 1) 1).
    assert (0 ≤ lv) as Hlv. { apply Z.ldiff_nonneg. left. lia. }
    assert (winv (painted b) (base_id b) (Marks R (repeat 0 n)) (base_id b)) as Hw0.
    { apply winv_start; [done|done|]. unfold base_id. destruct (0 <? b); lia. }
    eapply ends_bind.
    { apply (level_loop_spec (painted b) (base_id b)); [exact Hw0| |lia|lia].
      split; [done|]. intros stk Hstk e He. cbn in Hstk.
      repeat (apply elem_of_cons in Hstk as [->|Hstk]; [by apply elem_of_nil in He|]). by apply elem_of_nil in Hstk. }
    intros [[M id']|]; [|done]. intros Hw.
    eapply ends_bind.
    { apply (expand_regions_spec (painted b) (base_id b) 64 0 M [] true id'); [done|]. intros e ?%elem_of_nil. done. }
    intros [M' stk'] [Hw' _]. done.
  Qed.
End watershed.
