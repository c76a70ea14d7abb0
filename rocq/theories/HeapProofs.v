(** Heap reasoning for the linked span columns. *)
From Verif Require Import Base ModelMath ModelHeightfield SpecHeightfield.

(** ** Segments of links *)
Lemma links_app m o l1 l2 e :
  links m o (l1 ++ l2) e ↔ ∃ mid, links m o l1 mid ∧ links m mid l2 e.
Proof.
  revert o. induction l1 as [|[k c] l1 IH]; intros o; cbn [links app].
  - naive_solver.
  - split.
    + intros (-> & nx & Hk & (mid & H1 & H2)%IH). eauto 10.
    + intros (mid & (-> & nx & Hk & H1) & H2). split; [done|].
      exists nx. split; [done|]. apply IH. eauto.
Qed.

Lemma links_agree m m' o l e :
  (∀ k, k ∈ l.*1 → m !! k = m' !! k) → links m o l e → links m' o l e.
Proof.
  revert o. induction l as [|[k c] l IH]; intros o Hm; cbn [links]; [done|].
  intros (-> & nx & Hk & Hl). split; [done|]. exists nx. split.
  - rewrite <-Hm; [done|]. cbn. left.
  - apply IH; [|done]. intros k' Hk'. apply Hm. cbn. by right.
Qed.

Lemma links_in m o l e k : links m o l e → k ∈ l.*1 → is_Some (m !! k).
Proof.
  revert o. induction l as [|[k' c] l IH]; intros o; cbn [links fmap list_fmap fst].
  - intros _ H. by apply elem_of_nil in H.
  - intros (_ & nx & Hk & Hl) [->|H]%elem_of_cons; eauto.
Qed.

Lemma links_det m o l1 l2 :
  links m o l1 None → links m o l2 None → l1 = l2.
Proof.
  revert o l2. induction l1 as [|[k c] l1 IH]; intros o [|[k2 c2] l2]; cbn [links].
  - done.
  - intros -> (? & _). done.
  - intros (-> & _) ?. done.
  - intros (-> & nx & Hk & H1) ([= <-] & nx2 & Hk2 & H2).
    rewrite Hk in Hk2. injection Hk2 as Emin Emax Earea Enx. subst nx2.
    rewrite (IH _ _ H1 H2). destruct c, c2; cbn in *. by subst.
Qed.

Lemma links_nodup m o l : links m o l None → NoDup l.*1.
Proof.
  revert o. induction l as [|[k c] l IH]; intros o; cbn [links fmap list_fmap fst].
  - intros _. constructor.
  - intros Hl. pose proof Hl as (-> & nx & Hk & Hrest). constructor; [|by eapply IH].
    intros Hin. apply elem_of_list_fmap in Hin as ([k' c'] & E & Hin). cbn in E. subst k'.
    apply elem_of_list_split in Hin as (l1 & l2 & ->).
    apply links_app in Hrest as (mid & H1 & H2).
    pose proof H2 as (-> & _).
    pose proof (links_det m (Some k) ((k,c) :: l1 ++ (k,c') :: l2) ((k,c') :: l2)) as E.
    assert ((k,c) :: l1 ++ (k,c') :: l2 = (k,c') :: l2) as E'.
    { apply E; [|done]. cbn [links]. split; [done|]. exists nx. split; [done|].
      apply links_app. eauto. }
    apply (f_equal length) in E'. rewrite cons_length, app_length in E'. cbn in E'. lia.
Qed.

Definition head_key (l : list (key * cell)) : option key := fst <$> head l.
Definition last_key (l : list (key * cell)) : option key := fst <$> last l.

Lemma links_head m o l : links m o l None → o = head_key l.
Proof. destruct l as [|[k c] l]; cbn; [done|]. by intros [-> _]. Qed.

(** ** Representation of a whole heightfield *)
Record rep (hf : hfield) (cols : list (list (key * cell))) : Prop := Rep {
  rep_len : length cols = length (hf_cols hf);
  rep_chain : ∀ c l, cols !! c = Some l → column_keys hf c l;
  rep_disj : ∀ c1 c2 l1 l2 k,
    cols !! c1 = Some l1 → cols !! c2 = Some l2 →
    k ∈ l1.*1 → k ∈ l2.*1 → c1 = c2;
  rep_all : ∀ k, is_Some (hf_alloc hf !! k) → ∃ c l, cols !! c = Some l ∧ k ∈ l.*1;
  rep_fresh : ∀ k, is_Some (hf_alloc hf !! k) → (k < hf_fresh hf)%positive
}.

Lemma rep_nodup hf cols c l : rep hf cols → cols !! c = Some l → NoDup l.*1.
Proof. intros Hr Hc. destruct (rep_chain _ _ Hr _ _ Hc) as (o & _ & Hl). by eapply links_nodup. Qed.

Lemma rep_size hf cols c l :
  rep hf cols → cols !! c = Some l → length l ≤ size (hf_alloc hf).
Proof.
  intros Hr Hc. pose proof (rep_nodup _ _ _ _ Hr Hc) as Hnd.
  destruct (rep_chain _ _ Hr _ _ Hc) as (o & _ & Hl).
  rewrite <-(fmap_length fst), <-size_dom.
  rewrite <-(size_list_to_set (C := gset key)) by done.
  apply subseteq_size. intros k Hk%elem_of_list_to_set.
  apply elem_of_dom. by eapply links_in.
Qed.

(** Changing only column [c], where the new map agrees with the old one on all
    keys outside the old contents of column [c]. *)
Lemma rep_update hf hf' cols c l l' :
  rep hf cols → cols !! c = Some l →
  length (hf_cols hf') = length (hf_cols hf) →
  (∀ c', c' ≠ c → hf_cols hf' !! c' = hf_cols hf !! c') →
  (∀ k, k ∉ l.*1 → k ∉ l'.*1 → hf_alloc hf' !! k = hf_alloc hf !! k) →
  (∀ k, k ∈ l'.*1 → k ∈ l.*1 ∨ hf_alloc hf !! k = None) →
  (∀ k, k ∈ l.*1 → k ∉ l'.*1 → hf_alloc hf' !! k = None) →
  (∀ k, is_Some (hf_alloc hf' !! k) → (k < hf_fresh hf')%positive) →
  column_keys hf' c l' →
  rep hf' (<[c := l']> cols).
Proof.
  intros Hr Hc Hlen Hcols Hag Hnew Hdel Hfresh Hck.
  pose proof (lookup_lt_Some _ _ _ Hc) as Hlt.
  assert (Hother : ∀ c2 l2 k, c2 ≠ c → cols !! c2 = Some l2 → k ∈ l2.*1 →
            k ∉ l.*1 ∧ k ∉ l'.*1).
  { intros c2 l2 k Hne Hc2 Hk.
    assert (k ∉ l.*1) as Hn1. { intros Hk'. apply Hne. by eapply rep_disj. }
    split; [done|]. intros [Hk'|Hk']%Hnew; [done|].
    destruct (rep_chain _ _ Hr _ _ Hc2) as (o & _ & Hl).
    destruct (links_in _ _ _ _ _ Hl Hk). congruence. }
  split.
  - by rewrite insert_length, Hlen, <-(rep_len _ _ Hr).
  - intros c2 l2. destruct (decide (c2 = c)) as [->|Hne].
    + rewrite list_lookup_insert by done. intros [= <-]. done.
    + rewrite list_lookup_insert_ne by done. intros Hc2.
      destruct (rep_chain _ _ Hr _ _ Hc2) as (o & Ho & Hl).
      exists o. rewrite Hcols by done. split; [done|].
      eapply links_agree; [|done]. intros k Hk.
      destruct (Hother _ _ _ Hne Hc2 Hk). by rewrite Hag.
  - intros c1 c2 l1 l2 k.
    destruct (decide (c1 = c)) as [->|Hne1]; destruct (decide (c2 = c)) as [->|Hne2].
    + done.
    + rewrite list_lookup_insert by done. rewrite list_lookup_insert_ne by done.
      intros [= <-] H2 Hk1 Hk2. by destruct (Hother _ _ _ Hne2 H2 Hk2).
    + rewrite list_lookup_insert by done. rewrite list_lookup_insert_ne by done.
      intros H1 [= <-] Hk1 Hk2. by destruct (Hother _ _ _ Hne1 H1 Hk1).
    + rewrite !list_lookup_insert_ne by done. by apply rep_disj with (hf := hf).
  - intros k Hk. destruct (decide (k ∈ l'.*1)) as [Hin|Hin].
    { exists c, l'. by rewrite list_lookup_insert. }
    destruct (decide (k ∈ l.*1)) as [Hin2|Hin2].
    { rewrite Hdel in Hk by done. by destruct Hk. }
    rewrite Hag in Hk by done.
    destruct (rep_all _ _ Hr _ Hk) as (c2 & l2 & Hc2 & Hk2).
    destruct (decide (c2 = c)) as [->|Hne].
    { rewrite Hc in Hc2. injection Hc2 as ->. done. }
    exists c2, l2. by rewrite list_lookup_insert_ne.
  - done.
Qed.

(** ** Relinking *)
Lemma set_link_spec hf col pre mid n o :
  hf_cols hf !! col = Some o →
  links (hf_alloc hf) o pre mid → NoDup pre.*1 →
  ∃ hf' o', set_link hf col (last_key pre) n = Done hf' ∧
    hf_cols hf' !! col = Some o' ∧ links (hf_alloc hf') o' pre n ∧
    length (hf_cols hf') = length (hf_cols hf) ∧
    (∀ c', c' ≠ col → hf_cols hf' !! c' = hf_cols hf !! c') ∧
    (∀ k, k ∉ pre.*1 → hf_alloc hf' !! k = hf_alloc hf !! k) ∧
    hf_fresh hf' = hf_fresh hf ∧ hf_w hf' = hf_w hf ∧ hf_h hf' = hf_h hf ∧
    hf_geo hf' = hf_geo hf ∧
    (∀ k, is_Some (hf_alloc hf' !! k) ↔ is_Some (hf_alloc hf !! k)).
Proof.
  intros Ho Hl Hnd. pose proof (lookup_lt_Some _ _ _ Ho) as Hlt.
  destruct (decide (pre = [])) as [->|Hne].
  { cbn [last_key last fmap option_fmap option_map]. unfold last_key, set_link. cbn.
    rewrite put_lt by done. cbn. eexists _, n. split; [done|]. cbn.
    rewrite list_lookup_insert by done. rewrite insert_length.
    repeat split; try done. intros c' Hc'. by rewrite list_lookup_insert_ne. }
  destruct (exists_last Hne) as (pre0 & [p cp] & ->).
  unfold last_key. rewrite last_snoc. cbn [fmap option_fmap option_map fst].
  rewrite fmap_app in Hnd. cbn in Hnd. apply NoDup_app in Hnd as (Hnd0 & Hdis & _).
  apply links_app in Hl as (m1 & Hl0 & Hlp). cbn [links] in Hlp.
  destruct Hlp as (-> & nx & Hp & ->).
  unfold set_link, span_put, span_get. rewrite Hp. cbn [unwrap obind].
  eexists _, o. split; [done|].
  cbn [hf_cols hf_alloc hf_fresh hf_w hf_h hf_geo hf_set_alloc]. split; [done|]. split.
  { apply links_app. exists (Some p). split.
    - eapply links_agree; [|exact Hl0]. intros k Hk.
      rewrite lookup_insert_ne; [done|]. intros ->.
      apply (Hdis _ Hk). left.
    - cbn [links]. split; [done|]. exists n. split; [|done].
      rewrite lookup_insert. done. }
  repeat split; try done.
  - intros k Hk. rewrite lookup_insert_ne; [done|]. intros ->. apply Hk.
    rewrite fmap_app. apply elem_of_app. right. left.
  - intros [s Hs]. destruct (decide (k = p)) as [->|Hn].
    + by eexists.
    + rewrite lookup_insert_ne in Hs by done. by eexists.
  - intros [s Hs]. destruct (decide (k = p)) as [->|Hn].
    + rewrite lookup_insert. by eexists.
    + rewrite lookup_insert_ne by done. by eexists.
Qed.

Definition same_shape (hf hf' : hfield) : Prop :=
  hf_w hf' = hf_w hf ∧ hf_h hf' = hf_h hf ∧ hf_geo hf' = hf_geo hf ∧
  length (hf_cols hf') = length (hf_cols hf).

Lemma same_shape_refl hf : same_shape hf hf.
Proof. done. Qed.
Lemma same_shape_trans a b c : same_shape a b → same_shape b c → same_shape a c.
Proof. unfold same_shape. intuition congruence. Qed.

(** ** Pure counterpart of [add_span] *)
Definition cell_of (s : span) : cell := Cell (s_min s) (s_max s) (s_area s).

Definition merge_cell (thr : Z) (new cur : cell) : cell :=
  let mn := if (c_min cur <? c_min new)%Z then c_min cur else c_min new in
  let mx := if (c_max new <? c_max cur)%Z then c_max cur else c_max new in
  let ar := if (Z.abs (mx - c_max cur) <=? thr)%Z
            then Z.max (c_area new) (c_area cur) else c_area new in
  Cell mn mx ar.

Fixpoint ins_loop (thr : Z) (new : cell) (pre rest : list cell)
  : list cell * cell * list cell :=
  match rest with
  | [] => (pre, new, [])
  | c :: rest' =>
    if (c_max new <? c_min c)%Z then (pre, new, rest)
    else if (c_max c <? c_min new)%Z then ins_loop thr new (pre ++ [c]) rest'
    else ins_loop thr (merge_cell thr new c) pre rest'
  end.

Definition insert_cells (thr : Z) (new : cell) (l : list cell) : list cell :=
  let '(pre, n, rest) := ins_loop thr new [] l in pre ++ n :: rest.

Lemma add_span_loop_spec fuel hf cols col thr new pre rest :
  rep hf cols → cols !! col = Some (pre ++ rest) → length rest ≤ fuel →
  runs (add_span_loop fuel hf col thr new (last_key pre) (head_key rest))
    (λ r, ∃ pre' rest', rep (r.1.1) (<[col := pre' ++ rest']> cols) ∧
       r.2 = last_key pre' ∧ same_shape hf r.1.1 ∧ hf_fresh r.1.1 = hf_fresh hf ∧
       ins_loop thr (cell_of new) pre.*2 rest.*2 = (pre'.*2, cell_of r.1.2, rest'.*2)).
Proof.
  revert fuel hf cols new pre.
  induction rest as [|[k c] rest IH]; intros fuel hf cols new pre Hr Hc Hfuel.
  { destruct fuel; cbn [add_span_loop head_key head fmap option_fmap option_map]; cbn;
    (exists pre, []; split_and!; [|done..]; by rewrite list_insert_id). }
  destruct fuel as [|fuel]; [cbn in Hfuel; lia|].
  change (head_key ((k, c) :: rest)) with (Some k). cbn [add_span_loop].
  destruct (rep_chain _ _ Hr _ _ Hc) as (o & Ho & Hl).
  pose proof (links_nodup _ _ _ Hl) as Hnd.
  apply links_app in Hl as (mid & Hpre & Hrest).
  pose proof Hrest as (-> & nx & Hk & Htail).
  unfold span_get at 1. rewrite Hk. cbn [unwrap obind s_min s_max s_next].
  cbn [fmap list_fmap snd ins_loop].
  change (c_max (cell_of new)) with (s_max new).
  change (c_min (cell_of new)) with (s_min new).
  destruct (s_max new <? c_min c)%Z eqn:E1.
  { cbn. exists pre, ((k,c)::rest). split_and!; [|done..]. by rewrite list_insert_id. }
  pose proof (links_head _ _ _ Htail) as ->.
  destruct (c_max c <? s_min new)%Z eqn:E2.
  { replace (Some k) with (last_key (pre ++ [(k,c)])).
    2:{ unfold last_key. by rewrite last_snoc. }
    eapply runs_mono.
    { apply IH; [done| |cbn in Hfuel; lia]. rewrite <-app_assoc. exact Hc. }
    intros r (pre' & rest' & H1 & H2 & H3 & H4 & H5). exists pre', rest'.
    split_and!; try done. rewrite fmap_app in H5. exact H5. }
  (* merge *)
  rewrite fmap_app in Hnd. cbn in Hnd.
  pose proof Hnd as (Hnd1 & Hdis & Hnd2)%NoDup_app.
  apply NoDup_cons in Hnd2 as [Hk2 Hnd2].
  set (hf1 := hf_set_alloc hf (delete k (hf_alloc hf))).
  assert (Hpre1 : links (hf_alloc hf1) o pre (Some k)).
  { eapply links_agree; [|exact Hpre]. intros k' Hk'. cbn.
    rewrite lookup_delete_ne; [done|]. intros ->. eapply Hdis; [done|left]. }
  destruct (set_link_spec hf1 col pre (Some k) (head_key rest) o) as
    (hf2 & o2 & -> & Ho2 & Hl2 & Hlen2 & Hcols2 & Hag2 & Hf2 & Hw2 & Hh2 & Hg2 & Hdom2);
    [exact Ho|exact Hpre1|exact Hnd1|].
  cbn [obind].
  assert (Hr2 : rep hf2 (<[col := pre ++ rest]> cols)).
  { eapply rep_update; [exact Hr|exact Hc|..].
    - rewrite Hlen2. done.
    - intros c' Hc'. rewrite Hcols2 by done. done.
    - intros k' Hn1 Hn2. rewrite Hag2.
      + cbn. rewrite lookup_delete_ne; [done|]. intros ->. apply Hn1.
        rewrite fmap_app. apply elem_of_app. right. left.
      + intros Hk'. apply Hn2. rewrite fmap_app. apply elem_of_app. by left.
    - intros k' Hk'. left. rewrite fmap_app in *. apply elem_of_app.
      apply elem_of_app in Hk' as [?|?]; [by left|]. right. by right.
    - intros k' Hin Hnin.
      assert (k' = k) as ->.
      { rewrite fmap_app in Hin, Hnin. cbn in Hin.
        apply elem_of_app in Hin as [?|[?|?]%elem_of_cons]; [|done|];
        exfalso; apply Hnin, elem_of_app; auto. }
      apply eq_None_not_Some. rewrite Hdom2. cbn. rewrite lookup_delete. by intros [? ?].
    - intros k' Hk'. rewrite Hf2. cbn. apply (rep_fresh _ _ Hr).
      apply Hdom2 in Hk'. cbn in Hk'. destruct Hk' as [s Hs].
      apply lookup_delete_Some in Hs as [_ Hs]. by eexists.
    - exists o2. split; [done|]. apply links_app. exists (head_key rest). split; [done|].
      eapply links_agree; [|exact Htail]. intros k' Hk'.
      rewrite Hag2.
      + cbn. rewrite lookup_delete_ne; [done|]. intros ->. done.
      + intros Hk''. eapply Hdis; [done|]. by right. }
  eapply runs_mono.
  { apply (IH fuel hf2 (<[col := pre ++ rest]> cols)); [done| |cbn in Hfuel; lia].
    rewrite list_lookup_insert; [done|]. by eapply lookup_lt_Some. }
  intros r (pre' & rest' & H1 & H2 & H3 & H4 & H5). exists pre', rest'.
  rewrite list_insert_insert in H1.
  split_and!; try done.
  - eapply same_shape_trans; [|exact H3].
    split_and!; [exact Hw2|exact Hh2|exact Hg2|exact Hlen2].
  - rewrite H4, Hf2. done.
Qed.

(** [add_span] refines [insert_cells] on its column and leaves the others. *)
Lemma add_span_spec hf cols i l :
  rep hf cols → cols !! column_index hf (in_x i) (in_z i) = Some l →
  runs (add_span hf i) (λ r, ∃ hf' l', r = Some hf' ∧ same_shape hf hf' ∧
     rep hf' (<[column_index hf (in_x i) (in_z i) := l']> cols) ∧
     l'.*2 = insert_cells (in_thr i) (cell_of (in_span i)) l.*2).
Proof.
  intros Hr Hc. unfold add_span.
  set (col := column_index hf (in_x i) (in_z i)) in *.
  pose proof (lookup_lt_Some _ _ _ Hc) as Hlt. rewrite (rep_len _ _ Hr) in Hlt.
  destruct (Nat.leb_spec (length (hf_cols hf)) col) as [Hle|_]; [lia|].
  destruct (rep_chain _ _ Hr _ _ Hc) as (o & Ho & Hl).
  rewrite (get_some _ _ _ Ho). cbn [obind].
  rewrite (links_head _ _ _ Hl).
  eapply runs_bind.
  { change None with (last_key []). apply (add_span_loop_spec _ _ cols); [done|exact Hc|].
    pose proof (rep_size _ _ _ _ Hr Hc). lia. }
  intros [[hf1 new] prev]. cbn [fst snd].
  intros (pre & rest & Hr1 & -> & (Hw & Hh & Hg & Hln) & Hfr & Hins).
  assert (Hlt' : col < length cols) by (by rewrite (rep_len _ _ Hr)).
  assert (Hc1 : <[col:=pre ++ rest]> cols !! col = Some (pre ++ rest)).
  { by rewrite list_lookup_insert. }
  destruct (rep_chain _ _ Hr1 _ _ Hc1) as (o1 & Ho1 & Hl1).
  pose proof (links_nodup _ _ _ Hl1) as Hnd1.
  apply links_app in Hl1 as (mid & Hpre & Hrest).
  rewrite fmap_app in Hnd1. apply NoDup_app in Hnd1 as (Hndp & Hdis & Hndr).
  set (fk := hf_fresh hf1).
  assert (Hfree : hf_alloc hf1 !! fk = None).
  { apply eq_None_not_Some. intros Hs. apply (rep_fresh _ _ Hr1) in Hs. unfold fk in Hs. lia. }
  assert (Hfp : fk ∉ pre.*1).
  { intros Hin. destruct (links_in _ _ _ _ _ Hpre Hin). congruence. }
  assert (Hfrst : fk ∉ rest.*1).
  { intros Hin. destruct (links_in _ _ _ _ _ Hrest Hin). congruence. }
  set (nl := pre ++ (fk, cell_of new) :: rest).
  assert (Hfin : ∀ hf', length (hf_cols hf') = length (hf_cols hf1) →
    (∀ c', c' ≠ col → hf_cols hf' !! c' = hf_cols hf1 !! c') →
    (∀ k, k ∉ pre.*1 → k ≠ fk → hf_alloc hf' !! k = hf_alloc hf1 !! k) →
    (∀ k, is_Some (hf_alloc hf' !! k) → k = fk ∨ is_Some (hf_alloc hf1 !! k)) →
    hf_fresh hf' = Pos.succ fk →
    column_keys hf' col nl →
    rep hf' (<[col := nl]> cols)).
  { intros hf' H1 H2 H3 H4 H5 H6.
    rewrite <-(list_insert_insert cols col nl (pre ++ rest)).
    eapply rep_update; [exact Hr1|exact Hc1|done|done|..].
    - intros k Hk1 Hk2. apply H3.
      + intros Hk. apply Hk1. rewrite fmap_app. apply elem_of_app. by left.
      + intros ->. apply Hk2. unfold nl. rewrite fmap_app. apply elem_of_app. right. left.
    - intros k Hk. unfold nl in Hk. rewrite fmap_app in *. cbn in Hk.
      apply elem_of_app in Hk as [?|[->|?]%elem_of_cons].
      + left. apply elem_of_app. by left.
      + by right.
      + left. apply elem_of_app. by right.
    - intros k Hk1 Hk2. exfalso. apply Hk2. unfold nl. rewrite fmap_app in *. cbn.
      apply elem_of_app. apply elem_of_app in Hk1 as [?|?]; [by left|right; by right].
    - intros k Hk. rewrite H5. apply H4 in Hk as [->|Hk]; [lia|].
      apply (rep_fresh _ _ Hr1) in Hk. unfold fk. lia.
    - done. }
  assert (Hmap : nl.*2 = insert_cells (in_thr i) (cell_of (in_span i)) l.*2).
  { unfold insert_cells. cbn [fmap list_fmap] in Hins. rewrite Hins.
    unfold nl. by rewrite fmap_app. }
  destruct (decide (pre = [])) as [Epre|Hne].
  - subst pre. unfold last_key at 1. cbn [last fmap option_fmap option_map].
    rewrite (get_some _ _ _ Ho1). cbn [obind slot_insert hf_cols].
    rewrite put_lt by lia. cbn [obind runs].
    eexists _, nl. split; [done|].
    split; [split_and!; try done; cbn [hf_cols hf_set_cols]; by rewrite insert_length|].
    split; [|done].
    apply Hfin; cbn [hf_cols hf_alloc hf_set_cols hf_fresh].
    + by rewrite insert_length.
    + intros c' Hc'. by rewrite list_lookup_insert_ne.
    + intros k _ Hk. by rewrite lookup_insert_ne.
    + intros k. destruct (decide (k = fk)) as [->|]; [by left|].
      rewrite lookup_insert_ne by done. by right.
    + done.
    + exists (Some fk). cbn [hf_cols hf_alloc hf_set_cols].
      rewrite list_lookup_insert by lia. split; [done|].
      cbn [nl app links]. split; [done|]. exists o1.
      rewrite lookup_insert. split; [done|]. cbn [links] in Hpre. subst mid.
      eapply links_agree; [|exact Hrest]. intros k Hk. rewrite lookup_insert_ne; [done|].
      intros <-. done.
  - destruct (exists_last Hne) as (pre0 & [p cp] & ->).
    unfold last_key at 1. rewrite last_snoc. cbn [fmap option_fmap option_map fst].
    rewrite fmap_app in Hndp, Hfp. cbn in Hndp, Hfp.
    apply NoDup_app in Hndp as (Hndp0 & Hdisp & _).
    apply links_app in Hpre as (m1 & Hl0 & Hlp). cbn [links] in Hlp.
    destruct Hlp as (-> & nx & Hp & ->).
    unfold span_get at 1. rewrite Hp. cbn [unwrap obind s_next slot_insert].
    assert (Hpf : p ≠ fk).
    { intros ->. apply Hfp, elem_of_app. right. left. }
    unfold span_put, span_get; cbn [hf_alloc].
    rewrite !lookup_insert_ne by (intros Heq; apply Hpf; by rewrite <-Heq).
    rewrite Hp. cbn [unwrap obind runs].
    eexists _, nl. split; [done|]. split; [split_and!; done|]. split; [|done].
    apply Hfin; cbn [hf_cols hf_alloc hf_set_alloc hf_fresh].
    + done.
    + done.
    + intros k Hk1 Hk2. rewrite lookup_insert_ne, lookup_insert_ne; [done|done|].
      intros <-. apply Hk1. rewrite fmap_app. apply elem_of_app. right. left.
    + intros k. destruct (decide (k = fk)) as [->|]; [by left|]. right.
      destruct (decide (k = p)) as [->|]; [by rewrite Hp|].
      by rewrite !lookup_insert_ne in H by done.
    + done.
    + exists o1. split; [done|]. unfold nl. cbn [hf_alloc hf_set_alloc].
      rewrite <-app_assoc. apply links_app. exists (Some p). split.
      * eapply links_agree; [|exact Hl0]. intros k Hk.
        rewrite lookup_insert_ne, lookup_insert_ne; [done|..].
        -- intros <-. apply Hfp, elem_of_app. by left.
        -- intros <-. eapply Hdisp; [done|left].
      * cbn [links app]. split; [done|]. exists (Some fk). split; [by rewrite lookup_insert|].
        split; [done|]. exists mid. split.
        -- rewrite lookup_insert_ne, lookup_insert by done. done.
        -- eapply links_agree; [|exact Hrest]. intros k Hk.
           rewrite lookup_insert_ne, lookup_insert_ne; [done|..].
           ++ intros <-. done.
           ++ intros <-. eapply Hdis; [|exact Hk]. rewrite fmap_app. apply elem_of_app.
              right. left.
Qed.

Lemma add_span_oob hf i :
  length (hf_cols hf) ≤ column_index hf (in_x i) (in_z i) → add_span hf i = Done None.
Proof.
  intros H. unfold add_span. by destruct (Nat.leb_spec (length (hf_cols hf)) (column_index hf (in_x i) (in_z i))); [|lia].
Qed.

(** ** Changing the area of one span *)
Lemma span_put_area_spec hf cols c pre k ce post a :
  rep hf cols → cols !! c = Some (pre ++ (k, ce) :: post) →
  ∃ s, hf_alloc hf !! k = Some s ∧ cell_of s = ce ∧ s_next s = head_key post ∧
  ∃ hf', span_put hf k (with_area s a) = Done hf' ∧ same_shape hf hf' ∧
    hf_cols hf' = hf_cols hf ∧ size (hf_alloc hf') = size (hf_alloc hf) ∧
    rep hf' (<[c := pre ++ (k, Cell (c_min ce) (c_max ce) a) :: post]> cols).
Proof.
  intros Hr Hc. destruct (rep_chain _ _ Hr _ _ Hc) as (o & Ho & Hl).
  pose proof (links_nodup _ _ _ Hl) as Hnd.
  apply links_app in Hl as (mid & Hpre & Hl).
  pose proof Hl as (-> & nx & Hk & Hpost).
  eexists. split; [exact Hk|]. split; [by destruct ce|]. cbn [s_next].
  split; [by eapply links_head|].
  unfold span_put, span_get. rewrite Hk. cbn [unwrap obind].
  eexists. split; [done|]. split; [done|]. split; [done|].
  split. { cbn. rewrite map_size_insert_Some; [done|]. by eexists. }
  rewrite fmap_app in Hnd. cbn in Hnd. apply NoDup_app in Hnd as (_ & Hdis & Hnd2).
  apply NoDup_cons in Hnd2 as [Hk2 _].
  eapply rep_update; [exact Hr|exact Hc|done|done|..]; cbn [hf_alloc hf_set_alloc hf_fresh].
  - intros k' H1 _. rewrite lookup_insert_ne; [done|]. intros <-. apply H1.
    rewrite fmap_app. apply elem_of_app. right. left.
  - intros k' H1. left. rewrite fmap_app in *. done.
  - intros k' H1 H2. exfalso. apply H2. rewrite fmap_app in *. done.
  - intros k' H1. apply (rep_fresh _ _ Hr).
    destruct (decide (k = k')) as [->|]; [by eexists|]. by rewrite lookup_insert_ne in H1.
  - exists o. split; [done|]. apply links_app. exists (Some k). split.
    + eapply links_agree; [|exact Hpre]. intros k' Hk'. cbn. rewrite lookup_insert_ne; [done|].
      intros <-. eapply Hdis; [done|left].
    + cbn [links]. split; [done|]. exists nx. cbn [hf_alloc hf_set_alloc].
      rewrite lookup_insert. split; [done|].
      eapply links_agree; [|exact Hpost]. intros k' Hk'. rewrite lookup_insert_ne; [done|].
      intros <-. done.
Qed.

Lemma rep_lookup hf cols c pre k ce post :
  rep hf cols → cols !! c = Some (pre ++ (k, ce) :: post) →
  hf_alloc hf !! k = Some (mkSpan (c_min ce) (c_max ce) (c_area ce) (head_key post)).
Proof.
  intros Hr Hc. destruct (rep_chain _ _ Hr _ _ Hc) as (o & Ho & Hl).
  apply links_app in Hl as (mid & Hpre & (-> & nx & Hk & Hpost)).
  by rewrite (links_head _ _ _ Hpost) in Hk.
Qed.

Lemma rep_new w h g : rep (new_hf w h g) (repeat [] (w * h)).
Proof.
  split; cbn [hf_cols hf_alloc new_hf hf_fresh].
  - by rewrite !repeat_length.
  - intros c l Hc. pose proof (lookup_lt_Some _ _ _ Hc) as Hlt.
    rewrite repeat_length in Hlt.
    apply elem_of_list_lookup_2, elem_of_list_In, repeat_spec in Hc. subst l.
    exists None. cbn. split; [|done].
    destruct (lookup_lt_is_Some_2 (repeat (@None key) (w*h)) c) as [o Ho].
    { by rewrite repeat_length. }
    rewrite Ho. f_equal. by apply elem_of_list_lookup_2, elem_of_list_In, repeat_spec in Ho.
  - intros c1 c2 l1 l2 k H1 _ Hk.
    apply elem_of_list_lookup_2, elem_of_list_In, repeat_spec in H1. subst l1.
    by apply elem_of_nil in Hk.
  - intros k. rewrite lookup_empty. by intros [? ?].
  - intros k. rewrite lookup_empty. by intros [? ?].
Qed.
