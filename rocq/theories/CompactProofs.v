(** [into_compact]: listing of the walkable spans and their connections. *)
From Verif Require Import Base ModelMath ModelHeightfield ModelFilters ModelHistory ModelCompact
  SpecHeightfield SpecCompact HeapProofs InsertProofs FilterProofs HistoryProofs PackProofs.
Local Open Scope Z_scope.

(** ** Recursive form of [opens] *)
Definition top_of (l : list cell) : Z := match l with [] => 65535 | s :: _ => c_min s end.
Fixpoint opens_rec (l : list cell) : list ospan :=
  match l with
  | [] => []
  | s :: l' =>
    if decide (c_area s ≠ 0)
    then Open (c_max s) (Z.min 255 (top_of l' - c_max s)) (c_area s) :: opens_rec l'
    else opens_rec l'
  end.

Lemma opens_rec_gen pre l :
  (λ p, Open (c_max p.2) (Z.min 255 (open_top (geometry (pre ++ l)) p.1 - c_max p.2)) (c_area p.2))
  <$> filter (λ p, c_area p.2 ≠ 0) (imap (λ i a, (length pre + i, a)%nat) l) = opens_rec l.
Proof.
  revert pre. induction l as [|s l IH]; intros pre; [done|].
  cbn [imap]. rewrite filter_cons. cbn [snd opens_rec].
  assert (Hrest : ((λ p, Open (c_max p.2) (Z.min 255 (open_top (geometry (pre ++ s :: l)) p.1 - c_max p.2)) (c_area p.2))
     <$> filter (λ p : nat * cell, c_area p.2 ≠ 0) (imap ((λ (i : nat) (a : cell), ((length pre + i)%nat, a)) ∘ S) l))
     = opens_rec l).
  { rewrite <-(IH (pre ++ [s])). rewrite <-app_assoc. cbn [app].
    f_equal. f_equal. apply imap_ext. intros i a _. cbn. rewrite app_length. cbn. f_equal. lia. }
  case_decide.
  - rewrite fmap_cons, Hrest. f_equal. cbn [fst snd]. f_equal. f_equal. f_equal.
    unfold open_top, geometry. rewrite fmap_app, lookup_app_r by (rewrite fmap_length; lia).
    rewrite fmap_length. replace (S (length pre + 0) - length pre)%nat with 1%nat by lia.
    by destruct l.
  - apply Hrest.
Qed.

Lemma opens_rec_eq l : opens l = opens_rec l.
Proof.
  rewrite <-(opens_rec_gen [] l). unfold opens, walkable_at. cbn [app length]. done.
Qed.

Lemma opens_fine lo l p :
  -1 ≤ lo → sorted_from lo l → areas_ok l → p ∈ opens_rec l →
  0 ≤ o_y p ∧ 0 ≤ o_h p ≤ 255 ∧ o_y p + o_h p ≤ 65535 ∧ 1 ≤ o_area p ≤ 255.
Proof.
  revert lo. induction l as [|s l IH]; intros lo Hlo Hg Ha Hp.
  { by apply elem_of_nil in Hp. }
  apply Forall_cons in Ha as [Has Ha]. cbn in Hg, Hp. destruct Hg as (H1 & H2 & H3 & Hg).
  assert (c_max s ≤ top_of l ≤ 65535) as Htop.
  { destruct l as [|s' l]; [cbn; lia|]. cbn in *. lia. }
  case_decide.
  - apply elem_of_cons in Hp as [->|Hp]; [cbn; lia|]. eapply (IH (c_max s)); [lia|done..].
  - eapply (IH (c_max s)); [lia|done..].
Qed.

(** ** Filling cells and spans *)
Definition mk_span (p : ospan) : cspan := set_height (CS (o_y p) 0 0) (o_h p).

Lemma mk_span_height p : 0 ≤ o_h p ≤ 255 → cs_height (mk_span p) = o_h p.
Proof. intros. unfold cs_height, mk_span, set_height. cbn. by apply height_set_height. Qed.

Lemma put_app_repeat {A} (l : list A) (a b : A) m n :
  n = length l → (0 < m)%nat →
  put (l ++ repeat a m) n b = Done ((l ++ [b]) ++ repeat a (m - 1)).
Proof.
  intros -> Hm. destruct m as [|m]; [lia|]. rewrite put_lt.
  - cbn [repeat]. rewrite insert_app_r_alt by lia. rewrite Nat.sub_diag. cbn.
    by rewrite <-app_assoc, Nat.sub_0_r.
  - rewrite app_length, repeat_length. lia.
Qed.

Lemma get_app_repeat {A} (l : list A) (a : A) m n :
  n = length l → (0 < m)%nat → get (l ++ repeat a m) n = Done a.
Proof.
  intros -> Hm. destruct m as [|m]; [lia|]. apply get_some. cbn [repeat].
  by rewrite list_lookup_middle.
Qed.

Lemma fill_col_spec fuel hf cols c pre rest cell sp ar m n :
  rep hf cols → cols !! c = Some (pre ++ rest) → (length rest ≤ fuel)%nat →
  (∃ lo, -1 ≤ lo ∧ sorted_from lo rest.*2) →
  n = length sp → n = length ar → (length (opens_rec rest.*2) ≤ m)%nat →
  fill_col fuel hf cell (sp ++ repeat cs_default m) (ar ++ repeat NOT_WALKABLE m) n (head_key rest) =
  if decide (cc_count cell + length (opens_rec rest.*2) ≤ 255)%nat
  then Done (CC (cc_index cell) (cc_count cell + length (opens_rec rest.*2)),
        (sp ++ (mk_span <$> opens_rec rest.*2)) ++ repeat cs_default (m - length (opens_rec rest.*2)),
        (ar ++ (o_area <$> opens_rec rest.*2)) ++ repeat NOT_WALKABLE (m - length (opens_rec rest.*2)),
        n + length (opens_rec rest.*2))%nat
  else if decide (cc_count cell ≤ 255)%nat then Panicked else
   fill_col fuel hf cell (sp ++ repeat cs_default m) (ar ++ repeat NOT_WALKABLE m) n (head_key rest).
Proof.
  intros Hr. revert fuel pre cell sp ar m n.
  induction rest as [|[k ce] rest IH]; intros fuel pre cell sp ar m n Hc Hf Hs Hn Hna Hm.
  { destruct fuel; cbn; rewrite ?Nat.add_0_r, ?Nat.sub_0_r, ?app_nil_r; repeat case_decide; try lia;
      by destruct cell. }
  destruct fuel as [|fuel]; [cbn in Hf; lia|].
  change (head_key ((k, ce) :: rest)) with (Some k). cbn [fill_col].
  unfold span_get. rewrite (rep_lookup _ _ _ _ _ _ _ Hr Hc). cbn [unwrap obind s_area s_max s_next].
  assert (Hc' : cols !! c = Some ((pre ++ [(k, ce)]) ++ rest)) by (by rewrite <-app_assoc).
  assert (Hf' : (length rest ≤ fuel)%nat) by (cbn in Hf; lia).
  destruct Hs as (lo & Hlo & H1 & H2 & H3 & Hs). cbn [snd] in *.
  assert (Hs' : ∃ lo, -1 ≤ lo ∧ sorted_from lo rest.*2) by (exists (c_max ce); split; [lia|done]).
  rewrite !fmap_cons in Hm |- *. cbn [snd opens_rec] in *. unfold is_walkable, NOT_WALKABLE in *.
  destruct (Z.eqb_spec (c_area ce) 0) as [E|E]; cbn [negb].
  - rewrite (decide_False (P := c_area ce ≠ 0)) in Hm |- * by lia. by apply (IH fuel (pre ++ [(k, ce)])).
  - rewrite (decide_True (P := c_area ce ≠ 0)) in Hm |- * by lia. cbn [length] in Hm.
    rewrite (next_floor_rep _ _ _ _ _ _ _ Hr Hc). cbn [obind].
    replace (match rest with [] => MAX_HEIGHT | (_, ce') :: _ => c_min ce' end)
      with (top_of rest.*2) by (by destruct rest as [|[? ?] ?]).
    rewrite (get_app_repeat sp) by (done || lia). cbn [obind].
    rewrite (put_app_repeat sp) by (done || lia). cbn [obind].
    rewrite (put_app_repeat ar) by (done || lia). cbn [obind].
    assert (c_max ce ≤ top_of rest.*2) as Htop.
    { destruct rest as [|[k' ce'] rest]; cbn in *; lia. }
    unfold inc_count. destruct (Nat.leb_spec 255 (cc_count cell)).
    { cbn [obind length]. rewrite decide_False by lia. case_decide; done. }
    cbn [obind]. set (b := set_height _ _).
    assert (b = mk_span (Open (c_max ce) (Z.min 255 (top_of rest.*2 - c_max ce)) (c_area ce))) as Eb.
    { unfold b, mk_span. cbn [o_y o_h cs_default cs_reg cs_data]. f_equal; [|lia].
      f_equal. lia. }
    rewrite (IH fuel (pre ++ [(k, ce)]) _ (sp ++ [b]) (ar ++ [c_area ce]) (m - 1)%nat (n + 1)%nat);
      [|done|done|done|rewrite app_length; cbn; lia|rewrite app_length; cbn; lia|lia].
    cbn [cc_index cc_count length]. rewrite !fmap_cons. cbn [length].
    destruct (decide (cc_count cell + 1 + length (opens_rec rest.*2) ≤ 255)%nat).
    + rewrite decide_True by lia. rewrite <-Eb.
      replace (m - 1 - length (opens_rec rest.*2))%nat with (m - S (length (opens_rec rest.*2)))%nat by lia.
      rewrite <-!app_assoc. cbn [app o_area].
      replace (cc_count cell + 1 + length (opens_rec rest.*2))%nat
        with (cc_count cell + S (length (opens_rec rest.*2)))%nat by lia.
      replace (n + 1 + length (opens_rec rest.*2))%nat
        with (n + S (length (opens_rec rest.*2)))%nat by lia. done.
    + rewrite decide_True by lia. rewrite decide_False by lia. rewrite decide_True by lia. done.
Qed.

(** ** The first loop as a whole *)
Lemma sum_list_app l1 l2 : sum_list (l1 ++ l2) = (sum_list l1 + sum_list l2)%nat.
Proof. induction l1 as [|a l1 IH]; cbn; [done|]. lia. Qed.

Lemma concat_take_S {A} (O : list (list A)) c o :
  O !! c = Some o → concat (take (S c) O) = concat (take c O) ++ o.
Proof. intros H. rewrite (take_S_r _ _ _ H), concat_app. cbn. by rewrite app_nil_r. Qed.

Lemma concat_take_le {A} (O : list (list A)) c :
  (length (concat (take c O)) ≤ length (concat O))%nat.
Proof. rewrite <-(take_drop c O) at 2. rewrite concat_app, app_length. lia. Qed.

Lemma cast_u32_small n : Z.of_nat n < 2 ^ 32 → cast_u32 n = n.
Proof. intros. unfold cast_u32, wrap_u32. rewrite Z.mod_small by lia. lia. Qed.

Definition opens_of (cols : list (list (key * cell))) : list (list ospan) :=
  (λ kl, opens_rec kl.*2) <$> cols.

Definition cell_ok (O : list (list ospan)) (c : nat) (o : list ospan) (cell : ccell) : Prop :=
  cc_count cell = length o ∧ (o ≠ [] → cc_index cell = first_index O c).

Record fill_inv (O : list (list ospan)) (total ncells n : nat) (st : fill_st) : Prop := FillInv {
  fi_spans : fl_spans st = (mk_span <$> concat (take n O)) ++ repeat cs_default (total - first_index O n);
  fi_areas : fl_areas st = (o_area <$> concat (take n O)) ++ repeat NOT_WALKABLE (total - first_index O n);
  fi_next : fl_next st = first_index O n;
  fi_len : length (fl_cells st) = ncells;
  fi_cell : ∀ c o, O !! c = Some o → ∃ cell, fl_cells st !! c = Some cell ∧
    if decide (c < n)%nat then cell_ok O c o cell else cell = cc_default
}.

Lemma fill_cell_spec hf cols x z st :
  hf_ok hf cols → let O := opens_of cols in
  (x < hf_w hf)%nat → (z < hf_h hf)%nat → Z.of_nat (length (concat O)) < 2 ^ 32 →
  let c := (x + z * hf_w hf)%nat in
  fill_inv O (length (concat O)) (hf_w hf * hf_h hf) c st →
  ∃ o, O !! c = Some o ∧
  if decide (length o ≤ 255)%nat
  then runs (fill_cell hf x z st) (fill_inv O (length (concat O)) (hf_w hf * hf_h hf) (c + 1))
  else fill_cell hf x z st = Panicked.
Proof.
  intros [Hr Hl Hf] O Hx Hz Htot c Hinv. destruct Hinv as [Fs Fa Fn Fl Fc].
  assert (c < length cols)%nat as Hc by (rewrite Hl; unfold c; nia).
  destruct (lookup_lt_is_Some_2 _ _ Hc) as [kl Hkl].
  assert (HO : O !! c = Some (opens_rec kl.*2)).
  { unfold O, opens_of. rewrite list_lookup_fmap, Hkl. done. }
  exists (opens_rec kl.*2). split; [done|].
  set (o := opens_rec kl.*2) in *.
  assert (HS : concat (take (c + 1) O) = concat (take c O) ++ o).
  { rewrite Nat.add_1_r. by apply concat_take_S. }
  assert (HI : first_index O (c + 1) = (first_index O c + length o)%nat).
  { unfold first_index. rewrite HS, app_length. done. }
  assert (Hle : (first_index O (c + 1) ≤ length (concat O))%nat) by apply concat_take_le.
  unfold fill_cell. rewrite (span_key_at_rep _ _ _ _ _ Hr Hkl).
  destruct kl as [|[k ce] kl'].
  { cbn [head_key head fmap option_fmap option_map]. rewrite decide_True by (cbn; lia). cbn.
    split.
    - rewrite Fs, HS, HI. cbn. by rewrite app_nil_r, Nat.add_0_r.
    - rewrite Fa, HS, HI. cbn. by rewrite app_nil_r, Nat.add_0_r.
    - rewrite Fn, HI. cbn. lia.
    - done.
    - intros c' o' Hc'. destruct (Fc _ _ Hc') as (cell & Hcell & Hd). exists cell. split; [done|].
      destruct (decide (c' = c)) as [->|].
      + rewrite decide_True by lia. rewrite decide_False in Hd by lia. subst cell.
        rewrite HO in Hc'. injection Hc' as <-. split; [done|]. intros []. done.
      + destruct (decide (c' < c)%nat).
        * by rewrite decide_True by lia.
        * by rewrite decide_False by lia. }
  change (head_key ((k, ce) :: kl')) with (Some k).
  assert (c < length (fl_cells st))%nat as Hcl by (rewrite Fl; unfold c; nia).
  destruct (get_lt _ _ Hcl) as (cell0 & Hget & _).
  change (column_index hf x z) with c. rewrite Hget. cbn [obind].
  rewrite Fs, Fa, Fn.
  pose proof (fill_col_spec (S (size (hf_alloc hf))) hf cols c [] ((k, ce) :: kl')
    (CC (cast_u32 (first_index O c)) 0) (mk_span <$> concat (take c O)) (o_area <$> concat (take c O))
    (length (concat O) - first_index O c)%nat (first_index O c) Hr Hkl) as Hfill.
  change (head_key ((k, ce) :: kl')) with (Some k) in Hfill.
  pose proof (rep_size _ _ _ _ Hr Hkl).
  rewrite Hfill; clear Hfill.
  - change (opens_rec ((k, ce) :: kl').*2) with o. cbn [cc_count cc_index]. cbn [Nat.add].
    case_decide; [|rewrite decide_True by lia; done].
    cbn [obind]. rewrite put_lt by done. cbn [obind runs]. split; cbn [fl_spans fl_areas fl_next fl_cells].
    + rewrite HS, HI, fmap_app, Nat.sub_add_distr. done.
    + rewrite HS, HI, fmap_app, Nat.sub_add_distr. done.
    + by rewrite HI.
    + by rewrite insert_length.
    + intros c' o' Hc'. destruct (decide (c' = c)) as [->|].
      * rewrite list_lookup_insert by done. eexists. split; [done|]. rewrite decide_True by lia.
        rewrite HO in Hc'. injection Hc' as <-. split; [done|]. intros _. cbn.
        apply cast_u32_small. lia.
      * rewrite list_lookup_insert_ne by done. destruct (Fc _ _ Hc') as (cell & Hcell & Hd).
        exists cell. split; [done|]. destruct (decide (c' < c)%nat).
        -- by rewrite decide_True by lia.
        -- by rewrite decide_False by lia.
  - lia.
  - exists (-1). split; [lia|]. apply good_sorted. by apply (Hf c).
  - by rewrite fmap_length.
  - by rewrite fmap_length.
  - change (opens_rec ((k, ce) :: kl').*2) with o. lia.
Qed.

Lemma fill_init_inv hf cols :
  hf_ok hf cols → let O := opens_of cols in
  fill_inv O (length (concat O)) (hf_w hf * hf_h hf) 0
    (Fill (repeat cc_default (hf_w hf * hf_h hf)) (repeat cs_default (length (concat O)))
       (repeat NOT_WALKABLE (length (concat O))) 0).
Proof.
  intros [Hr Hl Hf] O. split; cbn [fl_spans fl_areas fl_next fl_cells]; unfold first_index; cbn.
  - by rewrite Nat.sub_0_r.
  - by rewrite Nat.sub_0_r.
  - done.
  - by rewrite repeat_length.
  - intros c o Ho. exists cc_default. split; [|done]. apply repeat_lookup.
    unfold O, opens_of in Ho. rewrite list_lookup_fmap in Ho. apply fmap_Some in Ho as (kl & Hk & _).
    rewrite <-Hl. by eapply lookup_lt_Some.
Qed.

Lemma fill_all_spec hf cols :
  hf_ok hf cols → let O := opens_of cols in countable O →
  runs (for_cells (hf_w hf) (hf_h hf) (fill_cell hf)
    (Fill (repeat cc_default (hf_w hf * hf_h hf)) (repeat cs_default (length (concat O)))
       (repeat NOT_WALKABLE (length (concat O))) 0))
    (fill_inv O (length (concat O)) (hf_w hf * hf_h hf) (hf_w hf * hf_h hf)).
Proof.
  intros Hok O [Hsm Htot]. apply for_cells_inv; [by apply fill_init_inv|].
  intros x z st Hx Hz Hinv.
  destruct (fill_cell_spec hf cols x z st Hok Hx Hz Htot Hinv) as (o & Ho & Hd).
  rewrite Forall_lookup in Hsm. specialize (Hsm _ _ Ho). cbn in Hsm. by rewrite decide_True in Hd.
Qed.

(** The number of allocated walkable spans is the number of open spans. *)
Lemma opens_rec_length (l : list cell) :
  length (opens_rec l) = length (filter (λ a, is_walkable (c_area a) = true) l).
Proof.
  induction l as [|s l IH]; [done|]. cbn [opens_rec]. rewrite filter_cons.
  unfold is_walkable, NOT_WALKABLE in *. destruct (Z.eqb_spec (c_area s) 0).
  - rewrite decide_False by lia. rewrite decide_False by done. done.
  - rewrite decide_True by lia. rewrite decide_True by done. cbn. by rewrite IH.
Qed.

Lemma walkable_count_spec hf cols :
  rep hf cols → walkable_span_count hf = length (concat (opens_of cols)).
Proof.
  intros Hr. unfold walkable_span_count.
  destruct (rep_concat _ _ Hr) as [Hnd Hdom].
  set (sp := λ p : key * cell, (p.1, (c_min p.2, c_max p.2, c_area p.2))).
  set (sq := λ p : key * span, (p.1, (s_min p.2, s_max p.2, s_area p.2))).
  assert (Hperm : sq <$> map_to_list (hf_alloc hf) ≡ₚ sp <$> concat cols).
  { apply NoDup_Permutation.
    - apply (NoDup_fmap_1 fst). rewrite <-list_fmap_compose.
      change (fst ∘ sq) with (fst : key * span → key). apply NoDup_fst_map_to_list.
    - apply (NoDup_fmap_1 fst). rewrite <-list_fmap_compose.
      change (fst ∘ sp) with (fst : key * cell → key). done.
    - intros [k t]. rewrite !elem_of_list_fmap. split.
      + intros ([k' s] & E & Hin). apply elem_of_map_to_list in Hin.
        destruct (rep_all _ _ Hr k') as (c & l & Hc & Hk); [eauto|].
        apply elem_of_list_fmap in Hk as ([k2 ce] & E2 & Hk). cbn in E2. subst k2.
        apply elem_of_list_split in Hk as (pre & post & ->).
        pose proof (rep_lookup _ _ _ _ _ _ _ Hr Hc) as Hlk. rewrite Hin in Hlk.
        injection Hlk as ->. exists (k', ce). split; [by rewrite E|].
        apply elem_of_list_In, in_concat. exists (pre ++ (k', ce) :: post).
        split; apply elem_of_list_In; [by eapply elem_of_list_lookup_2|set_solver].
      + intros ([k' ce] & E & Hin). apply elem_of_list_In, in_concat in Hin as (l & Hl & Hk).
        apply elem_of_list_In in Hl, Hk. apply elem_of_list_lookup in Hl as [c Hc].
        apply elem_of_list_split in Hk as (pre & post & ->).
        pose proof (rep_lookup _ _ _ _ _ _ _ Hr Hc) as Hlk.
        eexists (k', _). split; [|by apply elem_of_map_to_list]. by rewrite E. }
  set (wk := λ t : key * (Z * Z * Z), is_walkable t.2.2 = true).
  assert (E1 : length (filter (λ p : key * span, is_walkable (s_area p.2) = true) (map_to_list (hf_alloc hf)))
             = length (filter wk (sq <$> map_to_list (hf_alloc hf)))).
  { generalize (map_to_list (hf_alloc hf)). intros L. induction L as [|a L IH]; [done|].
    rewrite fmap_cons, !filter_cons. cbn -[is_walkable].
    destruct (decide (is_walkable (s_area a.2) = true)); destruct (decide (wk (sq a))); cbn; try done.
    by rewrite IH. }
  assert (E2 : length (concat (opens_of cols)) = length (filter wk (sp <$> concat cols))).
  { clear. unfold opens_of. induction cols as [|l cols IH]; [done|].
    rewrite fmap_cons. cbn [concat]. rewrite app_length, IH, fmap_app, filter_app, app_length. f_equal.
    rewrite opens_rec_length. clear. induction l as [|a l IH]; [done|].
    rewrite !fmap_cons, !filter_cons. cbn -[is_walkable].
    destruct (decide (is_walkable (c_area a.2) = true)); destruct (decide (wk (sp a))); cbn; try done.
    by rewrite IH. }
  rewrite E1, E2, Hperm. done.
Qed.

(** Some column with more than 255 walkable spans: the counter overflows. *)
Lemma fill_all_panic hf cols :
  hf_ok hf cols → let O := opens_of cols in
  Z.of_nat (length (concat O)) < 2 ^ 32 → ¬ Forall (λ o, length o ≤ 255)%nat O →
  for_cells (hf_w hf) (hf_h hf) (fill_cell hf)
    (Fill (repeat cc_default (hf_w hf * hf_h hf)) (repeat cs_default (length (concat O)))
       (repeat NOT_WALKABLE (length (concat O))) 0) = Panicked.
Proof.
  intros Hok O Htot Hbig. pose proof Hok as [Hr Hl Hf].
  assert (HOlen : length O = (hf_w hf * hf_h hf)%nat) by (unfold O, opens_of; by rewrite fmap_length).
  rewrite for_cells_flat. set (st0 := Fill _ _ _ _).
  assert (∀ n, (n ≤ hf_w hf * hf_h hf)%nat →
    (∀ c o, (c < n)%nat → O !! c = Some o → (length o ≤ 255)%nat) →
    runs (foldM (λ c, fill_cell hf (c mod hf_w hf) (c / hf_w hf)) (seq 0 n) st0)
      (fill_inv O (length (concat O)) (hf_w hf * hf_h hf) n)) as Hpre.
  { induction n as [|n IH]; intros Hn Hsm; [by apply fill_init_inv|].
    rewrite seq_S, foldM_app. eapply runs_bind; [apply IH; [lia|]|].
    { intros c o Hc. apply Hsm. lia. }
    cbn [foldM Nat.add]. intros st Hinv. rewrite obind_ret.
    assert (hf_w hf ≠ 0)%nat by lia.
    assert (n = n mod hf_w hf + n / hf_w hf * hf_w hf)%nat as En
      by (rewrite (Nat.div_mod_eq n (hf_w hf)) at 1; lia).
    assert (n mod hf_w hf < hf_w hf)%nat by (by apply Nat.mod_upper_bound).
    assert (n / hf_w hf < hf_h hf)%nat by (apply Nat.div_lt_upper_bound; lia).
    rewrite En in Hinv.
    destruct (fill_cell_spec hf cols _ _ st Hok ltac:(done) ltac:(done) Htot Hinv) as (o & Ho & Hd).
    rewrite <-En in Ho, Hd. rewrite decide_True in Hd by (eapply (Hsm n); [lia|done]).
    by replace (S n) with (n + 1)%nat by lia. }
  apply not_Forall_Exists in Hbig; [|apply _].
  apply Exists_exists in Hbig as (o0 & Hin & Hb0). apply elem_of_list_lookup in Hin as [c0 Hc0].
  (* least bad column *)
  assert (∃ n o, O !! n = Some o ∧ (255 < length o)%nat ∧
    ∀ c o', (c < n)%nat → O !! c = Some o' → (length o' ≤ 255)%nat) as (n & o & Hno & Hb & Hleast).
  { revert o0 Hc0 Hb0. induction (lt_wf c0) as [c0 _ IH]. intros o0 Hc0 Hb0.
    destruct (decide (Forall (λ o, length o ≤ 255)%nat (take c0 O))) as [Hall|Hn].
    - exists c0, o0. split_and!; [done|cbn in Hb0; lia|]. intros c o' Hlt Ho'.
      rewrite Forall_lookup in Hall. apply (Hall c). by rewrite lookup_take.
    - apply not_Forall_Exists in Hn; [|apply _]. apply Exists_exists in Hn as (o1 & Hin1 & Hb1).
      apply elem_of_take in Hin1 as (c1 & Hc1 & Hlt). by apply (IH c1 Hlt o1). }
  assert (n < hf_w hf * hf_h hf)%nat as Hlt by (rewrite <-HOlen; by eapply lookup_lt_Some).
  replace (hf_h hf * hf_w hf)%nat with (n + S (hf_w hf * hf_h hf - n - 1))%nat by lia.
  rewrite seq_app, foldM_app. specialize (Hpre n ltac:(lia) Hleast).
  destruct (foldM _ (seq 0 n) st0) as [st| |]; [|done|done]. cbn [runs] in Hpre. cbn [obind].
  cbn [seq foldM Nat.add].
  assert (hf_w hf ≠ 0)%nat by lia.
  assert (n = n mod hf_w hf + n / hf_w hf * hf_w hf)%nat as En
    by (rewrite (Nat.div_mod_eq n (hf_w hf)) at 1; lia).
  assert (n mod hf_w hf < hf_w hf)%nat by (by apply Nat.mod_upper_bound).
  assert (n / hf_w hf < hf_h hf)%nat by (apply Nat.div_lt_upper_bound; lia).
  rewrite En in Hpre.
  destruct (fill_cell_spec hf cols _ _ st Hok ltac:(done) ltac:(done) Htot Hpre) as (o' & Ho' & Hd).
  rewrite <-En in Ho'. fold O in Ho'. rewrite Hno in Ho'. injection Ho' as <-.
  rewrite decide_False in Hd by lia. by rewrite Hd.
Qed.
