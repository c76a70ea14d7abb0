(** Every reachable heightfield is well formed. *)
From Verif Require Import Base ModelMath ModelHeightfield ModelFilters ModelHistory
  SpecHeightfield HeapProofs InsertProofs FilterProofs.
Local Open Scope Z_scope.

Definition areas_ok (l : list cell) : Prop := Forall (λ a, 0 ≤ c_area a ≤ 255) l.

Definition fine (l : list (key * cell)) : Prop := good_column l.*2 ∧ areas_ok l.*2.

Record hf_ok (hf : hfield) (cols : list (list (key * cell))) : Prop := HfOk {
  ok_rep : rep hf cols;
  ok_len : length cols = (hf_w hf * hf_h hf)%nat;
  ok_fine : ∀ c l, cols !! c = Some l → fine l
}.

Lemma good_geometry l l' : geometry l' = geometry l → good_column l → good_column l'.
Proof.
  intros Hg [H1 H2].
  assert (Hlk : ∀ i a, l' !! i = Some a → ∃ b, l !! i = Some b ∧ c_min a = c_min b ∧ c_max a = c_max b).
  { intros i a Hi. assert (geometry l !! i = Some (c_min a, c_max a)) as E.
    { rewrite <-Hg, geometry_lookup, Hi. done. }
    rewrite geometry_lookup in E. apply fmap_Some in E as (b & Hb & E').
    injection E' as -> ->. eauto. }
  split.
  - intros i a Hi. destruct (Hlk _ _ Hi) as (b & Hb & -> & ->). eauto.
  - intros i a a' Hi Hi'. destruct (Hlk _ _ Hi) as (b & Hb & _ & ->).
    destruct (Hlk _ _ Hi') as (b' & Hb' & -> & _). eauto.
Qed.

Lemma fold_merge_area_ok thr T new :
  0 ≤ c_area new ≤ 255 → areas_ok T → 0 ≤ c_area (fold_left (merge_cell thr) T new) ≤ 255.
Proof.
  revert new. induction T as [|c T IH]; intros new Hn HT; [done|].
  apply Forall_cons in HT as [Hc HT]. cbn. apply IH; [|done].
  unfold merge_cell. cbn. case_match; lia.
Qed.

Lemma Forall_filter_of (Q P : cell → Prop) `{∀ c, Decision (P c)} l :
  Forall Q l → Forall Q (filter P l).
Proof. rewrite !Forall_forall. intros HF c [_ Hc]%elem_of_list_filter. auto. Qed.

Lemma insert_cells_fine thr new l :
  0 ≤ c_min new ≤ c_max new → c_max new ≤ 65535 → 0 ≤ c_area new ≤ 255 →
  good_column l → areas_ok l →
  good_column (insert_cells thr new l) ∧ areas_ok (insert_cells thr new l).
Proof.
  intros H1 H2 H3 H4 H5. split; [by apply insert_cells_good|].
  rewrite (insert_cells_shape _ _ _ (-1)) by (lia || by apply good_sorted).
  unfold areas_ok in *. rewrite Forall_app, Forall_cons.
  split_and!.
  - by apply Forall_filter_of.
  - apply fold_merge_area_ok; [done|]. by apply Forall_filter_of.
  - apply fold_merge_area_ok; [done|]. by apply Forall_filter_of.
  - by apply Forall_filter_of.
Qed.

Lemma low_pure_areas climb prev l :
  (∀ pm pw pa, prev = Some (pm, pw, pa) → 0 ≤ pa ≤ 255) →
  areas_ok l → areas_ok (low_pure climb prev l).
Proof.
  revert prev. induction l as [|s l IH]; intros prev Hp Hl; [done|].
  apply Forall_cons in Hl as [Hs Hl]. cbn [low_pure].
  set (a := match prev with Some _ => _ | None => _ end).
  assert (0 ≤ a ≤ 255) as Ha.
  { unfold a. destruct prev as [[[pm pw] pa]|]; [|done].
    specialize (Hp _ _ _ eq_refl). by case_match. }
  apply Forall_cons. split; [done|]. apply IH; [|done]. by intros ? ? ? [= _ _ <-].
Qed.

Lemma ledge_pure_areas cm wh climb x z l : areas_ok l → areas_ok (ledge_pure cm wh climb x z l).
Proof.
  induction l as [|s l IH]; intros Hl; [done|]. apply Forall_cons in Hl as [Hs Hl].
  cbn [ledge_pure]. apply Forall_cons. split; [|by apply IH].
  case_match; [cbn; unfold NOT_WALKABLE; lia|done].
Qed.

Lemma height_pure_areas wh l : areas_ok l → areas_ok (height_pure wh l).
Proof.
  induction l as [|s l IH]; intros Hl; [done|]. apply Forall_cons in Hl as [Hs Hl].
  cbn [height_pure]. apply Forall_cons. split; [|by apply IH].
  case_match; [cbn; unfold NOT_WALKABLE; lia|done].
Qed.

Lemma hf_ok_new w h g : hf_ok (new_hf w h g) (repeat [] (w * h)).
Proof.
  split; [apply rep_new|by rewrite repeat_length|].
  intros c l Hl. apply elem_of_list_lookup_2, elem_of_list_In, repeat_spec in Hl. subst. split; [|constructor].
  split; intros; done.
Qed.

(** From a per-column rewriting result to [hf_ok]. *)
Lemma hf_ok_pass (F : nat → list cell → list cell) hf hf' cols cols' :
  hf_ok hf cols → same_shape hf hf' → rep hf' cols' → length cols' = length cols →
  (∀ c l, cols !! c = Some l →
     ∃ l', cols' !! c = Some l' ∧ l'.*1 = l.*1 ∧ l'.*2 = F c l.*2) →
  (∀ c l, geometry (F c l) = geometry l) →
  (∀ c l, areas_ok l → areas_ok (F c l)) →
  hf_ok hf' cols'.
Proof.
  intros [Hr Hl Hf] (Hw & Hh & _) Hr' Hl' Hall HF HA. split; [done| |].
  - by rewrite Hl', Hl, Hw, Hh.
  - intros c l' Hc. assert (c < length cols)%nat as Hlt.
    { rewrite <-Hl'. by eapply lookup_lt_Some. }
    apply lookup_lt_is_Some in Hlt as [l Hlk]. destruct (Hall _ _ Hlk) as (l'' & E & _ & E2).
    rewrite Hc in E. injection E as <-. destruct (Hf _ _ Hlk) as [Hg Ha]. unfold fine. rewrite E2. split.
    + eapply good_geometry; [apply HF|done].
    + by apply HA.
Qed.

Lemma run_op_ok op hf cols :
  valid_op op → hf_ok hf cols →
  runs (run_op op hf) (λ hf', same_shape hf hf' ∧ ∃ cols', hf_ok hf' cols').
Proof.
  intros Hv Hok. pose proof Hok as [Hr Hl Hf]. destruct op as [i|climb|wh climb|wh]; cbn [run_op].
  - destruct (decide (column_index hf (in_x i) (in_z i) < length cols)%nat) as [Hlt|Hge].
    + destruct (lookup_lt_is_Some_2 _ _ Hlt) as [l Hlk].
      eapply runs_bind; [by apply add_span_spec|].
      cbn. intros r (hf' & l' & -> & Hsh & Hr' & Hl'). split; [done|].
      eexists. split; [exact Hr'| |].
      * destruct Hsh as (-> & -> & _). by rewrite insert_length.
      * intros c l0 Hc. destruct (decide (c = column_index hf (in_x i) (in_z i))) as [->|Hne].
        -- rewrite list_lookup_insert in Hc by done. injection Hc as <-.
           destruct (Hf _ _ Hlk). destruct Hv as (? & ? & ? & ?).
           unfold fine. rewrite Hl'. by apply insert_cells_fine.
        -- rewrite list_lookup_insert_ne in Hc by done. by eapply Hf.
    + rewrite add_span_oob by (rewrite <-(rep_len _ _ Hr); lia). cbn.
      split; [apply same_shape_refl|]. eauto.
  - eapply runs_mono; [by apply filter_low_hanging_rep|].
    intros hf' (Hsh & cols' & Hr' & Hl' & Hall). split; [done|]. exists cols'.
    eapply (hf_ok_pass (λ _ l, low_pure climb None l)); [done..| |].
    + intros. apply low_pure_geometry.
    + intros. by apply low_pure_areas.
  - eapply runs_mono; [by apply filter_ledge_rep|].
    intros hf' (Hsh & cols' & Hr' & Hl' & Hall). split; [done|]. exists cols'.
    eapply (hf_ok_pass (λ c l, ledge_pure _ wh climb (c mod hf_w hf) (c / hf_w hf) l)); [done..| |].
    + intros. apply ledge_pure_geometry.
    + intros. by apply ledge_pure_areas.
  - eapply runs_mono; [by apply filter_low_height_rep|].
    intros hf' (Hsh & cols' & Hr' & Hl' & Hall). split; [done|]. exists cols'.
    eapply (hf_ok_pass (λ _ l, height_pure wh l)); [done..| |].
    + intros. apply height_pure_geometry.
    + intros. by apply height_pure_areas.
Qed.

Lemma run_ops_ok ops hf cols :
  Forall valid_op ops → hf_ok hf cols →
  runs (run_ops ops hf) (λ hf', same_shape hf hf' ∧ ∃ cols', hf_ok hf' cols').
Proof.
  intros Hv. revert hf cols. induction Hv as [|op ops Hop Hops IH]; intros hf cols Hok; cbn [run_ops foldM].
  - split; [apply same_shape_refl|eauto].
  - eapply runs_bind; [by apply (run_op_ok op hf cols)|]. cbn. intros hf' (Hsh & cols' & Hok').
    eapply runs_mono; [by apply (IH hf' cols')|]. intros hf'' (Hsh' & ?).
    split; [by eapply same_shape_trans|done].
Qed.

Lemma reachable_ok hf : reachable hf → ∃ cols, hf_ok hf cols.
Proof.
  intros (w & h & g & ops & Hv & Hrun).
  pose proof (run_ops_ok ops _ _ Hv (hf_ok_new w h g)) as H. rewrite Hrun in H. apply H.
Qed.

Lemma reachable_step op hf hf' :
  reachable hf → valid_op op → run_op op hf = Done hf' → reachable hf'.
Proof.
  intros (w & h & g & ops & Hv & Hrun) Hop Hr. exists w, h, g, (ops ++ [op]). split.
  - apply Forall_app. split; [done|]. by constructor.
  - unfold run_ops in *. rewrite foldM_app, Hrun. cbn. by rewrite Hr.
Qed.

(** Reading a column determines it. *)
Lemma rep_column hf cols c l : rep hf cols → column_keys hf c l ↔ cols !! c = Some l.
Proof.
  intros Hr. split; [|by apply rep_chain].
  intros (o & Ho & Hl). assert (c < length cols)%nat as Hlt.
  { rewrite (rep_len _ _ Hr). by eapply lookup_lt_Some. }
  apply lookup_lt_is_Some in Hlt as [l' Hl']. destruct (rep_chain _ _ Hr _ _ Hl') as (o' & Ho' & Hk).
  rewrite Ho in Ho'. injection Ho' as <-. rewrite Hl'. f_equal. by eapply links_det.
Qed.

Lemma is_column_rep hf cols c l :
  rep hf cols → is_column hf c l ↔ ∃ kl, cols !! c = Some kl ∧ kl.*2 = l.
Proof.
  intros Hr. unfold is_column. split.
  - intros (kl & H & E). exists kl. split; [|done]. by apply (rep_column hf).
  - intros (kl & H & E). exists kl. split; [|done]. by apply (rep_column hf cols).
Qed.

Lemma field_geometry_rep hf cols G :
  hf_ok hf cols → field_geometry hf G ↔ G = geom <$> cols.
Proof.
  intros [Hr Hl _]. unfold field_geometry. split.
  - intros [HL HG]. apply list_eq. intros c. rewrite list_lookup_fmap.
    destruct (G !! c) as [g|] eqn:E.
    + destruct (HG _ _ E) as (l & Hc & <-). apply (is_column_rep _ _ _ _ Hr) in Hc as (kl & -> & <-).
      done.
    + apply lookup_ge_None in E. rewrite HL, <-Hl in E. apply lookup_ge_None in E. by rewrite E.
  - intros ->. split; [by rewrite fmap_length|]. intros c g Hc.
    rewrite list_lookup_fmap in Hc. apply fmap_Some in Hc as (kl & Hk & ->).
    exists kl.*2. split; [|done]. apply (is_column_rep _ cols); [done|]. eauto.
Qed.

Lemma rep_concat hf cols :
  rep hf cols →
  NoDup (concat cols).*1 ∧ dom (hf_alloc hf) =@{gset key} list_to_set (concat cols).*1.
Proof.
  intros Hr. split.
  - assert (∀ n, NoDup (concat (take n cols)).*1) as H.
    2:{ specialize (H (length cols)). by rewrite firstn_all in H. }
    induction n as [|n IH]; [by constructor|].
    destruct (cols !! n) as [l|] eqn:E.
    + rewrite (take_S_r _ _ _ E), concat_app, fmap_app. cbn. rewrite app_nil_r.
      apply NoDup_app. split_and!; [done| |by eapply rep_nodup].
      intros k Hk Hk'. apply elem_of_list_fmap in Hk as ([k1 ce] & -> & Hin).
      apply elem_of_list_In, in_concat in Hin as (l' & Hl' & Hin).
      apply elem_of_list_In in Hl', Hin.
      apply elem_of_take in Hl' as (c & Hc & Hlt).
      assert (c = n); [|lia]. eapply (rep_disj _ _ Hr); [done|done| |done].
      apply elem_of_list_fmap. by exists (k1, ce).
    + apply lookup_ge_None in E. rewrite take_ge in IH by lia. rewrite take_ge by lia. done.
  - apply set_eq. intros k. rewrite elem_of_dom, elem_of_list_to_set. split.
    + intros (c & l & Hc & Hk)%(rep_all _ _ Hr). apply elem_of_list_fmap in Hk as (p & -> & Hp).
      apply elem_of_list_fmap. exists p. split; [done|]. apply elem_of_list_In, in_concat.
      exists l. split; apply elem_of_list_In; [by eapply elem_of_list_lookup_2|done].
    + intros (p & -> & Hp)%elem_of_list_fmap. apply elem_of_list_In, in_concat in Hp as (l & Hl & Hp).
      apply elem_of_list_In in Hl, Hp. apply elem_of_list_lookup in Hl as [c Hc].
      destruct (rep_chain _ _ Hr _ _ Hc) as (o & _ & Hlk). eapply links_in; [done|].
      apply elem_of_list_fmap. by exists p.
Qed.

(** ** Consequences used by the property theorems *)
Definition covered_by (w : nat) (is : list insertion) (c : nat) (y : Z) : Prop :=
  ∃ i, i ∈ is ∧ (in_x i + in_z i * w)%nat = c ∧ covers2 (cell_of (in_span i)) y.

Lemma inserts_solid2 is hf cols :
  Forall valid_insertion is → hf_ok hf cols →
  runs (run_ops (OpInsert <$> is) hf) (λ hf', same_shape hf hf' ∧ ∃ cols', hf_ok hf' cols' ∧
    ∀ c l, cols !! c = Some l → ∃ l', cols' !! c = Some l' ∧
      ∀ y, solid2 l'.*2 y ↔ solid2 l.*2 y ∨ covered_by (hf_w hf) is c y).
Proof.
  intros Hv. revert hf cols. induction Hv as [|i is Hi His IH]; intros hf cols Hok.
  { cbn. split; [apply same_shape_refl|]. exists cols. split; [done|]. intros c l Hc.
    exists l. split; [done|]. intros y. split; [by left|]. intros [?|(i & Hi & _)]; [done|].
    by apply elem_of_nil in Hi. }
  pose proof Hok as [Hr Hl Hf].
  assert (Hstep : runs (run_op (OpInsert i) hf) (λ hf', same_shape hf hf' ∧ ∃ cols', hf_ok hf' cols' ∧
    ∀ c l, cols !! c = Some l → ∃ l', cols' !! c = Some l' ∧
      ∀ y, solid2 l'.*2 y ↔ solid2 l.*2 y ∨ covered_by (hf_w hf) [i] c y)).
  { cbn [run_op].
    destruct (decide (column_index hf (in_x i) (in_z i) < length cols)%nat) as [Hlt|Hge].
    - destruct (lookup_lt_is_Some_2 _ _ Hlt) as [l Hlk].
      pose proof (run_op_ok (OpInsert i) hf cols Hi Hok) as Hok2.
      pose proof (add_span_spec hf cols i l Hr Hlk) as Hadd.
      cbn [run_op] in Hok2. destruct (add_span hf i) as [r| |]; [|done|done].
      cbn in *. destruct Hadd as (hf' & l' & -> & Hsh & Hr' & Hl').
      destruct Hok2 as (_ & cols2 & Hok2). split; [done|]. eexists. split.
      { replace cols2 with (<[column_index hf (in_x i) (in_z i):=l']> cols) in Hok2; [exact Hok2|].
        apply list_eq. intros c. apply option_eq. intros l0.
        rewrite <-(rep_column hf' _ _ _ Hr'). by rewrite <-(rep_column hf' _ _ _ (ok_rep _ _ Hok2)). }
      intros c l0 Hc. destruct (decide (c = column_index hf (in_x i) (in_z i))) as [->|Hne].
      + rewrite list_lookup_insert by done. rewrite Hlk in Hc. injection Hc as <-.
        exists l'. split; [done|]. intros y. rewrite Hl'.
        destruct (Hf _ _ Hlk) as [Hg _]. destruct Hi as (? & ? & ? & ?).
        rewrite insert_cells_solid2 by (done || (cbn; lia)).
        unfold covered_by. split.
        * intros [?|?]; [by left|]. right. exists i. split_and!; [by left|done|done].
        * intros [?|(i' & ->%elem_of_list_singleton & _ & ?)]; [by left|by right].
      + rewrite list_lookup_insert_ne by done. exists l0. split; [done|]. intros y.
        split; [by left|]. intros [?|(i' & ->%elem_of_list_singleton & E & _)]; [done|].
        exfalso. apply Hne. by rewrite <-E.
    - rewrite add_span_oob by (rewrite <-(rep_len _ _ Hr); lia). cbn.
      split; [apply same_shape_refl|]. exists cols. split; [done|]. intros c l Hc. exists l.
      split; [done|]. intros y. split; [by left|].
      intros [?|(i' & ->%elem_of_list_singleton & E & _)]; [done|].
      exfalso. apply lookup_lt_Some in Hc. unfold column_index in Hge. lia. }
  cbn [fmap list_fmap run_ops foldM]. eapply runs_bind; [exact Hstep|].
  cbn. intros hf' (Hsh & cols' & Hok' & Hall). eapply runs_mono; [by apply (IH hf' cols')|].
  intros hf'' (Hsh' & cols'' & Hok'' & Hall'). split; [by eapply same_shape_trans|].
  exists cols''. split; [done|]. intros c l Hc.
  destruct (Hall _ _ Hc) as (l' & Hc' & E1). destruct (Hall' _ _ Hc') as (l'' & Hc'' & E2).
  exists l''. split; [done|]. intros y. rewrite E2, E1.
  destruct Hsh as (-> & _). unfold covered_by. split.
  - intros [[?|(i' & ->%elem_of_list_singleton & ?)]|(i' & Hin & ?)]; [by left|right..].
    + exists i. split; [left|done].
    + exists i'. split; [by right|done].
  - intros [?|(i' & [->|Hin]%elem_of_cons & ?)]; [by left; left|left; right|right].
    + exists i. split; [left|done].
    + exists i'. by split.
Qed.
