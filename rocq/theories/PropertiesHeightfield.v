(** Theorems for properties C01-C10: heightfield storage and the span filters. *)
From Verif Require Import Base ModelMath ModelHeightfield ModelFilters ModelHistory
  SpecHeightfield HeapProofs InsertProofs FilterProofs HistoryProofs.
Local Open Scope Z_scope.

(** ** A concrete history used as the witness below: a 3 x 3 field with a
    platform in the middle column, an overlapping insertion, and the filters. *)
Definition ex_span (mn mx a : Z) : span := mkSpan mn mx a None.
Definition ex_ops : list hf_op :=
  [OpInsert (mkIns 1 1 1 (ex_span 10 20 255));
   OpInsert (mkIns 1 1 1 (ex_span 40 50 7));
   OpInsert (mkIns 1 1 1 (ex_span 15 21 0));
   OpInsert (mkIns 1 1 1 (ex_span 21 41 9));
   OpInsert (mkIns 0 1 0 (ex_span 5 48 255));
   OpInsert (mkIns 7 7 0 (ex_span 5 48 255));
   OpLowHanging 3; OpLedge 10 4; OpLowHeight 10].
Example ex_ops_valid : Forall valid_op ex_ops.
Proof. repeat (apply List.Forall_cons; [cbn; unfold valid_insertion; cbn; lia|]). constructor. Qed.
Definition ex_hf : hfield :=
  match run_ops (take 6 ex_ops) (new_hf 3 3 geo0) with Done hf => hf | _ => new_hf 0 0 geo0 end.
Example ex_hf_reachable : reachable ex_hf.
Proof.
  exists 3%nat, 3%nat, geo0, (take 6 ex_ops). split.
  - apply Forall_take, ex_ops_valid.
  - vm_compute. done.
Qed.
Example ex_hf_columns :
  is_column ex_hf 4 [Cell 10 50 9] ∧ is_column ex_hf 3 [Cell 5 48 255].
Proof.
  split.
  - exists [(4%positive, Cell 10 50 9)]. split; [|done]. exists (Some 4%positive).
    split; [by vm_compute|]. cbn. split; [done|]. exists None. split; [by vm_compute|done].
  - exists [(5%positive, Cell 5 48 255)]. split; [|done]. exists (Some 5%positive).
    split; [by vm_compute|]. cbn. split; [done|]. exists None. split; [by vm_compute|done].
Qed.

(** ** C01 *)
Theorem C01_columns_sorted :
  ∀ w h g ops, Forall valid_op ops →
  runs (run_ops ops (new_hf w h g)) (λ hf,
    hf_w hf = w ∧ hf_h hf = h ∧
    ∀ c, (c < w * h)%nat → ∃ l, is_column hf c l ∧ good_column l).
Proof.
  intros w h g ops Hv. eapply runs_mono; [by apply (run_ops_ok _ _ _ Hv (hf_ok_new w h g))|].
  intros hf ((Hw & Hh & _) & cols & [Hr Hl Hf]). cbn in Hw, Hh. split_and!; [done|done|].
  intros c Hc. rewrite Hw, Hh in Hl. rewrite <-Hl in Hc. apply lookup_lt_is_Some in Hc as [kl Hkl].
  exists kl.*2. split; [|by apply (Hf c kl)].
  apply (is_column_rep _ cols); [done|]. eauto.
Qed.

(** ** C02 *)
Theorem C02_storage_tight :
  ∀ w h g ops, Forall valid_op ops →
  runs (run_ops ops (new_hf w h g)) (λ hf,
    ∃ kcols, length kcols = (w * h)%nat ∧
      (∀ c l, kcols !! c = Some l → column_keys hf c l) ∧
      (* no key is reachable twice *)
      NoDup (concat kcols).*1 ∧
      (* allocated keys are exactly the reachable ones *)
      (∀ k, is_Some (hf_alloc hf !! k) ↔ k ∈ (concat kcols).*1) ∧
      size (hf_alloc hf) = length (concat kcols)).
Proof.
  intros w h g ops Hv. eapply runs_mono; [by apply (run_ops_ok _ _ _ Hv (hf_ok_new w h g))|].
  intros hf ((Hw & Hh & _) & cols & [Hr Hl Hf]). cbn in Hw, Hh.
  destruct (rep_concat _ _ Hr) as [Hnd Hdom].
  exists cols. split_and!; [by rewrite Hl, Hw, Hh|apply Hr|done| |].
  - intros k. rewrite <-elem_of_dom, Hdom. apply elem_of_list_to_set.
  - rewrite <-(size_dom (D := gset key)), Hdom, size_list_to_set by done. apply fmap_length.
Qed.

Example C01_C02_witness :
  Forall valid_op ex_ops ∧
  runs (run_ops ex_ops (new_hf 3 3 geo0)) (λ hf, size (hf_alloc hf) = 2%nat).
Proof. split; [apply ex_ops_valid|]. vm_compute. done. Qed.

(** ** C03 *)
Theorem C03_insertion_exact :
  ∀ hf i, reachable hf → valid_insertion i → (in_x i < hf_w hf)%nat → (in_z i < hf_h hf)%nat →
  let c := (in_x i + in_z i * hf_w hf)%nat in
  runs (add_span hf i) (λ r, ∃ hf', r = Some hf' ∧
    (∀ l, is_column hf c l → ∃ l', is_column hf' c l' ∧
       ∀ y, solid l' y ↔ solid l y ∨ s_min (in_span i) ≤ y ≤ s_max (in_span i)) ∧
    (∀ c' l, c' ≠ c → is_column hf c' l → is_column hf' c' l)).
Proof.
  intros hf i (cols & [Hr Hl Hf])%reachable_ok Hi Hx Hz c.
  assert (column_index hf (in_x i) (in_z i) < length cols)%nat as Hlt.
  { unfold column_index. rewrite Hl. nia. }
  apply lookup_lt_is_Some in Hlt as [kl Hkl].
  eapply runs_mono; [by apply add_span_spec|].
  intros r (hf' & kl' & -> & Hsh & Hr' & Hkl'). exists hf'. split_and!; [done| |].
  - intros l (kl0 & E & <-)%(is_column_rep _ _ _ _ Hr).
    unfold c in E. unfold column_index in Hkl. rewrite Hkl in E. injection E as <-.
    exists kl'.*2. split.
    + apply (is_column_rep _ _ _ _ Hr'). exists kl'. split; [|done].
      apply list_lookup_insert. by eapply lookup_lt_Some.
    + intros y. rewrite Hkl'. destruct (Hf _ _ Hkl). destruct Hi as (? & ? & ? & ?).
      rewrite insert_cells_solid by (done || (cbn; lia)). done.
  - intros c' l Hne (kl0 & E & <-)%(is_column_rep _ _ _ _ Hr).
    apply (is_column_rep _ _ _ _ Hr'). exists kl0. split; [|done].
    rewrite list_lookup_insert_ne by done. done.
Qed.

(** ** C04 *)
Definition placement (i : insertion) : nat * nat * Z * Z :=
  (in_x i, in_z i, s_min (in_span i), s_max (in_span i)).

Theorem C04_insertion_order_irrelevant :
  ∀ hf is1 is2, reachable hf →
  Forall valid_insertion is1 → Forall valid_insertion is2 →
  placement <$> is1 ≡ₚ placement <$> is2 →
  runs (run_ops (OpInsert <$> is1) hf) (λ hf1,
  runs (run_ops (OpInsert <$> is2) hf) (λ hf2,
    ∀ c, (c < hf_w hf * hf_h hf)%nat → ∃ l1 l2,
      is_column hf1 c l1 ∧ is_column hf2 c l2 ∧ geometry l1 = geometry l2)).
Proof.
  intros hf is1 is2 (cols & Hok)%reachable_ok Hv1 Hv2 Hp. pose proof Hok as [Hr Hl Hf].
  eapply runs_mono; [by apply (inserts_solid2 is1 hf cols)|].
  intros hf1 (Hsh1 & cols1 & Hok1 & Hall1).
  eapply runs_mono; [by apply (inserts_solid2 is2 hf cols)|].
  intros hf2 (Hsh2 & cols2 & Hok2 & Hall2).
  intros c Hc. rewrite <-Hl in Hc. apply lookup_lt_is_Some in Hc as [kl Hkl].
  destruct (Hall1 _ _ Hkl) as (l1 & Hl1 & E1). destruct (Hall2 _ _ Hkl) as (l2 & Hl2 & E2).
  exists l1.*2, l2.*2. split_and!.
  - apply (is_column_rep _ cols1); [apply Hok1|eauto].
  - apply (is_column_rep _ cols2); [apply Hok2|eauto].
  - apply good_canonical.
    + by apply (ok_fine _ _ Hok1 c).
    + by apply (ok_fine _ _ Hok2 c).
    + intros y. rewrite E1, E2.
      assert (∀ is is', placement <$> is ≡ₚ placement <$> is' →
         covered_by (hf_w hf) is c y → covered_by (hf_w hf) is' c y) as HH.
      { intros is is' Hperm (i & Hi & Ec & Hcov).
        assert (placement i ∈ placement <$> is') as Hin.
        { rewrite <-Hperm. by apply elem_of_list_fmap_1. }
        apply elem_of_list_fmap in Hin as (i' & Ei & Hi'). exists i'. split; [done|].
        unfold placement in Ei. injection Ei as Ex Ez Emn Emx.
        unfold covers2 in *. cbn in *. rewrite <-Ex, <-Ez, <-Emn, <-Emx. done. }
      split; (intros [?|?]; [by left|right]); eapply HH; done.
Qed.

Example C04_witness :
  let is1 := [mkIns 1 1 1 (ex_span 3 6 1); mkIns 1 1 1 (ex_span 6 9 2); mkIns 1 1 0 (ex_span 2 3 5)] in
  let is2 := [mkIns 1 1 4 (ex_span 2 3 5); mkIns 1 1 1 (ex_span 6 9 9); mkIns 1 1 0 (ex_span 3 6 5)] in
  Forall valid_insertion is1 ∧ Forall valid_insertion is2 ∧
  placement <$> is1 ≡ₚ placement <$> is2.
Proof.
  cbn. split_and!.
  - repeat (apply List.Forall_cons; [cbn; unfold valid_insertion; cbn; lia|]). constructor.
  - repeat (apply List.Forall_cons; [cbn; unfold valid_insertion; cbn; lia|]). constructor.
  - unfold placement. cbn. solve_Permutation.
Qed.

(** ** C05 *)
Theorem C05_merged_area :
  ∀ hf i, reachable hf → valid_insertion i → (in_x i < hf_w hf)%nat → (in_z i < hf_h hf)%nat →
  let c := (in_x i + in_z i * hf_w hf)%nat in
  let new := Cell (s_min (in_span i)) (s_max (in_span i)) (s_area (in_span i)) in
  runs (add_span hf i) (λ r, ∃ hf', r = Some hf' ∧
    ∀ l, is_column hf c l → ∃ l' m, is_column hf' c l' ∧ m ∈ l' ∧
      c_min m ≤ c_min new ∧ c_max new ≤ c_max m ∧
      (* the area of the merged span is a maximum ... *)
      c_area new ≤ c_area m ∧
      (∀ a, a ∈ l → overlaps a new → c_max new - c_max a ≤ in_thr i → c_area a ≤ c_area m) ∧
      (c_area m = c_area new ∨
       ∃ a, a ∈ l ∧ overlaps a new ∧ c_max new - c_max a ≤ in_thr i ∧ c_area m = c_area a) ∧
      (* ... and the other spans are the old ones that do not overlap *)
      ∀ a, a ∈ l' ↔ a = m ∨ (a ∈ l ∧ ¬ overlaps a new)).
Proof.
  intros hf i (cols & [Hr Hl Hf])%reachable_ok Hi Hx Hz c new.
  assert (column_index hf (in_x i) (in_z i) < length cols)%nat as Hlt.
  { unfold column_index. rewrite Hl. nia. }
  apply lookup_lt_is_Some in Hlt as [kl Hkl].
  eapply runs_mono; [by apply add_span_spec|].
  intros r (hf' & kl' & -> & Hsh & Hr' & Hkl'). exists hf'. split; [done|].
  intros l (kl0 & E & <-)%(is_column_rep _ _ _ _ Hr).
  unfold c in E. unfold column_index in Hkl. rewrite Hkl in E. injection E as <-.
  destruct Hi as (Hmm & Hmx & Har & Hthr).
  destruct (Hf _ _ Hkl) as [Hg _].
  assert (cell_of (in_span i) = new) as En by done. rewrite En in Hkl'.
  set (m := fold_left (merge_cell (in_thr i)) (filter (touches new) kl.*2) new).
  pose proof (insert_cells_shape (in_thr i) new kl.*2 (-1)) as Hshape.
  rewrite <-good_sorted in Hshape. cbn in Hshape. specialize (Hshape ltac:(lia) Hg).
  change (fold_left _ _ _) with m in Hshape.
  assert (Hov : ∀ a, overlaps a new ↔ touches new a) by (intros; unfold overlaps, touches; done).
  destruct (fold_merge_bounds (in_thr i) (filter (touches new) kl.*2) new) as (B1 & B2 & _).
  assert (Hlo : ∃ lo, sorted_from lo (filter (touches new) kl.*2)).
  { apply good_sorted in Hg. destruct (sorted_split (-1) new kl.*2) as (B & T & A & EE & HB & HT & HA);
      [cbn; lia|done|].
    exists (match last B with Some c => c_max c | None => -1 end).
    rewrite EE in Hg |- *. rewrite !filter_app.
    rewrite (filter_none_all _ B), (filter_none_all _ A), (filter_below_all _ T).
    - cbn. rewrite app_nil_r. apply sorted_from_app in Hg as [_ Hg]. by apply sorted_from_app in Hg as [? _].
    - done.
    - eapply Forall_impl; [done|]. unfold above, touches. cbn. intros. lia.
    - eapply Forall_impl; [done|]. unfold below, touches. cbn. intros. lia. }
  destruct Hlo as [lo Hlo].
  destruct (fold_merge_area (in_thr i) _ new lo ltac:(lia) Hlo) as (A1 & A2 & A3).
  change (fold_left _ _ _) with m in A1, A2, A3, B1, B2.
  exists kl'.*2, m. split_and!.
  - apply (is_column_rep _ _ _ _ Hr'). exists kl'. split; [|done].
    apply list_lookup_insert. by eapply lookup_lt_Some.
  - rewrite Hkl', Hshape. apply elem_of_app. right. left.
  - done.
  - done.
  - done.
  - intros a Ha Ho Hc. apply A2; [|done]. apply elem_of_list_filter. split; [by apply Hov|done].
  - destruct A3 as [?|(a & Ha & Hc & Ea)]; [by left|]. right. exists a.
    apply elem_of_list_filter in Ha as [? ?]. split_and!; [done|by apply Hov|done|done].
  - intros a. rewrite Hkl', Hshape, elem_of_app, elem_of_cons, !elem_of_list_filter.
    rewrite Hov. split.
    + intros [[Hb ?]|[->|[Hb ?]]].
      * right. split; [done|]. unfold below, touches in *. cbn in *. lia.
      * by left.
      * right. split; [done|]. unfold above, touches in *. cbn in *. lia.
    + intros [->|[Ha Hn]]; [by right; left|].
      unfold touches in Hn. cbn in Hn.
      destruct (decide (below new a)); [by left|]. right. right. split; [|done].
      unfold below, above in *. cbn in *. lia.
Qed.

(** The documented rule "the maximum of the two area types" fails. *)
Theorem C05_documented_maximum_refuted :
  ∃ hf i hf' a m, reachable hf ∧ valid_insertion i ∧
    is_column hf (in_x i + in_z i * hf_w hf)%nat [a] ∧
    add_span hf i = Done (Some hf') ∧
    is_column hf' (in_x i + in_z i * hf_w hf)%nat [m] ∧
    overlaps a (Cell (s_min (in_span i)) (s_max (in_span i)) (s_area (in_span i))) ∧
    c_area m ≠ Z.max (c_area a) (s_area (in_span i)).
Proof.
  eexists (match add_span (new_hf 1 1 geo0) (mkIns 0 0 1 (ex_span 0 5 200)) with
           | Done (Some hf) => hf | _ => new_hf 0 0 geo0 end).
  exists (mkIns 0 0 1 (ex_span 2 9 3)).
  eexists. exists (Cell 0 5 200), (Cell 0 9 3). split_and!.
  - exists 1%nat, 1%nat, geo0, [OpInsert (mkIns 0 0 1 (ex_span 0 5 200))]. split.
    + constructor; [|constructor]. cbn. unfold valid_insertion. cbn. lia.
    + vm_compute. reflexivity.
  - unfold valid_insertion. cbn. lia.
  - exists [(1%positive, Cell 0 5 200)]. split; [|done]. exists (Some 1%positive).
    split; [by vm_compute|]. split; [done|]. exists None. split; [by vm_compute|done].
  - vm_compute. reflexivity.
  - exists [(2%positive, Cell 0 9 3)]. split; [|done]. exists (Some 2%positive).
    split; [by vm_compute|]. split; [done|]. exists None. split; [by vm_compute|done].
  - unfold overlaps. cbn. lia.
  - cbn. lia.
Qed.

(** ** C06 *)
Theorem C06_insertion_total :
  ∀ hf i, reachable hf →
  ((in_x i + in_z i * hf_w hf < hf_w hf * hf_h hf)%nat →
     ∃ hf', add_span hf i = Done (Some hf')) ∧
  ((hf_w hf * hf_h hf ≤ in_x i + in_z i * hf_w hf)%nat →
     add_span hf i = Done None ∧ run_op (OpInsert i) hf = Done hf).
Proof.
  intros hf i (cols & [Hr Hl Hf])%reachable_ok. split; intros Hc.
  - rewrite <-Hl in Hc. apply lookup_lt_is_Some in Hc as [kl Hkl].
    pose proof (add_span_spec hf cols i kl Hr Hkl) as H.
    apply runs_done in H as (r & -> & hf' & l' & -> & _). eauto.
  - assert (add_span hf i = Done None) as E.
    { apply add_span_oob. unfold column_index. by rewrite <-(rep_len _ _ Hr), Hl. }
    split; [done|]. cbn. by rewrite E.
Qed.

(** Reading a column inside the field never panics. *)
Theorem C06_span_at_total :
  ∀ hf x z, reachable hf → (x < hf_w hf)%nat → (z < hf_h hf)%nat →
  runs (span_at hf x z) (λ r, ∃ l, is_column hf (x + z * hf_w hf)%nat l ∧
    match r with
    | None => l = []
    | Some s => head l = Some (Cell (s_min s) (s_max s) (s_area s))
    end).
Proof.
  intros hf x z (cols & [Hr Hl Hf])%reachable_ok Hx Hz.
  assert (column_index hf x z < length cols)%nat as Hlt.
  { unfold column_index. rewrite Hl. nia. }
  apply lookup_lt_is_Some in Hlt as [kl Hkl].
  unfold span_at. rewrite (span_key_at_rep _ _ _ _ _ Hr Hkl).
  destruct kl as [|[k ce] kl].
  - cbn. exists []. split; [|done]. apply (is_column_rep _ _ _ _ Hr). eauto.
  - cbn. unfold span_get. rewrite (rep_lookup _ _ _ [] _ _ _ Hr Hkl). cbn.
    exists (ce :: kl.*2). split; [|by destruct ce].
    apply (is_column_rep _ _ _ _ Hr). eauto.
Qed.

(** Documented: [span_at] returns [None] outside the field. *)
Theorem C06_span_at_outside_none_refuted :
  ∃ hf x z s, reachable hf ∧ ¬ ((x < hf_w hf)%nat ∧ (z < hf_h hf)%nat) ∧
    span_at hf x z = Done (Some s).
Proof.
  exists ex_hf, 4%nat, 0%nat. eexists. split_and!.
  - apply ex_hf_reachable.
  - vm_compute. lia.
  - vm_compute. reflexivity.
Qed.

Example C03_C05_C06_witness :
  reachable ex_hf ∧ valid_insertion (mkIns 1 1 2 (ex_span 30 52 4)) ∧
  (1 < hf_w ex_hf)%nat ∧ (1 < hf_h ex_hf)%nat ∧ is_column ex_hf 4 [Cell 10 50 9].
Proof.
  split_and!; [apply ex_hf_reachable|unfold valid_insertion; cbn; lia|vm_compute; lia|vm_compute; lia|].
  apply ex_hf_columns.
Qed.

(** ** C07 *)
Theorem C07_low_hanging_exact :
  ∀ hf climb, reachable hf →
  runs (filter_low_hanging climb hf) (λ hf', hf_w hf' = hf_w hf ∧ hf_h hf' = hf_h hf ∧
    ∀ c kl, column_keys hf c kl → ∃ kl', column_keys hf' c kl' ∧ kl'.*1 = kl.*1 ∧
      ∀ i a, kl.*2 !! i = Some a → ∃ a', kl'.*2 !! i = Some a' ∧ same_extent a a' ∧
        (∀ j b, i = S j → kl.*2 !! j = Some b → ¬ walkable a → walkable b →
           c_max a - c_max b ≤ climb → c_area a' = c_area b) ∧
        (walkable a ∨ i = 0%nat ∨
         (∃ j b, i = S j ∧ kl.*2 !! j = Some b ∧ (¬ walkable b ∨ climb < c_max a - c_max b)) →
           c_area a' = c_area a)).
Proof.
  intros hf climb (cols & [Hr Hl Hf])%reachable_ok.
  eapply runs_mono; [by apply filter_low_hanging_rep|].
  intros hf' ((Hw & Hh & _) & cols' & Hr' & Hl' & Hall). split_and!; [done|done|].
  intros c kl Hk%(rep_column _ _ _ _ Hr). destruct (Hall _ _ Hk) as (kl' & Hk' & E1 & E2).
  exists kl'. split_and!; [by apply (rep_column _ _ _ _ Hr')|done|].
  intros i a Ha. rewrite E2, low_pure_lookup, Ha. cbn.
  eexists. split_and!; [done|by split| |].
  - intros j b -> Hb Hna Hwb Hcl. rewrite Hb. cbn.
    unfold walkable in *. unfold is_walkable, NOT_WALKABLE.
    destruct (Z.eqb_spec (c_area a) 0); [|lia]. destruct (Z.eqb_spec (c_area b) 0); [lia|].
    cbn. destruct (Z.leb_spec (c_max a - c_max b) climb); [done|lia].
  - unfold walkable in *. unfold is_walkable, NOT_WALKABLE.
    intros [Hwa|[->|(j & b & -> & Hb & Hd)]].
    + destruct (Z.eqb_spec (c_area a) 0); [lia|]. cbn.
      destruct i as [|j]; [done|]. by destruct (kl.*2 !! j).
    + done.
    + rewrite Hb. cbn. destruct (Z.eqb_spec (c_area a) 0); [|done].
      destruct (Z.eqb_spec (c_area b) 0); [done|]. cbn.
      destruct (Z.leb_spec (c_max a - c_max b) climb); [|done]. naive_solver lia.
Qed.

(** ** C08 *)
Theorem C08_ledge_exact :
  ∀ hf wh climb G, reachable hf → 0 ≤ climb → field_geometry hf G →
  runs (filter_ledge wh climb hf) (λ hf', hf_w hf' = hf_w hf ∧ hf_h hf' = hf_h hf ∧
    ∀ x z kl, (x < hf_w hf)%nat → (z < hf_h hf)%nat →
    column_keys hf (x + z * hf_w hf) kl → ∃ kl', column_keys hf' (x + z * hf_w hf) kl' ∧
      kl'.*1 = kl.*1 ∧
      ∀ i a, kl.*2 !! i = Some a → ∃ a', kl'.*2 !! i = Some a' ∧ same_extent a a' ∧
        let ledge := is_ledge (column_map (hf_w hf) (hf_h hf) G) wh climb x z (c_max a)
                       (open_top (geometry kl.*2) i) in
        (ledge → ¬ walkable a') ∧ (¬ ledge → c_area a' = c_area a)).
Proof.
  intros hf wh climb G (cols & Hok)%reachable_ok Hcl HG. pose proof Hok as [Hr Hl Hf].
  apply (field_geometry_rep _ _ _ Hok) in HG as ->.
  eapply runs_mono; [by apply filter_ledge_rep|].
  intros hf' ((Hw & Hh & _) & cols' & Hr' & Hl' & Hall). split_and!; [done|done|].
  intros x z kl Hx Hz Hk%(rep_column _ _ _ _ Hr). destruct (Hall _ _ Hk) as (kl' & Hk' & E1 & E2).
  exists kl'. split_and!; [by apply (rep_column _ _ _ _ Hr')|done|].
  intros i a Ha. rewrite E2, ledge_pure_lookup, Ha. cbn [fmap option_fmap option_map].
  replace ((x + z * hf_w hf) mod hf_w hf)%nat with x
    by (rewrite Nat.mod_add by lia; by rewrite Nat.mod_small).
  replace ((x + z * hf_w hf) / hf_w hf)%nat with z
    by (rewrite Nat.div_add by lia; by rewrite Nat.div_small).
  eexists. split; [done|].
  set (F := ledge_flag _ _ _ _ _ _ _).
  pose proof (ledge_flag_spec (column_map (hf_w hf) (hf_h hf) (geom <$> cols)) wh climb x z (c_max a)
    (open_top (geometry kl.*2) i) Hcl) as Hspec. change (ledge_flag _ _ _ _ _ _ _) with F in Hspec.
  unfold is_walkable, NOT_WALKABLE, walkable, same_extent.
  destruct (Z.eqb_spec (c_area a) 0); destruct F; cbn; (split; [done|]); split.
  - intros _ Hw0. lia.
  - done.
  - intros _ Hw0. lia.
  - done.
  - intros _ Hw0. lia.
  - intros Hn. exfalso. apply Hn. by apply Hspec.
  - intros ?%Hspec. done.
  - done.
Qed.

(** ** C09 *)
Theorem C09_low_height_exact :
  ∀ hf wh, reachable hf →
  runs (filter_low_height wh hf) (λ hf', hf_w hf' = hf_w hf ∧ hf_h hf' = hf_h hf ∧
    ∀ c kl, column_keys hf c kl → ∃ kl', column_keys hf' c kl' ∧ kl'.*1 = kl.*1 ∧
      ∀ i a, kl.*2 !! i = Some a → ∃ a', kl'.*2 !! i = Some a' ∧ same_extent a a' ∧
        let clearance := open_top (geometry kl.*2) i - c_max a in
        (wh ≤ clearance → c_area a' = c_area a) ∧ (clearance < wh → ¬ walkable a')).
Proof.
  intros hf wh (cols & [Hr Hl Hf])%reachable_ok.
  eapply runs_mono; [by apply filter_low_height_rep|].
  intros hf' ((Hw & Hh & _) & cols' & Hr' & Hl' & Hall). split_and!; [done|done|].
  intros c kl Hk%(rep_column _ _ _ _ Hr). destruct (Hall _ _ Hk) as (kl' & Hk' & E1 & E2).
  exists kl'. split_and!; [by apply (rep_column _ _ _ _ Hr')|done|].
  intros i a Ha. rewrite E2, height_pure_lookup, Ha. cbn [fmap option_fmap option_map].
  eexists. split; [done|]. unfold same_extent, walkable.
  destruct (Z.ltb_spec (open_top (geometry kl.*2) i - c_max a) wh); cbn; (split; [done|]); split;
    unfold NOT_WALKABLE; lia.
Qed.

Lemma height_pure_idem wh l : height_pure wh (height_pure wh l) = height_pure wh l.
Proof.
  apply list_eq. intros i. rewrite height_pure_lookup, height_pure_geometry, height_pure_lookup.
  destruct (l !! i) as [a|]; [|done]. cbn. f_equal.
  destruct (open_top (geometry l) i - c_max a <? wh) eqn:E; cbn; by rewrite E.
Qed.

Theorem C09_low_height_idempotent :
  ∀ hf wh, reachable hf → 0 ≤ wh ≤ 65535 →
  runs (filter_low_height wh hf) (λ hf1,
  runs (filter_low_height wh hf1) (λ hf2,
    ∀ c kl, column_keys hf2 c kl ↔ column_keys hf1 c kl)).
Proof.
  intros hf wh (cols & Hok)%reachable_ok Hv. pose proof Hok as [Hr Hl Hf].
  eapply runs_mono; [by apply filter_low_height_rep|].
  intros hf1 (Hsh1 & cols1 & Hr1 & Hl1 & Hall1).
  assert (length cols1 = (hf_w hf1 * hf_h hf1)%nat) as Hl1'.
  { destruct Hsh1 as (-> & -> & _). congruence. }
  eapply runs_mono; [by apply (filter_low_height_rep wh hf1 cols1)|].
  intros hf2 (Hsh2 & cols2 & Hr2 & Hl2 & Hall2).
  assert (cols2 = cols1) as ->.
  { apply list_eq. intros c. destruct (cols1 !! c) as [l1|] eqn:E1.
    - destruct (Hall2 _ _ E1) as (l2 & -> & K2 & V2).
      assert (c < length cols)%nat as Hlt by (rewrite <-Hl1; by eapply lookup_lt_Some).
      apply lookup_lt_is_Some in Hlt as [l E0]. destruct (Hall1 _ _ E0) as (l1' & E1' & K1 & V1).
      rewrite E1 in E1'. injection E1' as <-. f_equal.
      rewrite V1, height_pure_idem, <-V1 in V2.
      clear -K2 V2. revert l1 K2 V2. induction l2 as [|[k v] l2 IH]; intros [|[k' v'] l1] K V;
        cbn in *; [done|done|done|]. injection K as -> K. injection V as -> V. f_equal. by apply IH.
    - apply lookup_ge_None in E1. apply lookup_ge_None. lia. }
  intros c kl. rewrite (rep_column hf2 cols1) by done. by rewrite (rep_column hf1 cols1) by done.
Qed.

(** ** C10 *)
Theorem C10_pipeline :
  ∀ hf wh climb G, reachable hf → 0 ≤ wh ≤ 65535 → 0 ≤ climb ≤ 65535 → field_geometry hf G →
  runs (run_filters wh climb hf) (λ hf',
    ∀ x z l, (x < hf_w hf)%nat → (z < hf_h hf)%nat → is_column hf' (x + z * hf_w hf) l →
      G !! (x + z * hf_w hf)%nat = Some (geometry l) ∧
      ∀ i a, l !! i = Some a → walkable a →
        wh ≤ open_top (geometry l) i - c_max a ∧
        ¬ is_ledge (column_map (hf_w hf) (hf_h hf) G) wh climb x z (c_max a)
            (open_top (geometry l) i)).
Proof.
  intros hf wh climb G (cols & Hok)%reachable_ok Hwh Hcl HG. pose proof Hok as [Hr Hl Hf].
  apply (field_geometry_rep _ _ _ Hok) in HG as ->.
  unfold run_filters.
  eapply runs_bind; [by apply filter_low_hanging_rep|].
  intros hf1 (Hsh1 & cols1 & Hr1 & Hl1 & Hall1).
  assert (length cols1 = (hf_w hf1 * hf_h hf1)%nat) as Hl1'.
  { destruct Hsh1 as (-> & -> & _). congruence. }
  eapply runs_bind; [by apply (filter_ledge_rep wh climb hf1 cols1)|].
  intros hf2 (Hsh2 & cols2 & Hr2 & Hl2 & Hall2).
  assert (length cols2 = (hf_w hf2 * hf_h hf2)%nat) as Hl2'.
  { destruct Hsh2 as (-> & -> & _). congruence. }
  eapply runs_mono; [by apply (filter_low_height_rep wh hf2 cols2)|].
  intros hf3 (Hsh3 & cols3 & Hr3 & Hl3 & Hall3).
  assert (geom <$> cols1 = geom <$> cols) as Hg1.
  { apply list_eq. intros c. rewrite !list_lookup_fmap. destruct (cols !! c) as [l|] eqn:E.
    - destruct (Hall1 _ _ E) as (l1 & -> & _ & V). cbn. f_equal. unfold geom. by rewrite V, low_pure_geometry.
    - apply lookup_ge_None in E. rewrite <-Hl1 in E. apply lookup_ge_None in E. by rewrite E. }
  rewrite Hg1 in Hall2. destruct Hsh1 as (Hw1 & Hh1 & _). rewrite Hw1, Hh1 in Hall2.
  intros x z l Hx Hz (kl3 & E3 & <-)%(is_column_rep _ _ _ _ Hr3).
  set (c := (x + z * hf_w hf)%nat) in *.
  assert (c < length cols)%nat as Hlt.
  { rewrite <-Hl1, <-Hl2, <-Hl3. by eapply lookup_lt_Some. }
  apply lookup_lt_is_Some in Hlt as [kl E0].
  destruct (Hall1 _ _ E0) as (kl1 & E1 & _ & V1). destruct (Hall2 _ _ E1) as (kl2 & E2 & _ & V2).
  destruct (Hall3 _ _ E2) as (kl3' & E3' & _ & V3). rewrite E3 in E3'. injection E3' as <-.
  assert (geometry kl3.*2 = geom kl) as Hg.
  { rewrite V3, height_pure_geometry, V2, ledge_pure_geometry, V1, low_pure_geometry. done. }
  split.
  { rewrite list_lookup_fmap, E0, Hg. done. }
  intros i a Hi Hwk. rewrite V3, height_pure_lookup in Hi.
  destruct (kl2.*2 !! i) as [a2|] eqn:Ea2; [|done]. cbn in Hi. injection Hi as <-.
  assert (geometry kl2.*2 = geom kl) as Hg2.
  { rewrite V2, ledge_pure_geometry, V1, low_pure_geometry. done. }
  rewrite Hg. rewrite Hg2 in *.
  destruct (Z.ltb_spec (open_top (geom kl) i - c_max a2) wh); [done|]. split; [done|].
  rewrite V2, ledge_pure_lookup in Ea2.
  destruct (kl1.*2 !! i) as [a1|] eqn:Ea1; [|done]. cbn [fmap option_fmap option_map] in Ea2. injection Ea2 as <-.
  assert (geometry kl1.*2 = geom kl) as Hg3 by (rewrite V1, low_pure_geometry; done).
  rewrite Hg3 in *.
  replace (c mod hf_w hf)%nat with x in *
    by (unfold c; rewrite Nat.mod_add by lia; by rewrite Nat.mod_small).
  replace (c / hf_w hf)%nat with z in *
    by (unfold c; rewrite Nat.div_add by lia; by rewrite Nat.div_small).
  destruct (is_walkable (c_area a1) && _) eqn:Ef; [done|].
  rewrite <-ledge_flag_spec by lia. intros Hb. rewrite Hb, andb_true_r in Ef.
  unfold is_walkable, NOT_WALKABLE, walkable in *. destruct (Z.eqb_spec (c_area a1) 0); [lia|done].
Qed.

(** The filters on a field where they act: an interior platform with ramps stays,
    an isolated one is removed. *)
Example filters_witness :
  reachable ex_hf ∧ (∃ G, field_geometry ex_hf G) ∧
  runs (run_filters 10 4 ex_hf) (λ hf', span_at hf' 1 1 = Done (Some (mkSpan 10 50 0 None))).
Proof.
  split_and!.
  - apply ex_hf_reachable.
  - destruct (reachable_ok _ ex_hf_reachable) as [cols Hok].
    exists (geom <$> cols). by apply (field_geometry_rep _ cols).
  - vm_compute. done.
Qed.

(** A flat 3 x 3 floor: the middle keeps its area, the rim becomes a ledge. *)
Definition ex_flat_ops : list hf_op :=
  (λ n, OpInsert (mkIns (n mod 3) (n / 3) 1 (ex_span 0 10 255))) <$> seq 0 9.
Example filters_witness_flat :
  Forall valid_op ex_flat_ops ∧
  runs (run_ops ex_flat_ops (new_hf 3 3 geo0)) (λ hf,
    runs (run_filters 10 4 hf) (λ hf',
      span_at hf' 1 1 = Done (Some (mkSpan 0 10 255 None)) ∧
      span_at hf' 0 1 = Done (Some (mkSpan 0 10 0 None)))).
Proof.
  split.
  - apply Forall_fmap, Forall_forall. intros n _. cbn. unfold valid_insertion. cbn. lia.
  - vm_compute. done.
Qed.

Print Assumptions C01_columns_sorted.
Print Assumptions C02_storage_tight.
Print Assumptions C03_insertion_exact.
Print Assumptions C04_insertion_order_irrelevant.
Print Assumptions C05_merged_area.
Print Assumptions C05_documented_maximum_refuted.
Print Assumptions C06_insertion_total.
Print Assumptions C06_span_at_total.
Print Assumptions C06_span_at_outside_none_refuted.
Print Assumptions C07_low_hanging_exact.
Print Assumptions C08_ledge_exact.
Print Assumptions C09_low_height_exact.
Print Assumptions C09_low_height_idempotent.
Print Assumptions C10_pipeline.
