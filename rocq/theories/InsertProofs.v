(** Span insertion on plain lists: shape of the result, coverage, areas, and
    canonicity of good columns. *)
From Verif Require Import Base ModelMath ModelHeightfield SpecHeightfield HeapProofs.
Local Open Scope Z_scope.

Definition below (new c : cell) : Prop := c_max c < c_min new.
Definition above (new c : cell) : Prop := c_max new < c_min c.
Definition touches (new c : cell) : Prop := c_min c ≤ c_max new ∧ c_min new ≤ c_max c.

Global Instance below_dec new c : Decision (below new c).
Proof. unfold below. apply _. Defined.
Global Instance above_dec new c : Decision (above new c).
Proof. unfold above. apply _. Defined.
Global Instance touches_dec new c : Decision (touches new c).
Proof. unfold touches. apply _. Defined.

(** A recursive form of [good_column]. *)
Fixpoint sorted_from (lo : Z) (l : list cell) : Prop :=
  match l with
  | [] => True
  | c :: l' => lo < c_min c ∧ c_min c ≤ c_max c ∧ c_max c ≤ 65535 ∧ sorted_from (c_max c) l'
  end.

Lemma sorted_from_mono lo lo' l : lo' ≤ lo → sorted_from lo l → sorted_from lo' l.
Proof. destruct l; cbn; [done|]. intros ? (?&?&?&?). split_and!; try done; lia. Qed.

Lemma good_sorted l : good_column l ↔ sorted_from (-1) l.
Proof.
  unfold good_column. split.
  - intros [H1 H2].
    assert (∀ lo, (∀ a, head l = Some a → lo < c_min a) → sorted_from lo l) as H.
    2:{ apply H. intros a Ha. destruct l as [|b l]; [done|]. injection Ha as ->.
        destruct (H1 0%nat a eq_refl). lia. }
    revert H1 H2. induction l as [|b l IH]; intros H1 H2 lo Hlo; cbn; [done|].
    destruct (H1 0%nat b eq_refl) as [??].
    split_and!; [by apply Hlo|lia|lia|]. apply IH.
    + intros i a Ha. by apply (H1 (S i)).
    + intros i a c Ha Hc. by apply (H2 (S i)).
    + intros a Ha. apply (H2 0%nat); [done|]. by destruct l.
  - assert (∀ lo, -1 ≤ lo → sorted_from lo l →
      (∀ i a, l !! i = Some a → lo < c_min a ∧ c_min a ≤ c_max a ≤ 65535) ∧
      (∀ i a b, l !! i = Some a → l !! S i = Some b → c_max a < c_min b)) as H.
    { induction l as [|b l IH]; intros lo Hlo; cbn; [done|].
      intros (Hb1 & Hb2 & Hb3 & Hs). destruct (IH (c_max b)) as [G1 G2]; [lia|done|]. split.
      - intros [|i] a; cbn.
        + intros [= <-]. lia.
        + intros Ha. destruct (G1 _ _ Ha). lia.
      - intros [|i] a d; cbn.
        + intros [= <-] Hd. by destruct (G1 _ _ Hd).
        + apply G2. }
    intros Hs. destruct (H (-1)) as [G1 G2]; [lia|done|]. split; [|done].
    intros i a Ha. destruct (G1 _ _ Ha). lia.
Qed.

Lemma sorted_from_app lo l1 l2 :
  sorted_from lo (l1 ++ l2) ↔
  sorted_from lo l1 ∧ sorted_from (match last l1 with Some c => c_max c | None => lo end) l2.
Proof.
  revert lo. induction l1 as [|c l1 IH]; intros lo; cbn [app sorted_from].
  - cbn. naive_solver.
  - rewrite IH. destruct l1 as [|d l1]; [cbn; naive_solver|].
    rewrite last_cons_cons.
    destruct (last (d :: l1)) eqn:E; [naive_solver|].
    apply last_None in E. done.
Qed.

Lemma sorted_lower lo l c : sorted_from lo l → c ∈ l → lo < c_min c ∧ c_min c ≤ c_max c ≤ 65535.
Proof.
  revert lo. induction l as [|d l IH]; intros lo; cbn [sorted_from].
  - intros _ H. by apply elem_of_nil in H.
  - intros (?&?&?&Hs) [->|Hin]%elem_of_cons; [lia|]. destruct (IH _ Hs Hin). lia.
Qed.

Lemma sorted_mid lo l1 c l2 d :
  sorted_from lo (l1 ++ c :: l2) → d ∈ l2 → c_max c < c_min d.
Proof.
  intros Hs Hd. apply sorted_from_app in Hs as [_ Hs]. cbn in Hs.
  destruct Hs as (_ & _ & _ & Hs). by destruct (sorted_lower _ _ _ Hs Hd).
Qed.

(** Splitting a sorted column around a new span. *)
Lemma sorted_split lo new l :
  c_min new ≤ c_max new → sorted_from lo l →
  ∃ B T A, l = B ++ T ++ A ∧ Forall (below new) B ∧ Forall (touches new) T ∧
           Forall (above new) A.
Proof.
  intros Hnew. revert lo. induction l as [|c l IH]; intros lo; cbn [sorted_from].
  - intros _. by exists [], [], [].
  - intros (H1 & H2 & _ & Hs).
    destruct (decide (below new c)) as [Hb|Hb].
    { destruct (IH _ Hs) as (B & T & A & -> & HB & HT & HA).
      exists (c :: B), T, A. split_and!; auto. }
    assert (Hnob : ∀ d, d ∈ l → ¬ below new d).
    { intros d Hd. destruct (sorted_lower _ _ _ Hs Hd). unfold below in *. lia. }
    destruct (IH _ Hs) as (B & T & A & -> & HB & HT & HA).
    assert (B = []) as ->.
    { destruct B as [|b B]; [done|]. apply Forall_cons in HB as [Hb' _].
      exfalso. apply (Hnob b); [|done]. apply elem_of_app. left. left. }
    destruct (decide (above new c)) as [Ha|Ha].
    { exists [], [], (c :: T ++ A). split_and!; [done|auto|auto|].
      constructor; [done|]. apply Forall_forall. intros d Hd.
      destruct (sorted_lower _ _ _ Hs Hd). unfold above in *. lia. }
    exists [], (c :: T), A. split_and!; auto. constructor; [|done].
    unfold touches, below, above in *. lia.
Qed.

Lemma ins_loop_below thr new pre B rest :
  Forall (below new) B → c_min new ≤ c_max new →
  Forall (λ c, c_min c ≤ c_max c) B →
  ins_loop thr new pre (B ++ rest) = ins_loop thr new (pre ++ B) rest.
Proof.
  intros HB Hn. revert pre. induction B as [|c B IH]; intros pre Hw; cbn [app].
  - by rewrite app_nil_r.
  - apply Forall_cons in HB as [Hb HB]. apply Forall_cons in Hw as [Hc Hw].
    unfold below in Hb. cbn [ins_loop].
    destruct (Z.ltb_spec (c_max new) (c_min c)); [lia|].
    destruct (Z.ltb_spec (c_max c) (c_min new)); [|lia].
    rewrite IH by done. by rewrite <-app_assoc.
Qed.

Lemma merge_cell_min thr new c : c_min (merge_cell thr new c) = Z.min (c_min c) (c_min new).
Proof. unfold merge_cell; cbn. destruct (Z.ltb_spec (c_min c) (c_min new)); lia. Qed.
Lemma merge_cell_max thr new c : c_max (merge_cell thr new c) = Z.max (c_max c) (c_max new).
Proof. unfold merge_cell; cbn. destruct (Z.ltb_spec (c_max new) (c_max c)); lia. Qed.

Lemma ins_loop_touch thr new pre T rest :
  Forall (touches new) T →
  ins_loop thr new pre (T ++ rest) = ins_loop thr (fold_left (merge_cell thr) T new) pre rest.
Proof.
  revert new. induction T as [|c T IH]; intros new HT; cbn [app fold_left]; [done|].
  apply Forall_cons in HT as [Ht HT]. unfold touches in Ht. cbn [ins_loop].
  destruct (Z.ltb_spec (c_max new) (c_min c)); [lia|].
  destruct (Z.ltb_spec (c_max c) (c_min new)); [lia|].
  apply IH. eapply Forall_impl; [exact HT|]. intros d [??]. unfold touches.
  rewrite merge_cell_min, merge_cell_max. lia.
Qed.

(** Floor, ceiling and area of a span that absorbs the spans [T]. *)
Lemma fold_merge_bounds thr T new :
  let m := fold_left (merge_cell thr) T new in
  c_min m ≤ c_min new ∧ c_max new ≤ c_max m ∧
  (∀ c, c ∈ T → c_min m ≤ c_min c ∧ c_max c ≤ c_max m) ∧
  (c_min m = c_min new ∨ ∃ c, c ∈ T ∧ c_min m = c_min c) ∧
  (c_max m = c_max new ∨ ∃ c, c ∈ T ∧ c_max m = c_max c).
Proof.
  revert new. induction T as [|c T IH]; intros new; cbn [fold_left].
  - split_and!; try lia.
    intros c H. by apply elem_of_nil in H.
  - specialize (IH (merge_cell thr new c)). cbn zeta in IH.
    destruct IH as (H1 & H2 & H3 & H4 & H5).
    rewrite merge_cell_min in *. rewrite merge_cell_max in *.
    split_and!; [lia|lia| | |].
    + intros d [->|Hd]%elem_of_cons; [lia|]. by apply H3.
    + destruct H4 as [H4|(d & Hd & H4)]; [|right; exists d; split; [by right|done]].
      destruct (Z.le_gt_cases (c_min new) (c_min c)); [left; lia|].
      right. exists c. split; [left|lia].
    + destruct H5 as [H5|(d & Hd & H5)]; [|right; exists d; split; [by right|done]].
      destruct (Z.le_gt_cases (c_max c) (c_max new)); [left; lia|].
      right. exists c. split; [left|lia].
Qed.

(** A touched span contributes its area iff its ceiling is not more than the
    threshold below the inserted ceiling. *)
Definition contributes (thr : Z) (new c : cell) : Prop := c_max new - c_max c ≤ thr.

Lemma fold_merge_area thr T new lo :
  0 ≤ thr → sorted_from lo T →
  let m := fold_left (merge_cell thr) T new in
  c_area new ≤ c_area m ∧
  (∀ c, c ∈ T → contributes thr new c → c_area c ≤ c_area m) ∧
  (c_area m = c_area new ∨
   ∃ c, c ∈ T ∧ contributes thr new c ∧ c_area m = c_area c).
Proof.
  intros Hthr. unfold contributes. revert new lo. induction T as [|c T IH]; intros new lo; cbn [fold_left sorted_from].
  - intros _. split_and!; [lia| |by left]. intros c H. by apply elem_of_nil in H.
  - intros (_ & Hc & _ & Hs). specialize (IH (merge_cell thr new c) _ Hs). cbn zeta in IH.
    destruct IH as (H1 & H2 & H3). rewrite merge_cell_max in *.
    assert (Hcon : ∀ d, d ∈ T → c_max d > c_max c).
    { intros d Hd. destruct (sorted_lower _ _ _ Hs Hd). lia. }
    assert (Har : c_area (merge_cell thr new c) =
       if decide (c_max new - c_max c ≤ thr) then Z.max (c_area new) (c_area c) else c_area new).
    { unfold merge_cell. cbn [c_area c_max].
      replace (if c_max new <? c_max c then c_max c else c_max new)
        with (Z.max (c_max c) (c_max new)) by (destruct (Z.ltb_spec (c_max new) (c_max c)); lia).
      destruct (Z.leb_spec (Z.abs (Z.max (c_max c) (c_max new) - c_max c)) thr);
        case_decide; try done; lia. }
    rewrite Har in *.
    split_and!.
    + case_decide; lia.
    + intros d [->|Hd]%elem_of_cons.
      * intros. rewrite decide_True in H1 by done. lia.
      * intros. apply H2; [done|]. specialize (Hcon _ Hd). lia.
    + destruct H3 as [H3|(d & Hd & Hd2 & H3)].
      * case_decide; [|by left].
        destruct (Z.le_gt_cases (c_area c) (c_area new)); [left; lia|].
        right. exists c. split_and!; [left|done|lia].
      * right. exists d. specialize (Hcon _ Hd). split_and!; [by right|lia|done].
Qed.

Lemma filter_below_all (P : cell → Prop) `{∀ c, Decision (P c)} l :
  Forall P l → filter P l = l.
Proof.
  induction 1 as [|c l Hc _ IH]; [done|]. rewrite filter_cons_True by done. by rewrite IH.
Qed.
Lemma filter_none_all (P : cell → Prop) `{∀ c, Decision (P c)} l :
  Forall (λ c, ¬ P c) l → filter P l = [].
Proof.
  induction 1 as [|c l Hc _ IH]; [done|]. by rewrite filter_cons_False.
Qed.

(** Main shape theorem of insertion. *)
Lemma insert_cells_shape thr new l lo :
  c_min new ≤ c_max new → sorted_from lo l →
  insert_cells thr new l =
    filter (below new) l ++
    fold_left (merge_cell thr) (filter (touches new) l) new :: filter (above new) l.
Proof.
  intros Hnew Hs.
  destruct (sorted_split _ new _ Hnew Hs) as (B & T & A & -> & HB & HT & HA).
  assert (HwB : Forall (λ c, c_min c ≤ c_max c) B).
  { apply Forall_forall. intros c Hc.
    destruct (sorted_lower _ _ c Hs); [|lia]. apply elem_of_app. by left. }
  assert (HwA : Forall (λ c, c_min c ≤ c_max c) A).
  { apply Forall_forall. intros c Hc.
    destruct (sorted_lower _ _ c Hs); [|lia]. apply elem_of_app. right. apply elem_of_app. by right. }
  rewrite !filter_app.
  rewrite (filter_below_all (below new) B) by done.
  rewrite (filter_none_all (below new) T), (filter_none_all (below new) A).
  2:{ eapply Forall_impl; [apply Forall_and; split; [exact HA|exact HwA]|].
      intros c [? ?]. unfold below, above in *. lia. }
  2:{ eapply Forall_impl; [exact HT|]. intros c ?. unfold below, touches in *. lia. }
  rewrite (filter_below_all (touches new) T) by done.
  rewrite (filter_none_all (touches new) B), (filter_none_all (touches new) A).
  2:{ eapply Forall_impl; [exact HA|]. intros c ?. unfold above, touches in *. lia. }
  2:{ eapply Forall_impl; [exact HB|]. intros c ?. unfold below, touches in *. lia. }
  rewrite (filter_below_all (above new) A) by done.
  rewrite (filter_none_all (above new) B), (filter_none_all (above new) T).
  2:{ eapply Forall_impl; [exact HT|]. intros c ?. unfold above, touches in *. lia. }
  2:{ eapply Forall_impl; [apply Forall_and; split; [exact HB|exact HwB]|].
      intros c [? ?]. unfold below, above in *. lia. }
  rewrite !app_nil_r. cbn [app].
  unfold insert_cells.
  rewrite ins_loop_below by done. rewrite ins_loop_touch by done. cbn [app].
  set (m := fold_left (merge_cell thr) T new).
  enough (ins_loop thr m B A = (B, m, A)) as -> by done.
  destruct A as [|a A]; [done|]. cbn [ins_loop].
  enough (c_max m < c_min a) by (by destruct (Z.ltb_spec (c_max m) (c_min a)); [|lia]).
  destruct (fold_merge_bounds thr T new) as (_ & _ & _ & _ & M5). fold m in M5.
  destruct M5 as [->|(c & Hc & ->)].
  - apply Forall_cons in HA as [Ha _]. exact Ha.
  - apply elem_of_list_split in Hc as (T1 & T2 & ->).
    eapply (sorted_mid lo (B ++ T1) c (T2 ++ a :: A)).
    + by rewrite <-!app_assoc in *.
    + apply elem_of_app. right. left.
Qed.

(** Insertion keeps columns good. *)
Lemma insert_cells_good thr new l :
  0 ≤ c_min new ≤ c_max new → c_max new ≤ 65535 → good_column l →
  good_column (insert_cells thr new l).
Proof.
  rewrite !good_sorted. intros Hnew Hnew2 Hs.
  rewrite (insert_cells_shape _ _ _ _ (proj2 Hnew) Hs).
  destruct (sorted_split _ new _ (proj2 Hnew) Hs) as (B & T & A & E & HB & HT & HA).
  pose proof (insert_cells_shape thr new l _ (proj2 Hnew) Hs) as Eshape.
  assert (Hf : filter (below new) l = B ∧ filter (touches new) l = T ∧ filter (above new) l = A).
  { assert (HwB : Forall (λ c, c_min c ≤ c_max c) B).
    { apply Forall_forall. intros c Hc. destruct (sorted_lower _ _ c Hs); [|lia]. set_solver. }
    assert (HwA : Forall (λ c, c_min c ≤ c_max c) A).
    { apply Forall_forall. intros c Hc. destruct (sorted_lower _ _ c Hs); [|lia]. set_solver. }
    subst l. rewrite !filter_app.
    rewrite (filter_below_all (below new) B), (filter_none_all (below new) T), (filter_none_all (below new) A),
      (filter_below_all (touches new) T), (filter_none_all (touches new) B), (filter_none_all (touches new) A),
      (filter_below_all (above new) A), (filter_none_all (above new) B), (filter_none_all (above new) T).
    1: by rewrite !app_nil_r.
    all: try done.
    all: try (eapply Forall_impl; [first [exact HA|exact HB|exact HT]|]; intros c ?;
              unfold below, above, touches in *; lia).
    - eapply Forall_impl; [apply Forall_and; split; [exact HB|exact HwB]|].
      intros c [? ?]. unfold below, above in *. lia.
    - eapply Forall_impl; [apply Forall_and; split; [exact HA|exact HwA]|].
      intros c [? ?]. unfold below, above in *. lia. }
  destruct Hf as (-> & -> & ->). subst l. pose proof Hs as Hs0.
  destruct (fold_merge_bounds thr T new) as (M1 & M2 & M3 & M4 & M5).
  set (m := fold_left (merge_cell thr) T new) in *.
  apply sorted_from_app in Hs as [HsB HsTA].
  apply sorted_from_app. split; [done|].
  assert (HTA : ∀ c, c ∈ T → (match last B with Some c => c_max c | None => -1 end) < c_min c ∧ c_max c ≤ 65535).
  { intros c Hc. destruct (sorted_lower _ _ c HsTA); [set_solver|]. lia. }
  assert (HlB : (match last B with Some c => c_max c | None => -1 end) < c_min new).
  { destruct (last B) as [q|] eqn:El; [|lia].
    apply last_Some_elem_of in El. by eapply Forall_forall in HB. }
  cbn [sorted_from]. split_and!.
  - destruct M4 as [->|(c & Hc & ->)]; [done|]. by apply HTA.
  - lia.
  - destruct M5 as [->|(c & Hc & ->)]; [done|]. by apply HTA.
  - apply sorted_from_app in HsTA as [HsT HsA].
    destruct A as [|a A]; [done|]. cbn [sorted_from] in *.
    destruct HsA as (Ha1 & Ha2 & Ha3 & Ha4). split_and!; try done.
    apply Forall_cons in HA as [Ha _].
    destruct M5 as [->|(c & Hc & ->)]; [done|].
    apply elem_of_list_split in Hc as (T1 & T2 & ->).
    eapply (sorted_mid (-1) (B ++ T1) c (T2 ++ a :: A)).
    + by rewrite <-!app_assoc in *.
    + apply elem_of_app. right. left.
Qed.

(** Coverage, on the doubled scale so that touching but separate spans are told
    apart: [2 * level]. *)
Definition covers2 (c : cell) (y : Z) : Prop := 2 * c_min c ≤ y ≤ 2 * c_max c.
Definition solid2 (l : list cell) (y : Z) : Prop := ∃ c, c ∈ l ∧ covers2 c y.

Lemma fold_merge_covers2 thr T new y :
  c_min new ≤ c_max new →
  Forall (λ c, touches new c ∧ c_min c ≤ c_max c) T →
  covers2 (fold_left (merge_cell thr) T new) y ↔ covers2 new y ∨ solid2 T y.
Proof.
  revert new. induction T as [|c T IH]; intros new Hn HT; cbn [fold_left].
  - unfold solid2. split; [by left|]. intros [?|(c & Hc & _)]; [done|].
    by apply elem_of_nil in Hc.
  - apply Forall_cons in HT as [[[? ?] ?] HT]. rewrite IH.
    + unfold solid2, covers2. rewrite merge_cell_min, merge_cell_max. split.
      * intros [Hy|(d & Hd & Hy)].
        -- destruct (decide (2 * c_min new ≤ y ≤ 2 * c_max new)); [by left|].
           right. exists c. split; [left|lia].
        -- right. exists d. split; [by right|done].
      * intros [Hy|(d & [->|Hd]%elem_of_cons & Hy)].
        -- left. lia.
        -- left. lia.
        -- right. eauto.
    + rewrite merge_cell_min, merge_cell_max. lia.
    + eapply Forall_impl; [exact HT|]. intros d [[? ?] ?]. unfold touches.
      rewrite merge_cell_min, merge_cell_max. lia.
Qed.

Lemma insert_cells_solid2 thr new l y :
  c_min new ≤ c_max new → good_column l →
  solid2 (insert_cells thr new l) y ↔ solid2 l y ∨ covers2 new y.
Proof.
  rewrite good_sorted. intros Hnew Hs. rewrite (insert_cells_shape _ _ _ _ Hnew Hs).
  assert (HT : Forall (λ c, touches new c ∧ c_min c ≤ c_max c) (filter (touches new) l)).
  { apply Forall_forall. intros c [Ht Hc]%elem_of_list_filter. split; [done|].
    destruct (sorted_lower _ _ _ Hs Hc). lia. }
  unfold solid2 at 1. split.
  - intros (c & Hc & Hy). apply elem_of_app in Hc as [Hc|[->|Hc]%elem_of_cons].
    + apply elem_of_list_filter in Hc as [_ Hc]. left. exists c. eauto.
    + apply fold_merge_covers2 in Hy as [?|(c & Hc & Hy)]; [by right| |done|done].
      apply elem_of_list_filter in Hc as [_ Hc]. left. exists c. eauto.
    + apply elem_of_list_filter in Hc as [_ Hc]. left. exists c. eauto.
  - intros Hy.
    assert ((∃ c, c ∈ l ∧ covers2 c y ∧ ¬ touches new c) ∨
            covers2 (fold_left (merge_cell thr) (filter (touches new) l) new) y) as [(c & Hc & Hcy & Hnt)|Hm].
    { destruct Hy as [(c & Hc & Hy)|Hy].
      - destruct (decide (touches new c)) as [Ht|Ht]; [right|left; eauto].
        apply fold_merge_covers2; [done|done|]. right. exists c. split; [|done].
        by apply elem_of_list_filter.
      - right. apply fold_merge_covers2; [done|done|]. by left. }
    + exists c. split; [|done]. apply elem_of_app.
      destruct (sorted_lower _ _ _ Hs Hc).
      destruct (decide (below new c)).
      * left. by apply elem_of_list_filter.
      * right. right. apply elem_of_list_filter. split; [|done].
        unfold below, touches, above in *. lia.
    + eexists. split; [|exact Hm]. apply elem_of_app. right. left.
Qed.

Lemma insert_cells_solid thr new l y :
  c_min new ≤ c_max new → good_column l →
  solid (insert_cells thr new l) y ↔ solid l y ∨ c_min new ≤ y ≤ c_max new.
Proof.
  intros Hn Hg. pose proof (insert_cells_solid2 thr new l (2 * y) Hn Hg) as H.
  unfold solid2, solid, covers2 in *. split.
  - intros (c & Hc & Hy). destruct H as [H _].
    destruct H as [(d & Hd & ?)|?]; [eauto with lia|left; exists d; split; [done|lia]|right; lia].
  - intros H1. destruct H as [_ H]. destruct H as (c & Hc & ?).
    + destruct H1 as [(d & Hd & ?)|?]; [left; exists d; split; [done|lia]|right; lia].
    + exists c. split; [done|lia].
Qed.

(** A good column is determined by its (doubled) coverage. *)
Lemma good_canonical l1 l2 :
  good_column l1 → good_column l2 → (∀ y, solid2 l1 y ↔ solid2 l2 y) →
  geometry l1 = geometry l2.
Proof.
  rewrite !good_sorted.
  enough (∀ lo, sorted_from lo l1 → sorted_from lo l2 →
     (∀ y, 2 * lo < y → solid2 l1 y ↔ solid2 l2 y) → geometry l1 = geometry l2) as H.
  { intros H1 H2 Hy. apply (H (-1)); auto. }
  revert l2. induction l1 as [|a l1 IH]; intros l2 lo Hs1 Hs2 Hy.
  { destruct l2 as [|b l2]; [done|]. exfalso. cbn in Hs2. destruct Hs2 as (?&?&?&?).
    destruct (Hy (2 * c_min b)) as [_ Hc]; [lia|]. destruct Hc as (c & Hc & _).
    - exists b. split; [left|]. unfold covers2. lia.
    - by apply elem_of_nil in Hc. }
  destruct l2 as [|b l2].
  { exfalso. cbn in Hs1. destruct Hs1 as (?&?&?&?).
    destruct (Hy (2 * c_min a)) as [Hc _]; [lia|]. destruct Hc as (c & Hc & _).
    - exists a. split; [left|]. unfold covers2. lia.
    - by apply elem_of_nil in Hc. }
  pose proof Hs1 as (A1 & A2 & A3 & A4). pose proof Hs2 as (B1 & B2 & B3 & B4).
  assert (Hge : ∀ l c lo y, sorted_from lo (c :: l) → solid2 (c :: l) y → 2 * c_min c ≤ y).
  { intros l c lo' y (_ & ? & _ & Hs) (d & [->|Hd]%elem_of_cons & Hd2); unfold covers2 in *; [lia|].
    destruct (sorted_lower _ _ _ Hs Hd). lia. }
  assert (Hhole : ∀ l c lo, sorted_from lo (c :: l) → ¬ solid2 (c :: l) (2 * c_max c + 1)).
  { intros l c lo' (_ & ? & _ & Hs) (d & [->|Hd]%elem_of_cons & Hd2); unfold covers2 in *; [lia|].
    destruct (sorted_lower _ _ _ Hs Hd). lia. }
  assert (Hin : ∀ l c y, covers2 c y → solid2 (c :: l) y).
  { intros l c y Hc. exists c. split; [left|done]. }
  assert (Emin : c_min a = c_min b).
  { assert (2 * c_min b ≤ 2 * c_min a).
    { eapply Hge; [exact Hs2|]. apply Hy; [lia|]. apply Hin. unfold covers2. lia. }
    assert (2 * c_min a ≤ 2 * c_min b); [|lia].
    eapply Hge; [exact Hs1|]. apply Hy; [lia|]. apply Hin. unfold covers2. lia. }
  assert (Emax : c_max a = c_max b).
  { destruct (Z.lt_trichotomy (c_max a) (c_max b)) as [Hlt|[?|Hlt]]; [|done|]; exfalso.
    - apply (Hhole _ _ _ Hs1). apply Hy; [lia|]. apply Hin. unfold covers2. lia.
    - apply (Hhole _ _ _ Hs2). apply Hy; [lia|]. apply Hin. unfold covers2. lia. }
  unfold geometry. cbn [fmap list_fmap]. rewrite Emin, Emax. f_equal.
  apply (IH l2 (c_max a)); [done|by rewrite Emax|].
  intros y Hlo.
  assert (Hout : ∀ l c, c_max c = c_max a → solid2 l y ↔ solid2 (c :: l) y).
  { intros l c Ec. split.
    - intros (d & Hd & ?). exists d. split; [by right|done].
    - intros (d & [->|Hd]%elem_of_cons & Hd2); [unfold covers2 in Hd2; lia|]. by exists d. }
  rewrite (Hout l1 a), (Hout l2 b) by done. apply Hy. lia.
Qed.
