(** Contour simplification. *)
From Verif Require Import Base ModelMath ModelHeightfield ModelFilters ModelCompact ModelDistance ModelRegions
  ModelContours SpecHeightfield SpecCompact SpecDistance SpecRegions SpecContours SpecOutline FlowProofs FloatOrder.
Local Open Scope Z_scope.

Lemma insert_after_lookup {A} (l : list A) i a k :
  (i < length l)%nat →
  insert_after l i a !! k = if decide (k ≤ i)%nat then l !! k else if decide (k = i + 1)%nat then Some a else l !! (k - 1)%nat.
Proof.
  intros Hi. unfold insert_after. assert (length (take (S i) l) = S i) as Hl by (rewrite take_length; lia).
  case_decide; [rewrite lookup_app_l by lia; rewrite lookup_take by lia; done|].
  rewrite lookup_app_r by lia. rewrite Hl. case_decide as E.
  - subst k. by replace (i + 1 - S i)%nat with 0%nat by lia.
  - replace (k - S i)%nat with (S (k - S i - 1))%nat by lia. change (drop (S i) l !! (k - S i - 1)%nat = l !! (k - 1)%nat). rewrite lookup_drop. f_equal. lia.
Qed.
Lemma insert_after_length {A} (l : list A) i a : length (insert_after l i a) = S (length l).
Proof.
  unfold insert_after. rewrite app_length. cbn. rewrite <-(take_drop (S i) l) at 3. rewrite app_length. lia.
Qed.
Lemma insert_after_fmap {A B} (f : A → B) l i a : f <$> insert_after l i a = insert_after (f <$> l) i (f a).
Proof. unfold insert_after. by rewrite fmap_app, fmap_cons, fmap_take, fmap_drop. Qed.
Lemma insert_after_sub {A} (l : list A) i a x : x ∈ l → x ∈ insert_after l i a.
Proof. unfold insert_after. rewrite <-(take_drop (S i) l) at 1. rewrite !elem_of_app, elem_of_cons. tauto. Qed.

Lemma insert_after_elem {A} (l : list A) i a x : x ∈ insert_after l i a → x ∈ l ∨ x = a.
Proof.
  unfold insert_after. rewrite elem_of_app, elem_of_cons. intros [H|[H|H]]; [left|by right|left].
  - apply elem_of_take in H as (k & Hk & _). by eapply elem_of_list_lookup_2.
  - apply elem_of_list_lookup in H as (k & Hk). rewrite lookup_drop in Hk. by eapply elem_of_list_lookup_2.
Qed.
Lemma mod_near n a b : (n ≠ 0 → a mod n = b mod n → a ≤ b → b < a + n → a = b)%nat.
Proof.
  intros Hn E H1 H2. pose proof (Nat.div_mod_eq a n). pose proof (Nat.div_mod_eq b n).
  assert (a / n = b / n)%nat; [|nia]. assert (a / n ≤ b / n)%nat by (apply Nat.div_le_mono; lia). nia.
Qed.

Lemma filter_seq_sorted (P : nat → Prop) {HdP : ∀ x, Decision (P x)} s m a b x y :
  (a < b)%nat → filter P (seq s m) !! a = Some x → filter P (seq s m) !! b = Some y → (x < y)%nat.
Proof.
  revert s a b x y. induction m as [|m IH]; intros s a b x y Hab; [done|].
  cbn [seq]. rewrite filter_cons. case_decide; [|apply IH; done]. destruct a as [|a].
  - intros [= <-] Hy. destruct b as [|b]; [lia|]. change (filter P (seq (S s) m) !! b = Some y) in Hy. apply elem_of_list_lookup_2, elem_of_list_filter in Hy as [_ Hy%elem_of_seq]. lia.
  - destruct b as [|b]; [lia|]. apply IH. lia.
Qed.

Section simp.
  Context (pts : list rawv).
  Let n := length pts.
  Hypothesis Hn : (0 < n)%nat.

  Definition vat (j : nat) : vtx := default vtx0 ((λ p : rawv, p.1) <$> pts !! j).
  Definition rat (j : nat) : Z := default 0 ((λ p : rawv, p.2) <$> pts !! j).
  Lemma get_pts j : (j < n)%nat → get pts j = Done (vat j, rat j).
  Proof.
    intros Hj. destruct (lookup_lt_is_Some_2 pts j Hj) as [[v r] E]. rewrite (get_some _ _ _ E). unfold vat, rat. by rewrite E.
  Qed.
  Lemma at_loop_pts j : at_loop pts j = Some (vat (j mod n), rat (j mod n)).
  Proof.
    unfold at_loop. fold n. destruct (lookup_lt_is_Some_2 pts (j mod n)) as [[v r] E]; [by apply Nat.mod_upper_bound; lia|].
    unfold vat, rat. by rewrite E.
  Qed.

  Definition ix (j0 o : nat) : nat := ((j0 + o) mod n)%nat.
  Definition pick (j0 o : nat) : simp := (vat (ix j0 o), ix j0 o).
  Lemma ix_lt j0 o : (ix j0 o < n)%nat.
  Proof. unfold ix. apply Nat.mod_upper_bound. lia. Qed.
  Lemma ix_turn j0 o : ix j0 (n + o) = ix j0 o.
  Proof. unfold ix. replace (j0 + (n + o))%nat with (j0 + o + 1 * n)%nat by lia. apply Nat.mod_add. lia. Qed.
  Lemma ix_add j0 o k : ((ix j0 o + k) mod n)%nat = ix j0 (o + k).
  Proof. unfold ix. rewrite Nat.add_mod_idemp_l by lia. f_equal. lia. Qed.
  Lemma ix_back j0 o : (0 < o)%nat → ((ix j0 o + (n - 1)) mod n)%nat = ix j0 (o - 1).
  Proof. intros Ho. rewrite ix_add. replace (o + (n - 1))%nat with (n + (o - 1))%nat by lia. apply ix_turn. Qed.
  Lemma ix_inj j0 a b : (a ≤ b)%nat → (b < a + n)%nat → ix j0 a = ix j0 b → a = b.
  Proof. unfold ix. intros H1 H2 E. apply mod_near in E; lia. Qed.
  Lemma pick_turn j0 : pick j0 n = pick j0 0.
  Proof. unfold pick. rewrite <-(Nat.add_0_r n), ix_turn. done. Qed.

  (** Ordered offsets. *)
  Definition ordered (os : list nat) : Prop :=
    os !! 0%nat = Some 0%nat ∧ (∀ x, x ∈ os → (x < n)%nat) ∧
    (∀ a b x y, (a < b)%nat → os !! a = Some x → os !! b = Some y → (x < y)%nat).
  Definition nxt (os : list nat) (i : nat) : nat := default n (os !! (i + 1)%nat).

  Lemma ordered_ge os k x : ordered os → os !! k = Some x → (k ≤ x)%nat.
  Proof.
    intros (_ & _ & Ho). revert x. induction k as [|k IH]; intros x Hx; [lia|].
    destruct (lookup_lt_is_Some_2 os k) as [y Hy]. { apply lookup_lt_Some in Hx. lia. }
    pose proof (IH y Hy). pose proof (Ho k (S k) y x ltac:(lia) Hy Hx). lia.
  Qed.
  Lemma ordered_length os : ordered os → (1 ≤ length os ≤ n)%nat.
  Proof.
    intros Ho. pose proof Ho as (H0 & Hlt & _). apply lookup_lt_Some in H0. split; [lia|].
    destruct (lookup_lt_is_Some_2 os (length os - 1)) as [y Hy]; [lia|].
    pose proof (ordered_ge _ _ _ Ho Hy). apply elem_of_list_lookup_2, Hlt in Hy. lia.
  Qed.
  Lemma nxt_gt os i x : ordered os → os !! i = Some x → (x < nxt os i ≤ n)%nat.
  Proof.
    intros (H0 & Hlt & Ho) Hx. unfold nxt. destruct (os !! (i + 1)%nat) as [y|] eqn:Ey; cbn.
    - split; [by eapply Ho; [|exact Hx|exact Ey]; lia|]. apply elem_of_list_lookup_2, Hlt in Ey. lia.
    - split; [|lia]. by eapply Hlt, elem_of_list_lookup_2.
  Qed.
  Lemma ordered_insert os i x o :
    ordered os → os !! i = Some x → (x < o < nxt os i)%nat → ordered (insert_after os i o).
  Proof.
    intros Hord Hx Ho. pose proof Hord as (H0 & Hlt & Hs). pose proof (nxt_gt _ _ _ Hord Hx) as Hnx.
    assert (Hi : (i < length os)%nat) by (by eapply lookup_lt_Some).
    assert (Hlo : ∀ a y, (a ≤ i)%nat → os !! a = Some y → (y < o)%nat).
    { intros a y Ha Hy. destruct (decide (a = i)) as [->|]; [assert (y = x) as -> by congruence; lia|].
      pose proof (Hs a i y x ltac:(lia) Hy Hx). lia. }
    assert (Hhi : ∀ a y, (i < a)%nat → os !! a = Some y → (o < y)%nat).
    { intros a y Ha Hy. unfold nxt in Ho. destruct (decide (a = i + 1)%nat) as [->|]; [rewrite Hy in Ho; cbn in Ho; lia|].
      destruct (lookup_lt_is_Some_2 os (i + 1)) as [e He]. { apply lookup_lt_Some in Hy. lia. }
      rewrite He in Ho. cbn in Ho. pose proof (Hs (i + 1)%nat a e y ltac:(lia) He Hy). lia. }
    split; [|split].
    - rewrite insert_after_lookup by done. by rewrite decide_True by lia.
    - intros y. unfold insert_after. rewrite elem_of_app, elem_of_cons. intros [H|[->|H]].
      + apply Hlt. rewrite <-(take_drop (S i) os). apply elem_of_app. by left.
      + lia.
      + apply Hlt. rewrite <-(take_drop (S i) os). apply elem_of_app. by right.
    - intros a b y z Hab. rewrite !insert_after_lookup by done.
      destruct (decide (a ≤ i)%nat), (decide (b ≤ i)%nat); [..|lia|].
      + by apply Hs.
      + case_decide as E.
        * intros Hy [= <-]. by eapply (Hlo a).
        * intros Hy Hz. by eapply (Hs a (b - 1)%nat); [lia|..].
      + case_decide as E.
        * rewrite decide_False by lia. intros [= <-] Hz. apply (Hhi (b - 1)%nat); [lia|done].
        * rewrite decide_False by lia. intros Hy Hz. apply (Hs (a - 1)%nat (b - 1)%nat); [lia|done..].
  Qed.
  Lemma nxt_insert_lt os i o k : (i < length os)%nat → (k < i)%nat → nxt (insert_after os i o) k = nxt os k.
  Proof. intros Hi Hk. unfold nxt. rewrite insert_after_lookup by done. by rewrite decide_True by lia. Qed.
  Lemma get_picks j0 os i x : os !! i = Some x → get (pick j0 <$> os) i = Done (pick j0 x).
  Proof. intros Hx. apply get_some. by rewrite list_lookup_fmap, Hx. Qed.
  Lemma get_picks_next j0 os i x :
    ordered os → os !! i = Some x → get (pick j0 <$> os) ((i + 1) mod length (pick j0 <$> os))%nat = Done (pick j0 (nxt os i)).
  Proof.
    intros (H0 & _) Hx. rewrite fmap_length. apply lookup_lt_Some in Hx. unfold nxt.
    destruct (decide (i + 1 = length os)%nat) as [E|E].
    - rewrite E, Nat.mod_same by lia. rewrite (lookup_ge_None_2 os (length os)) by lia. cbn [from_option id].
      rewrite pick_turn. by apply get_picks.
    - rewrite Nat.mod_small by lia. destruct (lookup_lt_is_Some_2 os (i + 1)) as [y Hy]; [lia|]. rewrite Hy. by apply get_picks.
  Qed.
  Lemma successive_nxt os x e : ordered os → successive n os x e → ∃ k, os !! k = Some x ∧ e = nxt os k.
  Proof.
    intros (H0 & _) (k & Hk & [He|(El & f & Hf & ->)]); exists k; (split; [done|]); unfold nxt.
    - by rewrite He.
    - rewrite (lookup_ge_None_2 os (k + 1)) by lia. cbn. assert (f = 0%nat) by congruence. lia.
  Qed.

  (** ** The largest deviation *)
  Definition dev (a b : vtx) (j : nat) : f32 := dist_sq_line (vx (vat j)) (vz (vat j)) (vx a) (vz a) (vx b) (vz b).
  Definition upd (a b : vtx) (best : f32 * option nat) (j : nat) : f32 * option nat :=
    if f_lt best.1 (dev a b j) then (dev a b j, Some j) else best.

  Lemma max_deviation_run k fuel a b cinc endi (pos : nat → nat) best :
    (k ≤ fuel)%nat → pos k = endi →
    (∀ t, (t < k)%nat → (pos t < n)%nat ∧ pos t ≠ endi ∧ pos (S t) = ((pos t + cinc) mod n)%nat) →
    max_deviation fuel pts a b cinc endi (pos 0%nat) best = Done (foldl (upd a b) best (pos <$> seq 0 k)).
  Proof.
    revert fuel pos best. induction k as [|k IH]; intros fuel pos best Hk Hend Hpos.
    - cbn [seq fmap list_fmap foldl]. destruct fuel; cbn [max_deviation]; rewrite Hend, Nat.eqb_refl; done.
    - destruct fuel as [|fuel]; [lia|]. cbn [max_deviation].
      destruct (Hpos 0%nat ltac:(lia)) as (H1 & H2 & H3). apply Nat.eqb_neq in H2. rewrite H2.
      rewrite (get_pts _ H1). cbn [obind fst]. fold n. rewrite <-H3.
      rewrite (IH fuel (λ t, pos (S t))); [|lia|done|intros t Ht; apply Hpos; lia].
      cbn [seq fmap list_fmap foldl]. rewrite <-fmap_S_seq, <-list_fmap_compose. done.
  Qed.

  Lemma best_spec a b vis :
    let best := foldl (upd a b) (f_zero, None) vis in
    (best = (f_zero, None) ∧ ∀ j, j ∈ vis → f_lt f_zero (dev a b j) = false) ∨
    (∃ m, m ∈ vis ∧ best = (dev a b m, Some m) ∧ is_Some (f_rank (dev a b m)) ∧
       ∀ j, j ∈ vis → f_lt (dev a b m) (dev a b j) = false).
  Proof.
    induction vis as [|j vis IH] using rev_ind; cbv zeta.
    - left. split; [done|]. by intros j ?%elem_of_nil.
    - rewrite foldl_app. cbn [foldl]. cbv zeta in IH. destruct IH as [[-> Hall]|(m & Hm & -> & Hsome & Hall)]; unfold upd; cbn [fst].
      + destruct (f_lt f_zero (dev a b j)) eqn:E.
        * right. exists j. split; [set_solver|]. split; [done|]. split; [by eapply f_lt_rank_r|].
          intros j' [Hj'| ->%elem_of_list_singleton]%elem_of_app.
          -- destruct (f_lt (dev a b j) (dev a b j')) eqn:E'; [|done]. specialize (Hall _ Hj').
             rewrite (f_lt_trans _ _ _ E E') in Hall. done.
          -- destruct (f_lt (dev a b j) (dev a b j)) eqn:E'; [|done]. apply f_lt_rank in E' as (u & v & Hu & Hv & Huv).
             assert (u = v) as -> by congruence. destruct v as [[]]. unfold rank_lt in Huv. lia.
        * left. split; [done|]. intros j' [Hj'| ->%elem_of_list_singleton]%elem_of_app; [by apply Hall|done].
      + destruct (f_lt (dev a b m) (dev a b j)) eqn:E.
        * right. exists j. split; [set_solver|]. split; [done|]. split; [by eapply f_lt_rank_r|].
          intros j' [Hj'| ->%elem_of_list_singleton]%elem_of_app.
          -- destruct (f_lt (dev a b j) (dev a b j')) eqn:E'; [|done]. specialize (Hall _ Hj').
             rewrite (f_lt_trans _ _ _ E E') in Hall. done.
          -- destruct (f_lt (dev a b j) (dev a b j)) eqn:E'; [|done]. apply f_lt_rank in E' as (u & v & Hu & Hv & Huv).
             assert (u = v) as -> by congruence. destruct v as [[]]. unfold rank_lt in Huv. lia.
        * right. exists m. split; [set_solver|]. split; [done|]. split; [done|].
          intros j' [Hj'| ->%elem_of_list_singleton]%elem_of_app; [by apply Hall|done].
  Qed.

  Definition tess (r : Z) : bool := negb (bits_meet r REGION_MASK) || bits_meet r AREA_BORDER.
  Definition checked (j0 x e : nat) : bool :=
    tess (rat (if xz_lt (vat (ix j0 x)) (vat (ix j0 e)) then ix j0 (x + 1) else ix j0 (e - 1))).
  Definition sdev (j0 x e o : nat) : f32 := deviation (vat (ix j0 o)) (vat (ix j0 x)) (vat (ix j0 e)).

  Lemma segment_spec j0 x e :
    (x < e ≤ n)%nat →
    ∃ d m, segment_deviation pts (pick j0 x) (pick j0 e) = Done (d, m) ∧
      match m with
      | None => d = f_zero ∧ (checked j0 x e = true → ∀ o, (x < o < e)%nat → f_lt f_zero (sdev j0 x e o) = false)
      | Some m => ∃ o, (x < o < e)%nat ∧ m = ix j0 o ∧ is_Some (f_rank d) ∧ checked j0 x e = true ∧
          (∀ o', (x < o' < e)%nat → f_lt d (sdev j0 x e o') = false)
      end.
  Proof.
    intros Hxe. unfold segment_deviation. fold n. cbn [pick fst snd]. unfold checked, sdev, deviation.
    destruct (xz_lt (vat (ix j0 x)) (vat (ix j0 e))) eqn:Efwd.
    - rewrite ix_add, (get_pts _ (ix_lt _ _)). cbn [obind snd]. fold (tess (rat (ix j0 (x + 1)))).
      destruct (tess (rat (ix j0 (x + 1)))) eqn:Etess; [|by exists f_zero, None].
      pose proof (max_deviation_run (e - x - 1) n (vat (ix j0 x)) (vat (ix j0 e)) 1 (ix j0 e) (λ t, ix j0 (x + 1 + t)) (f_zero, None)) as Hrun.
      cbv beta in Hrun. rewrite Nat.add_0_r in Hrun. rewrite Hrun; clear Hrun; [|lia|f_equal; lia|].
      2:{ intros t Ht. split; [apply ix_lt|]. split; [intros E; apply ix_inj in E; lia|]. rewrite ix_add. f_equal. lia. }
      set (vis := (λ t, ix j0 (x + 1 + t)) <$> seq 0 (e - x - 1)).
      assert (Hvis : ∀ o, (x < o < e)%nat → ix j0 o ∈ vis).
      { intros o Ho. apply elem_of_list_fmap. exists (o - x - 1)%nat. split; [f_equal; lia|]. apply elem_of_seq. lia. }
      destruct (best_spec (vat (ix j0 x)) (vat (ix j0 e)) vis) as [[-> Hall]|(m & Hm & -> & Hs & Hall)].
      + exists f_zero, None. split; [done|]. split; [done|]. intros _ o Ho. by apply Hall, Hvis.
      + exists (dev (vat (ix j0 x)) (vat (ix j0 e)) m), (Some m). split; [done|].
        apply elem_of_list_fmap in Hm as (t & -> & Ht%elem_of_seq). exists (x + 1 + t)%nat. split; [lia|]. split; [done|]. split; [done|]. split; [done|].
        intros o' Ho'. by apply Hall, Hvis.
    - rewrite ix_back by lia. rewrite (get_pts _ (ix_lt _ _)). cbn [obind snd]. fold (tess (rat (ix j0 (e - 1)))).
      destruct (tess (rat (ix j0 (e - 1)))) eqn:Etess; [|by exists f_zero, None].
      pose proof (max_deviation_run (e - x - 1) n (vat (ix j0 e)) (vat (ix j0 x)) (n - 1) (ix j0 x) (λ t, ix j0 (e - 1 - t)) (f_zero, None)) as Hrun.
      cbv beta in Hrun. rewrite Nat.sub_0_r in Hrun. rewrite Hrun; clear Hrun; [|lia|f_equal; lia|].
      2:{ intros t Ht. split; [apply ix_lt|]. split; [intros E; symmetry in E; apply ix_inj in E; lia|]. rewrite ix_back by lia. f_equal. lia. }
      set (vis := (λ t, ix j0 (e - 1 - t)) <$> seq 0 (e - x - 1)).
      assert (Hvis : ∀ o, (x < o < e)%nat → ix j0 o ∈ vis).
      { intros o Ho. apply elem_of_list_fmap. exists (e - 1 - o)%nat. split; [f_equal; lia|]. apply elem_of_seq. lia. }
      destruct (best_spec (vat (ix j0 e)) (vat (ix j0 x)) vis) as [[-> Hall]|(m & Hm & -> & Hs & Hall)].
      + exists f_zero, None. split; [done|]. split; [done|]. intros _ o Ho. by apply Hall, Hvis.
      + exists (dev (vat (ix j0 e)) (vat (ix j0 x)) m), (Some m). split; [done|].
        apply elem_of_list_fmap in Hm as (t & -> & Ht%elem_of_seq). exists (e - 1 - t)%nat. split; [lia|]. split; [done|]. split; [done|]. split; [done|].
        intros o' Ho'. by apply Hall, Hvis.
  Qed.

  (** ** Refinement *)
  Definition seg_ok (err2 : f32) (j0 : nat) (os : list nat) (k : nat) : Prop :=
    ∀ x, os !! k = Some x → checked j0 x (nxt os k) = true →
      ∀ o, (x < o < nxt os k)%nat → f_lt err2 (sdev j0 x (nxt os k) o) = false.

  (** Where a point was added: inside a segment [x]-[e] that satisfies [P]. *)
  Definition added (P : nat → nat → Prop) (os : list nat) (o : nat) : Prop :=
    ∃ os1 k x, ordered os1 ∧ os ⊆ os1 ∧ os1 !! k = Some x ∧ (x < o < nxt os1 k)%nat ∧ P x (nxt os1 k).
  Lemma added_mono P os os' o : os ⊆ os' → added P os' o → added P os o.
  Proof. intros Hs (os1 & k & x & H1 & H2 & H3). exists os1, k, x. split; [done|]. split; [by etrans|done]. Qed.

  Lemma refine_spec fuel err j0 os i :
    ordered os → (i ≤ length os)%nat → (2 * n - length os - i < fuel)%nat →
    (∀ k, (k < i)%nat → seg_ok (f_mul err err) j0 os k) →
    ∃ os', refine_loop fuel pts err (pick j0 <$> os) i = Done (pick j0 <$> os') ∧ ordered os' ∧ os ⊆ os' ∧
      (∀ o, o ∈ os' → o ∈ os ∨ added (λ x e, checked j0 x e = true) os o) ∧
      ∀ k, (k < length os')%nat → seg_ok (f_mul err err) j0 os' k.
  Proof.
    revert os i. induction fuel as [|fuel IH]; intros os i Hord Hi Hf Hdone; [lia|].
    cbn [refine_loop]. rewrite fmap_length. pose proof (ordered_length _ Hord) as Hlen.
    destruct (Nat.leb_spec (length os) i) as [Hle|Hlt].
    { exists os. split; [done|]. split; [done|]. split; [done|]. split; [by left|]. intros k Hk. apply Hdone. lia. }
    destruct (lookup_lt_is_Some_2 os i Hlt) as [x Hx]. rewrite (get_picks _ _ _ _ Hx). cbn [obind].
    pose proof (get_picks_next j0 os i x Hord Hx) as Hgn. rewrite fmap_length in Hgn. rewrite Hgn. cbn [obind].
    pose proof (nxt_gt _ _ _ Hord Hx) as Hnx. destruct (segment_spec j0 x (nxt os i) Hnx) as (d & m & -> & Hm). cbn [obind].
    assert (Hsq : f_lt (f_mul err err) f_zero = false) by apply f_square_nonneg.
    assert (Hskip : seg_ok (f_mul err err) j0 os i → ∃ os', refine_loop fuel pts err (pick j0 <$> os) (i + 1) = Done (pick j0 <$> os') ∧
       ordered os' ∧ os ⊆ os' ∧ (∀ o, o ∈ os' → o ∈ os ∨ added (λ x e, checked j0 x e = true) os o) ∧
       ∀ k, (k < length os')%nat → seg_ok (f_mul err err) j0 os' k).
    { intros Hok. apply IH; [done|lia|lia|]. intros k Hk. destruct (decide (k = i)) as [->|]; [done|]. apply Hdone. lia. }
    destruct m as [m|].
    - destruct Hm as (o & Ho & -> & Hs & Hck & Hall). destruct (f_lt (f_mul err err) d) eqn:Ed.
      + rewrite (get_pts _ (ix_lt _ _)). cbn [obind fst].
        replace (insert_after (pick j0 <$> os) i (vat (ix j0 o), ix j0 o)) with (pick j0 <$> insert_after os i o) by (by rewrite insert_after_fmap).
        destruct (IH (insert_after os i o) i) as (os' & E & Hord' & Hsub & Hnew & Hall').
        * by eapply ordered_insert.
        * rewrite insert_after_length. lia.
        * rewrite insert_after_length. lia.
        * intros k Hk y Hy. rewrite nxt_insert_lt by lia. rewrite insert_after_lookup, decide_True in Hy by lia. by apply Hdone.
        * exists os'. split; [done|]. split; [done|]. split; [intros y Hy; apply Hsub; by apply insert_after_sub|]. split; [|done].
          intros y Hy. destruct (Hnew y Hy) as [[Hin|Hin]%insert_after_elem|Hin]; [by left| |].
          -- subst y. right. by exists os, i, x.
          -- right. eapply added_mono; [|exact Hin]. intros u Hu. by apply insert_after_sub.
      + apply Hskip. intros y Hy _ o' Ho'. assert (y = x) as -> by congruence.
        destruct (f_lt (f_mul err err) (sdev j0 x (nxt os i) o')) eqn:E'; [|done].
        destruct (f_lt_split _ d _ Hs E') as [H|H]; [congruence|]. rewrite Hall in H by done. done.
    - destruct Hm as [-> Hall]. apply Hskip. intros y Hy Hch o' Ho'. assert (y = x) as -> by congruence.
      destruct (f_lt (f_mul err err) (sdev j0 x (nxt os i) o')) eqn:E'; [|done].
      destruct (f_lt_split _ f_zero _ ltac:(by eexists) E') as [H|H]; [congruence|]. rewrite Hall in H by done. done.
  Qed.

  (** ** Splitting *)
  Lemma ends_chk (B : Prop) lo hi v : B ∨ lo ≤ v ≤ hi → ends B (chk lo hi v) (λ v', v' = v).
  Proof.
    intros H. unfold chk. destruct ((lo <=? v) && (v <=? hi)) eqn:E; [done|]. destruct H as [H|H]; [done|]. cbn. lia.
  Qed.
  Definition split_on (wall areas : bool) (r : Z) : bool :=
    (wall && negb (bits_meet r REGION_MASK)) || (areas && bits_meet r AREA_BORDER).
  Definition seg_short (len : Z) (wall areas : bool) (j0 : nat) (os : list nat) (k : nat) : Prop :=
    ∀ x, os !! k = Some x → split_on wall areas (rat (ix j0 (x + 1))) = true →
      nxt os k = (x + 1)%nat ∨
      (vx (vat (ix j0 (nxt os k))) - vx (vat (ix j0 x))) * (vx (vat (ix j0 (nxt os k))) - vx (vat (ix j0 x))) +
      (vz (vat (ix j0 (nxt os k))) - vz (vat (ix j0 x))) * (vz (vat (ix j0 (nxt os k))) - vz (vat (ix j0 x))) ≤ len * len.

  Section split.
    Context (B : Prop) (len : Z) (wall areas : bool).
    Hypothesis Hpanic : B ∨ (0 ≤ len ≤ 255 ∧ coords_i16 pts).

    Lemma vat_small j : (j < n)%nat → coords_i16 pts → 0 ≤ vx (vat j) ≤ 32767 ∧ 0 ≤ vz (vat j) ≤ 32767.
    Proof.
      intros Hj Hc. destruct (lookup_lt_is_Some_2 pts j Hj) as [[v r] E]. unfold vat. rewrite E. cbn.
      apply (Hc (v, r)). by eapply elem_of_list_lookup_2.
    Qed.

    Lemma split_point_spec j0 x e :
      (x < e ≤ n)%nat →
      ends B (split_point pts len wall areas (pick j0 x) (pick j0 e)) (λ m,
        match m with
        | Some m => ∃ o, (x < o < e)%nat ∧ m = ix j0 o ∧ split_on wall areas (rat (ix j0 (x + 1))) = true
        | None => split_on wall areas (rat (ix j0 (x + 1))) = true → e = (x + 1)%nat ∨
            (vx (vat (ix j0 e)) - vx (vat (ix j0 x))) * (vx (vat (ix j0 e)) - vx (vat (ix j0 x))) +
            (vz (vat (ix j0 e)) - vz (vat (ix j0 x))) * (vz (vat (ix j0 e)) - vz (vat (ix j0 x))) ≤ len * len
        end).
    Proof.
      intros Hxe. unfold split_point. fold n. cbn [pick fst snd]. rewrite ix_add, (get_pts _ (ix_lt _ _)). cbn [obind snd].
      fold (split_on wall areas (rat (ix j0 (x + 1)))). destruct (split_on wall areas (rat (ix j0 (x + 1)))) eqn:Es; [|done].
      set (dx := vx (vat (ix j0 e)) - vx (vat (ix j0 x))). set (dz := vz (vat (ix j0 e)) - vz (vat (ix j0 x))).
      assert (Hd : B ∨ (0 ≤ len ≤ 255 ∧ -32767 ≤ dx ≤ 32767 ∧ -32767 ≤ dz ≤ 32767)).
      { destruct Hpanic as [HB|[Hl Hc]]; [by left|right]. pose proof (vat_small _ (ix_lt j0 x) Hc).
        pose proof (vat_small _ (ix_lt j0 e) Hc). unfold dx, dz. lia. }
      assert (Hturn : (e - x = n)%nat → dx = 0 ∧ dz = 0).
      { intros E. assert (x = 0%nat) as -> by lia. assert (e = n) as -> by lia.
        pose proof (pick_turn j0) as Ep. unfold pick in Ep. injection Ep as _ Ep. unfold dx, dz. rewrite Ep. lia. }
      clearbody dx dz. clear Hpanic. unfold chk_i32, chk_u16, I32_MIN, I32_MAX, U16_MAX.
      eapply ends_bind; [apply ends_chk; destruct Hd; [by left|right; nia]|]. intros ? ->.
      eapply ends_bind; [apply ends_chk; destruct Hd; [by left|right; nia]|]. intros ? ->.
      eapply ends_bind; [apply ends_chk; destruct Hd; [by left|right; nia]|]. intros ? ->.
      eapply ends_bind; [apply ends_chk; destruct Hd; [by left|right; nia]|]. intros ? ->.
      destruct (Z.ltb_spec (len * len) (dx * dx + dz * dz)) as [Hlong|Hshort]; [|cbn; intros _; right; lia].
      set (k := if (ix j0 e <? ix j0 x)%nat then _ else _).
      assert (Hk : k = (e - x)%nat ∨ k = 0%nat ∧ (e - x = n)%nat).
      { unfold k. pose proof (ix_lt j0 x). pose proof (ix_lt j0 e). unfold ix in *.
        pose proof (Nat.div_mod_eq (j0 + x) n) as Ex. pose proof (Nat.div_mod_eq (j0 + e) n) as Ee.
        set (qx := ((j0 + x) / n)%nat) in *. set (qe := ((j0 + e) / n)%nat) in *.
        set (rx := ((j0 + x) mod n)%nat) in *. set (re := ((j0 + e) mod n)%nat) in *.
        assert (qe = qx ∨ qe = S qx) as [-> | ->] by nia.
        - destruct (Nat.ltb_spec re rx); nia.
        - destruct (Nat.ltb_spec re rx); [left; nia|right; nia]. }
      destruct (Nat.ltb_spec 1 k) as [H1|H1].
      + destruct Hk as [Hk|[Hk _]]; [|lia]. cbn [ends].
        pose proof (Nat.div_mod_eq k 2) as E1. pose proof (Nat.div_mod_eq (k + 1) 2) as E2.
        pose proof (Nat.mod_upper_bound k 2). pose proof (Nat.mod_upper_bound (k + 1) 2).
        destruct (xz_lt _ _).
        * exists (x + k / 2)%nat. rewrite ix_add. split; [lia|]. done.
        * exists (x + (k + 1) / 2)%nat. rewrite ix_add. split; [lia|]. done.
      + cbn [ends]. intros _. destruct Hk as [Hk|[_ Hk]]; [left; lia|].
        apply Hturn in Hk. nia.
    Qed.

    Lemma split_spec fuel j0 os i :
      ordered os → (i ≤ length os)%nat → (2 * n - length os - i < fuel)%nat →
      (∀ k, (k < i)%nat → seg_short len wall areas j0 os k) →
      ends B (split_loop fuel pts len wall areas (pick j0 <$> os) i) (λ l,
        ∃ os', l = pick j0 <$> os' ∧ ordered os' ∧ os ⊆ os' ∧
          (∀ o, o ∈ os' → o ∈ os ∨ added (λ x _, split_on wall areas (rat (ix j0 (x + 1))) = true) os o) ∧
          ∀ k, (k < length os')%nat → seg_short len wall areas j0 os' k).
    Proof.
      revert os i. induction fuel as [|fuel IH]; intros os i Hord Hi Hf Hdone; [lia|].
      cbn [split_loop]. rewrite fmap_length. pose proof (ordered_length _ Hord) as Hlen.
      destruct (Nat.leb_spec (length os) i) as [Hle|Hlt].
      { exists os. split; [done|]. split; [done|]. split; [done|]. split; [by left|]. intros k Hk. apply Hdone. lia. }
      destruct (lookup_lt_is_Some_2 os i Hlt) as [x Hx]. rewrite (get_picks _ _ _ _ Hx). cbn [obind].
      pose proof (get_picks_next j0 os i x Hord Hx) as Hgn. rewrite fmap_length in Hgn. rewrite Hgn. cbn [obind].
      pose proof (nxt_gt _ _ _ Hord Hx) as Hnx.
      eapply ends_bind; [by apply split_point_spec|]. intros [m|] Hm; cbv beta iota in Hm.
      - destruct Hm as (o & Ho & -> & Hsp). rewrite (get_pts _ (ix_lt _ _)). cbn [obind fst].
        replace (insert_after (pick j0 <$> os) i (vat (ix j0 o), ix j0 o)) with (pick j0 <$> insert_after os i o) by (by rewrite insert_after_fmap).
        eapply ends_mono; [apply (IH (insert_after os i o) i)|].
        + by eapply ordered_insert.
        + rewrite insert_after_length. lia.
        + rewrite insert_after_length. lia.
        + intros k Hk y Hy. rewrite nxt_insert_lt by lia. rewrite insert_after_lookup, decide_True in Hy by lia. by apply Hdone.
        + intros l (os' & -> & Hord' & Hsub & Hnew & Hall). exists os'. split; [done|]. split; [done|].
          split; [intros y Hy; apply Hsub; by apply insert_after_sub|]. split; [|done].
          intros y Hy. destruct (Hnew y Hy) as [[Hin|Hin]%insert_after_elem|Hin]; [by left| |].
          * subst y. right. by exists os, i, x.
          * right. eapply added_mono; [|exact Hin]. intros u Hu. by apply insert_after_sub.
      - apply IH; [done|lia|lia|]. intros k Hk. destruct (decide (k = i)) as [->|]; [|apply Hdone; lia].
        intros y Hy. assert (y = x) as -> by congruence. done.
    Qed.
  End split.

  (** ** Initial points *)
  Lemma class_iff p q : negb (Z.land p REGION_MASK =? Z.land q REGION_MASK) || negb (Z.land p AREA_BORDER =? Z.land q AREA_BORDER) = true ↔
    beyond_region p ≠ beyond_region q ∨ area_border p ≠ area_border q.
  Proof.
    assert (Hland : ∀ a, Z.land a AREA_BORDER = if Z.testbit a 17 then AREA_BORDER else 0).
    { intros a. apply Z.bits_inj'. intros m Hm. rewrite Z.land_spec. unfold AREA_BORDER. change 131072 with (2 ^ 17).
      destruct (decide (m = 17)) as [->|Hne].
      - destruct (Z.testbit a 17); [done|]. by rewrite Z.testbit_0_l.
      - rewrite Z.pow2_bits_false by lia. rewrite andb_false_r. destruct (Z.testbit a 17); [|by rewrite Z.testbit_0_l].
        symmetry. apply Z.pow2_bits_false. lia. }
    rewrite orb_true_iff, !negb_true_iff, !Z.eqb_neq, !Hland. unfold beyond_region, area_border.
    assert ((if Z.testbit p 17 then AREA_BORDER else 0) ≠ (if Z.testbit q 17 then AREA_BORDER else 0) ↔ Z.testbit p 17 ≠ Z.testbit q 17); [|tauto].
    unfold AREA_BORDER. destruct (Z.testbit p 17), (Z.testbit q 17); split; congruence || lia.
  Qed.

  Definition turns (j : nat) : bool :=
    negb (Z.land (rat j) REGION_MASK =? Z.land (rat ((j + 1) mod n)) REGION_MASK)
    || negb (Z.land (rat j) AREA_BORDER =? Z.land (rat ((j + 1) mod n)) AREA_BORDER).

  Lemma portal_points_eq : portal_points pts = Done ((λ j, (vat j, j)) <$> filter (λ j, turns j = true) (seq 0 n)).
  Proof.
    unfold portal_points. fold n.
    assert (∀ k, (k ≤ n)%nat → foldM (λ i acc, let! p := get pts i in let! q := get pts ((i + 1) mod n)%nat in
      if negb (Z.land p.2 REGION_MASK =? Z.land q.2 REGION_MASK) || negb (Z.land p.2 AREA_BORDER =? Z.land q.2 AREA_BORDER)
      then Done (acc ++ [(p.1, i)]) else Done acc) (seq 0 k) [] = Done ((λ j, (vat j, j)) <$> filter (λ j, turns j = true) (seq 0 k))) as H;
      [|by apply H].
    induction k as [|k IH]; intros Hk; [done|]. rewrite seq_S, foldM_app, IH by lia. cbn [obind foldM Nat.add].
    rewrite (get_pts k) by lia. cbn [obind]. rewrite (get_pts ((k + 1) mod n)) by (apply Nat.mod_upper_bound; lia). cbn [obind fst snd].
    fold (turns k). rewrite filter_app, filter_cons, filter_nil, fmap_app. destruct (turns k).
    - by rewrite decide_True.
    - rewrite decide_False by done. by rewrite app_nil_r.
  Qed.

  (** Every change is kept. *)
  Definition keeps (j0 : nat) (os : list nat) : Prop :=
    has_portal pts → ∀ o, (o < n)%nat → turns (ix j0 o) = true → o ∈ os.

  Lemma has_portal_iff : existsb (λ p : rawv, bits_meet p.2 REGION_MASK) pts = true ↔ has_portal pts.
  Proof.
    rewrite existsb_exists. unfold has_portal, beyond_region, bits_meet. split.
    - intros (p & Hp & E). exists p. split; [by apply elem_of_list_In|]. apply negb_true_iff, Z.eqb_neq in E. done.
    - intros (p & Hp & E). exists p. split; [by apply elem_of_list_In|]. by apply negb_true_iff, Z.eqb_neq.
  Qed.

  Lemma initial_portals l :
    filter (λ j, turns j = true) (seq 0 n) = l → l ≠ [] → ∃ j0 os, (λ j, (vat j, j)) <$> l = pick j0 <$> os ∧ ordered os ∧ keeps j0 os ∧
      ∀ o, o ∈ os → turns (ix j0 o) = true.
  Proof.
    intros El Hne. destruct l as [|j0 l]; [done|].
    assert (Hin : ∀ j, j ∈ j0 :: l ↔ turns j = true ∧ (j < n)%nat).
    { intros j. rewrite <-El, elem_of_list_filter, elem_of_seq. split; intros [? ?]; (split; [done|lia]). }
    assert (Hsort : ∀ a b x y, (a < b)%nat → (j0 :: l) !! a = Some x → (j0 :: l) !! b = Some y → (x < y)%nat).
    { rewrite <-El. intros a b x y. apply filter_seq_sorted. }
    assert (Hge : ∀ j, j ∈ j0 :: l → (j0 ≤ j < n)%nat).
    { intros j Hj. split; [|by apply Hin]. apply elem_of_list_lookup in Hj as (k & Hk). destruct k as [|k]; [by injection Hk as ->|].
      pose proof (Hsort 0%nat (S k) j0 j ltac:(lia) eq_refl Hk). lia. }
    exists j0, ((λ j, j - j0)%nat <$> j0 :: l). split; [|split; [|split]].
    - rewrite <-list_fmap_compose. apply list_fmap_ext. intros k j Hj. apply elem_of_list_lookup_2, Hge in Hj.
      unfold compose, pick, ix. replace (j0 + (j - j0))%nat with j by lia. by rewrite Nat.mod_small by lia.
    - split; [cbn; f_equal; lia|]. split.
      + intros x (j & -> & Hj)%elem_of_list_fmap. apply Hge in Hj. lia.
      + intros a b x y Hab. rewrite !list_lookup_fmap. intros (x' & Hx & ->)%fmap_Some (y' & Hy & ->)%fmap_Some.
        pose proof (Hsort _ _ _ _ Hab Hx Hy). apply elem_of_list_lookup_2, Hge in Hx. lia.
    - intros _ o Ho Ht. apply elem_of_list_fmap.
      assert (ix j0 o ∈ j0 :: l) as Hj. { apply Hin. split; [done|]. apply ix_lt. }
      exists (ix j0 o). split; [|done]. apply Hge in Hj. pose proof (ix_lt j0 o).
      assert (j0 < n)%nat by lia. unfold ix in *. destruct (decide (j0 + o < n)%nat) as [Hlt|Hge'].
      + rewrite Nat.mod_small by lia. lia.
      + assert ((j0 + o) mod n = j0 + o - n)%nat as E; [|lia].
        symmetry. apply (Nat.mod_unique _ _ 1); lia.
    - intros o (j & -> & Hj)%elem_of_list_fmap. pose proof (Hge _ Hj) as Hjn. unfold ix. replace (j0 + (j - j0))%nat with j by lia.
      rewrite Nat.mod_small by lia. by apply Hin.
  Qed.

  Lemma extreme_spec : spread pts → ∃ a b, extreme_points pts = Done [(vat a, a); (vat b, b)] ∧ (a < n)%nat ∧ (b < n)%nat ∧ a ≠ b.
  Proof.
    intros Hsp. unfold extreme_points. rewrite (get_pts 0) by lia. cbn [obind fst]. fold n.
    assert (∀ k, (k ≤ n)%nat → ∃ a b, foldM (λ i '(ll, ur), let! p := get pts i in
        Done (if xz_lt p.1 ll.1 then (p.1, i) else ll, if xz_lt ur.1 p.1 then (p.1, i) else ur))
        (seq 0 k) ((vat 0, 0%nat), (vat 0, 0%nat)) = Done ((vat a, a), (vat b, b)) ∧ (a < n)%nat ∧ (b < n)%nat ∧
        (∀ j, (j < k)%nat → xz_lt (vat j) (vat a) = false ∧ xz_lt (vat b) (vat j) = false)) as H.
    { induction k as [|k IH]; intros Hk.
      - exists 0%nat, 0%nat. split; [done|]. split; [lia|]. split; [lia|]. intros j Hj. lia.
      - destruct IH as (a & b & E & Ha & Hb & Hall); [lia|]. rewrite seq_S, foldM_app, E. cbn [obind foldM Nat.add fst].
        rewrite (get_pts k) by lia. cbn [obind fst].
        exists (if xz_lt (vat k) (vat a) then k else a), (if xz_lt (vat b) (vat k) then k else b).
        split; [by destruct (xz_lt (vat k) (vat a)), (xz_lt (vat b) (vat k))|].
        split; [destruct (xz_lt _ _); lia|]. split; [destruct (xz_lt _ _); lia|].
        intros j Hj. assert (Hlt : ∀ u v w, xz_lt u v = true → xz_lt w v = false → xz_lt w u = false).
        { intros u v w'. unfold xz_lt. intros. lia. }
        assert (Hlt' : ∀ u v w, xz_lt v u = true → xz_lt v w = false → xz_lt u w = false).
        { intros u v w'. unfold xz_lt. intros. lia. }
        assert (Hirr : ∀ u, xz_lt u u = false) by (intros u; unfold xz_lt; lia).
        split.
        + destruct (xz_lt (vat k) (vat a)) eqn:Ek; destruct (decide (j = k)) as [->|Hne].
          * apply Hirr.
          * eapply Hlt; [exact Ek|]. apply Hall. lia.
          * done.
          * apply Hall. lia.
        + destruct (xz_lt (vat b) (vat k)) eqn:Ek; destruct (decide (j = k)) as [->|Hne].
          * apply Hirr.
          * eapply Hlt'; [exact Ek|]. apply Hall. lia.
          * done.
          * apply Hall. lia. }
    destruct (H n ltac:(lia)) as (a & b & E & Ha & Hb & Hall). exists a, b. rewrite E. split; [done|]. split; [done|]. split; [done|].
    intros ->. destruct Hsp as (p & q & Hp & Hq & Hpq).
    assert (Hall' : ∀ p : rawv, p ∈ pts → vpos p.1 = vpos (vat b)).
    { intros p' Hp'. apply elem_of_list_lookup in Hp' as (j & Hj). assert (j < n)%nat as Hjn by (by eapply lookup_lt_Some).
      assert (p'.1 = vat j) as ->. { unfold vat. by rewrite Hj. }
      destruct (Hall j Hjn) as [H1 H2]. unfold vpos. unfold xz_lt in H1, H2. f_equal; lia. }
    rewrite (Hall' p Hp), (Hall' q Hq) in Hpq. done.
  Qed.

  Lemma initial_spec : spread pts → ∃ j0 os, initial_points pts = Done (pick j0 <$> os) ∧ ordered os ∧ keeps j0 os ∧
    (has_portal pts → ∀ j, (j < n)%nat → turns j = true → ∀ o, o ∈ os → turns (ix j0 o) = true).
  Proof.
    intros Hsp. unfold initial_points.
    assert (Hext : (¬ has_portal pts ∨ filter (λ j, turns j = true) (seq 0 n) = []) →
      ∃ j0 os, extreme_points pts = Done (pick j0 <$> os) ∧ ordered os ∧ keeps j0 os ∧
        (has_portal pts → ∀ j, (j < n)%nat → turns j = true → ∀ o, o ∈ os → turns (ix j0 o) = true)).
    { intros Hno. destruct (extreme_spec Hsp) as (a & b & -> & Ha & Hb & Hab).
      exists a, [0%nat; ((b + (n - a)) mod n)%nat]. 
      assert (Eb : ix a ((b + (n - a)) mod n) = b).
      { unfold ix. rewrite Nat.add_mod_idemp_r by lia. replace (a + (b + (n - a)))%nat with (b + 1 * n)%nat by lia.
        rewrite Nat.mod_add by lia. by apply Nat.mod_small. }
      assert (Ea : ix a 0 = a). { unfold ix. rewrite Nat.add_0_r. by apply Nat.mod_small. }
      assert ((b + (n - a)) mod n < n)%nat by (apply Nat.mod_upper_bound; lia).
      assert ((b + (n - a)) mod n ≠ 0)%nat. { intros E0. rewrite E0, Ea in Eb. done. }
      split; [cbn [fmap list_fmap]; unfold pick; by rewrite Ea, Eb|]. split; [|split].
      - split; [done|]. split.
        + intros x [->|[->|[]%elem_of_nil]%elem_of_cons]%elem_of_cons; lia.
        + intros i k x y Hik Hx Hy. destruct i as [|[|i]]; [|destruct k as [|[|k]]; [lia..|done]|done].
          injection Hx as <-. destruct k as [|[|k]]; [lia| |done]. injection Hy as <-. lia.
      - intros Hp o Ho Ht. destruct Hno as [Hno|Hno]; [done|]. exfalso.
        assert (ix a o ∈ filter (λ j, turns j = true) (seq 0 n)) as Hin.
        { apply elem_of_list_filter. split; [done|]. apply elem_of_seq. pose proof (ix_lt a o). lia. }
        rewrite Hno in Hin. by apply elem_of_nil in Hin.
      - intros Hp j Hj Ht. destruct Hno as [Hno|Hno]; [done|]. exfalso.
        assert (j ∈ filter (λ j, turns j = true) (seq 0 n)) as Hin. { apply elem_of_list_filter. split; [done|]. apply elem_of_seq. lia. }
        rewrite Hno in Hin. by apply elem_of_nil in Hin. }
    change (existsb _ pts) with (existsb (λ p : rawv, bits_meet p.2 REGION_MASK) pts).
    destruct (existsb (λ p : rawv, bits_meet p.2 REGION_MASK) pts) eqn:Ep.
    - rewrite portal_points_eq. cbn [obind].
      destruct (filter (λ j, turns j = true) (seq 0 n)) as [|j l] eqn:El; cbn [fmap list_fmap].
      + apply Hext. by right.
      + destruct (initial_portals (j :: l) El) as (j0 & os & E & H1 & H2 & H3); [done|]. exists j0, os. split; [f_equal; exact E|]. split; [done|].
        split; [done|]. intros _ j' _ _. exact H3.
    - cbn [obind]. apply Hext. left. intros Hp. apply has_portal_iff in Hp. congruence.
  Qed.

  (** ** All together *)
  Lemma keeps_mono j0 os os' : os ⊆ os' → keeps j0 os → keeps j0 os'.
  Proof. intros Hs Hk Hp o Ho Ht. by apply Hs, Hk. Qed.

  Lemma bits_meet_region r : bits_meet r REGION_MASK = true ↔ beyond_region r ≠ 0.
  Proof. unfold bits_meet, beyond_region. rewrite negb_true_iff, Z.eqb_neq. done. Qed.
  Lemma bits_meet_area r : bits_meet r AREA_BORDER = area_border r.
  Proof.
    pose proof (class_iff r 0) as H. unfold bits_meet, area_border.
    assert (Hland : Z.land r AREA_BORDER = if Z.testbit r 17 then AREA_BORDER else 0).
    { apply Z.bits_inj'. intros m Hm. rewrite Z.land_spec. unfold AREA_BORDER. change 131072 with (2 ^ 17).
      destruct (decide (m = 17)) as [->|Hne].
      - destruct (Z.testbit r 17); [done|]. by rewrite Z.testbit_0_l.
      - rewrite Z.pow2_bits_false by lia. rewrite andb_false_r. destruct (Z.testbit r 17); [|by rewrite Z.testbit_0_l].
        symmetry. apply Z.pow2_bits_false. lia. }
    rewrite Hland. by destruct (Z.testbit r 17).
  Qed.
  Lemma tess_iff r : tess r = true ↔ beyond_region r = 0 ∨ area_border r = true.
  Proof.
    unfold tess. rewrite orb_true_iff, bits_meet_area, negb_true_iff. split; intros [H|H]; auto.
    - left. destruct (decide (beyond_region r = 0)) as [|Hne]; [done|]. apply bits_meet_region in Hne. congruence.
    - left. destruct (bits_meet r REGION_MASK) eqn:E; [|done]. apply bits_meet_region in E. done.
  Qed.

  (** Inside a segment every raw vertex has the same neighbour. *)
  Lemma turns_false j : turns (j mod n)%nat = false → beyond_region (rat (j mod n)) = beyond_region (rat ((j + 1) mod n)) ∧
    area_border (rat (j mod n)) = area_border (rat ((j + 1) mod n)).
  Proof.
    intros Ht. unfold turns in Ht. rewrite Nat.add_mod_idemp_l in Ht by lia.
    set (p := rat (j mod n)) in *. set (q := rat ((j + 1) mod n)) in *.
    assert (H : ¬ (beyond_region p ≠ beyond_region q ∨ area_border p ≠ area_border q)).
    { intros H. apply class_iff in H. congruence. }
    split; [destruct (decide (beyond_region p = beyond_region q))|destruct (decide (area_border p = area_border q))]; tauto.
  Qed.
  Lemma uniform j0 os k x :
    ordered os → keeps j0 os → has_portal pts → os !! k = Some x → ∀ o o', (x < o)%nat → (o ≤ o' < nxt os k)%nat →
    tess (rat (ix j0 o)) = tess (rat (ix j0 o')).
  Proof.
    intros Hord Hkeep Hp Hx o o' Ho Ho'. destruct Ho' as [Hle Hlt]. induction Hle as [|m Hle IH]; [done|].
    rewrite IH by lia. pose proof (nxt_gt _ _ _ Hord Hx) as Hnx.
    assert (Hnot : m ∉ os).
    { intros (a & Ha)%elem_of_list_lookup. destruct Hord as (_ & _ & Hs).
      destruct (lt_eq_lt_dec a k) as [[Hak| ->]|Hak].
      - pose proof (Hs a k m x Hak Ha Hx). lia.
      - assert (m = x) by congruence. lia.
      - unfold nxt in Hlt. destruct (decide (a = k + 1)%nat) as [->|Hne]; [rewrite Ha in Hlt; cbn in Hlt; lia|].
        destruct (lookup_lt_is_Some_2 os (k + 1)) as [e He]. { apply lookup_lt_Some in Ha. lia. }
        rewrite He in Hlt. cbn in Hlt. pose proof (Hs (k + 1)%nat a e m ltac:(lia) He Ha). lia. }
    assert (Ht : turns (ix j0 m) = false). { destruct (turns (ix j0 m)) eqn:E; [|done]. exfalso. apply Hnot. apply Hkeep; [done|lia|done]. }
    unfold ix in Ht. apply turns_false in Ht as [E1 E2]. unfold ix. replace (j0 + S m)%nat with (j0 + m + 1)%nat by lia.
    apply Bool.eq_true_iff_eq. rewrite !tess_iff, E1, E2. done.
  Qed.
  Lemma checked_interior j0 os k x o :
    ordered os → keeps j0 os → os !! k = Some x → (x < o < nxt os k)%nat → tess (rat (ix j0 o)) = true →
    checked j0 x (nxt os k) = true.
  Proof.
    intros Hord Hkeep Hx Ho Ht. unfold checked.
    destruct (existsb (λ p : rawv, bits_meet p.2 REGION_MASK) pts) eqn:Ep.
    - apply has_portal_iff in Ep. destruct (xz_lt _ _).
      + rewrite (uniform j0 os k x Hord Hkeep Ep Hx (x + 1) o); [done|lia|lia].
      + rewrite <-(uniform j0 os k x Hord Hkeep Ep Hx o (nxt os k - 1)); [done|lia|lia].
    - assert (Hall : ∀ j, (j < n)%nat → tess (rat j) = true); [|by apply Hall; destruct (xz_lt _ _); apply ix_lt].
      intros j Hj. destruct (lookup_lt_is_Some_2 pts j Hj) as [p Hp]. unfold rat. rewrite Hp. cbn.
      apply tess_iff. left. destruct (decide (beyond_region p.2 = 0)) as [|Hne]; [done|]. exfalso.
      assert (has_portal pts) as H by (exists p; split; [by eapply elem_of_list_lookup_2|done]). apply has_portal_iff in H. congruence.
  Qed.

  Lemma ordered_subloop j0 os : ordered os → subloop pts j0 os ((λ o, vat (ix j0 o)) <$> os).
  Proof.
    intros (_ & Hlt & Hs). split; [done|]. split; [done|]. apply Forall2_fmap_r, Forall2_same_length_lookup. split; [done|].
    intros i o o' Ho Ho'. assert (o' = o) as -> by congruence. by rewrite at_loop_pts.
  Qed.

  Lemma keeps_spec j0 os : keeps j0 os → has_portal pts → ∀ j, changes pts j → ∃ o, o ∈ os ∧ ix j0 o = (j mod n)%nat.
  Proof.
    intros Hk Hp j (p & q & Ep & Eq & Hch). rewrite at_loop_pts in Ep, Eq. injection Ep as <-. injection Eq as <-. cbn [snd] in Hch.
    exists ((j mod n + (n - j0 mod n)) mod n)%nat.
    assert (E : ix j0 ((j mod n + (n - j0 mod n)) mod n) = (j mod n)%nat).
    { unfold ix. rewrite Nat.add_mod_idemp_r by lia. rewrite <-Nat.add_mod_idemp_l by lia.
      pose proof (Nat.mod_upper_bound j0 n ltac:(lia)). replace (j0 mod n + (j mod n + (n - j0 mod n)))%nat with (j mod n + 1 * n)%nat by lia.
      rewrite Nat.mod_add by lia. by rewrite Nat.mod_mod by lia. }
    split; [|done]. apply Hk; [done|apply Nat.mod_upper_bound; lia|]. rewrite E. unfold turns. apply class_iff.
    by rewrite Nat.add_mod_idemp_l by lia.
  Qed.

  Lemma seg_ok_within err2 j0 os :
    ordered os → keeps j0 os → (∀ k, (k < length os)%nat → seg_ok err2 j0 os k) → within pts err2 j0 os.
  Proof.
    intros Hord Hkeep Hok x e o a b p Hsuc Ho Ha Hb Hp Hw. destruct (successive_nxt os x e Hord Hsuc) as (k & Hk & ->).
    rewrite at_loop_pts in Ha, Hb, Hp. injection Ha as <-. injection Hb as <-. injection Hp as <-. cbn [fst snd] in *.
    apply (Hok k); [by eapply lookup_lt_Some|done| |done]. eapply checked_interior; [done|done|done|done|]. by apply tess_iff.
  Qed.

  Lemma seg_short_edges len wall areas j0 os :
    ordered os → (∀ k, (k < length os)%nat → seg_short len wall areas j0 os k) → edges_short pts len wall areas j0 os.
  Proof.
    intros Hord Hok x e a b p Hsuc Ha Hb Hp Hw. destruct (successive_nxt os x e Hord Hsuc) as (k & Hk & ->).
    rewrite at_loop_pts in Ha, Hb, Hp. injection Ha as <-. injection Hb as <-. injection Hp as <-. cbn [fst snd] in *.
    apply (Hok k); [by eapply lookup_lt_Some|done|]. rewrite <-Nat.add_assoc in Hw. fold (ix j0 (x + 1)) in Hw.
    unfold split_on. rewrite orb_true_iff, !andb_true_iff, negb_true_iff, bits_meet_area. destruct Hw as [[-> H]|[-> H]]; [left|right]; [|done].
    split; [done|]. destruct (bits_meet _ _) eqn:E; [|done]. apply bits_meet_region in E. done.
  Qed.

  (** Runs along a region of the same area. *)
  Lemma changes_turns j : changes pts j ↔ turns (j mod n) = true.
  Proof.
    unfold changes, turns. rewrite class_iff. rewrite !at_loop_pts. rewrite Nat.add_mod_idemp_l by lia. split.
    - intros (p & q & [= <-] & [= <-] & H). done.
    - intros H. by exists (vat (j mod n), rat (j mod n)), (vat ((j + 1) mod n), rat ((j + 1) mod n)).
  Qed.
  Lemma run_not_tess j m o : portal_run pts j m → (0 < o ≤ m)%nat → tess (rat ((j + o) mod n)) = false.
  Proof.
    intros (Hm & _ & _ & Hno & p & Hp & Hb & Ha) Ho. rewrite at_loop_pts in Hp. injection Hp as <-. cbn [snd] in Hb, Ha.
    assert (beyond_region (rat ((j + o) mod n)) = beyond_region (rat ((j + 1) mod n)) ∧
      area_border (rat ((j + o) mod n)) = area_border (rat ((j + 1) mod n))) as [E1 E2].
    { destruct o as [|o]; [lia|]. induction o as [|o IH]; [done|]. destruct IH as [I1 I2]; [lia|]. rewrite <-I1, <-I2.
      assert (turns ((j + S o) mod n) = false) as Ht.
      { destruct (turns ((j + S o) mod n)) eqn:E; [|done]. apply changes_turns in E. destruct (Hno (S o)); [lia|done]. }
      apply turns_false in Ht as [T1 T2]. replace (j + S (S o))%nat with (j + S o + 1)%nat by lia. done. }
    destruct (tess (rat ((j + o) mod n))) eqn:E; [|done]. apply tess_iff in E. rewrite E1, E2 in E. destruct E; congruence.
  Qed.
  Definition sits (j0 : nat) (os : list nat) : Prop := ∀ o, o ∈ os → turns (ix j0 o) = true ∨ tess (rat (ix j0 o)) = true.
  Lemma checked_tess j0 os k x o :
    ordered os → keeps j0 os → has_portal pts → os !! k = Some x → (x < o < nxt os k)%nat → checked j0 x (nxt os k) = true →
    tess (rat (ix j0 o)) = true.
  Proof.
    intros Hord Hkeep Hp Hx Ho. unfold checked. destruct (xz_lt _ _).
    - rewrite (uniform j0 os k x Hord Hkeep Hp Hx (x + 1) o); [done|lia|lia].
    - rewrite <-(uniform j0 os k x Hord Hkeep Hp Hx o (nxt os k - 1)); [done|lia|lia].
  Qed.
  Lemma added_sits j0 os os' : keeps j0 os → has_portal pts → sits j0 os →
    (∀ o, o ∈ os' → o ∈ os ∨ added (λ x e, checked j0 x e = true) os o) → sits j0 os'.
  Proof.
    intros Hkeep Hp Hs Hnew o Ho. destruct (Hnew o Ho) as [Hin|(os1 & k & x & Hord & Hsub & Hx & Hxo & Hc)]; [by apply Hs|]. right.
    by eapply checked_tess; [exact Hord|by eapply keeps_mono| |exact Hx|..].
  Qed.
  Lemma split_sits wall areas j0 os os' : keeps j0 os → has_portal pts → sits j0 os →
    (∀ o, o ∈ os' → o ∈ os ∨ added (λ x _, split_on wall areas (rat (ix j0 (x + 1))) = true) os o) → sits j0 os'.
  Proof.
    intros Hkeep Hp Hs Hnew o Ho. destruct (Hnew o Ho) as [Hin|(os1 & k & x & Hord & Hsub & Hx & Hxo & Hc)]; [by apply Hs|]. right.
    rewrite <-(uniform j0 os1 k x Hord (keeps_mono _ _ _ Hsub Hkeep) Hp Hx (x + 1) o); [|lia|lia].
    unfold split_on in Hc. unfold tess. apply orb_true_iff in Hc as [[_ Hc]%andb_prop|[_ Hc]%andb_prop]; rewrite Hc; [done|by rewrite orb_true_r].
  Qed.
  Definition straight (j0 : nat) (os : list nat) : Prop :=
    ∀ j m, portal_run pts j m → ∃ k x, os !! k = Some x ∧ ix j0 x = (j mod n)%nat ∧ ix j0 (nxt os k) = ((j + m) mod n)%nat.
  Lemma sits_straight j0 os : ordered os → keeps j0 os → (has_portal pts → ∀ j, (j < n)%nat → turns j = true → sits j0 os) → straight j0 os.
  Proof.
    intros Hord Hkeep Hsits j m Hrun. pose proof Hrun as (Hm & Hc1 & Hc2 & Hno & p & Hp & Hb & Ha).
    assert (has_portal pts) as Hpt. { exists p. split; [|done]. unfold at_loop in Hp. by eapply elem_of_list_lookup_2. }
    specialize (Hsits Hpt (j mod n)%nat ltac:(apply Nat.mod_upper_bound; lia) (proj1 (changes_turns j) Hc1)).
    destruct (keeps_spec j0 os Hkeep Hpt j Hc1) as (o & Ho & Eo). destruct (keeps_spec j0 os Hkeep Hpt _ Hc2) as (o2 & Ho2 & Eo2).
    pose proof Hord as (H0 & Hlt & Hs). pose proof Ho as Ho'. apply elem_of_list_lookup in Ho as (k & Hk). exists k, o.
    split; [done|]. split; [done|]. pose proof (nxt_gt _ _ _ Hord Hk) as Hn'.
    assert (Eix : ∀ a, ix j0 (o + a) = ((j + a) mod n)%nat).
    { intros a. rewrite <-ix_add, Eo. by rewrite Nat.add_mod_idemp_l by lia. }
    assert (nxt os k ≤ o + m)%nat as Hle.
    { destruct (decide (o + m < n)%nat) as [Hom|Hom]; [|lia].
      assert (o2 = (o + m)%nat) as ->.
      { pose proof (Hlt _ Ho2). rewrite <-Eix in Eo2. destruct (le_lt_dec o2 (o + m)) as [Hle|Hle].
        - by apply (ix_inj j0); [done|lia|].
        - symmetry. by apply (ix_inj j0); [lia|lia|]. }
      apply elem_of_list_lookup in Ho2 as (k2 & Hk2). destruct (le_lt_dec k2 k) as [Hkk|Hkk].
      - destruct (decide (k2 = k)) as [->|]; [assert (o = o + m)%nat by congruence; lia|]. pose proof (Hs k2 k _ _ ltac:(lia) Hk2 Hk). lia.
      - unfold nxt. destruct (lookup_lt_is_Some_2 os (k + 1)) as [e He]. { apply lookup_lt_Some in Hk2. lia. }
        rewrite He. cbn. destruct (decide (k2 = k + 1)%nat) as [->|]; [assert (e = o + m)%nat by congruence; lia|].
        pose proof (Hs (k + 1)%nat k2 _ _ ltac:(lia) He Hk2). lia. }
    assert (¬ (nxt os k < o + m)%nat) as Hge.
    { intros Hlt'. set (a := (nxt os k - o)%nat). assert (0 < a < m)%nat as Ham by lia.
      assert (ix j0 (nxt os k) = ((j + a) mod n)%nat) as Ea by (rewrite <-Eix; f_equal; lia).
      assert (turns (ix j0 (nxt os k)) = true ∨ tess (rat (ix j0 (nxt os k))) = true) as [H|H].
      { unfold nxt. destruct (os !! (k + 1)%nat) as [e|] eqn:He; cbn.
        - apply Hsits. by eapply elem_of_list_lookup_2.
        - assert (ix j0 n = ix j0 0) as ->. { rewrite <-(ix_turn j0 0). f_equal. lia. } apply Hsits. by eapply elem_of_list_lookup_2. }
      - rewrite Ea in H. apply changes_turns in H. by apply (Hno a).
      - rewrite Ea, (run_not_tess j m) in H; [done|done|lia]. }
    rewrite <-Eix. f_equal. lia.
  Qed.

  (** What simplification yields: vertices at increasing offsets, with the
      changes kept and the properties [Q] of the offsets. *)
  Definition simplified (Q : nat → list nat → Prop) (l : list (vtx * Z)) : Prop :=
    ∃ j0 os, ordered os ∧ keeps j0 os ∧ Q j0 os ∧
      l = (λ o, (vat (ix j0 o), Z.lor (Z.land (rat (ix j0 (o + 1))) (Z.lor REGION_MASK AREA_BORDER)) (Z.land (rat (ix j0 o)) BORDER_VERTEX))) <$> os.

  Lemma finish B (Q : nat → list nat → Prop) j0 os :
    ordered os → keeps j0 os → Q j0 os → ends B (mapM_o (final_vertex pts) (pick j0 <$> os)) (simplified Q).
  Proof.
    intros Hord Hk HQ.
    assert (∀ l, mapM_o (final_vertex pts) (pick j0 <$> l) = Done ((λ o, (vat (ix j0 o), Z.lor (Z.land (rat (ix j0 (o + 1)))
      (Z.lor REGION_MASK AREA_BORDER)) (Z.land (rat (ix j0 o)) BORDER_VERTEX))) <$> l)) as ->.
    { induction l as [|o l IH]; [done|]. cbn [fmap list_fmap mapM_o]. unfold final_vertex at 1. cbn [pick snd fst]. fold n.
      rewrite ix_add, (get_pts _ (ix_lt j0 (o + 1))). cbn [obind]. rewrite (get_pts _ (ix_lt j0 o)). cbn [obind snd].
      change (list_fmap nat simp (pick j0) l) with (pick j0 <$> l). by rewrite IH. }
    cbn [ends]. by exists j0, os.
  Qed.

  Lemma simplify_spec (B : Prop) err len wall areas :
    spread pts → B ∨ (0 ≤ len ≤ 255 ∧ coords_i16 pts) ∨ (0 <? len) && (wall || areas) = false →
    ends B (simplify_contour pts err len wall areas) (simplified (λ j0 os,
      ((0 <? len) && (wall || areas) = false → within pts (f_mul err err) j0 os) ∧
      ((0 <? len) && (wall || areas) = true → edges_short pts len wall areas j0 os) ∧
      (∃ os1, ordered os1 ∧ keeps j0 os1 ∧ (∀ o, o ∈ os1 → o ∈ os) ∧ within pts (f_mul err err) j0 os1) ∧ straight j0 os)).
  Proof.
    intros Hsp Hp. unfold simplify_contour. fold n. destruct (initial_spec Hsp) as (j0 & os & -> & Hord & Hkeep & Hturn). cbn [obind].
    destruct (refine_spec (4 * n + 4) err j0 os 0) as (os1 & -> & Hord1 & Hsub1 & Hnew1 & Hok1); [done|lia|lia|intros; lia|]. cbn [obind].
    pose proof (keeps_mono _ _ _ Hsub1 Hkeep) as Hkeep1.
    assert (Hsits1 : has_portal pts → ∀ j, (j < n)%nat → turns j = true → sits j0 os1).
    { intros Hpt j Hj Ht. apply (added_sits j0 os); [done|done| |done]. intros o Ho. left. by apply (Hturn Hpt j). }
    destruct ((0 <? len) && (wall || areas)) eqn:Esp.
    - eapply ends_bind; [apply (split_spec B len wall areas); [by destruct Hp as [?|[?|?]]; [left|right|]|done|lia|lia|intros; lia]|].
      intros l (os2 & -> & Hord2 & Hsub2 & Hnew2 & Hok2). apply finish; [done|by eapply keeps_mono|]. split; [done|].
      split; [intros _; by apply seg_short_edges|]. split; [exists os1; split; [done|]; split; [done|]; split; [done|]; by apply seg_ok_within|].
      apply sits_straight; [done|by eapply keeps_mono|]. intros Hpt j Hj Ht. by eapply split_sits; [exact Hkeep1| |by eapply Hsits1|exact Hnew2].
    - cbn [obind]. pose proof (seg_ok_within (f_mul err err) j0 os1 Hord1 Hkeep1 Hok1) as Hwi. apply finish; [done|done|]. split; [done|]. split; [done|].
      split; [by exists os1|]. by apply sits_straight.
  Qed.
  (** ** Too long a [max_edge_len] *)
  Lemma uniform_beyond j0 os k x :
    ordered os → keeps j0 os → os !! k = Some x → ∀ o, (x < o ≤ nxt os k)%nat →
    beyond_region (rat (ix j0 o)) = 0 → beyond_region (rat (ix j0 (x + 1))) = 0.
  Proof.
    intros Hord Hkeep Hx o Ho. pose proof (nxt_gt _ _ _ Hord Hx) as Hnx.
    destruct (existsb (λ p : rawv, bits_meet p.2 REGION_MASK) pts) eqn:Ep.
    2:{ intros _. destruct (lookup_lt_is_Some_2 pts (ix j0 (x + 1)) (ix_lt _ _)) as [p Hp]. unfold rat. rewrite Hp. cbn.
      destruct (decide (beyond_region p.2 = 0)) as [|Hne]; [done|]. exfalso.
      assert (has_portal pts) as H by (exists p; split; [by eapply elem_of_list_lookup_2|done]). apply has_portal_iff in H. congruence. }
    apply has_portal_iff in Ep. destruct Ho as [H1 H2].
    remember (o - (x + 1))%nat as m eqn:Em. revert o H1 H2 Em. induction m as [|m IH]; intros o H1 H2 Em Hb.
    { by replace (x + 1)%nat with o by lia. }
    apply (IH (o - 1)%nat); [lia|lia|lia|].
    assert (Hnot : (o - 1)%nat ∉ os).
    { intros (a & Ha)%elem_of_list_lookup. destruct Hord as (_ & _ & Hs).
      destruct (lt_eq_lt_dec a k) as [[Hak| ->]|Hak].
      - pose proof (Hs a k _ x Hak Ha Hx). lia.
      - assert ((o - 1)%nat = x) by congruence. lia.
      - unfold nxt in H2. destruct (decide (a = k + 1)%nat) as [->|Hne]; [rewrite Ha in H2; cbn in H2; lia|].
        destruct (lookup_lt_is_Some_2 os (k + 1)) as [e He]. { apply lookup_lt_Some in Ha. lia. }
        rewrite He in H2. cbn in H2. pose proof (Hs (k + 1)%nat a e _ ltac:(lia) He Ha). lia. }
    assert (Ht : turns (ix j0 (o - 1)) = false).
    { destruct (turns (ix j0 (o - 1))) eqn:E; [|done]. exfalso. apply Hnot. apply Hkeep; [done|lia|done]. }
    unfold ix in Ht, Hb |- *. apply turns_false in Ht as [E1 E2]. rewrite E1. by replace (j0 + (o - 1) + 1)%nat with (j0 + o)%nat by lia.
  Qed.
  Lemma covered os o : ordered os → (0 < o ≤ n)%nat → ∃ k x, os !! k = Some x ∧ (x < o ≤ nxt os k)%nat.
  Proof.
    intros Hord. induction o as [|o IH]; [lia|]. intros Ho. destruct (decide (o = 0)%nat) as [->|Hne].
    { pose proof Hord as (H0 & _). exists 0%nat, 0%nat. split; [done|]. pose proof (nxt_gt _ _ _ Hord H0). lia. }
    destruct IH as (k & x & Hx & H1 & H2); [lia|]. destruct (decide (S o ≤ nxt os k)%nat) as [|Hgt]; [exists k, x; split; [done|lia]|].
    destruct (os !! (k + 1)%nat) as [y|] eqn:Ey.
    - unfold nxt in H2, Hgt. rewrite Ey in H2, Hgt. cbn in H2, Hgt. exists (k + 1)%nat, y. split; [done|].
      pose proof (nxt_gt _ _ _ Hord Ey). lia.
    - unfold nxt in H2, Hgt. rewrite Ey in H2, Hgt. cbn in H2, Hgt. lia.
  Qed.
  Lemma split_overflow fuel len areas j0 os i k x :
    256 ≤ len → ordered os → os !! k = Some x → beyond_region (rat (ix j0 (x + 1))) = 0 → (i ≤ k)%nat → (k - i < fuel)%nat →
    split_loop fuel pts len true areas (pick j0 <$> os) i = Panicked.
  Proof.
    intros Hlen Hord Hk Hb. revert i. induction fuel as [|fuel IH]; intros i Hi Hf; [lia|].
    pose proof (lookup_lt_Some _ _ _ Hk) as Hkl. cbn [split_loop]. rewrite fmap_length.
    replace (length os <=? i)%nat with false by lia. destruct (lookup_lt_is_Some_2 os i) as [y Hy]; [lia|].
    rewrite (get_picks _ _ _ _ Hy). cbn [obind]. rewrite <-(fmap_length (pick j0) os), (get_picks_next _ _ _ _ Hord Hy). cbn [obind].
    unfold split_point. fold n. cbn [pick snd fst]. rewrite ix_add, (get_pts _ (ix_lt j0 (y + 1))). cbn [obind snd].
    destruct ((true && _) || _) eqn:Ec.
    - unfold chk_i32, chk_u16, chk.
      destruct ((_ <=? (vx (vat (ix j0 (nxt os i))) - vx (vat (ix j0 y))) * (vx (vat (ix j0 (nxt os i))) - vx (vat (ix j0 y)))) && _); [|done]. cbn [obind].
      destruct ((_ <=? (vz (vat (ix j0 (nxt os i))) - vz (vat (ix j0 y))) * (vz (vat (ix j0 (nxt os i))) - vz (vat (ix j0 y)))) && _); [|done]. cbn [obind].
      match goal with |- context [(?a <=? ?b + ?c) && ?d] => destruct ((a <=? b + c) && d) end; [|done]. cbn [obind].
      replace (len * len <=? U16_MAX) with false by (unfold U16_MAX; nia). by rewrite andb_false_r.
    - cbn [obind]. destruct (decide (i = k)) as [->|]; [|apply IH; lia]. exfalso. assert (y = x) as -> by congruence.
      cbn [andb] in Ec. apply orb_false_iff in Ec as [Ec _]. apply negb_false_iff in Ec. by apply bits_meet_region in Ec.
  Qed.
  Lemma long_edges err len areas :
    spread pts → 256 ≤ len → (∃ p : rawv, p ∈ pts ∧ beyond_region p.2 = 0) →
    simplify_contour pts err len true areas = Panicked.
  Proof.
    intros Hsp Hlen (p & (j & Hj)%elem_of_list_lookup & Hb). unfold simplify_contour. fold n.
    destruct (initial_spec Hsp) as (j0 & os & -> & Hord & Hkeep & _). cbn [obind].
    destruct (refine_spec (4 * n + 4) err j0 os 0) as (os1 & -> & Hord1 & Hsub1 & _ & Hok1); [done|lia|lia|intros; lia|]. cbn [obind].
    pose proof (keeps_mono _ _ _ Hsub1 Hkeep) as Hkeep1. replace (0 <? len) with true by lia. cbn [andb orb].
    assert (Hjl : (j < n)%nat) by (by eapply lookup_lt_Some).
    assert (∃ o, (0 < o ≤ n)%nat ∧ ix j0 o = j) as (o & Ho & Eo).
    { set (o := ((j + (n - j0 mod n)) mod n)%nat).
      assert (E : ix j0 o = j).
      { unfold ix, o. rewrite Nat.add_mod_idemp_r by lia. rewrite <-Nat.add_mod_idemp_l by lia.
        pose proof (Nat.mod_upper_bound j0 n ltac:(lia)). replace (j0 mod n + (j + (n - j0 mod n)))%nat with (j + 1 * n)%nat by lia.
        rewrite Nat.mod_add by lia. by apply Nat.mod_small. }
      pose proof (Nat.mod_upper_bound (j + (n - j0 mod n)) n ltac:(lia)) as Hu. fold o in Hu.
      destruct (decide (o = 0)%nat) as [E0|]; [|exists o; split; [lia|done]].
      exists n. split; [lia|]. rewrite <-(Nat.add_0_r n), ix_turn. by rewrite <-E, E0. }
    destruct (covered os1 o Hord1 Ho) as (k & x & Hk & Hx).
    rewrite (split_overflow _ len areas j0 os1 0 k x); [done|done|done|done| |lia|].
    - apply (uniform_beyond j0 os1 k x Hord1 Hkeep1 Hk o Hx). rewrite Eo. unfold rat. by rewrite Hj.
    - apply lookup_lt_Some in Hk. pose proof (ordered_length _ Hord1). lia.
  Qed.
End simp.

(** ** Degenerate segments *)
Definition increasing (os : list nat) : Prop :=
  ∀ a b x y, (a < b)%nat → os !! a = Some x → os !! b = Some y → (x < y)%nat.
Lemma increasing_delete os i : increasing os → increasing (delete i os).
Proof.
  intros Hs a b x y Hab. destruct (decide (a < i)%nat) as [Ha|Ha].
  - rewrite (lookup_delete_lt _ _ a) by lia. destruct (decide (b < i)%nat) as [Hb|Hb].
    + rewrite lookup_delete_lt by lia. by apply Hs.
    + rewrite lookup_delete_ge by lia. apply Hs. lia.
  - rewrite (lookup_delete_ge _ _ a) by lia. rewrite lookup_delete_ge by lia. apply Hs. lia.
Qed.
Lemma elem_of_delete {A} (l : list A) i x : x ∈ delete i l → x ∈ l.
Proof.
  rewrite delete_take_drop, elem_of_app. rewrite <-(take_drop i l) at 3. rewrite elem_of_app. intros [H|H]; [by left|right].
  apply elem_of_list_lookup in H as (k & Hk). rewrite lookup_drop in Hk. apply elem_of_list_lookup. exists (S k).
  rewrite lookup_drop. rewrite <-Hk. f_equal. lia.
Qed.

Lemma adjacent_delete {A} (l : list A) i x p q :
  adjacent l p q → p ≠ q → l !! i = Some x → l !! ((i + 1) mod length l)%nat = Some x → adjacent (delete i l) p q.
Proof.
  intros (k & Hp & Hq) Hpq Hi Hi'. pose proof (lookup_lt_Some _ _ _ Hi) as Hil. pose proof (lookup_lt_Some _ _ _ Hp) as Hkl.
  assert (k ≠ i) as Hki by (intros ->; congruence). unfold adjacent. rewrite (length_delete l i) by eauto.
  assert (Hm : ∀ a, (a < length l)%nat → ((a + 1) mod length l = if decide (a + 1 = length l) then 0 else a + 1)%nat).
  { intros a Ha. case_decide as E; [rewrite E; apply Nat.mod_same; lia|apply Nat.mod_small; lia]. }
  rewrite Hm in Hq, Hi' by done. destruct (decide (k < i)%nat) as [Hlt|Hge].
  - exists k. rewrite lookup_delete_lt by done. split; [done|]. rewrite decide_False in Hq by lia.
    destruct (decide (k + 1 = i)%nat) as [E|E].
    + subst i. assert (x = q) as -> by congruence. case_decide as E2.
      * replace (k + 1)%nat with (length l - 1)%nat by lia. rewrite Nat.mod_same by lia. by rewrite lookup_delete_lt by lia.
      * rewrite Nat.mod_small by lia. rewrite lookup_delete_ge by lia. by replace (S (k + 1)) with (k + 1 + 1)%nat by lia.
    + rewrite Nat.mod_small by lia. by rewrite lookup_delete_lt by lia.
  - exists (k - 1)%nat. rewrite lookup_delete_ge by lia. replace (S (k - 1)) with k by lia. split; [done|].
    replace (k - 1 + 1)%nat with k by lia. destruct (decide (k + 1 = length l)%nat) as [E|E].
    + replace k with (length l - 1)%nat by lia. rewrite Nat.mod_same by lia. destruct (decide (i = 0)%nat) as [->|].
      * assert (x = q) as -> by congruence. rewrite lookup_delete_ge by lia. rewrite decide_False in Hi' by lia. done.
      * by rewrite lookup_delete_lt by lia.
    + rewrite Nat.mod_small by lia. rewrite lookup_delete_ge by lia. by replace (S k) with (k + 1)%nat by lia.
Qed.
Lemma remove_degenerate_spec (f : nat → vtx * Z) fuel os i :
  increasing os → (length os - i ≤ fuel)%nat →
  runs (remove_degenerate_loop fuel (f <$> os) i) (λ l, ∃ os', l = f <$> os' ∧ increasing os' ∧ os' ⊆ os ∧
    (os' ≠ [] → ∀ o, o ∈ os → ∃ o', o' ∈ os' ∧ vpos (f o').1 = vpos (f o).1) ∧
    (os' = [] → ∀ o o', o ∈ os → o' ∈ os → vpos (f o).1 = vpos (f o').1) ∧
    ∀ p q, p ≠ q → adjacent ((λ o, vpos (f o).1) <$> os) p q → adjacent ((λ o, vpos (f o).1) <$> os') p q).
Proof.
  revert os i. induction fuel as [|fuel IH]; intros os i Hs Hf.
  { cbn [remove_degenerate_loop]. rewrite fmap_length. replace (length os <=? i)%nat with true by lia. cbn.
    exists os. split; [done|]. split; [done|]. split; [done|]. split; [intros _ o Ho; by exists o|].
    split; [intros -> o o' Ho; by apply elem_of_nil in Ho|done]. }
  cbn [remove_degenerate_loop]. rewrite fmap_length. destruct (Nat.leb_spec (length os) i) as [Hle|Hlt].
  { cbn. exists os. split; [done|]. split; [done|]. split; [done|]. split; [intros _ o Ho; by exists o|].
    split; [intros -> o o' Ho; by apply elem_of_nil in Ho|done]. }
  destruct (lookup_lt_is_Some_2 os i Hlt) as [x Hx].
  assert (Hm : ((i + 1) mod length os < length os)%nat) by (apply Nat.mod_upper_bound; lia).
  destruct (lookup_lt_is_Some_2 os _ Hm) as [y Hy].
  rewrite (get_some (f <$> os) i (f x)) by (by rewrite list_lookup_fmap, Hx). cbn [obind].
  rewrite (get_some (f <$> os) _ (f y)) by (by rewrite list_lookup_fmap, Hy). cbn [obind].
  destruct ((vx (f x).1 =? vx (f y).1) && (vz (f x).1 =? vz (f y).1)) eqn:E; [|by apply IH; [done|lia]].
  assert (Hxy : vpos (f x).1 = vpos (f y).1) by (unfold vpos; f_equal; lia).
  rewrite <-fmap_take, <-fmap_drop, <-fmap_app, <-delete_take_drop.
  eapply runs_mono; [apply (IH (delete i os) (i + 1)%nat)|].
  - by apply increasing_delete.
  - rewrite (length_delete os i) by eauto. lia.
  - intros l (os' & -> & Hs' & Hsub & Hpos & Hnil & Hadj). exists os'. split; [done|]. split; [done|]. split.
    { intros z Hz. by eapply elem_of_delete, Hsub. }
    assert (Hrest : ∀ o, o ∈ os → o ∉ delete i os → o = x).
    { intros o Ho Hd. apply elem_of_list_lookup in Ho as (k & Hk). destruct (decide (k = i)) as [->|Hki]; [congruence|]. exfalso. apply Hd.
      apply elem_of_list_lookup. destruct (decide (k < i)%nat).
      - exists k. by rewrite lookup_delete_lt by lia.
      - exists (k - 1)%nat. rewrite lookup_delete_ge by lia. by replace (S (k - 1)) with k by lia. }
    assert (Hyd : length os ≠ 1%nat → y ∈ delete i os).
    { intros H1. apply elem_of_list_lookup. destruct (decide (i + 1 = length os)%nat) as [El|El].
      - rewrite El, Nat.mod_same in Hy by lia. exists 0%nat. by rewrite lookup_delete_lt by lia.
      - rewrite Nat.mod_small in Hy by lia. exists i. rewrite lookup_delete_ge by lia. by replace (S i) with (i + 1)%nat by lia. }
    split; [|split].
    + intros Hne o Ho. destruct (decide (o ∈ delete i os)) as [Hd|Hd]; [by apply Hpos|].
      rewrite (Hrest o Ho Hd).
      assert (length os ≠ 1)%nat as H1.
      { intros E1. destruct os' as [|z os']; [done|]. assert (z ∈ delete i os) as Hz by (apply Hsub; left).
        apply elem_of_list_lookup in Hz as (k & Hk). apply lookup_lt_Some in Hk. rewrite (length_delete os i) in Hk by eauto. lia. }
      destruct (Hpos Hne y (Hyd H1)) as (o' & Ho' & Eo'). exists o'. split; [done|]. congruence.
    + intros He o o' Ho Ho'. specialize (Hnil He). destruct (decide (length os = 1)%nat) as [H1|H1].
      { destruct os as [|u [|? ?]]; [done| |done]. apply elem_of_list_singleton in Ho, Ho'. congruence. }
      specialize (Hyd H1).
      destruct (decide (o ∈ delete i os)) as [Hd|Hd]; [|rewrite (Hrest o Ho Hd), Hxy];
        (destruct (decide (o' ∈ delete i os)) as [Hd'|Hd']; [|rewrite (Hrest o' Ho' Hd'), Hxy]); [..|done]; by apply Hnil.
    + intros p q Hpq Had. apply Hadj; [done|]. rewrite delete_take_drop, fmap_app, fmap_take, fmap_drop, <-delete_take_drop.
      apply (adjacent_delete _ i (vpos (f x).1)); [done|done|by rewrite list_lookup_fmap, Hx|]. rewrite fmap_length, list_lookup_fmap, Hy. cbn. by rewrite Hxy.
Qed.
