(** Merging polygons. *)
From Verif Require Import Base ModelMath ModelContours ModelPoly SpecPoly FlowProofs TriangulateProofs.
Local Open Scope Z_scope.

(** ** Rotations and corners *)

Section rot.
Context {A : Type}.
Implicit Types l p q : list A.

Definition rot (k : nat) (l : list A) : list A := drop k l ++ take k l.
Lemma rot_rotation k l : rotation l (rot k l).
Proof. exists (take k l), (drop k l). by rewrite take_drop. Qed.
Lemma rot_length k l : length (rot k l) = length l.
Proof. unfold rot. rewrite app_length, drop_length, take_length. lia. Qed.
Lemma rot_lookup k l i : (k < length l)%nat → (i < length l)%nat → rot k l !! i = l !! ((k + i) mod length l)%nat.
Proof.
  intros Hk Hi. unfold rot. destruct (decide (k + i < length l)%nat).
  - rewrite Nat.mod_small by done. rewrite lookup_app_l by (rewrite drop_length; lia). by rewrite lookup_drop.
  - rewrite lookup_app_r by (rewrite drop_length; lia). rewrite drop_length.
    replace ((k + i) mod length l)%nat with (k + i - length l)%nat.
    + rewrite lookup_take by lia. f_equal. lia.
    + replace (k + i)%nat with (k + i - length l + 1 * length l)%nat at 2 by lia.
      rewrite Nat.mod_add by lia. rewrite Nat.mod_small by lia. done.
Qed.

Lemma rotation_trans l1 l2 l3 : rotation l1 l2 → rotation l2 l3 → rotation l1 l3.
Proof.
  intros (p & q & -> & ->) (r & s & E & ->).
  apply app_eq_app in E as (k & [[-> ->]|[-> ->]]).
  - exists (p ++ r), k. split; by rewrite ?app_assoc.
  - exists k, (s ++ q). split; by rewrite ?app_assoc.
Qed.

Fixpoint trips (l : list A) : list (A * A * A) :=
  match l with
  | a :: (b :: c :: _) as l' => (a, b, c) :: trips l'
  | _ => []
  end.
Lemma trips_cons a b c l : trips (a :: b :: c :: l) = (a, b, c) :: trips (b :: c :: l).
Proof. done. Qed.

Lemma corners_trips a b l : corners (a :: b :: l) = trips (a :: b :: l ++ [a; b]).
Proof.
  unfold corners.
  assert (∀ l u v, ∀ x y, zip (zip (u :: v :: l) (v :: l ++ [x])) (l ++ [x; y]) = trips (u :: v :: l ++ [x; y])) as H; [|apply H].
  clear. induction l as [|c l IH]; intros u v x y; [done|]. cbn [app]. rewrite trips_cons.
  cbn [zip zip_with]. f_equal. apply (IH v c x y).
Qed.
Lemma trips_app p u v s : trips (p ++ u :: v :: s) = trips (p ++ [u; v]) ++ trips (u :: v :: s).
Proof.
  induction p as [|a p IH]; [done|].
  destruct p as [|b p]; [by destruct s|]. destruct p as [|c p].
  - cbn [app]. rewrite !trips_cons. cbn [app] in IH. rewrite <- app_comm_cons. f_equal; exact IH.
  - cbn [app]. rewrite !trips_cons. cbn [app] in IH. rewrite <- app_comm_cons. f_equal; exact IH.
Qed.
Lemma trips_front p l t : t ∈ trips l → t ∈ trips (p ++ l).
Proof.
  intros H. induction p as [|a p IH]; [done|]. cbn [app].
  destruct (p ++ l) as [|b [|c q]]; [by apply elem_of_nil in IH..|]. rewrite trips_cons. by right.
Qed.
Lemma trips_back l s t : t ∈ trips l → t ∈ trips (l ++ s).
Proof.
  induction l as [|a [|b [|c l]] IH]; intros H; [by apply elem_of_nil in H..|].
  cbn [app]. rewrite trips_cons in *. apply elem_of_cons in H as [->|H]; [left|]. right. by apply IH.
Qed.
Lemma corners_rotation l l' : rotation l l' → corners l ≡ₚ corners l'.
Proof.
  intros (p & q & -> & ->).
  assert (∀ (a : A) m, corners (a :: m) ≡ₚ corners (m ++ [a])) as Hstep.
  { intros a [|b m]; [done|]. cbn [app]. rewrite corners_trips.
    destruct m as [|c m]; [cbn; apply Permutation_swap|].
    cbn [app]. rewrite corners_trips. rewrite trips_cons. cbn [app].
    replace (b :: c :: (m ++ [a]) ++ [b; c]) with ((b :: c :: m) ++ a :: b :: [c]) by (by rewrite <- app_assoc).
    rewrite trips_app. cbn [app]. rewrite (trips_cons a b c []). change (trips [b; c]) with (@nil (A * A * A)).
    apply Permutation_cons_append. }
  revert q. induction p as [|a p IH]; intros q; [by rewrite app_nil_r|].
  cbn [app]. rewrite Hstep. rewrite <- app_assoc. rewrite IH. by rewrite <- app_assoc.
Qed.

Lemma glued_corners a b m x y ra rb (P : A * A * A → Prop) e x1 f y1 ra' rb' ra0 rb0 :
  rotation a (x :: y :: ra) → rotation b (y :: x :: rb) → rotation m (y :: ra ++ x :: rb) →
  ra = y1 :: ra' → rb = x1 :: rb' → ra = ra0 ++ [e] → rb = rb0 ++ [f] →
  P (e, x, x1) → P (f, y, y1) →
  Forall P (corners a) → Forall P (corners b) → Forall P (corners m).
Proof.
  intros Ra Rb Rm E1 E2 E3 E4 P1 P2 Ha Hb.
  rewrite (corners_rotation _ _ Ra), corners_trips in Ha.
  rewrite (corners_rotation _ _ Rb), corners_trips in Hb.
  rewrite (corners_rotation _ _ Rm).
  assert (Forall P (trips (y :: ra ++ [x]))) as Ha'.
  { rewrite Forall_forall in Ha |- *. intros t Ht. apply Ha.
    replace (x :: y :: ra ++ [x; y]) with ([x] ++ (y :: ra ++ [x]) ++ [y]) by (cbn; by rewrite <- app_assoc).
    apply trips_front, trips_back, Ht. }
  assert (Forall P (trips (x :: rb ++ [y]))) as Hb'.
  { rewrite Forall_forall in Hb |- *. intros t Ht. apply Hb.
    replace (y :: x :: rb ++ [y; x]) with ([y] ++ (x :: rb ++ [y]) ++ [x]) by (cbn; by rewrite <- app_assoc).
    apply trips_front, trips_back, Ht. }
  assert (corners (y :: ra ++ x :: rb) = trips (y :: ra ++ x :: rb ++ [y; y1])) as ->.
  { rewrite E1. cbn [app]. rewrite corners_trips. cbn [app]. by rewrite <- app_assoc. }
  assert (trips (y :: ra ++ x :: rb ++ [y; y1]) = trips (y :: ra ++ [x]) ++ (e, x, x1) :: trips (x :: rb ++ [y]) ++ [(f, y, y1)]) as ->.
  { rewrite E3 at 1 2. rewrite <- !app_assoc. cbn [app].
    pose proof (trips_app (y :: ra0) e x (rb ++ [y; y1])) as ET. cbn [app] in ET. rewrite ET. f_equal.
    transitivity ((e, x, x1) :: trips (x :: rb ++ [y; y1])).
    - rewrite E2. cbn [app]. by rewrite trips_cons.
    - f_equal. rewrite E4. rewrite <- !app_assoc. cbn [app]. pose proof (trips_app (x :: rb0) f y [y1]) as ET'. cbn [app] in ET'. rewrite ET'. done. }
  apply Forall_app. split; [done|]. constructor; [done|]. apply Forall_app. split; [done|]. by constructor.
Qed.

Lemma glued_edges (a b m : list A) (x y : A) ra rb :
  rotation a (x :: y :: ra) → rotation b (y :: x :: rb) → rotation m (y :: ra ++ x :: rb) →
  cycle_edges a ++ cycle_edges b ≡ₚ (x, y) :: (y, x) :: cycle_edges m.
Proof.
  intros Ra Rb Rm.
  rewrite (cycle_rotation _ _ Ra), (cycle_rotation _ _ Rb), (cycle_rotation _ _ Rm).
  rewrite !cycle_path. cbn [app path]. rewrite <- app_assoc. cbn [app].
  rewrite (path_app y x ra (rb ++ [y])). apply Permutation_skip. symmetry. apply Permutation_middle.
Qed.
End rot.

Lemma trips_fmap {A C} (f : A → C) l : trips (f <$> l) = (λ t, (f t.1.1, f t.1.2, f t.2)) <$> trips l.
Proof.
  induction l as [|a [|b [|c l]] IH]; [done..|]. rewrite !fmap_cons, !trips_cons, fmap_cons. f_equal; exact IH.
Qed.
Lemma corners_fmap {A C} (f : A → C) l : corners (f <$> l) = (λ t, (f t.1.1, f t.1.2, f t.2)) <$> corners l.
Proof.
  destruct l as [|a [|b l]]; [done..|]. rewrite corners_trips. rewrite !fmap_cons, corners_trips.
  rewrite <- trips_fmap. by rewrite !fmap_cons, fmap_app.
Qed.
Lemma cycle_fmap {A C} (f : A → C) l : cycle_edges (f <$> l) = (λ e, (f e.1, f e.2)) <$> cycle_edges l.
Proof.
  destruct l as [|a l]; [done|]. rewrite fmap_cons, !cycle_path.
  assert (∀ m b, path (f b) (f <$> m) = (λ e, (f e.1, f e.2)) <$> path b m) as H.
  { clear. induction m as [|c m IH]; intros b; [done|]. cbn. f_equal. apply IH. }
  rewrite <- H, fmap_app. done.
Qed.
Lemma rotation_fmap {A C} (f : A → C) l l' : rotation l l' → rotation (f <$> l) (f <$> l').
Proof. intros (p & q & -> & ->). exists (f <$> p), (f <$> q). by rewrite !fmap_app. Qed.

(** ** Rows *)

Lemma count_padded nvp vs row : padded nvp vs row → count_verts row nvp = length vs.
Proof.
  intros (-> & Hl & Hv). destruct Hl as [_ Hl]. remember (nvp - length vs)%nat as r eqn:Er.
  revert nvp Hl Er. induction Hv as [|v vs Hv1 Hv IH]; intros nvp Hl Er.
  - cbn in Er. subst r. by destruct nvp.
  - destruct nvp as [|nvp]; [cbn in Hl; lia|]. cbn in *. unfold NO_INDEX. destruct (v =? 65535) eqn:E; [lia|].
    f_equal. apply IH; [lia|done].
Qed.
Lemma padded_get nvp vs row i : padded nvp vs row → (i < length vs)%nat → row !! i = vs !! i.
Proof. intros (-> & _ & _) Hi. by rewrite lookup_app_l. Qed.

Section verts.
Context (verts : list vtx) (B : Prop).
Definition okv (v : Z) : Prop := (∃ p, verts !! Z.to_nat v = Some p ∧ small p) ∨ B.
Definition vpos (v : Z) : vtx := at_pos verts (Z.to_nat v).

Lemma vert_of_ends nvp vs row k v : padded nvp vs row → Forall okv vs → vs !! k = Some v →
  ends B (vert_of verts row k) (λ p, p = vpos v ∧ (small p ∨ B)).
Proof.
  intros Hp Hok Hk. unfold vert_of.
  assert (row !! k = Some v) as Hr by (rewrite (padded_get _ _ _ _ Hp); [done|by eapply lookup_lt_Some]).
  rewrite (get_some _ _ _ Hr). cbn [obind]. rewrite Forall_forall in Hok.
  destruct (Hok v) as [(p & Hv & Hs)|HB]; [by eapply elem_of_list_lookup_2|..].
  - rewrite (get_some _ _ _ Hv). cbn. unfold vpos, at_pos. rewrite Hv. cbn. auto.
  - unfold get, vpos, at_pos. destruct (verts !! Z.to_nat v); cbn; auto.
Qed.

Lemma dist_ends {C} pa pb (k : Z → C) (Q : C → Prop) : (small pa ∨ B) → (small pb ∨ B) → (∀ v, Q (k v)) →
  ends B (let! xx := chk_i32 ((vx pa - vx pb) * (vx pa - vx pb)) in
          let! zz := chk_i32 ((vz pa - vz pb) * (vz pa - vz pb)) in
          let! s := chk_i32 (xx + zz) in Done (k (wrap_u32 s))) Q.
Proof.
  intros Ha Hb HQ.
  assert ((small pa ∧ small pb) ∨ B) as [[[? ?] [? ?]]|HB] by tauto.
  - unfold chk_i32, I32_MIN, I32_MAX.
    rewrite chk_in by nia. cbn [obind]. rewrite chk_in by nia. cbn [obind]. rewrite chk_in by nia. apply HQ.
  - unfold chk_i32, chk. repeat (case_match; cbn; try done; try apply HQ).
Qed.

Definition same_edge (a b : list Z) (i j : nat) : Prop :=
  ∃ u v u' v', a !! i = Some u ∧ a !! nx i (length a) = Some v ∧ b !! j = Some u' ∧ b !! nx j (length b) = Some v' ∧
    ((u = u' ∧ v = v') ∨ (u = v' ∧ v = u')).

Lemma sorted_eq a b c d : sorted a b = sorted c d ↔ (a = c ∧ b = d) ∨ (a = d ∧ b = c).
Proof.
  unfold sorted. destruct (a <=? b) eqn:E1, (c <=? d) eqn:E2; split; intros H'; try (injection H' as <- <-); try lia;
    destruct H' as [[<- <-]|[<- <-]]; f_equal; lia.
Qed.

Lemma find_edge_runs nvp b rb u v js : padded nvp b rb → (∀ j, j ∈ js → (j < length b)%nat) →
  runs (find_edge rb (length b) (sorted u v) js) (λ r, ∀ j, r = Some j → (j < length b)%nat ∧
    ∃ u' v', b !! j = Some u' ∧ b !! nx j (length b) = Some v' ∧ ((u = u' ∧ v = v') ∨ (u = v' ∧ v = u'))).
Proof.
  intros Hp. induction js as [|j js IH]; intros Hjs; [done|]. cbn [find_edge].
  assert (j < length b)%nat as Hj by (apply Hjs; left).
  assert (nx j (length b) < length b)%nat as Hj1 by (apply nx_lt; lia).
  destruct (lookup_lt_is_Some_2 b j Hj) as [u' Hu]. destruct (lookup_lt_is_Some_2 b _ Hj1) as [v' Hv].
  rewrite (get_some _ j u') by (by rewrite (padded_get _ _ _ _ Hp)). cbn [obind].
  rewrite (get_some _ _ v') by (by rewrite (padded_get _ _ _ _ Hp)). cbn [obind].
  destruct (_ && _) eqn:E.
  - cbn. intros j' [= <-]. split; [done|]. exists u', v'. split; [done|]. split; [done|].
    apply sorted_eq. apply andb_prop in E as [E1 E2]. destruct (sorted u v), (sorted u' v'). cbn in *. f_equal; lia.
  - apply IH. intros. apply Hjs. by right.
Qed.

Lemma shared_edge_runs nvp a ra b rb : padded nvp a ra → padded nvp b rb →
  runs (shared_edge ra rb (length a) (length b)) (λ r, ∀ i j, r = Some (i, j) →
    (i < length a)%nat ∧ (j < length b)%nat ∧ same_edge a b i j).
Proof.
  intros Ha Hb. unfold shared_edge.
  apply (foldM_seq_inv (λ _ r, ∀ i j, r = Some (i, j) → (i < length a)%nat ∧ (j < length b)%nat ∧ same_edge a b i j)); [done|].
  intros i acc Hi HI. cbn in Hi. destruct Hi as [_ Hi].
  assert (nx i (length a) < length a)%nat as Hi1 by (apply nx_lt; lia).
  destruct (lookup_lt_is_Some_2 a i Hi) as [u Hu]. destruct (lookup_lt_is_Some_2 a _ Hi1) as [v Hv].
  rewrite (get_some _ i u) by (by rewrite (padded_get _ _ _ _ Ha)). cbn [obind].
  rewrite (get_some _ _ v) by (by rewrite (padded_get _ _ _ _ Ha)). cbn [obind].
  eapply runs_bind; [eapply find_edge_runs; [done|intros j ?%elem_of_seq; lia]|].
  intros [j|] Hf; cbn; [|done]. intros i' j' [= <- <-]. destruct (Hf j eq_refl) as (Hj & u' & v' & Hu' & Hv' & Heq).
  split; [done|]. split; [done|]. exists u, v, u', v'. done.
Qed.

(** What a successful merge test tells. *)
Definition merge_ok (nvp : nat) (a b : list Z) (ea eb : nat) : Prop :=
  (ea < length a)%nat ∧ (eb < length b)%nat ∧ (length a + length b <= nvp + 2)%nat ∧ same_edge a b ea eb ∧
  (∃ p q r, a !! ((ea + length a - 1) mod length a)%nat = Some p ∧ a !! ea = Some q ∧ b !! ((eb + 2) mod length b)%nat = Some r ∧
     cross (vpos p) (vpos q) (vpos r) < 0) ∧
  (∃ p q r, b !! ((eb + length b - 1) mod length b)%nat = Some p ∧ b !! eb = Some q ∧ a !! ((ea + 2) mod length a)%nat = Some r ∧
     cross (vpos p) (vpos q) (vpos r) < 0).

Lemma merge_value_ends nvp a ra b rb : padded nvp a ra → padded nvp b rb → Forall okv a → Forall okv b →
  ends B (merge_value ra rb verts nvp) (λ r, ∀ v ea eb, r = Some (v, ea, eb) → merge_ok nvp a b ea eb).
Proof.
  intros Ha Hb Oa Ob. unfold merge_value. rewrite (count_padded _ _ _ Ha), (count_padded _ _ _ Hb).
  assert (3 <= length a)%nat as La by apply Ha. assert (3 <= length b)%nat as Lb by apply Hb.
  destruct (_ <? 2)%nat eqn:E2; [lia|]. destruct (nvp <? _)%nat eqn:En; [done|].
  eapply ends_bind; [by eapply ends_runs, shared_edge_runs|]. intros [[ea eb]|] He; [|done].
  destruct (He ea eb eq_refl) as (Hea & Heb & Hse). clear He.
  assert (∀ k, (k mod length a < length a)%nat) as Ma by (intros; apply Nat.mod_upper_bound; lia).
  assert (∀ k, (k mod length b < length b)%nat) as Mb by (intros; apply Nat.mod_upper_bound; lia).
  assert (∀ k, ∃ v, a !! (k mod length a)%nat = Some v) as Ga by (intros; by apply lookup_lt_is_Some_2).
  assert (∀ k, ∃ v, b !! (k mod length b)%nat = Some v) as Gb by (intros; by apply lookup_lt_is_Some_2).
  destruct (Ga (ea + length a - 1)%nat) as [p Hp]. destruct (lookup_lt_is_Some_2 a ea Hea) as [q Hq].
  destruct (Gb (eb + 2)%nat) as [r Hr].
  destruct (Gb (eb + length b - 1)%nat) as [p' Hp']. destruct (lookup_lt_is_Some_2 b eb Heb) as [q' Hq'].
  destruct (Ga (ea + 2)%nat) as [r' Hr']. destruct (Ga (ea + 1)%nat) as [s Hs].
  eapply ends_bind; [eapply (vert_of_ends _ a); done|]. intros ? [-> S1].
  eapply ends_bind; [eapply (vert_of_ends _ a); done|]. intros ? [-> S2].
  eapply ends_bind; [eapply (vert_of_ends _ b); done|]. intros ? [-> S3].
  eapply ends_bind; [by apply left_ends|]. intros l1 ->. destruct (leftb _ _ _) eqn:L1; [|done]. cbn [negb].
  eapply ends_bind; [eapply (vert_of_ends _ b); done|]. intros ? [-> S4].
  eapply ends_bind; [eapply (vert_of_ends _ b); done|]. intros ? [-> S5].
  eapply ends_bind; [eapply (vert_of_ends _ a); done|]. intros ? [-> S6].
  eapply ends_bind; [by apply left_ends|]. intros l2 ->. destruct (leftb (vpos p') (vpos q') (vpos r')) eqn:L2; [|done]. cbn [negb].
  eapply ends_bind; [eapply (vert_of_ends _ a); done|]. intros ? [-> S7].
  eapply ends_bind; [eapply (vert_of_ends _ a); done|]. intros ? [-> S8].
  unfold leftb in L1, L2.
  apply (dist_ends _ _ (λ s, Some (s, ea, eb))); [done|done|]. intros v ? ? ? E. injection E as _ <- <-.
  split; [done|]. split; [done|]. split; [lia|]. split; [done|].
  split; [exists p, q, r|exists p', q', r']; (split; [done|split; [done|split; [done|lia]]]).
Qed.

(** ** The merged row *)

Lemma fill_row (src : list Z) (g : nat → nat) vals (pre : list Z) r s :
  (∀ i v, vals !! i = Some v → src !! g (s + i)%nat = Some v) → (length vals <= r)%nat →
  foldM (λ i '(tmp, n), let! v := get src (g i) in let! tmp := put tmp n v in Done (tmp, S n))
    (seq s (length vals)) (pre ++ repeat NO_INDEX r, length pre)
  = Done ((pre ++ vals) ++ repeat NO_INDEX (r - length vals), length (pre ++ vals)).
Proof.
  revert pre r s. induction vals as [|v vals IH]; intros pre r s Hsrc Hr.
  { cbn. by rewrite app_nil_r, Nat.sub_0_r. }
  cbn [length seq foldM]. assert (src !! g s = Some v) as Hs by (specialize (Hsrc 0%nat v eq_refl); by rewrite Nat.add_0_r in Hsrc).
  rewrite (get_some _ _ _ Hs). cbn [obind]. cbn in Hr. destruct r as [|r]; [lia|].
  rewrite put_lt by (rewrite app_length; cbn; lia). cbn [obind].
  replace (<[length pre:=v]> (pre ++ repeat NO_INDEX (S r))) with ((pre ++ [v]) ++ repeat NO_INDEX r).
  - replace (S (length pre)) with (length (pre ++ [v])) by (rewrite app_length; cbn; lia).
    rewrite IH; [|intros i w Hi; specialize (Hsrc (S i) w Hi); by replace (S s + i)%nat with (s + S i)%nat by lia|lia].
    rewrite <- (app_assoc pre [v] vals). done.
  - rewrite insert_app_r_alt by lia. rewrite Nat.sub_diag. cbn. by rewrite <- app_assoc.
Qed.

Lemma merge_rows_done nvp a ra b rb ea eb xa la xb lb : padded nvp a ra → padded nvp b rb →
  (length a + length b <= nvp + 2)%nat → (ea < length a)%nat → (eb < length b)%nat →
  rot ea a = xa :: la → rot eb b = xb :: lb →
  ∃ row, merge_rows ra rb ea eb nvp = Done row ∧ padded nvp (la ++ lb) row.
Proof.
  intros Ha Hb Hn Hea Heb Er Er'. unfold merge_rows. rewrite (count_padded _ _ _ Ha), (count_padded _ _ _ Hb).
  assert (3 <= length a)%nat as La by apply Ha. assert (3 <= length b)%nat as Lb by apply Hb.
  assert (length la = length a - 1)%nat as Ll.
  { pose proof (rot_length ea a) as H. rewrite Er in H. cbn in H. lia. }
  assert (length lb = length b - 1)%nat as Ll'.
  { pose proof (rot_length eb b) as H. rewrite Er' in H. cbn in H. lia. }
  destruct (_ =? 0)%nat eqn:E0; [lia|]. destruct (length b =? 0)%nat eqn:E1; [lia|].
  pose proof (fill_row ra (λ i, (ea + 1 + i) mod length a)%nat la [] nvp 0) as F1. cbn [app] in F1.
  rewrite <- Ll. change (length []) with 0%nat in F1. rewrite F1; [|..|lia].
  - cbn [obind].
    pose proof (fill_row rb (λ i, (eb + 1 + i) mod length b)%nat lb la (nvp - length la) 0) as F2.
    rewrite <- Ll'. rewrite F2; [|..|lia].
    + cbn [obind]. eexists. split; [done|]. split; [|split].
      * rewrite app_length. unfold NO_INDEX. do 2 f_equal. lia.
      * rewrite app_length. lia.
      * apply Forall_app. split.
        -- assert (Forall (λ v, 0 <= v < 65535) (rot ea a)) as H by (rewrite <- (rotation_perm _ _ (rot_rotation ea a)); apply Ha).
           rewrite Er in H. by apply Forall_cons_1 in H as [_ ?].
        -- assert (Forall (λ v, 0 <= v < 65535) (rot eb b)) as H by (rewrite <- (rotation_perm _ _ (rot_rotation eb b)); apply Hb).
           rewrite Er' in H. by apply Forall_cons_1 in H as [_ ?].
    + intros i v Hi. cbn [plus]. rewrite (padded_get _ _ _ _ Hb) by (apply Nat.mod_upper_bound; lia).
      replace (eb + 1 + i)%nat with (eb + S i)%nat by lia.
      rewrite <- rot_lookup by (apply lookup_lt_Some in Hi; lia). rewrite Er'. done.
  - intros i v Hi. cbn [plus]. rewrite (padded_get _ _ _ _ Ha) by (apply Nat.mod_upper_bound; lia).
    replace (ea + 1 + i)%nat with (ea + S i)%nat by lia.
    rewrite <- rot_lookup by (apply lookup_lt_Some in Hi; lia). rewrite Er. done.
Qed.
End verts.
