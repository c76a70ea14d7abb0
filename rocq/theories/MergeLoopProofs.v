(** The merge loop glues polygons along shared edges. *)
From Verif Require Import Base ModelMath ModelContours ModelPoly SpecPoly FlowProofs TriangulateProofs MergeProofs.
Local Open Scope Z_scope.

Lemma edges_perm (ps ps' : list (list Z)) : ps ≡ₚ ps' → edges_of ps ≡ₚ edges_of ps'.
Proof.
  unfold edges_of. induction 1 as [|p l l' _ IH|p q l|l l' l'' _ IH1 _ IH2]; cbn; [done|..].
  - by rewrite IH.
  - rewrite !app_assoc. by rewrite (Permutation_app_comm (cycle_edges q)).
  - by rewrite IH1.
Qed.

Lemma rot_two {A} k (l : list A) : (k < length l)%nat → (3 <= length l)%nat →
  ∃ x y r, rot k l = x :: y :: r ∧ r ≠ [] ∧ l !! k = Some x ∧ l !! nx k (length l) = Some y.
Proof.
  intros Hk H3. pose proof (rot_length k l) as Hl.
  pose proof (rot_lookup k l 0 Hk ltac:(lia)) as E0. pose proof (rot_lookup k l 1 Hk ltac:(lia)) as E1.
  rewrite Nat.add_0_r, Nat.mod_small in E0 by done. fold (nx k (length l)) in E1.
  destruct (rot k l) as [|x [|y r]]; [cbn in Hl; lia..|].
  exists x, y, r. split; [done|]. split; [intros ->; cbn in Hl; lia|]. done.
Qed.

Lemma rot_edge {A} k (l : list A) x y r : rot k l = x :: y :: r → (x, y) ∈ cycle_edges l.
Proof.
  intros E. rewrite (cycle_rotation _ _ (rot_rotation k l)), E. rewrite cycle_path. left.
Qed.

Section verts.
Context (verts : list vtx) (B : Prop) (nvp : nat).
Local Notation vpos := (vpos verts).
Local Notation okv := (okv verts B).

Lemma merge_ok_glue a b ea eb : (3 <= length a)%nat → (3 <= length b)%nat → merge_ok verts nvp a b ea eb →
  (∀ e, e ∈ cycle_edges a → e ∈ cycle_edges b → False) →
  ∃ x y ra rb, rot ea a = x :: y :: ra ∧ rot eb b = y :: x :: rb ∧
    (corners_convex (vpos <$> a) → corners_convex (vpos <$> b) → corners_convex (vpos <$> (y :: ra ++ x :: rb))).
Proof.
  intros La Lb (Hea & Heb & Hn & (u & v & u' & v' & Hu & Hv & Hu' & Hv' & Heq) & J1 & J2) Hdis.
  destruct (rot_two ea a Hea La) as (x & y & ra & Era & Hra & Hx & Hy).
  destruct (rot_two eb b Heb Lb) as (x' & y' & rb & Erb & Hrb & Hx' & Hy').
  assert (u = x ∧ v = y ∧ u' = x' ∧ v' = y') as (-> & -> & -> & ->) by (repeat split; congruence).
  destruct Heq as [[<- <-]|[<- <-]].
  { exfalso. apply (Hdis (x, y)); by eapply rot_edge. }
  exists x, y, ra, rb. split; [done|]. split; [done|].
  destruct (exists_last Hra) as (ra0 & e & Ee). destruct (exists_last Hrb) as (rb0 & f & Ef).
  destruct ra as [|y1 ra'] eqn:Era'; [done|]. destruct rb as [|x1 rb'] eqn:Erb'; [done|]. rewrite <- Era' in *. rewrite <- Erb' in *.
  assert (length a = S (S (length ra)) ∧ length b = S (S (length rb))) as [Ela Elb].
  { rewrite <- (rot_length ea a), <- (rot_length eb b), Era, Erb. done. }
  assert (∀ k, ra0 ++ [e] = k → length k = S (length ra0)) as Hk by (intros ? <-; rewrite app_length; cbn; lia).
  destruct J1 as (p & q & r & Hp & Hq & Hr & C1). destruct J2 as (p' & q' & r' & Hp' & Hq' & Hr' & C2).
  (* the neighbours of the two junctions *)
  assert (p = e) as ->.
  { replace (ea + length a - 1)%nat with (ea + (length a - 1))%nat in Hp by lia.
    rewrite <- rot_lookup in Hp by lia. rewrite Era, Ee in Hp.
    replace (length a - 1)%nat with (S (S (length ra0))) in Hp
      by (rewrite Ela, Ee, app_length; cbn; lia).
    change ((ra0 ++ [e]) !! length ra0 = Some p) in Hp. rewrite lookup_app_r, Nat.sub_diag in Hp by lia. by injection Hp as ->. }
  assert (q = x) as -> by congruence.
  assert (r = x1) as ->.
  { rewrite <- rot_lookup in Hr by lia. rewrite Erb, Erb' in Hr. by injection Hr as ->. }
  assert (p' = f) as ->.
  { replace (eb + length b - 1)%nat with (eb + (length b - 1))%nat in Hp' by lia.
    rewrite <- rot_lookup in Hp' by lia. rewrite Erb, Ef in Hp'.
    replace (length b - 1)%nat with (S (S (length rb0))) in Hp'
      by (rewrite Elb, Ef, app_length; cbn; lia).
    change ((rb0 ++ [f]) !! length rb0 = Some p') in Hp'. rewrite lookup_app_r, Nat.sub_diag in Hp' by lia. by injection Hp' as ->. }
  assert (q' = y) as -> by congruence.
  assert (r' = y1) as ->.
  { rewrite <- rot_lookup in Hr' by lia. rewrite Era, Era' in Hr'. by injection Hr' as ->. }
  intros Ca Cb. unfold corners_convex in *. rewrite corners_fmap in *.
  rewrite Forall_fmap in *.
  eapply (glued_corners a b _ x y ra rb _ e x1 f y1 ra' rb' ra0 rb0); try done.
  - rewrite <- Era. apply rot_rotation.
  - rewrite <- Erb. apply rot_rotation.
  - apply rotation_refl.
Qed.

(** The polygons of a list of rows. *)
Definition row_ok {T} (r : trow T) (vs : list Z) : Prop := padded nvp vs r.1 ∧ Forall okv vs.
Definition rows_ok {T} : list (trow T) → list (list Z) → Prop := Forall2 row_ok.

Lemma best_merge_ends {T} (polys : list (trow T)) vss : rows_ok polys vss →
  ends B (best_merge polys verts nvp) (λ '(v, pa, pb, ea, eb), 0 < v →
    (pa < pb)%nat ∧ ∃ a b, vss !! pa = Some a ∧ vss !! pb = Some b ∧ merge_ok verts nvp a b ea eb).
Proof.
  intros HF. unfold best_merge. set (np := length polys).
  set (I := λ r : Z * nat * nat * nat * nat, let '(v, pa, pb, ea, eb) := r in 0 < v →
    (pa < pb)%nat ∧ ∃ a b, vss !! pa = Some a ∧ vss !! pb = Some b ∧ merge_ok verts nvp a b ea eb).
  apply (ends_keep B I); [cbn; lia|].
  intros j best Hj%elem_of_seq HI.
  destruct (lookup_lt_is_Some_2 polys j) as [pj Hpj]; [lia|]. rewrite (get_some _ _ _ Hpj). cbn [obind].
  destruct (Forall2_lookup_l _ _ _ _ _ HF Hpj) as (a & Ha & Pa & Oa).
  apply (ends_keep B I); [done|]. clear best HI.
  intros k best Hk%elem_of_seq HI.
  destruct (lookup_lt_is_Some_2 polys k) as [pk Hpk]; [lia|]. rewrite (get_some _ _ _ Hpk). cbn [obind].
  destruct (Forall2_lookup_l _ _ _ _ _ HF Hpk) as (b & Hb & Pb & Ob).
  eapply ends_bind; [by eapply merge_value_ends|]. intros r Hr.
  destruct best as [[[[bv bpa] bpb] bea] beb]. cbn [ends].
  destruct r as [[[v ea] eb]|]; [|done]. destruct (bv <? v); [|done].
  cbn. intros _. split; [lia|]. exists a, b. split; [done|]. split; [done|]. by eapply Hr.
Qed.

Lemma swap_remove {C} (l : list C) i last x b : (i < length l)%nat → last = (length l - 1)%nat → l !! last = Some x → l !! i = Some b →
  take last (<[i := x]> l) ++ [b] ≡ₚ l.
Proof.
  intros Hi El Hx Hb.
  assert (l = take last l ++ [x]) as Et.
  { rewrite <- (take_drop last l) at 1. f_equal. rewrite (drop_S _ _ _ Hx). f_equal. apply drop_ge. lia. }
  destruct (decide (i = last)) as [->|Hne].
  - rewrite list_insert_id by done. assert (b = x) as -> by congruence. by rewrite <- Et.
  - rewrite (insert_take_drop l) by done.
    assert (l = take i l ++ b :: drop (S i) l) as Eb by (by rewrite take_drop_middle).
    assert (drop (S i) l = take (last - S i) (drop (S i) l) ++ [x]) as Ed.
    { rewrite <- (take_drop (last - S i) (drop (S i) l)) at 1. f_equal. rewrite drop_drop.
      replace (S i + (last - S i))%nat with last by lia. rewrite (drop_S _ _ _ Hx). f_equal. apply drop_ge. lia. }
    set (p := take i l) in *. assert (length p = i) as Hp by (unfold p; rewrite take_length; lia).
    set (q := take (last - S i) (drop (S i) l)) in *.
    rewrite Ed in Eb |- *. rewrite Eb. 
    assert (length l = S (i + length q + 1))%nat as Hlen.
    { rewrite Eb. rewrite app_length. cbn. rewrite app_length. cbn. lia. }
    replace (p ++ x :: q ++ [x]) with ((p ++ x :: q) ++ [x]) by (by rewrite <- app_assoc).
    rewrite take_app_alt by (rewrite app_length; cbn; lia).
    rewrite <- app_assoc. apply Permutation_app_head. cbn.
    transitivity (x :: b :: q); [apply Permutation_skip; symmetry; apply Permutation_cons_append|].
    rewrite Permutation_swap. apply Permutation_skip. apply Permutation_cons_append.
Qed.

(** Gluing repeatedly. *)
Inductive gluing : list (list Z) → list (list Z) → Prop :=
| gl_refl l : gluing l l
| gl_step l a b m x y ra rb rest l1 l' : l ≡ₚ a :: b :: rest →
    rotation a (x :: y :: ra) → rotation b (y :: x :: rb) → m = y :: ra ++ x :: rb →
    (corners_convex (vpos <$> a) → corners_convex (vpos <$> b) → corners_convex (vpos <$> m)) →
    l1 ≡ₚ m :: rest → gluing l1 l' → gluing l l'.

Lemma step_edges (l : list (list Z)) a b m x y ra rb rest : l ≡ₚ a :: b :: rest →
  rotation a (x :: y :: ra) → rotation b (y :: x :: rb) → m = y :: ra ++ x :: rb →
  edges_of l ≡ₚ (x, y) :: (y, x) :: edges_of (m :: rest).
Proof.
  intros Hl Ra Rb ->. rewrite (edges_perm _ _ Hl). unfold edges_of. cbn [fmap list_fmap concat].
  rewrite app_assoc. rewrite (glued_edges a b _ x y ra rb Ra Rb (rotation_refl _)). done.
Qed.

Lemma apply_merge_done {T} (join : T → T → T) (polys : list (trow T)) vss pa pb ea eb a b :
  rows_ok polys vss → (pa < pb)%nat → vss !! pa = Some a → vss !! pb = Some b →
  merge_ok verts nvp a b ea eb → NoDup (edges_of vss) →
  ∃ polys' vss' x y ra rb rest, apply_merge join polys nvp pa pb ea eb = Done polys' ∧ rows_ok polys' vss' ∧
    vss ≡ₚ a :: b :: rest ∧ rotation a (x :: y :: ra) ∧ rotation b (y :: x :: rb) ∧
    (corners_convex (vpos <$> a) → corners_convex (vpos <$> b) → corners_convex (vpos <$> (y :: ra ++ x :: rb))) ∧
    vss' ≡ₚ (y :: ra ++ x :: rb) :: rest ∧ length polys = S (length polys').
Proof.
  intros HF Hlt Ha Hb Hok Hnd.
  destruct (Forall2_lookup_r _ _ _ _ _ HF Ha) as (ra_ & Hra & Pa & Oa).
  destruct (Forall2_lookup_r _ _ _ _ _ HF Hb) as (rb_ & Hrb & Pb & Ob).
  assert (3 <= length a)%nat as La by apply Pa. assert (3 <= length b)%nat as Lb by apply Pb.
  pose proof (Forall2_length _ _ _ HF) as Hlen.
  pose proof (lookup_lt_Some _ _ _ Hra) as Hpa. pose proof (lookup_lt_Some _ _ _ Hrb) as Hpb.
  (* the other polygons *)
  set (rest := delete pa (delete pb vss)).
  assert (vss ≡ₚ a :: b :: rest) as Hperm.
  { rewrite (delete_Permutation vss pb b Hb). rewrite (delete_Permutation (delete pb vss) pa a).
    - apply Permutation_swap.
    - by rewrite lookup_delete_lt. }
  destruct (merge_ok_glue a b ea eb La Lb Hok) as (x & y & ra & rb & Era & Erb & Hconv).
  { intros e He He'. rewrite (edges_perm _ _ Hperm) in Hnd. unfold edges_of in Hnd. cbn [fmap list_fmap concat] in Hnd.
    apply NoDup_app in Hnd as (_ & Hd & _). apply (Hd e He). apply elem_of_app. by left. }
  destruct Hok as (Hea & Heb & Hn & _).
  destruct (merge_rows_done nvp a ra_.1 b rb_.1 ea eb x (y :: ra) y (x :: rb)) as (row & Hrow & Prow); [done..|].
  unfold apply_merge. rewrite (get_some _ _ _ Hra). cbn [obind]. rewrite (get_some _ _ _ Hrb). cbn [obind].
  rewrite Hrow. cbn [obind]. rewrite put_lt by done. cbn [obind].
  set (m := (y :: ra) ++ (x :: rb)) in *. set (mr := (row, join ra_.2 rb_.2)).
  set (polys1 := <[pa := mr]> polys).
  assert (length polys1 = length polys) as Hl1 by apply insert_length.
  assert (Forall okv m) as Om.
  { unfold m. apply Forall_app.
    rewrite (rotation_perm _ _ (rot_rotation ea a)), Era in Oa. rewrite (rotation_perm _ _ (rot_rotation eb b)), Erb in Ob.
    apply Forall_cons_1 in Oa as [_ ?], Ob as [_ ?]. done. }
  assert (rows_ok polys1 (<[pa := m]> vss)) as HF1.
  { unfold polys1. apply Forall2_insert; [done|]. split; [done|done]. }
  set (last := (length polys1 - 1)%nat).
  destruct (lookup_lt_is_Some_2 polys1 last) as [lr Hlr]; [unfold last; lia|].
  destruct (Forall2_lookup_l _ _ _ _ _ HF1 Hlr) as (lv & Hlv & Plr).
  rewrite (get_some _ _ _ Hlr). cbn [obind]. rewrite put_lt by lia. cbn [obind].
  exists (take last (<[pb := lr]> polys1)), (take last (<[pb := lv]> (<[pa := m]> vss))), x, y, ra, rb, rest.
  split; [done|]. split; [apply Forall2_take, Forall2_insert; done|].
  split; [done|]. split; [rewrite <- Era; apply rot_rotation|]. split; [rewrite <- Erb; apply rot_rotation|].
  split; [done|]. split; [|rewrite take_length, insert_length; unfold last; lia].
  apply (Permutation_app_inv_r [b]).
  rewrite (swap_remove _ pb last lv b); [..|done|].
  - transitivity (b :: m :: rest); [|change (m :: rest) with ([m] ++ rest); apply (Permutation_app_comm [b])].
    rewrite (delete_Permutation (<[pa:=m]> vss) pa m) by (apply list_lookup_insert; rewrite <- Hlen; done).
    rewrite Permutation_swap. apply Permutation_skip.
    assert (delete pa (<[pa := m]> vss) = delete pa vss) as ->.
    { rewrite !delete_take_drop. rewrite take_insert, drop_insert_gt by lia. done. }
    unfold rest. rewrite (delete_Permutation (delete pa vss) (pb - 1)%nat b).
    + apply Permutation_skip. rewrite !delete_take_drop.
      enough (delete (pb - 1)%nat (delete pa vss) = delete pa (delete pb vss)) as E by (rewrite <- !delete_take_drop; by rewrite E).
      apply list_eq. intros i.
      destruct (decide (i < pa)%nat).
      * rewrite (lookup_delete_lt (delete pb vss)) by lia. rewrite (lookup_delete_lt vss pb) by lia.
        rewrite (lookup_delete_lt (delete pa vss)) by lia. rewrite lookup_delete_lt by lia. done.
      * rewrite (lookup_delete_ge (delete pb vss)) by lia. destruct (decide (i < pb - 1)%nat).
        -- rewrite (lookup_delete_lt (delete pa vss)) by lia. rewrite (lookup_delete_ge vss pa) by lia.
           rewrite (lookup_delete_lt vss pb) by lia. done.
        -- rewrite (lookup_delete_ge (delete pa vss)) by lia. rewrite (lookup_delete_ge vss pa) by lia.
           rewrite (lookup_delete_ge vss pb) by lia. done.
    + rewrite lookup_delete_ge by lia. by replace (S (pb - 1))%nat with pb by lia.
  - rewrite insert_length. lia.
  - rewrite insert_length. unfold last. lia.
  - rewrite list_lookup_insert_ne by lia. done.
Qed.

Lemma NoDup_step (l : list (list Z)) a b m x y ra rb rest : NoDup (edges_of l) → l ≡ₚ a :: b :: rest →
  rotation a (x :: y :: ra) → rotation b (y :: x :: rb) → m = y :: ra ++ x :: rb → NoDup (edges_of (m :: rest)).
Proof.
  intros Hnd Hl Ra Rb Em. rewrite (step_edges l a b m x y ra rb rest Hl Ra Rb Em) in Hnd.
  apply NoDup_cons in Hnd as [_ Hnd]. by apply NoDup_cons in Hnd as [_ ?].
Qed.

Lemma merge_loop_ends {T} fuel (join : T → T → T) : ∀ (polys : list (trow T)) vss,
  rows_ok polys vss → NoDup (edges_of vss) → (length polys < fuel)%nat →
  ends B (merge_loop fuel join verts nvp polys) (λ polys', ∃ vss', rows_ok polys' vss' ∧ gluing vss vss').
Proof.
  induction fuel as [|fuel IH]; intros polys vss HF Hnd Hfu; [lia|]. cbn [merge_loop].
  eapply ends_bind; [by apply best_merge_ends|]. intros [[[[v pa] pb] ea] eb] Hb.
  destruct (0 <? v) eqn:Ev; [|cbn; exists vss; split; [done|constructor]].
  destruct Hb as (Hlt & a & b & Ha & Hb & Hok); [lia|].
  destruct (apply_merge_done join polys vss pa pb ea eb a b) as (polys' & vss' & x & y & ra & rb & rest & Em & HF' & Hp & Ra & Rb & Hc & Hp' & Hl); [done..|].
  rewrite Em. cbn [obind].
  assert (NoDup (edges_of vss')) as Hnd'.
  { rewrite (edges_perm _ _ Hp'). by eapply NoDup_step. }
  eapply ends_mono; [apply (IH polys' vss'); [done|done|lia]|].
  intros polys'' (vss'' & HF'' & G). exists vss''. split; [done|]. by eapply gl_step.
Qed.

Lemma merge_all_ends {T} (join : T → T → T) (polys : list (trow T)) vss :
  rows_ok polys vss → NoDup (edges_of vss) →
  ends B (merge_all join verts nvp polys) (λ polys', ∃ vss', rows_ok polys' vss' ∧ gluing vss vss').
Proof.
  intros HF Hnd. unfold merge_all. destruct (3 <? nvp)%nat.
  - apply merge_loop_ends; [done|done|lia].
  - cbn. exists vss. split; [done|constructor].
Qed.

(** ** What gluing keeps *)

Lemma gluing_edges l l' : gluing l l' → ∃ ds, edges_of l ≡ₚ edges_of l' ++ ds ++ (flip <$> ds).
Proof.
  induction 1 as [l|l a b m x y ra rb rest l1 l' Hl Ra Rb Em Hc Hl1 G [ds IH]].
  - exists []. by rewrite !app_nil_r.
  - exists ((x, y) :: ds). rewrite (step_edges _ _ _ _ _ _ _ _ _ Hl Ra Rb Em).
    rewrite <- (edges_perm _ _ Hl1), IH. cbn. change (flip (x, y)) with (y, x).
    rewrite <- (Permutation_middle (edges_of l')). apply Permutation_skip.
    rewrite !(app_assoc (edges_of l')). apply Permutation_middle.
Qed.
Lemma gluing_NoDup l l' : gluing l l' → NoDup (edges_of l) → NoDup (edges_of l').
Proof. intros [ds E]%gluing_edges H. rewrite E in H. by apply NoDup_app in H as [? _]. Qed.

Lemma gluing_convex l l' : gluing l l' → Forall (λ p, corners_convex (vpos <$> p)) l → Forall (λ p, corners_convex (vpos <$> p)) l'.
Proof.
  induction 1 as [l|l a b m x y ra rb rest l1 l' Hl Ra Rb Em Hc Hl1 G IH]; [done|].
  intros H. apply IH. rewrite Hl in H. rewrite Hl1. apply Forall_cons in H as [Ha H]. apply Forall_cons in H as [Hb H].
  constructor; [by apply Hc|done].
Qed.
Lemma gluing_members l l' v : gluing l l' → (∃ p, p ∈ l ∧ v ∈ p) ↔ (∃ p, p ∈ l' ∧ v ∈ p).
Proof.
  induction 1 as [l|l a b m x y ra rb rest l1 l' Hl Ra Rb -> Hc Hl1 G IH]; [done|].
  rewrite <- IH. setoid_rewrite Hl. setoid_rewrite Hl1. setoid_rewrite elem_of_cons.
  assert (v ∈ a ↔ v = x ∨ v = y ∨ v ∈ ra) as Ea by (rewrite (rotation_perm _ _ Ra); rewrite !elem_of_cons; tauto).
  assert (v ∈ b ↔ v = x ∨ v = y ∨ v ∈ rb) as Eb by (rewrite (rotation_perm _ _ Rb); rewrite !elem_of_cons; tauto).
  assert (v ∈ y :: ra ++ x :: rb ↔ v = x ∨ v = y ∨ v ∈ ra ∨ v ∈ rb) as Em
    by (rewrite elem_of_cons, elem_of_app, elem_of_cons; tauto).
  split.
  - intros (p & Hp & Hv). rewrite elem_of_cons in Hp. destruct Hp as [->|[->|Hp]].
    + exists (y :: ra ++ x :: rb). rewrite Em. tauto.
    + exists (y :: ra ++ x :: rb). rewrite Em. tauto.
    + exists p. tauto.
  - intros (p & Hp & Hv). destruct Hp as [->|Hp].
    + rewrite Em in Hv. destruct (decide (v ∈ a)) as [Hva|Hva].
      * exists a. tauto.
      * exists b. rewrite elem_of_cons. tauto.
    + exists p. rewrite elem_of_cons. tauto.
Qed.
End verts.
