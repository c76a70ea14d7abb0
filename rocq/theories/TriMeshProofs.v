(** Facts about triangle meshes and about signs of f32 results. *)
From Verif Require Import Base ModelMath ModelHeightfield ModelTriMesh SpecTriMesh FloatOrder.
Local Open Scope Z_scope.

Lemma shift_done n t k : in_range k t → 0 <= n → n + Z.of_nat k <= 4294967296 →
  shift_idx n t = Done (t.1.1 + n, t.1.2 + n, t.2 + n).
Proof.
  intros (H1 & H2 & H3) Hn Hk. unfold shift_idx, chk_u32.
  rewrite !chk_in by (unfold U32_MAX; lia). done.
Qed.
Lemma shift_all n l k : Forall (in_range k) l → 0 <= n → n + Z.of_nat k <= 4294967296 →
  mapM_o (shift_idx n) l = Done ((λ t, (t.1.1 + n, t.1.2 + n, t.2 + n)) <$> l).
Proof.
  intros H Hn Hk. induction H as [|t l Ht _ IH]; [done|]. cbn [mapM_o]. rewrite (shift_done n t k) by done. cbn [obind].
  rewrite IH. done.
Qed.
Lemma corner_l vs ws i : 0 <= i < Z.of_nat (length vs) → corner_at (vs ++ ws) i = corner_at vs i.
Proof. intros H. unfold corner_at. destruct (_ <? _) eqn:E; [done|]. apply lookup_app_l. lia. Qed.
Lemma corner_r vs ws i : 0 <= i → corner_at (vs ++ ws) (i + Z.of_nat (length vs)) = corner_at ws i.
Proof.
  intros H. unfold corner_at. destruct (_ <? _) eqn:E; [lia|]. destruct (i <? 0) eqn:E'; [lia|].
  rewrite lookup_app_r by lia. f_equal. lia.
Qed.
Lemma extend_done a b : valid a → valid b → Z.of_nat (length (tm_verts a) + length (tm_verts b)) <= 4294967296 →
  Z.of_nat (length (tm_verts a)) <= 4294967295 →
  ∃ m, extend a b = Done m ∧ valid m ∧ soup m = soup a ++ soup b ∧ tm_verts m = tm_verts a ++ tm_verts b.
Proof.
  intros [Ha La] [Hb Lb] Hn Hn2. unfold extend. destruct (_ <? _) eqn:E; [lia|].
  rewrite (shift_all _ _ _ Hb) by lia. cbn [obind]. eexists. split; [done|]. split; [|split; [|done]].
  - split; cbn.
    + rewrite app_length. apply Forall_app. split.
      * eapply Forall_impl; [exact Ha|]. intros t (H1 & H2 & H3). unfold in_range. lia.
      * apply Forall_fmap. eapply Forall_impl; [exact Hb|]. intros t (H1 & H2 & H3). unfold in_range, compose. cbn. lia.
    + rewrite !app_length, fmap_length. lia.
  - unfold soup. cbn [tm_verts tm_idx tm_areas]. rewrite zip_with_app by done. f_equal.
    + apply zip_with_ext_length || idtac. clear -Ha La. revert La. generalize (tm_areas a).
      induction Ha as [|t l (H1 & H2 & H3) _ IH]; intros [|x xs] L; try done. cbn [zip_with]. rewrite IH by (cbn in L; lia).
      by rewrite !corner_l by done.
    + rewrite zip_with_fmap_l. clear -Hb Lb. revert Lb. generalize (tm_areas b).
      induction Hb as [|t l (H1 & H2 & H3) _ IH]; intros [|x xs] L; try done. cbn [zip_with]. rewrite IH by (cbn in L; lia).
      cbn [fst snd]. by rewrite !corner_r by lia.
Qed.

Lemma corner_fmap g vs i : corner_at (g <$> vs) i = g <$> corner_at vs i.
Proof. unfold corner_at. destruct (_ <? _); [done|]. apply list_lookup_fmap. Qed.
Lemma soup_move i m : soup (apply_isometry m i) = move (act i) <$> soup m.
Proof.
  unfold soup, apply_isometry. cbn [tm_verts tm_idx tm_areas]. generalize (tm_areas m). induction (tm_idx m) as [|t l IH]; intros [|a al]; try done.
  cbn [zip_with]. rewrite fmap_cons, IH, !corner_fmap. done.
Qed.
Lemma valid_move i m : valid m → valid (apply_isometry m i).
Proof. intros [H1 H2]. split; cbn; [by rewrite fmap_length|done]. Qed.

Lemma part_mesh s m : shape_mesh s = Some m → part_valid s → valid m ∧ soup m = part_soup s ∧ part_size s = Z.of_nat (length (tm_verts m)).
Proof.
  destruct s as [[vs idx]|]; cbn; [|done]. intros E Hv. injection E as <-. split; [|split; [|done]].
  - split; cbn; [done|]. by rewrite repeat_length.
  - unfold soup. cbn [tm_verts tm_idx tm_areas]. clear. induction idx as [|t l IH]; [done|]. cbn [length repeat zip_with]. by rewrite IH.
Qed.

Lemma compound_from parts : ∀ acc, valid acc → Forall part_valid parts.*2 →
  Z.of_nat (length (tm_verts acc)) + foldr Z.add 0 (part_size <$> parts.*2) <= 4294967295 →
  ∃ m, foldM (λ '(i, s) acc,
    match shape_mesh s with
    | None => Done acc
    | Some m => extend (apply_isometry acc i) m
    end) parts acc = Done m ∧ valid m ∧
    soup m = foldl (λ ts q, match q.2 with None => ts | Some _ => move (act q.1) <$> ts end) (soup acc) parts ++ drifted parts.
Proof.
  induction parts as [|[i s] parts IH]; intros acc Ha Hp Hn.
  - exists acc. split; [done|]. split; [done|]. cbn. by rewrite app_nil_r.
  - rewrite fmap_cons in Hp. apply Forall_cons in Hp as [Hp Hps]. cbn [fst snd fmap list_fmap foldr] in Hp, Hn.
    assert (∀ l, 0 <= foldr Z.add 0 (part_size <$> l)) as Hpos.
    { intros l. induction l as [|[[? ?]|] l IHl]; cbn; try done; cbn in IHl; lia. }
    cbn [foldM]. destruct (shape_mesh s) as [m|] eqn:E.
    + destruct (part_mesh s m E Hp) as (Hm & Hsm & Hsz).
      pose proof (Hpos parts.*2) as Hq. unfold fmap in Hn, Hq. rewrite Hsz in Hn.
      destruct (extend_done (apply_isometry acc i) m (valid_move i acc Ha) Hm) as (m1 & -> & Hv1 & Hs1 & Hw1).
      { cbn. rewrite fmap_length. unfold fmap in *. lia. }
      { cbn. rewrite fmap_length. unfold fmap in *. lia. }
      cbn [obind]. destruct (IH m1 Hv1 Hps) as (m2 & -> & Hv2 & Hs2).
      { rewrite Hw1, app_length. cbn. rewrite fmap_length. unfold fmap in *. lia. }
      exists m2. split; [done|]. split; [done|]. rewrite Hs2, Hs1, soup_move, Hsm. cbn [foldl drifted snd fst].
      assert (∃ p, s = Some p) as [p ->] by (destruct s; [eauto|done]).
      rewrite app_assoc. f_equal. generalize (move (act i) <$> soup acc). generalize (part_soup (Some p)). clear.
      induction parts as [|[j [q|]] parts IH]; intros a b; cbn [foldl snd fst]; [done|..].
      * rewrite fmap_app. apply IH.
      * apply IH.
    + assert (s = None) as -> by (by destruct s as [[? ?]|]). cbn [obind].
      destruct (IH acc Ha Hps) as (m2 & -> & Hv2 & Hs2); [cbn in Hn; unfold fmap in *; lia|].
      exists m2. split; [done|]. split; [done|]. rewrite Hs2. cbn [foldl snd drifted]. f_equal.
      assert (∀ l, foldl (λ (ts : list placed_tri) (q : iso * option (list vec3 * list (Z * Z * Z))),
        match q.2 with None => ts | Some _ => move (act q.1) <$> ts end) [] l = []) as -> by (intros l; induction l as [|[? [?|]] l IHl]; done).
      done.
Qed.

(** ** Signs *)

Definition pos (x : f32) : Prop := f_lt f_zero x = true.

Lemma round_neg m e l : ¬ pos (binary_round_aux 24 128 true m e l).
Proof.
  unfold pos, binary_round_aux. destruct (shr_fexp _ _ _ _ _) as [mrs' e']. destruct (shr_fexp _ _ _ _ _) as [mrs'' e''].
  destruct (shr_m mrs''); [done| |done]. by destruct (Z.leb _ _).
Qed.
Lemma normalize_neg z e s : z <= 0 → ¬ pos (binary_normalize 24 128 z e s).
Proof.
  intros Hz. unfold binary_normalize. destruct z; [by destruct s|lia|]. unfold binary_round.
  destruct (shl_align _ _ _) as [mz ez]. apply round_neg.
Qed.
Lemma f_mul_comm a b : f_mul a b = f_mul b a.
Proof.
  unfold f_mul, SFmul. destruct a as [s|s| |s m e], b as [s'|s'| |s' m' e']; try done; rewrite (xorb_comm s s'); try done.
  by rewrite Pos.mul_comm, Z.add_comm.
Qed.
Lemma pos_mul a r : pos r → pos (f_mul a r) → pos a.
Proof.
  unfold f_mul, SFmul. intros Hr. destruct a as [[]|[]| |[] m e], r as [[]|[]| |[] m' e']; try done. cbn [xorb].
  intros H. by apply round_neg in H.
Qed.
Lemma f_sub_anti a b : pos (f_sub a b) → ¬ pos (f_sub b a).
Proof.
  unfold f_sub, SFsub. destruct a as [[]|[]| |s m e], b as [[]|[]| |s' m' e']; try done.
  - by destruct s'.
  - by destruct s'.
  - by destruct s.
  - by destruct s.
  - rewrite (Z.min_comm e' e). set (x := cond_Zopp s _). set (y := cond_Zopp s' _). intros H.
    destruct (Z.lt_ge_cases 0 (x - y)) as [Hlt|Hge].
    + apply normalize_neg. lia.
    + exfalso. revert H. by apply normalize_neg.
Qed.
Lemma pos_trans a b : f_lt a f_zero = false → f_lt a b = true → pos b.
Proof.
  unfold pos. intros Ha Hb. destruct (f_lt_split a f_zero b) as [H|H]; [by eexists|done|congruence|done].
Qed.

(** A normal with a positive y comes from a cross product with a positive y. *)
Lemma normalize_pos v : pos (v_y (v_normalize_or_zero v)) → pos (v_y v).
Proof.
  unfold v_normalize_or_zero. destruct (_ && _) eqn:E; [|by unfold pos].
  apply andb_true_iff in E as [_ E]. cbn [v_scale v_y]. by apply pos_mul.
Qed.

Definition facing (a b c : vec3) : f32 := v_y (v_cross (v_sub b a) (v_sub c a)).
Lemma facing_flip a b c : pos (facing a b c) → ¬ pos (facing a c b).
Proof.
  unfold facing, v_cross. cbn [v_y]. rewrite (f_mul_comm (v_z (v_sub c a))), (f_mul_comm (v_x (v_sub c a))). apply f_sub_anti.
Qed.

(** ** Bounds *)

Lemma number_rank x : number x → is_Some (f_rank x).
Proof. destruct x; cbn; eauto. done. Qed.
Lemma not_lt_trans x y z : is_Some (f_rank y) → f_lt x y = false → f_lt y z = false → f_lt x z = false.
Proof.
  intros Hy H1 H2. destruct (f_lt x z) eqn:E; [|done]. destruct (f_lt_split x y z Hy E); congruence.
Qed.
Lemma f_lt_irrefl x : f_lt x x = false.
Proof.
  destruct (f_lt x x) eqn:E; [|done]. apply f_lt_rank in E as (a & b & Ha & Hb & H). simplify_eq.
  destruct a as [[? ?] ?]. unfold rank_lt in H. lia.
Qed.
Lemma f_lt_asym x y : f_lt x y = true → f_lt y x = false.
Proof. intros H. destruct (f_lt y x) eqn:E; [|done]. pose proof (f_lt_trans _ _ _ H E) as Hx. by rewrite f_lt_irrefl in Hx. Qed.

Lemma fold_min xs : ∀ a, number a → Forall number xs →
  let r := foldl f_min a xs in number r ∧ (r = a ∨ r ∈ xs) ∧ f_lt a r = false ∧ Forall (λ x, f_lt x r = false) xs.
Proof.
  induction xs as [|x xs IH]; intros a Ha Hxs; cbn.
  { split; [done|]. split; [by left|]. split; [apply f_lt_irrefl|constructor]. }
  apply Forall_cons in Hxs as [Hx Hxs]. assert (number (f_min a x)) as Hm by (unfold f_min; by destruct (f_lt a x)).
  destruct (IH (f_min a x) Hm Hxs) as (H1 & H2 & H3 & H4). split; [done|].
  assert (f_lt a (f_min a x) = false ∧ f_lt x (f_min a x) = false) as [Ha' Hx'].
  { unfold f_min. destruct (f_lt a x) eqn:E; [split; [apply f_lt_irrefl|by apply f_lt_asym]|split; [done|apply f_lt_irrefl]]. }
  split; [|split].
  - destruct H2 as [->|H2]; [|right; by right]. unfold f_min. destruct (f_lt a x); [by left|right; left].
  - apply (not_lt_trans _ (f_min a x)); [by apply number_rank|done|done].
  - constructor; [|done]. apply (not_lt_trans _ (f_min a x)); [by apply number_rank|done|done].
Qed.
Lemma fold_max xs : ∀ a, number a → Forall number xs →
  let r := foldl f_max a xs in number r ∧ (r = a ∨ r ∈ xs) ∧ f_lt r a = false ∧ Forall (λ x, f_lt r x = false) xs.
Proof.
  induction xs as [|x xs IH]; intros a Ha Hxs; cbn.
  { split; [done|]. split; [by left|]. split; [apply f_lt_irrefl|constructor]. }
  apply Forall_cons in Hxs as [Hx Hxs]. assert (number (f_max a x)) as Hm by (unfold f_max; by destruct (f_lt x a)).
  destruct (IH (f_max a x) Hm Hxs) as (H1 & H2 & H3 & H4). split; [done|].
  assert (f_lt (f_max a x) a = false ∧ f_lt (f_max a x) x = false) as [Ha' Hx'].
  { unfold f_max. destruct (f_lt x a) eqn:E; [split; [apply f_lt_irrefl|by apply f_lt_asym]|split; [done|apply f_lt_irrefl]]. }
  split; [|split].
  - destruct H2 as [->|H2]; [|right; by right]. unfold f_max. destruct (f_lt x a); [by left|right; left].
  - apply (not_lt_trans _ (f_max a x)); [by apply number_rank|done|done].
  - constructor; [|done]. apply (not_lt_trans _ (f_max a x)); [by apply number_rank|done|done].
Qed.
Lemma fold_v_min vs : ∀ a, foldl v_min a vs = V3 (foldl f_min (v_x a) (v_x <$> vs)) (foldl f_min (v_y a) (v_y <$> vs)) (foldl f_min (v_z a) (v_z <$> vs)).
Proof. induction vs as [|v vs IH]; intros [x y z]; [done|]. cbn [foldl]. rewrite IH, !fmap_cons. done. Qed.
Lemma fold_v_max vs : ∀ a, foldl v_max a vs = V3 (foldl f_max (v_x a) (v_x <$> vs)) (foldl f_max (v_y a) (v_y <$> vs)) (foldl f_max (v_z a) (v_z <$> vs)).
Proof. induction vs as [|v vs IH]; intros [x y z]; [done|]. cbn [foldl]. rewrite IH, !fmap_cons. done. Qed.

(** ** Triples *)

Lemma chunks3_length l : (length l mod 3 = 0)%nat → (3 * length (chunks3 l) = length l)%nat.
Proof.
  revert l. fix IH 1. intros [|a [|b [|c l]]]; try done. intros H. cbn [chunks3 length]. 
  assert (length l mod 3 = 0)%nat as Hl.
  { cbn [length] in H. replace (S (S (S (length l)))) with (length l + 1 * 3)%nat in H by lia. by rewrite Nat.mod_add in H by lia. }
  specialize (IH l Hl). lia.
Qed.
Lemma chunks3_lookup l k t : chunks3 l !! k = Some t →
  l !! (3 * k)%nat = Some t.1.1 ∧ l !! (3 * k + 1)%nat = Some t.1.2 ∧ l !! (3 * k + 2)%nat = Some t.2.
Proof.
  revert l. induction k as [|k IH]; intros [|a [|b [|c l]]] H; try done; cbn [chunks3] in H; [by injection H as <-|].
  specialize (IH l H). destruct IH as (H1 & H2 & H3).
  replace (3 * S k)%nat with (S (S (S (3 * k)))) by lia. cbn. done.
Qed.
