(** Proofs about the pictures of the editor. *)
From Verif Require Import Base ModelMath ModelHeightfield ModelContours ModelPoly ModelTriMesh ModelDetail SpecPoly ModelExport
  ModelView SpecView TriangulateProofs.
Local Open Scope Z_scope.

Lemma mapM_o_rel {A B} (f : A → outcome B) (R : A → B → Prop) l :
  Forall (λ a, ∃ b, f a = Done b ∧ R a b) l → ∃ bs, mapM_o f l = Done bs ∧ Forall2 R l bs.
Proof.
  induction 1 as [|a l (b & E & Hb) _ (bs & E' & Hbs)]; [by exists []|]. exists (b :: bs). cbn. rewrite E. cbn. rewrite E'. cbn. by split; [|constructor].
Qed.

(** ** Polygons *)
Lemma index_pos_ok m i : 0 <= i < Z.of_nat (length (pm_verts m)) → ∃ p, index_pos m i = Done p ∧ vertex_at m i p.
Proof.
  intros Hi. destruct (lookup_lt_is_Some_2 (pm_verts m) (Z.to_nat i)) as [v Hv]; [lia|].
  exists (to_world m v). unfold index_pos, get. rewrite Hv. split; [done|]. by exists v.
Qed.
Lemma close_ok a l : close_strip (a :: l) = Done ((a :: l) ++ [a]).
Proof. done. Qed.
Lemma filter_padded nvp vs row : padded nvp vs row → filter (λ i, i ≠ NO_INDEX) row = vs.
Proof.
  intros (-> & _ & H). rewrite filter_app. assert (filter (λ i, i ≠ NO_INDEX) (repeat 65535 (nvp - length vs)) = []) as ->.
  { induction (nvp - length vs)%nat as [|k IH]; [done|]. cbn [repeat]. rewrite filter_cons_False; [done|]. unfold NO_INDEX. lia. }
  rewrite app_nil_r. induction H as [|v vs Hv _ IH]; [done|]. rewrite filter_cons_True; [by rewrite IH|]. unfold NO_INDEX. lia.
Qed.

Definition row_ok (nvp : nat) (m : pmesh) (row : list Z) : Prop :=
  ∃ vs, padded nvp vs row ∧ Forall (λ v, v < Z.of_nat (length (pm_verts m))) vs.

Lemma indices_ok nvp m vs row : padded nvp vs row → Forall (λ v, v < Z.of_nat (length (pm_verts m))) vs →
  Forall (λ i, ∃ p, index_pos m i = Done p ∧ vertex_at m i p) vs.
Proof.
  intros (_ & _ & H1) H2. apply Forall_forall. intros i Hi. apply index_pos_ok.
  rewrite Forall_forall in H1, H2. specialize (H1 i Hi). specialize (H2 i Hi). cbn in *. lia.
Qed.

Lemma poly_lines_ok nvp m : Forall (row_ok nvp m) (pm_polys m) →
  ∃ lines, poly_lines m = Done lines ∧
    Forall2 (λ row l, ∃ vs ps, padded nvp vs row ∧ Forall2 (vertex_at m) vs ps ∧ around ps l) (pm_polys m) lines.
Proof.
  intros H. apply mapM_o_rel. eapply Forall_impl; [exact H|]. intros row (vs & Hp & Hr).
  unfold poly_strip. rewrite (filter_padded _ _ _ Hp).
  destruct (mapM_o_rel _ _ _ (indices_ok _ _ _ _ Hp Hr)) as (ps & -> & HF). cbn.
  destruct Hp as (E & Hl & Hv). destruct ps as [|p ps]; [apply Forall2_length in HF; cbn in HF; lia|].
  exists ((p :: ps) ++ [p]). split; [done|]. exists vs, (p :: ps). split; [done|]. split; [done|]. by exists p, ps.
Qed.

(** The fan from the first corner. *)
Fixpoint fan_ids (a : Z) (l : list Z) : list (Z * Z * Z) :=
  match l with b :: ((c :: _) as r) => (a, b, c) :: fan_ids a r | _ => [] end.

Lemma fan_cuts a b c l : cuts (a :: b :: c :: l) (fan_ids a (b :: c :: l)).
Proof.
  revert b c. induction l as [|d l IH]; intros b c; [apply cuts_tri|].
  change (fan_ids a (b :: c :: d :: l)) with ((a, b, c) :: fan_ids a (c :: d :: l)).
  eapply (cuts_ear _ (a :: c :: d :: l)); [|apply rotation_refl|apply rotation_refl|apply IH]. done.
Qed.

Lemma pads_fold m ai k (b : Z) s : foldM (fan_window m ai) (zip (b :: repeat 65535 k) (repeat 65535 k)) s = Done s.
Proof.
  revert b s. induction k as [|k IH]; intros b s; [done|]. cbn [repeat zip_with foldM].
  unfold fan_window at 1. cbn [fst snd]. assert ((b =? NO_INDEX) || (65535 =? NO_INDEX) = true) as -> by (by rewrite orb_true_r). cbn [obind]. apply IH.
Qed.

Lemma sf_len_ok s : Z.of_nat (length (sf_pos s)) < 4294967296 → sf_len s = Z.of_nat (length (sf_pos s)).
Proof. intros H. unfold sf_len, wrap_u32. rewrite Z.mod_small; lia. Qed.

Lemma fan_fold nvp m a pa ai k l s acc :
  Forall (λ i, ∃ p, index_pos m i = Done p ∧ vertex_at m i p) l → Forall (λ v, 0 <= v < 65535) l →
  vertex_at m a pa → 0 <= ai → sf_pos s !! Z.to_nat ai = Some pa → l ≠ [] → (length l ≤ nvp)%nat →
  Forall2 (λ i p, 0 <= i ∧ sf_pos s !! Z.to_nat i = Some p) (sf_idx s) acc →
  Z.of_nat (length (sf_pos s)) + 2 * Z.of_nat (length l) < 4294967296 →
  ∃ s' ext ts, foldM (fan_window m ai) (zip (l ++ repeat 65535 k) (drop 1 (l ++ repeat 65535 k))) s = Done s' ∧
    sf_pos s' = sf_pos s ++ ext ∧ (length ext ≤ 2 * (length l - 1))%nat ∧ Forall2 (placed (vertex_at m)) (fan_ids a l) ts ∧
    Forall2 (λ i p, 0 <= i ∧ sf_pos s' !! Z.to_nat i = Some p) (sf_idx s') (acc ++ concat (tri_list <$> ts)).
Proof.
  intros HI HV Ha Hai Hpa Hne Hn. revert s acc Hpa. induction l as [|b l IH]; intros s acc Hpa HF Hlen; [done|].
  destruct l as [|c l].
  - cbn [app drop]. rewrite pads_fold. exists s, [], []. split; [done|]. rewrite app_nil_r. split; [done|]. cbn. split; [lia|]. split; [constructor|]. by rewrite app_nil_r.
  - apply Forall_cons in HI as [(pb & Eb & Hb) HI]. pose proof (Forall_inv HI) as (pc & Ec & Hc).
    apply Forall_cons in HV as [Vb HV]. pose proof (Forall_inv HV) as Vc.
    change (zip ((b :: c :: l) ++ repeat 65535 k) (drop 1 ((b :: c :: l) ++ repeat 65535 k)))
      with ((b, c) :: zip ((c :: l) ++ repeat 65535 k) (drop 1 ((c :: l) ++ repeat 65535 k))).
    cbn [foldM]. unfold fan_window at 1. cbn [fst snd].
    assert ((b =? NO_INDEX) || (c =? NO_INDEX) = false) as -> by (unfold NO_INDEX; cbn in Vc; lia).
    rewrite Eb. cbn [obind]. rewrite Ec. cbn [obind]. cbn [length] in Hlen.
    rewrite (sf_len_ok s) by lia. rewrite (sf_len_ok (Sf _ _)) by (cbn; rewrite app_length; cbn; lia). cbn [sf_pos sf_idx].
    set (s2 := Sf ((sf_pos s ++ [pb]) ++ [pc]) (sf_idx s ++ [ai; Z.of_nat (length (sf_pos s)); Z.of_nat (length (sf_pos s ++ [pb]))])).
    assert (∀ i p, sf_pos s !! i = Some p → sf_pos s2 !! i = Some p) as Hmono.
    { intros i p Hi. cbn. rewrite <-app_assoc. by apply lookup_app_l_Some. }
    destruct (IH HI HV ltac:(done) ltac:(cbn in *; lia) s2 (acc ++ [pa; pb; pc])) as (s' & ext & ts & E & Epos & Hext & Hts & HF').
    + by apply Hmono.
    + apply Forall2_app.
      * eapply Forall2_impl; [exact HF|]. intros i p [H0 Hi]. split; [done|]. by apply Hmono.
      * constructor; [split; [done|by apply Hmono]|]. constructor.
        { split; [lia|]. rewrite Nat2Z.id. cbn. rewrite <-app_assoc. rewrite lookup_app_r by lia. by rewrite Nat.sub_diag. }
        constructor; [|constructor]. split; [lia|]. rewrite Nat2Z.id. cbn. rewrite lookup_app_r by lia. by rewrite Nat.sub_diag.
    + cbn [s2 sf_pos]. rewrite !app_length. cbn [length] in *. lia.
    + exists s', ([pb; pc] ++ ext), ((pa, pb, pc) :: ts). split; [done|]. split; [rewrite Epos; cbn; by rewrite <-!app_assoc|].
      split; [rewrite app_length; cbn [length] in *; lia|]. split.
      { cbn [fan_ids]. constructor; [done|]. exact Hts. }
      rewrite <-app_assoc in HF'. exact HF'.
Qed.

Lemma fan_convex tab (a : Z) pre l : strictly_convex (place tab <$> (a :: pre ++ l)) →
  Forall (λ t, cross (place tab t.1.1) (place tab t.1.2) (place tab t.2) < 0) (fan_ids a l).
Proof.
  revert pre. induction l as [|b l IH]; intros pre H; [constructor|]. destruct l as [|c l]; [constructor|].
  change (fan_ids a (b :: c :: l)) with ((a, b, c) :: fan_ids a (c :: l)). constructor.
  - assert ((a :: pre ++ b :: c :: l) !! S (length pre) = Some b) as H1.
    { change ((pre ++ b :: c :: l) !! length pre = Some b). rewrite lookup_app_r by lia. by rewrite Nat.sub_diag. }
    assert ((a :: pre ++ b :: c :: l) !! S (S (length pre)) = Some c) as H2.
    { change ((pre ++ b :: c :: l) !! S (length pre) = Some c). rewrite lookup_app_r by lia. by replace (S (length pre) - length pre)%nat with 1%nat by lia. }
    apply (H 0%nat (S (length pre)) (S (S (length pre)))); [lia|done|rewrite list_lookup_fmap, H1; done|rewrite list_lookup_fmap, H2; done].
  - apply (IH (pre ++ [b])). by rewrite <-app_assoc.
Qed.

Lemma fan_poly_ok nvp m row s acc : row_ok nvp m row →
  Forall2 (λ i p, 0 <= i ∧ sf_pos s !! Z.to_nat i = Some p) (sf_idx s) acc →
  Z.of_nat (length (sf_pos s)) + 2 * Z.of_nat nvp < 4294967296 →
  ∃ s' ext ts, fan_poly m row s = Done s' ∧ sf_pos s' = sf_pos s ++ ext ∧ (length ext ≤ 2 * nvp)%nat ∧
    Forall2 (λ i p, 0 <= i ∧ sf_pos s' !! Z.to_nat i = Some p) (sf_idx s') (acc ++ concat (tri_list <$> ts)) ∧
    ∃ vs ids, padded nvp vs row ∧ triangulation vs ids ∧ Forall2 (placed (vertex_at m)) ids ts ∧
      (strictly_convex (place (pm_verts m) <$> vs) →
        Forall (λ t, cross (place (pm_verts m) t.1.1) (place (pm_verts m) t.1.2) (place (pm_verts m) t.2) < 0) ids).
Proof.
  intros (vs & Hp & Hr) HF Hlen. pose proof (indices_ok _ _ _ _ Hp Hr) as HI. destruct (Hp) as (-> & Hl & HV).
  destruct vs as [|a [|b [|c vs]]]; [cbn in Hl; lia..|].
  pose proof (Forall_inv HI) as (pa & Ea & Ha). apply Forall_inv_tail in HI. apply Forall_inv_tail in HV.
  cbn [app]. unfold fan_poly. cbn [get lookup list_lookup obind drop]. rewrite Ea. cbn [obind].
  set (l := b :: c :: vs). set (k := (nvp - length (a :: l))%nat). cbn [length] in Hl.
  rewrite sf_len_ok by lia.
  destruct (fan_fold nvp m a pa (Z.of_nat (length (sf_pos s))) k l (Sf (sf_pos s ++ [pa]) (sf_idx s)) acc) as (s' & ext & ts & E & Epos & Hext & Hts & HF');
    [exact HI|exact HV|exact Ha|lia| |done|cbn; lia| | |].
  { rewrite Nat2Z.id. cbn. rewrite lookup_app_r by lia. by rewrite Nat.sub_diag. }
  { eapply Forall2_impl; [exact HF|]. intros i p [H0 Hi]. split; [done|]. by apply lookup_app_l_Some. }
  { cbn. rewrite app_length. cbn. lia. }
  exists s', ([pa] ++ ext), ts. split; [exact E|]. split; [rewrite Epos; cbn; by rewrite <-app_assoc|]. cbn [l length] in Hext.
  split; [rewrite app_length; cbn [length]; lia|]. split; [exact HF'|].
  exists (a :: l), (fan_ids a l). split; [exact Hp|]. split; [apply cuts_triangulation, fan_cuts|]. split; [exact Hts|].
  apply (fan_convex (pm_verts m) a []).
Qed.

Lemma poly_surface_ok nvp m : Forall (row_ok nvp m) (pm_polys m) →
  2 * Z.of_nat nvp * Z.of_nat (length (pm_polys m)) < 4294967296 →
  ∃ s tss, poly_surface m = Done s ∧ consists s (concat tss) ∧
    Forall2 (λ row ts, ∃ vs ids, padded nvp vs row ∧ triangulation vs ids ∧ Forall2 (placed (vertex_at m)) ids ts ∧
      (strictly_convex (place (pm_verts m) <$> vs) →
        Forall (λ t, cross (place (pm_verts m) t.1.1) (place (pm_verts m) t.1.2) (place (pm_verts m) t.2) < 0) ids)) (pm_polys m) tss.
Proof.
  intros H Hb. unfold poly_surface, consists.
  assert (∀ rows s acc, Forall (row_ok nvp m) rows →
    Forall2 (λ i p, 0 <= i ∧ sf_pos s !! Z.to_nat i = Some p) (sf_idx s) acc →
    Z.of_nat (length (sf_pos s)) + 2 * Z.of_nat nvp * Z.of_nat (length rows) < 4294967296 →
    ∃ s' tss, foldM (fan_poly m) rows s = Done s' ∧
      Forall2 (λ i p, 0 <= i ∧ sf_pos s' !! Z.to_nat i = Some p) (sf_idx s') (acc ++ concat (tri_list <$> concat tss)) ∧
      Forall2 (λ row ts, ∃ vs ids, padded nvp vs row ∧ triangulation vs ids ∧ Forall2 (placed (vertex_at m)) ids ts ∧
      (strictly_convex (place (pm_verts m) <$> vs) →
        Forall (λ t, cross (place (pm_verts m) t.1.1) (place (pm_verts m) t.1.2) (place (pm_verts m) t.2) < 0) ids)) rows tss) as HG.
  { clear H Hb. induction rows as [|row rows IH]; intros s acc H HF Hb.
    - exists s, []. cbn. by rewrite app_nil_r.
    - apply Forall_cons in H as [Hr H]. cbn [length] in Hb.
      destruct (fan_poly_ok nvp m row s acc Hr HF) as (s1 & ext & ts & E1 & Epos & Hext & HF1 & Hvs); [lia|].
      destruct (IH s1 _ H HF1) as (s2 & tss & E2 & HF2 & Htss).
      { rewrite Epos, app_length. lia. }
      exists s2, (ts :: tss). cbn [foldM]. rewrite E1. cbn [obind]. split; [done|]. split; [|by constructor].
      cbn [concat]. rewrite fmap_app, concat_app. by rewrite app_assoc. }
  destruct (HG (pm_polys m) (Sf [] []) [] H) as (s & tss & E & HF & Htss); [constructor|cbn; lia|]. by exists s, tss.
Qed.

(** ** Detail meshes *)
Lemma slice_ok {A} (l : list A) b c : 0 <= b → 0 <= c → b + c <= Z.of_nat (length l) → slice l b c = Done (part l b c).
Proof.
  intros Hb Hc H. unfold slice. assert ((length l <? Z.to_nat b)%nat = false) as -> by lia. cbn [obind].
  rewrite drop_length. assert ((length l - Z.to_nat b <? Z.to_nat c)%nat = false) as -> by lia. done.
Qed.
Lemma part_length {A} (l : list A) b c : 0 <= b → 0 <= c → b + c <= Z.of_nat (length l) → Z.of_nat (length (part l b c)) = c.
Proof. intros. unfold part. rewrite take_length, drop_length. lia. Qed.

Definition sub_ok (d : dmesh) (m : submesh) : Prop :=
  0 <= sm_vbase m ∧ 0 <= sm_vcount m ∧ sm_vbase m + sm_vcount m <= Z.of_nat (length (dm_verts d)) ∧
  0 <= sm_tbase m ∧ 0 <= sm_tcount m ∧ sm_tbase m + sm_tcount m <= Z.of_nat (length (dm_tris d)) ∧
  Forall (λ t, ∀ x, x ∈ tri_ids t → Z.of_nat x < sm_vcount m) (part (dm_tris d) (sm_tbase m) (sm_tcount m)).

Lemma tri_placed (vs : list vec3) t : (∀ x, x ∈ tri_ids t → (x < length vs)%nat) →
  ∃ q, placed_nat vs t q ∧ mapM_o (get vs) (tri_ids t) = Done (tri_list q).
Proof.
  intros H. destruct t as [[a b] c]. unfold tri_ids in *. cbn [fst snd] in *.
  destruct (lookup_lt_is_Some_2 vs a) as [pa Ha]; [apply H; set_solver|].
  destruct (lookup_lt_is_Some_2 vs b) as [pb Hb]; [apply H; set_solver|].
  destruct (lookup_lt_is_Some_2 vs c) as [pc Hc]; [apply H; set_solver|].
  exists (pa, pb, pc). split; [done|]. cbn [mapM_o]. unfold get. rewrite Ha, Hb, Hc. done.
Qed.

Lemma sub_tris d m : sub_ok d m →
  ∃ ts, Forall2 (placed_nat (part (dm_verts d) (sm_vbase m) (sm_vcount m))) (part (dm_tris d) (sm_tbase m) (sm_tcount m)) ts.
Proof.
  intros (V1 & V2 & V3 & T1 & T2 & T3 & HT). pose proof (part_length _ _ _ V1 V2 V3) as HL.
  induction HT as [|t l Ht _ (ts & IH)]; [by exists []|].
  destruct (tri_placed (part (dm_verts d) (sm_vbase m) (sm_vcount m)) t) as (q & Hq & _).
  { intros x Hx. specialize (Ht x Hx). lia. }
  exists (q :: ts). by constructor.
Qed.

Lemma placed_nat_get vs t q : placed_nat vs t q → mapM_o (get vs) (tri_ids t) = Done (tri_list q).
Proof. destruct t as [[a b] c], q as [[x y] z]. intros (H1 & H2 & H3). cbn in *. unfold get. by rewrite H1, H2, H3. Qed.

Lemma sub_lines d m ts : sub_ok d m →
  Forall2 (placed_nat (part (dm_verts d) (sm_vbase m) (sm_vcount m))) (part (dm_tris d) (sm_tbase m) (sm_tcount m)) ts →
  ∃ lines, submesh_lines d m = Done lines ∧ Forall2 (λ q l, around (tri_list q) l) ts lines.
Proof.
  intros (V1 & V2 & V3 & T1 & T2 & T3 & HT) HF. unfold submesh_lines. rewrite !slice_ok by done. cbn [obind]. clear HT.
  induction HF as [|t q l ts Hq _ (lines & E & IH)]; [by exists []|].
  exists ((tri_list q ++ [q.1.1]) :: lines). cbn [mapM_o]. unfold tri_strip at 1. rewrite (placed_nat_get _ _ _ Hq). cbn [obind].
  unfold tri_list at 1. rewrite close_ok. cbn [obind]. rewrite E. cbn [obind]. split; [done|]. constructor; [|done]. by eexists _, _.
Qed.

Lemma push_ok n l acc : (∀ x, x ∈ l → 0 <= Z.of_nat x + n <= U32_MAX) →
  foldM (λ i acc, let! j := chk_u32 (Z.of_nat i + n) in Done (acc ++ [j])) l acc = Done (acc ++ ((λ i, Z.of_nat i + n) <$> l)).
Proof.
  revert acc. induction l as [|x l IH]; intros acc H; cbn [foldM]; [by rewrite app_nil_r|].
  assert (chk_u32 (Z.of_nat x + n) = Done (Z.of_nat x + n)) as ->.
  { unfold chk_u32, chk. specialize (H x ltac:(left)). assert ((0 <=? Z.of_nat x + n) && (Z.of_nat x + n <=? U32_MAX) = true) as -> by lia. done. }
  cbn [obind]. rewrite IH by (intros y Hy; apply H; by right). by rewrite <-app_assoc.
Qed.

Lemma sub_surface d m ts s acc : sub_ok d m →
  Forall2 (placed_nat (part (dm_verts d) (sm_vbase m) (sm_vcount m))) (part (dm_tris d) (sm_tbase m) (sm_tcount m)) ts →
  Forall2 (λ i p, 0 <= i ∧ sf_pos s !! Z.to_nat i = Some p) (sf_idx s) acc →
  Z.of_nat (length (sf_pos s)) + sm_vcount m < 4294967296 →
  ∃ s', submesh_surface d m s = Done s' ∧ Z.of_nat (length (sf_pos s')) = Z.of_nat (length (sf_pos s)) + sm_vcount m ∧
    Forall2 (λ i p, 0 <= i ∧ sf_pos s' !! Z.to_nat i = Some p) (sf_idx s') (acc ++ concat (tri_list <$> ts)).
Proof.
  intros (V1 & V2 & V3 & T1 & T2 & T3 & HT) HF HA Hlen. unfold submesh_surface. rewrite !slice_ok by done. cbn [obind].
  rewrite sf_len_ok by lia. set (vs := part (dm_verts d) (sm_vbase m) (sm_vcount m)) in *. pose proof (part_length _ _ _ V1 V2 V3 : Z.of_nat (length vs) = _) as HL.
  set (l := part (dm_tris d) (sm_tbase m) (sm_tcount m)) in *.
  rewrite push_ok.
  2:{ intros x Hx. apply elem_of_list_In, in_concat in Hx as (ids & Hids & Hx). apply elem_of_list_In, elem_of_list_fmap in Hids as (t & -> & Ht).
      rewrite Forall_forall in HT. specialize (HT t Ht x ltac:(by apply elem_of_list_In)). unfold U32_MAX. lia. }
  cbn [obind]. eexists. split; [done|]. cbn [sf_pos sf_idx]. split; [rewrite app_length; lia|].
  apply Forall2_app.
  { eapply Forall2_impl; [exact HA|]. intros i p [H0 Hi]. split; [done|]. by apply lookup_app_l_Some. }
  clear HT HA. induction HF as [|t q l' ts Hq _ IH]; [constructor|]. rewrite !fmap_cons. cbn [concat]. rewrite fmap_app. apply Forall2_app; [|exact IH].
  destruct t as [[a b] c], q as [[x y] z]. destruct Hq as (H1 & H2 & H3). cbn in *.
  assert (∀ i p, vs !! i = Some p → (sf_pos s ++ vs) !! Z.to_nat (Z.of_nat i + Z.of_nat (length (sf_pos s))) = Some p) as Hl.
  { intros i p Hi. rewrite lookup_app_r by lia. by replace (Z.to_nat (Z.of_nat i + Z.of_nat (length (sf_pos s))) - length (sf_pos s))%nat with i by lia. }
  repeat constructor; try lia; by apply Hl.
Qed.

Lemma detail_ok d : Forall (sub_ok d) (dm_meshes d) →
  foldr (λ m n, sm_vcount m + n) 0 (dm_meshes d) < 4294967296 →
  ∃ lines s, detail_lines d = Done lines ∧ detail_surface d = Done s ∧ detail_picture d lines s.
Proof.
  intros H Hb. unfold detail_lines, detail_surface, detail_picture, consists.
  assert (∃ tss, Forall2 (λ sm ts, Forall2 (placed_nat (part (dm_verts d) (sm_vbase sm) (sm_vcount sm)))
           (part (dm_tris d) (sm_tbase sm) (sm_tcount sm)) ts) (dm_meshes d) tss) as [tss HT].
  { clear Hb. induction H as [|m ms Hm _ (tss & IH)]; [by exists []|]. destruct (sub_tris d m Hm) as [ts Hts]. exists (ts :: tss). by constructor. }
  assert (∃ l, mapM_o (submesh_lines d) (dm_meshes d) = Done l ∧ Forall2 (λ q l, around (tri_list q) l) (concat tss) (concat l)) as (l & El & Hl).
  { clear Hb. induction HT as [|m ts ms tss Hts _ IH]; [exists []; split; [done|constructor]|]. apply Forall_cons in H as [Hm H].
    destruct (IH H) as (l & E & Hl). destruct (sub_lines d m ts Hm Hts) as (l0 & E0 & Hl0). exists (l0 :: l). cbn [mapM_o]. rewrite E0. cbn [obind]. rewrite E. cbn [obind].
    split; [done|]. cbn [concat]. by apply Forall2_app. }
  assert (∀ s acc, Forall2 (λ i p, 0 <= i ∧ sf_pos s !! Z.to_nat i = Some p) (sf_idx s) acc →
    Z.of_nat (length (sf_pos s)) + foldr (λ m n, sm_vcount m + n) 0 (dm_meshes d) < 4294967296 →
    ∃ s', foldM (submesh_surface d) (dm_meshes d) s = Done s' ∧
      Forall2 (λ i p, 0 <= i ∧ sf_pos s' !! Z.to_nat i = Some p) (sf_idx s') (acc ++ concat (tri_list <$> concat tss))) as HS.
  { clear Hb El Hl l. induction HT as [|m ts ms tss Hts _ IH]; intros s acc HA Hb.
    - exists s. split; [done|]. cbn. by rewrite app_nil_r.
    - apply Forall_cons in H as [Hm H]. cbn [foldr] in Hb.
      assert (0 <= foldr (λ m n, sm_vcount m + n) 0 ms) as H0.
      { clear -H. induction H as [|m' ms Hm _ IH]; cbn [foldr]; [lia|]. destruct Hm as (_ & ? & _). lia. }
      destruct (sub_surface d m ts s acc Hm Hts HA) as (s1 & E1 & L1 & HA1); [lia|].
      destruct (IH H s1 _ HA1) as (s2 & E2 & HA2); [lia|]. exists s2. cbn [foldM]. rewrite E1. cbn [obind]. split; [done|].
      cbn [concat]. rewrite fmap_app, concat_app. by rewrite app_assoc. }
  destruct (HS (Sf [] []) []) as (s & Es & Hs); [constructor|cbn; lia|].
  exists (concat l), s. rewrite El. cbn [obind]. split; [done|]. split; [done|]. exists tss. done.
Qed.
