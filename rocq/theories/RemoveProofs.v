(** Removing a vertex never completes: the pairs of corners wrap the wrong way
    and reach into the padding. *)
From Verif Require Import Base ModelMath ModelContours ModelPoly SpecPoly FlowProofs TriangulateProofs MergeProofs MergeLoopProofs
  WeldProofs AdjacencyProofs MeshProofs MeshShapeProofs.
Local Open Scope Z_scope.

(** ** The loop that orders the hole *)

Definition has_val (x : Z) (hole : list (Z * Z * Z)) : Prop := x ∈ ((λ h : Z * Z * Z, h.1.1) <$> hole).

Lemma hole_loop_keeps x fuel cap : ∀ edges ne hole i b, has_val x hole → gives (hole_loop fuel cap edges ne hole i b) (has_val x).
Proof.
  induction fuel as [|fuel IH]; intros edges ne hole i b Hh; cbn [hole_loop]; [apply gives_fuel|].
  destruct (i <? ne)%nat.
  2: { destruct (b && _); [by apply IH|by apply gives_done]. }
  apply gives_get. intros d _. apply gives_get. intros h _. apply gives_get. intros t _.
  destruct (_ =? he_2 d); [|destruct (_ =? he_1 d); [|by apply IH]].
  - unfold push_hole. destruct (_ <? cap)%nat; [|apply gives_panic]. cbn [obind].
    apply gives_get. intros l _. apply gives_put. intros _. apply IH. unfold has_val. rewrite fmap_cons. by right.
  - unfold push_hole. destruct (_ <? cap)%nat; [|apply gives_panic]. cbn [obind].
    apply gives_get. intros l _. apply gives_put. intros _. apply IH. unfold has_val. rewrite fmap_app. apply elem_of_app. by left.
Qed.

(** An edge that fits neither end of the hole is examined forever. *)
Lemma hole_loop_stuck fuel cap edges ne hole i b d h t Q : (i < ne)%nat → edges !! i = Some d → hole !! 0%nat = Some h →
  hole !! (length hole - 1)%nat = Some t → h.1.1 ≠ he_2 d → t.1.1 ≠ he_1 d → gives (hole_loop fuel cap edges ne hole i b) Q.
Proof.
  intros Hi Hd Hh Ht H1 H2. induction fuel as [|fuel IH]; cbn [hole_loop]; [apply gives_fuel|].
  destruct (i <? ne)%nat eqn:Ei; [|lia]. rewrite (get_some _ _ _ Hd), (get_some _ _ _ Hh), (get_some _ _ _ Ht). cbn [obind].
  destruct (_ =? he_2 d) eqn:E2; [lia|]. destruct (_ =? he_1 d) eqn:E1; [lia|]. done.
Qed.

(** The first edge leads somewhere and the last one starts at the padding: the
    padding ends up in the hole. *)
Lemma hole_loop_padding fuel cap edges ne e l x : (0 < ne)%nat → edges !! 0%nat = Some e → edges !! (ne - 1)%nat = Some l → he_1 l = x →
  he_1 e = x ∨ he_1 e ≠ he_2 e →
  gives (hole_loop fuel cap edges ne [(he_1 e, he_reg e, he_area e)] 0 false) (has_val x).
Proof.
  intros Hne He Hl Hx Hcase.
  destruct (decide (he_1 e = x)) as [Ex|Ex].
  { apply hole_loop_keeps. unfold has_val. rewrite fmap_cons. cbn. rewrite Ex. left. }
  assert (2 <= ne)%nat as H2.
  { destruct (decide (ne = 1%nat)) as [->|]; [|lia]. cbn in Hl. congruence. }
  destruct Hcase as [?|Hd]; [done|].
  destruct fuel as [|fuel]; [apply gives_fuel|]. cbn [hole_loop].
  destruct (0 <? ne)%nat eqn:E0; [|lia]. rewrite (get_some _ _ _ He). cbn [obind get lookup list_lookup length Nat.sub fst snd].
  destruct (he_1 e =? he_2 e) eqn:E1; [lia|]. rewrite Z.eqb_refl.
  unfold push_hole. destruct (_ <? cap)%nat; [|apply gives_panic]. cbn [obind app].
  rewrite (get_some _ _ _ Hl). cbn [obind]. apply gives_put. intros Hlen.
  destruct (decide (ne = 2%nat)) as [->|H3].
  - (* one edge left: the first one again, and it fits nowhere *)
    destruct fuel as [|fuel]; [apply gives_fuel|]. cbn [hole_loop]. change (1 <? 2 - 1)%nat with false. cbn [andb negb Nat.sub Nat.eqb].
    eapply (hole_loop_stuck fuel cap _ 1 _ 0 false e); [lia| |done|done|done|].
    + by rewrite list_lookup_insert_ne.
    + cbn. congruence.
  - destruct (decide (he_1 e = he_2 l)) as [Ea|Ea].
    + destruct fuel as [|fuel]; [apply gives_fuel|]. cbn [hole_loop]. destruct (1 <? ne - 1)%nat eqn:E3; [|lia].
      rewrite (get_some _ _ l) by (by rewrite list_lookup_insert). cbn [obind get lookup list_lookup length Nat.sub fst snd].
      destruct (he_1 e =? he_2 l) eqn:E4; [|lia].
      unfold push_hole. destruct (_ <? cap)%nat; [|apply gives_panic]. cbn [obind].
      apply gives_get. intros l' _. apply gives_put. intros _. apply hole_loop_keeps. unfold has_val. rewrite fmap_cons. cbn. rewrite Hx. left.
    + destruct (decide (he_2 e = x)) as [Eb|Eb].
      * apply hole_loop_keeps. unfold has_val. cbn. rewrite Eb. right. left.
      * eapply (hole_loop_stuck fuel cap _ (ne - 1) _ 1 true l); [lia|by rewrite list_lookup_insert|done|done|done|]. cbn. congruence.
Qed.

(** ** The edges of the hole *)

Section remove.
Context (nvp : nat) (rem : nat) (Hrem : Z.of_nat rem < 65535).
Let r0 := Z.of_nat rem.

(** A row whose first and last corners differ. *)
Definition drow (r : list Z * list Z) : Prop :=
  ∃ vs, padded nvp vs r.1 ∧ r.2 = repeat NO_INDEX nvp ∧ vs !!! 0%nat ≠ vs !!! (length vs - 1)%nat.

Definition first_ok (st : list hedge * nat) : Prop :=
  st.2 = 0%nat ∨ ∃ e, st.1 !! 0%nat = Some e ∧ he_1 e ≠ r0 ∧ he_2 e ≠ r0 ∧ (he_1 e = 65535 ∨ he_1 e ≠ he_2 e).
Definition last_ok (st : list hedge * nat) : Prop :=
  st.2 = 0%nat ∨ ∃ l, st.1 !! (st.2 - 1)%nat = Some l ∧ he_1 l = 65535.

Lemma first_push edges ne e : (ne < length edges)%nat → first_ok (edges, ne) → he_1 e ≠ r0 → he_2 e ≠ r0 → he_1 e = 65535 ∨ he_1 e ≠ he_2 e →
  first_ok (<[ne := e]> edges, S ne).
Proof.
  intros Hl [H|(e0 & H0 & H)] H1 H2 H3; right; cbn in *.
  - subst ne. exists e. by rewrite list_lookup_insert.
  - destruct (decide (ne = 0%nat)) as [->|Hne].
    + exists e. by rewrite list_lookup_insert.
    + exists e0. by rewrite list_lookup_insert_ne.
Qed.
Lemma last_push edges ne e : (ne < length edges)%nat → he_1 e = 65535 → last_ok (<[ne := e]> edges, S ne).
Proof. intros Hl H. right. exists e. cbn. rewrite Nat.sub_0_r. by rewrite list_lookup_insert. Qed.

Lemma row_pad vs r k : padded nvp vs r.1 → r.2 = repeat NO_INDEX nvp → (length vs <= k < 2 * nvp)%nat → (r.1 ++ r.2) !! k = Some 65535.
Proof.
  intros (E & Hl & _) E2 Hk. rewrite E, E2, <- app_assoc, lookup_app_r by lia. unfold NO_INDEX.
  rewrite <- repeat_app. apply repeat_lookup. lia.
Qed.
Lemma row_vert vs r k : padded nvp vs r.1 → (k < length vs)%nat → (r.1 ++ r.2) !! k = Some (vs !!! k).
Proof.
  intros (E & Hl & _) Hk. rewrite E, <- app_assoc, lookup_app_l by lia. by apply list_lookup_lookup_total_lt.
Qed.

Lemma foldM_fmap {A C St} (g : A → C) (f : C → St → outcome St) l s : foldM f (g <$> l) s = foldM (λ a, f (g a)) l s.
Proof. revert s. induction l as [|a l IH]; intros s; [done|]. cbn. destruct (f (g a) s); cbn; [apply IH|done|done]. Qed.

Lemma hole_edges_ends r reg area st : drow r → first_ok st → last_ok st →
  gives (hole_edges r0 nvp r reg area st) (λ st', first_ok st' ∧ last_ok st' ∧ (0 < st.2 → 0 < st'.2)%nat ∧
    ((count_rem r0 nvp (r.1 ++ r.2) + 2 <= count_verts (r.1 ++ r.2) nvp)%nat → (0 < st'.2)%nat)).
Proof.
  intros (vs & P & E2 & Hd) HF HL. unfold hole_edges, zip_pairs, count_rem. rewrite (count_whole nvp vs) by done.
  set (n := length vs). assert (3 <= n <= nvp)%nat as Hn by apply P. rewrite foldM_fmap.
  set (row := r.1 ++ r.2).
  eapply gives_mono.
  { apply (gives_seq (λ j st', first_ok st' ∧ (last_ok st' ∨ (vs !!! (n - 1)%nat ≠ r0 ∧ (0 < j < n)%nat)) ∧ (0 < st.2 → 0 < st'.2)%nat ∧
      ((∃ k, (1 <= k < j)%nat ∧ vs !!! k ≠ r0) → (0 < st'.2)%nat))).
    - split; [done|]. split; [by left|]. split; [done|]. intros (k & ? & _). lia.
    - intros j [edges ne] Hj (I1 & I2 & I3 & I4).
      unfold row. rewrite (get_some _ _ _ (row_vert vs r j P ltac:(lia))). cbn [obind].
      set (pk := if (j =? 0)%nat then vs !!! (n - 1)%nat else 65535).
      assert ((r.1 ++ r.2) !! (n - 1 + j)%nat = Some pk) as Hpk.
      { unfold pk. destruct (j =? 0)%nat eqn:Ej.
        - assert (j = 0)%nat as -> by lia. rewrite Nat.add_0_r. apply (row_vert vs); [done|lia].
        - apply (row_pad vs); [done|done|lia]. }
      rewrite (get_some _ _ _ Hpk). cbn [obind].
      destruct (vs !!! j =? r0) eqn:Ej; cbn [negb andb].
      { apply gives_done. split; [done|]. split; [|split; [done|]].
        - destruct I2 as [?|[? ?]]; [by left|]. right. split; [done|]. destruct (decide (j = (n - 1)%nat)) as [->|]; [lia|lia].
        - intros (k & Hk & Hv). apply I4. exists k. split; [|done]. assert (k ≠ j) by (intros ->; lia). lia. }
      destruct (pk =? r0) eqn:Ep; cbn [negb andb].
      { apply gives_done. unfold pk in Ep. destruct (j =? 0)%nat eqn:E0; [|unfold r0 in Ep; lia].
        split; [done|]. split; [|split; [done|]].
        - destruct I2 as [?|[? ?]]; [by left|]. lia.
        - intros (k & Hk & Hv). lia. }
      apply gives_put. intros Hl. apply gives_done. split; [|split; [|split]].
      + apply first_push; [done|done|cbn; lia|cbn; lia|]. cbn. unfold pk. destruct (j =? 0)%nat eqn:E0; [|by left].
        right. assert (j = 0)%nat as -> by lia. done.
      + unfold pk in *. destruct (j =? 0)%nat eqn:E0; [right; split; lia|]. left. by apply last_push.
      + cbn. lia.
      + cbn. lia. }
  cbn beta. intros st' (I1 & I2 & I3 & I4). split; [done|]. split; [destruct I2 as [?|[_ ?]]; [done|lia]|]. split; [done|].
  intros Hc. apply I4. pose proof P as (E & _ & _).
  assert (take n row = vs) as Et by (unfold row, n; rewrite E, <- app_assoc; apply take_app). rewrite Et in Hc.
  destruct vs as [|v vs']; [cbn in Hn; lia|].
  destruct (decide (Forall (λ x, x = r0) vs')) as [Hall|Hnot].
  - exfalso. assert (length (filter (λ x, x = r0) (v :: vs')) >= length vs')%nat.
    { rewrite filter_cons. assert (filter (λ x, x = r0) vs' = vs') as ->.
      { clear -Hall. induction Hall as [|x l -> _ IH]; [done|]. rewrite filter_cons_True by done. by rewrite IH. }
      destruct (decide _); cbn; lia. }
    unfold n in Hc. cbn [length] in Hc. lia.
  - apply not_Forall_Exists in Hnot; [|apply _]. apply Exists_exists in Hnot as (x & Hx & Hne).
    apply elem_of_list_lookup in Hx as [k Hk]. exists (S k). split; [apply lookup_lt_Some in Hk; unfold n; cbn; lia|].
    rewrite (list_lookup_total_correct (v :: vs') (S k) x Hk). done.
Qed.

(** A polygon with at least two corners besides the removed one. *)
Definition wide (r : list Z * list Z) : Prop :=
  count_rem r0 nvp (r.1 ++ r.2) ≠ 0%nat ∧ (count_rem r0 nvp (r.1 ++ r.2) + 2 <= count_verts (r.1 ++ r.2) nvp)%nat.
Definition drows (m : imesh) : Prop := ∀ i r, (i < im_np m)%nat → im_polys m !! i = Some r → drow r.

Lemma drop_polys_edges fuel : ∀ i m st, drows m → first_ok st → last_ok st →
  ((∃ k r, (i <= k < im_np m)%nat ∧ im_polys m !! k = Some r ∧ wide r) ∨ (0 < st.2)%nat) →
  gives (drop_polys fuel r0 nvp i m st) (λ '(m', st'), first_ok st' ∧ last_ok st' ∧ (0 < st'.2)%nat ∧ im_verts m' = im_verts m).
Proof.
  induction fuel as [|fuel IH]; intros i m st Hd HF HL Hw; cbn [drop_polys]; destruct (i <? im_np m)%nat eqn:Ei.
  1: apply gives_fuel.
  1, 3: apply gives_done; split; [done|]; split; [done|]; split; [|done]; destruct Hw as [(k & r & Hk & _)|?]; [lia|done].
  apply gives_get. intros r Hr. destruct (_ =? 0)%nat eqn:Ec.
  { apply IH; [done..|]. destruct Hw as [(k & r' & Hk & Hr' & Hw)|?]; [|by right]. left. exists k, r'. split; [|done].
    assert (k ≠ i); [|lia]. intros ->. assert (r' = r) as -> by congruence. destruct Hw as [Hw _]. lia. }
  apply gives_get. intros reg _. apply gives_get. intros area _.
  pose proof (Hd i r ltac:(lia) Hr) as Dr.
  eapply gives_bind; [by apply (hole_edges_ends r reg area st)|]. intros st' (HF' & HL' & Hn1 & Hn2).
  apply gives_get. intros l Hl. pose proof (Hd (im_np m - 1)%nat l ltac:(lia) Hl) as Dl.
  assert ((l.1, repeat NO_INDEX nvp) = l) as El by (destruct l as [l1 l2], Dl as (? & ? & ? & ?); cbn in *; congruence). rewrite El.
  apply gives_put. intros L1. apply gives_get. intros lreg _. apply gives_put. intros _. apply gives_get. intros la _. apply gives_put. intros _.
  eapply gives_mono; [apply IH; [|done|done|]|].
  - intros k r' Hk. cbn in *. apply (put_within drow _ (im_np m - 1)); [|done|done]. intros k' y Hk'. apply Hd. lia.
  - destruct Hw as [(k & r' & Hk & Hr' & Hw)|?]; [|right; tauto].
    destruct (decide (k = i)) as [->|Hki].
    { right. apply Hn2. assert (r' = r) as -> by congruence. apply Hw. }
    left. cbn. destruct (decide (k = (im_np m - 1)%nat)) as [->|].
    + exists i, r'. split; [lia|]. rewrite list_lookup_insert by done. split; [congruence|done].
    + exists k, r'. split; [lia|]. by rewrite list_lookup_insert_ne.
  - intros [m' st'']. done.
Qed.

Lemma can_remove_wide m : can_remove r0 nvp m = Done true → ∃ k r, (k < im_np m)%nat ∧ im_polys m !! k = Some r ∧ wide r.
Proof.
  unfold can_remove. destruct (_ <? im_np m)%nat; [done|].
  destruct (_ <=? 2) eqn:E; [done|]. intros _. apply Z.leb_gt in E.
  set (f := λ r : list Z * list Z, let c := count_rem r0 nvp (r.1 ++ r.2) in
    if (c =? 0)%nat then 0 else Z.of_nat (count_verts (r.1 ++ r.2) nvp) - (Z.of_nat c + 1)) in *.
  assert (∀ l, 0 < foldr Z.add 0 (f <$> l) → ∃ r, r ∈ l ∧ 0 < f r) as H.
  { induction l as [|r l IH]; cbn; [lia|]. intros Hs. destruct (decide (0 < f r)).
    - exists r. split; [left|done].
    - destruct IH as (r' & ? & ?); [cbn in *; lia|]. exists r'. split; [by right|done]. }
  destruct (H (take (im_np m) (im_polys m))) as (r & Hr & Hf); [lia|].
  apply elem_of_take in Hr as (k & Hr & Hk). exists k, r. split; [done|]. split; [done|].
  unfold f in Hf. cbn zeta in Hf. unfold wide. destruct (_ =? 0)%nat eqn:Ec; [lia|]. split; lia.
Qed.

Lemma remove_vertex_never fuel mt m : drows m → (rem < im_nv m)%nat → Z.of_nat (length (im_verts m)) < 65535 →
  can_remove r0 nvp m = Done true → gives (remove_vertex fuel rem mt nvp m) (λ _, False).
Proof.
  intros Hd Hr Hlen Hcan. apply can_remove_wide in Hcan as (k & r & Hk & Hrk & Hw).
  unfold remove_vertex. fold r0. destruct (_ <? im_np m)%nat; [apply gives_panic|].
  generalize (sum_list ((λ row, count_rem r0 nvp (row.1 ++ row.2)) <$> take (im_np m) (im_polys m)) * nvp)%nat. intros cap.
  eapply gives_bind; [apply (drop_polys_edges _ 0 m (repeat hedge0 cap, 0%nat)); [done|by left|by left|left; exists k, r; split; [lia|done]]|].
  intros [m1 [edges ne]] (HF & HL & Hne & V1). cbn in Hne.
  eapply (gives_bind _ _ (λ m2, length (im_verts m2) = length (im_verts m1))).
  { unfold drop_vertex. destruct (_ =? 0)%nat; [apply gives_panic|].
    eapply (gives_bind _ _ (λ vs, length vs = length (im_verts m1))); [|intros vs ?; by apply gives_done].
    apply gives_keep; [done|]. intros i vs _ Hl. apply gives_get. intros v _. intros a [_ ->]%put_done. by rewrite insert_length. }
  intros m2 L2. cbn beta zeta.
  set (sh := λ e : hedge, HE (shift r0 (he_1 e)) (shift r0 (he_2 e)) (he_reg e) (he_area e)).
  destruct (ne =? 0)%nat eqn:Ene; [lia|].
  destruct HF as [?|(e & He & He1 & He2 & Hec)]; [cbn in *; lia|]. destruct HL as [?|(l & Hl & Hl1)]; [cbn in *; lia|]. cbn in He, Hl.
  assert (ne <= length edges)%nat as Hle by (apply lookup_lt_Some in Hl; lia).
  assert (∀ i x, (i < ne)%nat → edges !! i = Some x → ((sh <$> take ne edges) ++ drop ne edges) !! i = Some (sh x)) as Hsh.
  { intros i x Hi Hx. rewrite lookup_app_l by (rewrite fmap_length, take_length; lia). rewrite list_lookup_fmap, lookup_take by lia. by rewrite Hx. }
  rewrite (get_some _ _ _ (Hsh _ _ Hne He)). cbn [obind].
  unfold push_hole. destruct (_ <? cap)%nat; [|apply gives_panic]. cbn [obind app].
  assert (shift r0 65535 = 65534) as Es by (unfold shift; destruct (_ <? 65535) eqn:E; [done|]; unfold r0 in E; lia).
  eapply gives_bind.
  { apply (hole_loop_padding fuel cap _ ne (sh e) (sh l) 65534); [done|by apply Hsh|apply Hsh; [lia|done]|cbn; by rewrite Hl1|].
    destruct Hec as [Hec|Hec]; [left; cbn; by rewrite Hec|right]. cbn. unfold shift. destruct (_ <? he_1 e) eqn:G1, (_ <? he_2 e) eqn:G2; lia. }
  intros hole Hh. eapply (gives_bind _ _ (λ _, False)); [|intros ? []].
  intros tv Htv. apply mapM_get_lt in Htv. rewrite Forall_forall in Htv.
  unfold has_val in Hh. apply elem_of_list_fmap in Hh as (h & Eh & Hin). specialize (Htv h Hin). cbn in Htv. rewrite <- Eh in Htv.
  rewrite L2, V1 in Htv. lia.
Qed.
End remove.

Lemma remove_flagged_none nvp fuel hf mt : ∀ i flags m, drows nvp m → (im_nv m <= length (im_verts m))%nat → Z.of_nat (length (im_verts m)) < 65535 →
  gives (remove_flagged fuel hf mt nvp i flags m) (λ r, r = Ok m).
Proof.
  induction fuel as [|fuel IH]; intros i flags m Hd Hn Hl; cbn [remove_flagged]; destruct (i <? im_nv m)%nat eqn:Ei.
  1: apply gives_fuel.
  1, 3: by apply gives_done.
  apply gives_get. intros [|] _; [|by apply IH].
  eapply (gives_bind _ _ (λ can, can_remove (Z.of_nat i) nvp m = Done can)); [by intros can|]. intros [|] Hcan; cbn [negb]; [|by apply IH].
  unfold pbind. eapply gives_bind; [apply (remove_vertex_never nvp i); [lia|done|lia|done|done]|]. intros ? [].
Qed.

(** ** Contours with and without border flags *)

Definition unflag (c : contour) : contour := Ct ((λ p : rawv, (p.1, 0)) <$> ct_verts c) (ct_raw c) (ct_reg c) (ct_area c).

Lemma add_contour_unflag vs : ∀ ind t flags fl0, gives (foldM (λ (p : rawv) '(ind, t, flags),
      let! (i, t) := add_vertex p.1 t in
      let! flags := if negb (Z.land p.2 BORDER_VERTEX =? 0) then put flags i true else Done flags in
      Done (ind ++ [i], t, flags)) vs (ind, t, flags))
   (λ '(ind', t', flags'), foldM (λ (p : rawv) '(ind, t, flags),
      let! (i, t) := add_vertex p.1 t in
      let! flags := if negb (Z.land p.2 BORDER_VERTEX =? 0) then put flags i true else Done flags in
      Done (ind ++ [i], t, flags)) ((λ p : rawv, (p.1, 0)) <$> vs) (ind, t, fl0) = Done (ind', t', fl0)).
Proof.
  induction vs as [|p vs IH]; intros ind t flags fl0; cbn [foldM fmap list_fmap]; [by apply gives_done|]. cbn [fst snd].
  destruct (add_vertex p.1 t) as [[i t']| |]; cbn [obind]; [|apply gives_panic|apply gives_fuel].
  change (negb (Z.land 0 BORDER_VERTEX =? 0)) with false. cbn [obind].
  rewrite obind_assoc. eapply (gives_bind _ _ (λ _, True)); [done|]. intros flags' _. cbn [obind]. apply IH.
Qed.

Lemma unflag_points c : fst <$> ct_verts (unflag c) = fst <$> ct_verts c.
Proof. cbn. rewrite <- list_fmap_compose. done. Qed.
Lemma unflag_length c : length (ct_verts (unflag c)) = length (ct_verts c).
Proof. apply fmap_length. Qed.

Definition swap_flags (fl0 : list bool) (r : presult (vtab * list bool * imesh)) : presult (vtab * list bool * imesh) :=
  match r with Ok (t, _, m) => Ok (t, fl0, m) | Err e => Err e end.

Lemma one_contour_unflag cap nvp c t flags m fl0 :
  gives (one_contour cap nvp c (t, flags, m)) (λ r, one_contour cap nvp (unflag c) (t, fl0, m) = Done (swap_flags fl0 r)).
Proof.
  unfold one_contour. rewrite unflag_points, unflag_length. destruct (_ <? 3)%nat; [by apply gives_done|].
  unfold pbind. destruct (triangulate _ _ _) as [[tris|e]| |]; cbn [obind]; [|by apply gives_done|apply gives_panic|apply gives_fuel].
  eapply gives_bind; [apply (add_contour_unflag (ct_verts c) [] t flags fl0)|]. intros [[ind t'] flags'] E. cbn beta iota in E.
  unfold add_contour. change (ct_verts (unflag c)) with ((λ p : rawv, (p.1, 0)) <$> ct_verts c). rewrite E. cbn [obind].
  destruct (init_polys nvp ind tris) as [polys| |]; cbn [obind]; [|apply gives_panic|apply gives_fuel].
  destruct (length polys =? 0)%nat; [by apply gives_done|].
  destruct (merge_all _ _ _ _) as [polys'| |]; cbn [obind]; [|apply gives_panic|apply gives_fuel].
  change (ct_reg (unflag c)) with (ct_reg c). change (ct_area (unflag c)) with (ct_area c).
  destruct (store_polys _ _ _ _ _) as [m'| |]; cbn [obind]; [|apply gives_panic|apply gives_fuel]. by apply gives_done.
Qed.
Lemma all_contours_unflag cap nvp cs : ∀ t flags m fl0,
  gives (all_contours cap nvp cs (t, flags, m)) (λ r, all_contours cap nvp (unflag <$> cs) (t, fl0, m) = Done (swap_flags fl0 r)).
Proof.
  induction cs as [|c cs IH]; intros t flags m fl0; cbn [all_contours fmap list_fmap]; [by apply gives_done|].
  unfold pbind. eapply gives_bind; [apply (one_contour_unflag cap nvp c t flags m fl0)|].
  intros [[[t' flags'] m']|e] E; rewrite E; cbn [obind swap_flags]; [apply IH|by apply gives_done].
Qed.

Lemma live_unflag cs : live_contours (unflag <$> cs) = unflag <$> live_contours cs.
Proof.
  unfold live_contours. induction cs as [|c cs IH]; [done|]. rewrite fmap_cons.
  destruct (decide (3 <= length (ct_verts c))%nat) as [H|H].
  - rewrite !filter_cons_True by (by rewrite ?unflag_length). by rewrite fmap_cons, IH.
  - rewrite !filter_cons_False by (by rewrite ?unflag_length). done.
Qed.
Lemma unflag_sizes cs : max_vertices (unflag <$> cs) = max_vertices cs ∧ max_tris (unflag <$> cs) = max_tris cs ∧
  max_verts_per_cont (unflag <$> cs) = max_verts_per_cont cs.
Proof.
  unfold max_vertices, max_tris, max_verts_per_cont. rewrite live_unflag, <- !list_fmap_compose.
  assert (∀ f : nat → nat, (λ c, f (length (ct_verts c))) ∘ unflag <$> live_contours cs = (λ c, f (length (ct_verts c))) <$> live_contours cs) as H.
  { intros f. apply list_fmap_ext. intros i c _. unfold compose. by rewrite unflag_length. }
  rewrite (H (λ x, x)), (H (λ x, x - 2)%nat). done.
Qed.

(** No polygon of a tiling has an edge from a corner to itself. *)
Lemma tiling_no_loop {A} `{EqDecision A} (l : list A) g v : NoDup l → (3 <= length l)%nat → tiling l g → (v, v) ∈ edges_of g → False.
Proof.
  intros Hl H3 [_ [ds E] Hnd] Hin.
  assert ((v, v) ∈ cycle_edges l ++ ds ++ (flip <$> ds)) as H by (by rewrite <- E).
  rewrite E in Hnd. apply elem_of_app in H as [H|H]; [by eapply (cycle_no_flip l (v, v))|].
  apply NoDup_app in Hnd as (_ & _ & Hnd). apply NoDup_app in Hnd as (_ & Hd & _).
  apply elem_of_app in H as [H|H].
  - apply (Hd (v, v) H). apply elem_of_list_fmap. by exists (v, v).
  - apply elem_of_list_fmap in H as ([a b] & Ef & H). injection Ef as <- <-. apply (Hd _ H). apply elem_of_list_fmap. by exists (v, v).
Qed.

Lemma cycle_last {A} `{Inhabited A} (l : list A) : (0 < length l)%nat → (l !!! (length l - 1)%nat, l !!! 0%nat) ∈ cycle_edges l.
Proof.
  destruct l as [|x l]; [cbn; lia|]. intros _. cbn [cycle_edges length]. apply elem_of_list_lookup. exists (length l).
  rewrite lookup_zip_with. replace (S (length l) - 1)%nat with (length l) by lia.
  rewrite (list_lookup_lookup_total_lt (x :: l)) by (cbn; lia). cbn [mbind option_bind].
  rewrite lookup_app_r, Nat.sub_diag by lia. done.
Qed.

Lemma unflag_same hf nvp ks hf' : (3 <= nvp)%nat → Z.of_nat (max_vertices (ks_contours ks)) < 65535 →
  Forall (λ c, NoDup ((λ p : rawv, (vx p.1, vz p.1)) <$> ct_verts c)) (live_contours (ks_contours ks)) →
  gives (into_polygon_mesh hf nvp ks) (λ r, into_polygon_mesh hf' nvp
    (CSet (unflag <$> ks_contours ks) (ks_geo ks) (ks_w ks) (ks_h ks) (ks_border ks) (ks_maxerr ks)) = Done r).
Proof.
  intros H3 Hmv Hd. unfold into_polygon_mesh. cbn [ks_contours ks_geo ks_w ks_h ks_border ks_maxerr].
  destruct (unflag_sizes (ks_contours ks)) as (-> & -> & ->).
  set (mv := max_vertices (ks_contours ks)) in *. set (mt := max_tris (ks_contours ks)).
  destruct (65535 <? Z.of_nat mv); [by apply gives_done|]. cbn zeta.
  set (t0 := VTab _ _ _ _). set (m0 := IM _ _ _ _ _ _).
  unfold pbind. eapply gives_bind; [apply (all_contours_unflag (max_verts_per_cont (ks_contours ks)) nvp (ks_contours ks) t0 (repeat false mv) m0 (repeat false mv))|].
  intros r E.
  (* the rows come from the contours without flags *)
  assert (match r with Ok (t, _, m) => ∃ ext ps rows, vtab_rep mv t ext ∧ Forall (piece_ok nvp ext) ps ∧
    Forall2 (λ row vs, padded nvp vs row) rows (concat (snd <$> ps)) ∧ ∃ R A, store_rep nvp mt m rows R A | Err _ => True end) as Hr.
  { pose proof (all_contours_ends True nvp mt mv (max_verts_per_cont (ks_contours ks)) (repeat false mv) H3 ltac:(lia) (unflag <$> ks_contours ks) t0 m0 [] [] [] []) as H.
    rewrite E in H. destruct r as [[[t flags] m]|e]; [|done]. cbn [swap_flags ends] in H.
    destruct H as (_ & ext & ps & rows & R1 & _ & Hok & _ & HF & S & _).
    - rewrite live_unflag. apply Forall_fmap. eapply Forall_impl; [exact Hd|]. intros c Hc. split; [|split].
      + cbn. apply Forall_fmap, Forall_true. intros p. done.
      + cbn. rewrite <- list_fmap_compose. done.
      + by right.
    - destruct (unflag_sizes (ks_contours ks)) as (_ & _ & <-). apply max_cap.
    - apply empty_rep.
    - left. constructor.
    - split; cbn; rewrite ?Nat.sub_0_r; done.
    - destruct (unflag_sizes (ks_contours ks)) as (-> & _). cbn. fold mv. lia.
    - destruct (unflag_sizes (ks_contours ks)) as (_ & -> & _). cbn. fold mt. lia.
    - exists ext, ps, rows. split; [done|]. split; [done|]. split; [done|]. by eexists _, _. }
  rewrite E. destruct r as [[[t flags] m]|e]; cbn [obind swap_flags]; [|by apply gives_done].
  destruct Hr as (ext & ps & rows & R1 & Hok & HF & R & A & S).
  set (m1 := IM (vt_verts t) (vt_n t) (take (im_np m) (im_polys m)) (im_np m) (im_regs m) (im_areas m)).
  assert (im_nv m1 <= mv)%nat as Hnv by (cbn; rewrite (vr_n _ _ _ R1); apply (vr_cap _ _ _ R1)).
  eapply gives_bind; [apply (remove_flagged_none nvp (2 * im_nv m1) hf mt 0 flags m1)|].
  - intros i r Hi Hr. cbn in Hi, Hr. rewrite lookup_take in Hr by done. rewrite (st_polys _ _ _ _ _ _ S) in Hr.
    rewrite (st_np _ _ _ _ _ _ S) in Hi. rewrite lookup_app_l in Hr by (by rewrite fmap_length).
    rewrite list_lookup_fmap in Hr. destruct (rows !! i) as [row|] eqn:Hrow; [|done]. injection Hr as <-.
    destruct (Forall2_lookup_l _ _ _ _ _ HF Hrow) as (vs & Hvs & P). exists vs. split; [done|]. split; [done|].
    intros El. apply elem_of_list_lookup_2, elem_of_concat in Hvs as (g & Hvs & Hg). apply elem_of_list_fmap in Hg as ([[c ind] g'] & -> & Hp).
    rewrite Forall_forall in Hok. destruct (Hok _ Hp) as (_ & Hnd & Ht & _ & Hne & Hlen & _). cbn [snd] in Hvs.
    assert (length g' ≠ 0)%nat by (destruct g'; [done|cbn; lia]).
    eapply (tiling_no_loop ind g' (vs !!! 0%nat) Hnd); [lia|done|]. unfold edges_of. apply elem_of_concat. exists (cycle_edges vs).
    split; [|by apply elem_of_list_fmap_1]. rewrite El at 1. apply cycle_last. destruct P as (_ & ? & _). lia.
  - cbn. rewrite (vr_vlen _ _ _ R1). cbn in Hnv. lia.
  - cbn. rewrite (vr_vlen _ _ _ R1). lia.
  - intros r ->. rewrite (remove_none hf' mt nvp mv m1); [|done|lia]. cbn [obind].
    destruct (build_adjacency _ _ _ _) as [polys| |]; cbn [obind]; [|apply gives_panic|apply gives_fuel].
    destruct (if 0 <? ks_border ks then _ else _) as [polys'| |]; cbn [obind]; [|apply gives_panic|apply gives_fuel]. by apply gives_done.
Qed.
