(** The polygons of a contour tile it, and the whole mesh is made of such
    tilings. *)
From Verif Require Import Base ModelMath ModelRegions ModelContours ModelPoly SpecPoly FlowProofs TriangulateProofs ConvexProofs WeldProofs MergeProofs MergeLoopProofs AdjacencyProofs.
Local Open Scope Z_scope.

(** ** Tilings *)

Lemma flip_flip {A} (e : A * A) : flip (flip e) = e.
Proof. by destruct e. Qed.

Lemma cycle_no_flip {A} (l : list A) e : NoDup l → (3 <= length l)%nat → e ∈ cycle_edges l → flip e ∈ cycle_edges l → False.
Proof.
  intros Hnd H3 He Hf.
  destruct l as [|a l]; [cbn in H3; lia|]. unfold cycle_edges in He, Hf.
  apply elem_of_list_lookup in He as [i Hi]. apply elem_of_list_lookup in Hf as [j Hj].
  apply lookup_zip_with_Some in Hi as (x & y & -> & Hx & Hy). apply lookup_zip_with_Some in Hj as (x' & y' & E & Hx' & Hy').
  injection E as <- <-. cbn in H3.
  assert (∀ k z, (l ++ [a]) !! k = Some z → (a :: l) !! (if decide (k = length l) then 0 else S k)%nat = Some z) as Hs.
  { intros k z. destruct (decide (k = length l)) as [->|Hne].
    - rewrite lookup_app_r, Nat.sub_diag by lia. done.
    - intros Hk. apply lookup_app_Some in Hk as [Hk|[Hge Hk]]; [done|]. apply lookup_lt_Some in Hk. cbn in Hk. lia. }
  apply Hs in Hy, Hy'.
  assert (j = (if decide (i = length l) then 0 else S i)%nat) as Ej by (eapply NoDup_lookup; [exact Hnd|exact Hx'|exact Hy]).
  assert (i = (if decide (j = length l) then 0 else S j)%nat) as Ei by (eapply NoDup_lookup; [exact Hnd|exact Hx|exact Hy']).
  destruct (decide (i = length l)), (decide (j = length l)); lia.
Qed.

(** Removing inner edges from a tiling leaves a tiling. *)
Lemma edges_remove {A} `{EqDecision A} (c e g : list (A * A)) ds ds' : NoDup e → (∀ x, x ∈ c → flip x ∈ c → False) →
  e ≡ₚ c ++ ds ++ (flip <$> ds) → e ≡ₚ g ++ ds' ++ (flip <$> ds') →
  ∃ es, g ≡ₚ c ++ es ++ (flip <$> es).
Proof.
  intros Hnd Hc E1 E2.
  assert (∀ x : A * A, ∀ l : list (A * A), x ∈ flip <$> l ↔ flip x ∈ l) as Hfl.
  { intros x l. rewrite elem_of_list_fmap. split.
    - intros (y & -> & Hy). by rewrite flip_flip.
    - intros H. exists (flip x). by rewrite flip_flip. }
  assert (∀ x, x ∈ e ↔ x ∈ c ∨ x ∈ ds ∨ flip x ∈ ds) as M1 by (intros x; rewrite E1, !elem_of_app, Hfl; done).
  assert (∀ x, x ∈ e ↔ x ∈ g ∨ x ∈ ds' ∨ flip x ∈ ds') as M2 by (intros x; rewrite E2, !elem_of_app, Hfl; done).
  assert (N1 := Hnd). rewrite E1 in N1. assert (N2 := Hnd). rewrite E2 in N2.
  apply NoDup_app in N1 as (Nc & Dc & N1'). pose proof N1' as (Nds & Dds & _)%NoDup_app.
  apply NoDup_app in N2 as (Ng & Dg & N2'). pose proof N2' as (Nds' & Dds' & _)%NoDup_app.
  assert (∀ x, x ∈ ds' ∨ flip x ∈ ds' → x ∈ ds ∨ flip x ∈ ds) as Hsub.
  { intros x Hx. assert (x ∈ e) as H1 by (apply M2; tauto). assert (flip x ∈ e) as H2 by (apply M2; rewrite flip_flip; tauto).
    apply M1 in H1 as [H1|H1]; [|done]. apply M1 in H2 as [H2|H2].
    - exfalso. by apply (Hc x).
    - exfalso. apply (Dc x H1). apply elem_of_app. rewrite Hfl. rewrite flip_flip in H2. tauto. }
  assert (∀ x, x ∈ g ↔ x ∈ c ∨ (x ∈ ds ∨ flip x ∈ ds) ∧ ¬ (x ∈ ds' ∨ flip x ∈ ds')) as Mg.
  { intros x. split.
    - intros Hx. assert (¬ (x ∈ ds' ∨ flip x ∈ ds')) as Hn.
      { intros Hd. apply (Dg x Hx). apply elem_of_app. rewrite Hfl. tauto. }
      assert (x ∈ e) as H by (apply M2; tauto). apply M1 in H. tauto.
    - intros [Hx|[Hx Hn]].
      + assert (x ∈ e) as H by (apply M1; tauto). apply M2 in H as [H|H]; [done|]. exfalso.
        apply (Dc x Hx). apply elem_of_app. rewrite Hfl. by apply Hsub.
      + assert (x ∈ e) as H by (apply M1; tauto). apply M2 in H. tauto. }
  set (es := filter (λ x : A * A, x ∉ ds' ∧ flip x ∉ ds') ds).
  exists es. apply NoDup_Permutation; [done| |].
  - apply NoDup_app. split; [done|]. split.
    + intros x Hx Hes. apply (Dc x Hx). rewrite elem_of_app, Hfl in *. unfold es in Hes. rewrite !elem_of_list_filter in Hes. tauto.
    + apply NoDup_app. split; [by apply NoDup_filter|]. split.
      * intros x Hx Hes. rewrite Hfl in Hes. unfold es in *. rewrite elem_of_list_filter in Hx, Hes. apply (Dds x); [tauto|rewrite Hfl; tauto].
      * apply NoDup_fmap_2; [|by apply NoDup_filter]. intros [] [] [= -> ->]. done.
  - intros x. rewrite Mg, !elem_of_app, Hfl. unfold es. rewrite !elem_of_list_filter, flip_flip. tauto.
Qed.

Lemma connected_fmap {A C} (f : A → C) (ps : list (list A)) : connected ps → connected ((λ p : list A, f <$> p) <$> ps).
Proof.
  intros H g1 g2 P N1 N2. symmetry in P. apply Permutation_map_inv in P as (l3 & E & P). symmetry in E. apply fmap_app_inv in E as (h1 & h2 & -> & -> & ->).
  destruct (H h1 h2) as (e & He & Hf); [done|by intros ->|by intros ->|].
  exists (f e.1, f e.2). apply edges_of_mem in He as (p & Hp & He). apply edges_of_mem in Hf as (q & Hq & Hf).
  split; apply edges_of_mem.
  - exists (f <$> p). split; [by apply (elem_of_list_fmap_1 (λ p, f <$> p))|]. rewrite cycle_fmap. by apply (elem_of_list_fmap_1 (λ e : A * A, (f e.1, f e.2))).
  - exists (f <$> q). split; [by apply (elem_of_list_fmap_1 (λ p, f <$> p))|]. rewrite cycle_fmap. by apply (elem_of_list_fmap_1 (λ e : A * A, (f e.1, f e.2)) _ (flip e)).
Qed.
Lemma connected_perm {A} (l l' : list (list A)) : l ≡ₚ l' → connected l → connected l'.
Proof. intros P H g1 g2 P'. apply H. by rewrite P. Qed.
Lemma gluing_connected verts l l' : gluing verts l l' → NoDup (edges_of l) → connected l → connected l'.
Proof.
  induction 1 as [|l a b m x y ra rb rest l1 l' Hl Ra Rb Em Hc Hl1 G IH]; [done|]. intros Hnd Hco.
  pose proof (step_edges _ _ _ _ _ _ _ _ _ Hl Ra Rb Em) as Es.
  assert (NoDup (edges_of (m :: rest))) as Hnd1. { rewrite Es in Hnd. apply NoDup_cons in Hnd as [_ Hnd]. by apply NoDup_cons in Hnd as [_ Hnd]. }
  apply IH; [by rewrite (edges_perm _ _ Hl1)|]. apply (connected_split _ m rest); [done|]. intros g1 g2 P N2.
  destruct (Hco (a :: b :: g1) g2) as (e & He & Hf); [by rewrite Hl, P|done|done|]. exists e. split; [|done].
  pose proof (step_edges (a :: b :: g1) _ _ _ _ _ _ _ g1 (reflexivity _) Ra Rb Em) as E1. rewrite E1 in He.
  assert ((x, y) ∉ edges_of g2 ∧ (y, x) ∉ edges_of g2) as [Nx Ny].
  { rewrite Es in Hnd. apply NoDup_cons in Hnd as [N1 Hnd]. apply NoDup_cons in Hnd as [N2' _].
    assert (∀ z, z ∈ edges_of g2 → z ∈ edges_of (m :: rest)) as Hz.
    { intros z (p & Hp & Hz)%edges_of_mem. apply edges_of_mem. exists p. split; [|done]. right. rewrite P. apply elem_of_app. by right. }
    split; intros Hz'; apply Hz in Hz'; [apply N1; by right|by apply N2']. }
  apply elem_of_cons in He as [->|He]; [done|]. apply elem_of_cons in He as [->|He]; done.
Qed.

Lemma gluing_tiling verts l ts g : NoDup l → (3 <= length l)%nat → (∀ v, v ∈ l ↔ ∃ p, p ∈ ts ∧ v ∈ p) →
  (∃ ds, edges_of ts ≡ₚ cycle_edges l ++ ds ++ (flip <$> ds)) → NoDup (edges_of ts) → connected ts →
  gluing verts ts g → tiling l g.
Proof.
  intros Hl H3 Hm [ds E] Hnd Hco G. split.
  - intros v. rewrite Hm. by eapply gluing_members.
  - destruct (gluing_edges _ _ _ G) as [ds' E']. eapply edges_remove; [exact Hnd| |exact E|exact E'].
    intros x. by apply cycle_no_flip.
  - by eapply gluing_NoDup.
  - by eapply gluing_connected.
Qed.

Lemma gluing_length verts l l' : gluing verts l l' → (length l' <= length l)%nat.
Proof.
  induction 1 as [|l a b m x y ra rb rest l1 l' Hl Ra Rb Em Hc Hl1 G IH]; [done|].
  apply Permutation_length in Hl, Hl1. cbn in *. lia.
Qed.
Lemma gluing_nonempty verts l l' : gluing verts l l' → l ≠ [] → l' ≠ [].
Proof.
  induction 1 as [|l a b m x y ra rb rest l1 l' Hl Ra Rb Em Hc Hl1 G IH]; [done|].
  intros _. apply IH. intros ->. by apply Permutation_nil_cons in Hl1.
Qed.

Lemma tiling_sum {A} (f : A * A → Z) (l : list A) g : (∀ e, f (flip e) = - f e) → tiling l g →
  sumZ ((λ p, sumZ (f <$> cycle_edges p)) <$> g) = sumZ (f <$> cycle_edges l).
Proof.
  intros Hf [_ [ds Hb] _ _].
  transitivity (sumZ (f <$> edges_of g)).
  - clear Hb. unfold edges_of. induction g as [|p g IH]; [done|].
    rewrite !fmap_cons. cbn [concat]. rewrite fmap_app, sumZ_app, <- IH. done.
  - rewrite (sumZ_perm _ _ (fmap_Permutation f _ _ Hb)). rewrite !fmap_app, !sumZ_app.
    assert (sumZ (f <$> (flip <$> ds)) = - sumZ (f <$> ds)) as Hds; [|lia].
    clear Hb. induction ds as [|e ds IH]; [done|]. rewrite !fmap_cons. unfold sumZ in *. cbn [foldr]. rewrite Hf. lia.
Qed.

(** ** One contour *)

Definition unflagged (p : rawv) : Prop := Z.land p.2 BORDER_VERTEX = 0.

Lemma add_contour_runs cap (vs : list rawv) t tab flags : Forall unflagged vs → vtab_rep cap t tab →
  (length tab + length vs <= cap)%nat → Z.of_nat cap <= 65535 →
  runs (add_contour vs t flags) (λ '(is, t', flags'), flags' = flags ∧ ∃ tab', vtab_rep cap t' tab' ∧ welds tab (fst <$> vs) is tab').
Proof.
  intros Hu. unfold add_contour.
  enough (∀ t tab is0, vtab_rep cap t tab → (length tab + length vs <= cap)%nat → Z.of_nat cap <= 65535 →
    runs (foldM (λ (p : rawv) '(ind, t, flags),
      let! (i, t) := add_vertex p.1 t in
      let! flags := if negb (Z.land p.2 BORDER_VERTEX =? 0) then put flags i true else Done flags in
      Done (ind ++ [i], t, flags)) vs (is0, t, flags))
    (λ '(is, t', flags'), flags' = flags ∧ ∃ tab' is', vtab_rep cap t' tab' ∧ is = is0 ++ is' ∧ welds tab (fst <$> vs) is' tab')) as H.
  { intros R Hl Hc. eapply runs_mono; [by apply (H t tab [])|]. intros [[is t'] flags'] (-> & tab' & is' & R' & -> & W). split; [done|].
    exists tab'. done. }
  induction Hu as [|p vs Hp _ IH]; clear t tab; intros t tab is0 R Hlen Hcap.
  { cbn. split; [done|]. exists tab, []. rewrite app_nil_r. split; [done|]. split; [done|constructor]. }
  cbn [foldM]. cbn in Hlen. rewrite obind_assoc.
  eapply runs_bind; [eapply (add_vertex_weld cap); [done|lia|done]|].
  intros [i t'] (tab' & R' & Hcase). cbn [obind].
  unfold unflagged in Hp. rewrite Hp. cbn [Z.eqb negb obind].
  assert (length tab' + length vs <= cap)%nat as Hl'.
  { destruct Hcase as [[_ ->]|(_ & _ & ->)]; [lia|]. rewrite app_length. cbn. lia. }
  eapply runs_mono; [by apply (IH t' tab')|]. intros [[is t''] flags'] (-> & tab'' & is' & R'' & -> & W).
  split; [done|]. exists tab'', (i :: is'). split; [done|]. split; [by rewrite <- app_assoc|].
  rewrite fmap_cons. destruct Hcase as [[Hn ->]|(Hn & -> & ->)]; [by apply welds_old|by apply welds_new].
Qed.

Definition nat_row (ind : list nat) (i : nat) : Z := Z.of_nat (ind !!! i).

Lemma init_polys_done nvp ind n ts : triangulation (seq 0 n) ts → length ind = n → Z.of_nat n <= 65535 →
  init_polys nvp ind (to_tri <$> ts) =
  Done ((λ t, (tri_row nvp (nat_row ind t.1.1) (nat_row ind t.1.2) (nat_row ind t.2), tt)) <$> ts).
Proof.
  intros T Hl Hn. unfold init_polys.
  assert (∀ t, t ∈ ts → (t.1.1 < n ∧ t.1.2 < n ∧ t.2 < n ∧ t.1.1 ≠ t.1.2 ∧ t.1.1 ≠ t.2 ∧ t.1.2 ≠ t.2)%nat) as Ht.
  { intros [[a b] c] Ht. pose proof (tr_corners _ _ T (a, b, c)) as Hc. pose proof (tr_distinct _ _ T (NoDup_seq 0 n) _ Ht) as Hd.
    unfold tri_list in *. cbn in *.
    assert (∀ x, x ∈ [a; b; c] → (x < n)%nat) as Hx by (intros x Hx; apply Hc in Hx; [apply elem_of_seq in Hx; lia|done]).
    apply NoDup_cons in Hd as [Hd1 Hd]. apply NoDup_cons in Hd as [Hd2 _]. rewrite !elem_of_cons in Hd1, Hd2.
    assert (a < n ∧ b < n ∧ c < n)%nat as (? & ? & ?) by (split; [|split]; apply Hx; set_solver).
    split; [done|]. split; [done|]. split; [done|]. split; [intros E; apply Hd1; by left|]. split; [intros E; apply Hd1; right; rewrite E; left|intros E; apply Hd2; by left]. }
  clear T. match goal with |- foldM ?f _ _ = Done ?r => enough (∀ acc, foldM f (to_tri <$> ts) acc = Done (acc ++ r)) as H by exact (H []) end.
  induction ts as [|t ts IH]; intros acc; [cbn; by rewrite app_nil_r|].
  rewrite !fmap_cons. cbn [foldM].
  destruct (Ht t) as (H1 & H2 & H3 & H4 & H5 & H6); [left|].
  unfold to_tri at 1 2 3 4 5 6. cbn [t_x t_y t_z].
  rewrite !wrap_small by lia.
  destruct (negb _ && _ && _) eqn:E; [|lia].
  unfold to_tri at 1 2 3. cbn [t_x t_y t_z]. rewrite !wrap_small by lia. rewrite !Nat2Z.id.
  rewrite (get_some ind t.1.1 (ind !!! t.1.1)) by (apply list_lookup_lookup_total_lt; lia). cbn [obind].
  rewrite (get_some ind t.1.2 (ind !!! t.1.2)) by (apply list_lookup_lookup_total_lt; lia). cbn [obind].
  rewrite (get_some ind t.2 (ind !!! t.2)) by (apply list_lookup_lookup_total_lt; lia). cbn [obind].
  rewrite IH by (intros; apply Ht; by right). f_equal. rewrite <- app_assoc. done.
Qed.

Lemma piece_ok_mono nvp tab tab' p : piece_ok nvp tab p → piece_ok nvp (tab ++ tab') p.
Proof.
  destruct p as [[c ind] g]. intros (H & H1 & T & H2 & H3 & H4 & Hcv). split; [|split; [done|split; [done|split; [done|split; [done|split; [done|]]]]]].
  { eapply Forall2_impl; [exact H|]. intros v i (Hi & w & Hw & Hweld). split; [done|]. exists w. split; [|done]. by apply lookup_app_l_Some. }
  intros Hc. specialize (Hcv Hc). rewrite Forall_forall in Hcv |- *. intros vs Hvs.
  assert (place (tab ++ tab') <$> vs = place tab <$> vs) as ->; [|by apply Hcv].
  apply list_fmap_ext. intros k v Hv. apply elem_of_list_lookup_2 in Hv.
  assert (v ∈ ind) as Hin by (apply (tl_corners _ _ T); eauto).
  apply elem_of_list_lookup in Hin as [j Hj]. destruct (Forall2_lookup_r _ _ _ _ _ H Hj) as (u & _ & _ & w & Hw & _).
  unfold place, at_pos. rewrite Hw. by rewrite (lookup_app_l_Some _ _ _ _ Hw).
Qed.

Record store_rep (nvp mt : nat) (m : imesh) (rows : list (list Z)) (R A : list Z) : Prop := {
  st_np : im_np m = length rows;
  st_R : length R = length rows;
  st_A : length A = length rows;
  st_polys : im_polys m = ((λ r, (r, repeat NO_INDEX nvp)) <$> rows) ++ repeat (repeat NO_INDEX nvp, repeat NO_INDEX nvp) (mt - length rows);
  st_regs : im_regs m = R ++ repeat 0 (mt - length rows);
  st_areas : im_areas m = A ++ repeat 0 (mt - length rows)
}.

Lemma put_tail {A} (l : list A) d k n x : (0 < k)%nat → n = length l → put (l ++ repeat d k) n x = Done ((l ++ [x]) ++ repeat d (k - 1)).
Proof.
  intros Hk ->. rewrite put_lt by (rewrite app_length, repeat_length; lia).
  rewrite insert_app_r_alt, Nat.sub_diag by lia. destruct k as [|k]; [lia|]. cbn. rewrite Nat.sub_0_r, <- app_assoc. done.
Qed.

Lemma store_polys_runs nvp mt reg area polys : ∀ rows R A m,
  store_rep nvp mt m rows R A → (length rows + length polys <= mt)%nat →
  runs (store_polys nvp reg area polys m) (λ m',
    store_rep nvp mt m' (rows ++ polys.*1) (R ++ replicate (length polys) reg) (A ++ replicate (length polys) area)).
Proof.
  induction polys as [|p polys IH]; intros rows R A m S Hle.
  { cbn. by rewrite !app_nil_r. }
  unfold store_polys. cbn [foldM]. cbn [length] in Hle. destruct S as [S1 S2 S3 S4 S5 S6].
  rewrite S1, S4, S5, S6. rewrite (get_some _ _ (repeat NO_INDEX nvp, repeat NO_INDEX nvp)).
  2: { rewrite lookup_app_r by (rewrite fmap_length; lia). rewrite fmap_length, Nat.sub_diag.
       destruct (mt - length rows)%nat eqn:E; [lia|]. done. }
  cbn [obind snd].
  rewrite put_tail by (rewrite ?fmap_length; lia). cbn [obind].
  rewrite put_tail by lia. cbn [obind]. rewrite put_tail by lia. cbn [obind].
  fold (store_polys nvp reg area polys).
  assert (∀ k (x : Z) l, (l ++ [x]) ++ replicate k x = l ++ replicate (S k) x) as Er by (intros; by rewrite <- app_assoc).
  eapply runs_mono; [apply (IH (rows ++ [p.1]) (R ++ [reg]) (A ++ [area]))|].
  - split; cbn; rewrite ?app_length; cbn; [lia|lia|lia|..].
    + rewrite fmap_app. cbn. do 2 f_equal. lia.
    + do 2 f_equal. lia.
    + do 2 f_equal. lia.
  - rewrite app_length. cbn. lia.
  - cbn beta. intros m'. rewrite <- app_assoc, !Er. done.
Qed.

Definition good_contour (B : Prop) (c : contour) : Prop :=
  Forall unflagged (ct_verts c) ∧ NoDup ((λ p : rawv, (vx p.1, vz p.1)) <$> ct_verts c) ∧
  (Forall (λ p : rawv, small p.1) (ct_verts c) ∨ B).

Lemma edges_fmap {A C} (f : A → C) (ps : list (list A)) : edges_of ((λ p : list A, f <$> p) <$> ps) = (λ e : A * A, (f e.1, f e.2)) <$> edges_of ps.
Proof.
  unfold edges_of. induction ps as [|p ps IH]; [done|]. rewrite !fmap_cons. cbn [concat]. rewrite cycle_fmap, IH, fmap_app. done.
Qed.

Lemma one_contour_ends (B : Prop) nvp mt mv cap c t flags m tab rows R A :
  good_contour B c → (3 <= length (ct_verts c) <= cap)%nat → (3 <= nvp)%nat → vtab_rep mv t tab → (Forall small tab ∨ B) →
  store_rep nvp mt m rows R A → (length tab + length (ct_verts c) <= mv)%nat → Z.of_nat mv <= 65535 →
  (length rows + (length (ct_verts c) - 2) <= mt)%nat →
  ends B (one_contour cap nvp c (t, flags, m)) (λ r,
    match r with
    | Err e => e = InvalidContour ∧ ¬ strictly_convex (fst <$> ct_verts c)
    | Ok (t', flags', m') => flags' = flags ∧ ∃ ext ind g newrows, vtab_rep mv t' (tab ++ ext) ∧ (Forall small (tab ++ ext) ∨ B) ∧
        (length (tab ++ ext) <= length tab + length (ct_verts c))%nat ∧
        piece_ok nvp (tab ++ ext) (c, ind, g) ∧ (length (edges_of g) <= 3 * (length ind - 2))%nat ∧ Forall2 (λ row vs, padded nvp vs row) newrows g ∧
        store_rep nvp mt m' (rows ++ newrows) (R ++ replicate (length g) (ct_reg c)) (A ++ replicate (length g) (ct_area c)) ∧
        (apart tab → apart (tab ++ ext)) ∧ (∀ w, w ∈ tab ++ ext → w ∈ tab ∨ w ∈ fst <$> ct_verts c)
    end).
Proof.
  intros (Hfl & Hxz & Hsm) [H3 Hcap] Hnvp Rt Hts S Hmv Hmv2 Hmt. unfold one_contour.
  destruct (_ <? 3)%nat eqn:E3; [lia|]. clear E3. set (n := length (ct_verts c)) in *.
  assert (∀ i, i ∈ seq 0 n → (∃ v, (fst <$> ct_verts c) !! i = Some v ∧ small v) ∨ B) as Hsv.
  { intros i Hi%elem_of_seq. destruct Hsm as [Hsm|]; [|by right].
    destruct (lookup_lt_is_Some_2 (ct_verts c) i) as [p Hp]; [fold n; lia|].
    left. exists p.1. split; [by rewrite list_lookup_fmap, Hp|]. rewrite Forall_lookup in Hsm. by eapply Hsm. }
  assert (at_pos (fst <$> ct_verts c) <$> seq 0 n = fst <$> ct_verts c) as Epos.
  { apply list_eq. intros i. rewrite list_lookup_fmap. destruct (decide (i < n)%nat) as [Hi|Hi].
    - rewrite lookup_seq_lt by done. cbn. unfold at_pos. rewrite !list_lookup_fmap.
      destruct (lookup_lt_is_Some_2 (ct_verts c) i) as [p Hp]; [fold n; lia|]. by rewrite Hp.
    - rewrite (lookup_ge_None_2 (seq 0 n)) by (rewrite seq_length; lia). cbn. symmetry. apply lookup_ge_None_2.
      rewrite fmap_length. fold n. lia. }
  unfold pbind. eapply (ends_bind _ _ _ (λ r, tri_result (seq 0 n) [] r ∧
    (strictly_convex (fst <$> ct_verts c) → ∃ tris, r = Ok tris))).
  - pose proof (triangulate_ends (fst <$> ct_verts c) B (seq 0 n) cap Hsv) as H1.
    pose proof (convex_triangulate (fst <$> ct_verts c) B (seq 0 n) cap Hsv) as H2. rewrite Epos in H2. rewrite seq_length in H1, H2.
    destruct (triangulate _ (seq 0 n) cap) as [r| |]; cbn in *; [split; [apply H1|intros; apply H2]|apply H1|apply H1]; auto; left; lia.
  - intros r [Hr Hok]. destruct r as [tris|e]; cbn in Hr; [|split; [done|]; intros Hc; by destruct (Hok Hc)].
    destruct Hr as (ts & -> & Hcuts). clear Hok.
    pose proof (cuts_triangulation _ _ Hcuts) as T.
    pose proof (cuts_convex (at_pos (fst <$> ct_verts c)) _ _ Hcuts) as Hconv. rewrite Epos in Hconv. clear Hcuts.
    eapply ends_bind; [eapply ends_runs, (add_contour_runs mv _ t tab flags); [done|done|exact Hmv|done]|].
    intros [[is t'] flags'] (-> & tab' & Rt' & W).
    destruct (welds_prefix _ _ _ _ W) as [ext ->].
    destruct (welds_length _ _ _ _ W) as [Hil Htl]. rewrite fmap_length in Hil, Htl. fold n in Hil, Htl.
    assert (NoDup is) as Hind.
    { eapply welds_inj; [exact W|]. rewrite <- list_fmap_compose. exact Hxz. }
    pose proof (welds_same _ _ _ _ W) as Hsame.
    assert (Forall small (tab ++ ext) ∨ B) as Hts'.
    { destruct Hts as [Hts|]; [|by right]. destruct Hsm as [Hsm|]; [|by right]. left. apply Forall_forall. intros w Hw.
      apply (welds_from _ _ _ _ _ W) in Hw as [Hw|Hw]; [rewrite Forall_forall in Hts; by apply Hts|].
      apply elem_of_list_fmap in Hw as (p & -> & Hp). rewrite Forall_forall in Hsm. by apply Hsm. }
    cbn [app] in *. rewrite (init_polys_done nvp is n ts T Hil) by lia. cbn [obind].
    set (f := nat_row is).
    set (vss := (λ p : list nat, f <$> p) <$> (tri_list <$> ts)).
    set (polys := (λ t0 : nat * nat * nat, (tri_row nvp (f t0.1.1) (f t0.1.2) (f t0.2), tt)) <$> ts).
    assert (∀ i, (i < n)%nat → ∃ w, (tab ++ ext) !! (is !!! i) = Some w) as Hisl.
    { intros i Hi. assert (is !! i = Some (is !!! i)) as Hx by (apply list_lookup_lookup_total_lt; lia).
      destruct (Forall2_lookup_r _ _ _ _ _ Hsame Hx) as (v & _ & w & Hw & _). by exists w. }
    assert (∀ i, (i < n)%nat → 0 <= f i < 65535) as Hfi.
    { intros i Hi. destruct (Hisl i Hi) as [w Hw]. apply lookup_lt_Some in Hw.
      pose proof (vr_cap _ _ _ Rt') as Hc. unfold f, nat_row. lia. }
    assert (rows_ok (vt_verts t') B nvp polys vss) as HF.
    { unfold polys, vss, rows_ok. rewrite <- list_fmap_compose. apply Forall2_fmap_2, Forall_Forall2_diag, Forall_forall. intros tr Htr.
      pose proof (tr_corners _ _ T tr) as Hc.
      assert (∀ x, x ∈ tri_list tr → (x < n)%nat) as Hx by (intros x Hx; apply Hc in Hx; [apply elem_of_seq in Hx; lia|done]).
      split.
      - unfold padded. cbn [fst]. split; [done|]. split; [cbn; lia|].
        apply Forall_fmap, Forall_forall. intros x Hxt. apply Hfi, Hx, Hxt.
      - apply Forall_fmap, Forall_forall. intros x Hxt. unfold okv, compose.
        destruct Hts' as [Hts'|]; [|by right]. left.
        destruct (Hisl x (Hx x Hxt)) as [w Hw]. exists w. unfold f, nat_row. rewrite Nat2Z.id. split.
        + by eapply rep_lookup.
        + rewrite Forall_lookup in Hts'. by eapply Hts'. }
    assert (∀ i j, (i < n)%nat → (j < n)%nat → f i = f j → i = j) as Hfinj.
    { intros i j Hi Hj E. unfold f, nat_row in E. apply Nat2Z.inj in E.
      eapply (NoDup_lookup is); [done|apply list_lookup_lookup_total_lt; lia|]. rewrite E. apply list_lookup_lookup_total_lt. lia. }
    assert (edges_of (tri_list <$> ts) = concat ((λ t, cycle_edges (tri_list t)) <$> ts)) as Eedge.
    { unfold edges_of. by rewrite <- list_fmap_compose. }
    assert (NoDup (edges_of vss)) as Hnd.
    { unfold vss. rewrite edges_fmap, Eedge. apply NoDup_fmap_2_strong; [|apply (tr_edges_once _ _ T), NoDup_seq].
      assert (∀ e, e ∈ concat ((λ t, cycle_edges (tri_list t)) <$> ts) → (e.1 < n ∧ e.2 < n)%nat) as Hends.
      { intros e He. apply elem_of_concat in He as (es & He & Hes).
        apply elem_of_list_fmap in Hes as (tr & -> & Htr). apply cycle_ends in He as [H1 H2].
        apply (tr_corners _ _ T _ _ Htr) in H1, H2. apply elem_of_seq in H1, H2. lia. }
      intros [a b] [a' b'] H1 H2. apply Hends in H1, H2. cbn in *. intros E. injection E as Ea Eb.
      f_equal; apply Hfinj; lia || done. }
    assert (length polys = length ts) as Hpl by (unfold polys; apply fmap_length).
    pose proof (tr_count _ _ T) as Htc. rewrite seq_length in Htc.
    destruct (length polys =? 0)%nat eqn:E0; [lia|]. clear E0.
    eapply ends_bind; [by apply (merge_all_ends (vt_verts t') B nvp (λ _ _ : unit, tt) polys vss)|].
    intros polys' (g & HF' & G).
    pose proof (gluing_length _ _ _ G) as Hgl. assert (length vss = length ts) as Hvl by (unfold vss; by rewrite !fmap_length).
    pose proof (Forall2_length _ _ _ HF') as Hpl'.
    eapply ends_bind; [eapply ends_runs, (store_polys_runs nvp mt); [done|lia]|].
    intros m' S'. cbn [ends]. split; [done|].
    assert (f <$> seq 0 n = Z.of_nat <$> is) as Eseq.
    { apply list_eq. intros i. rewrite !list_lookup_fmap. destruct (decide (i < n)%nat).
      - rewrite lookup_seq_lt by done. cbn. rewrite (list_lookup_lookup_total_lt is i) by lia. done.
      - rewrite (lookup_ge_None_2 (seq 0 n)), (lookup_ge_None_2 is) by (rewrite ?seq_length; lia). done. }
    exists ext, (Z.of_nat <$> is), g, (polys'.*1).
    split; [done|]. split; [done|]. split; [lia|]. split; [|split; [|split; [|split; [|split]]]].
    + split; [|split; [|split; [|split; [|split; [|split]]]]].
      * apply Forall2_fmap_r. eapply Forall2_impl; [exact Hsame|]. intros v i (w & Hw & Hweld). split; [lia|].
        exists w. rewrite Nat2Z.id. done.
      * apply NoDup_fmap_2; [apply _|done].
      * rewrite <- Eseq. eapply (gluing_tiling (vt_verts t') _ vss); [| | | |done|by apply connected_fmap, (tr_connected _ _ T)|done].
        -- rewrite Eseq. apply NoDup_fmap_2; [apply _|done].
        -- rewrite fmap_length, seq_length. done.
        -- intros v. unfold vss. rewrite elem_of_list_fmap. split.
           ++ intros (i & -> & Hi). destruct (tr_covers _ _ T i Hi) as (tr & Htr & Hit).
              exists (f <$> tri_list tr). split; [|by apply elem_of_list_fmap_1]. by apply elem_of_list_fmap_1, elem_of_list_fmap_1.
           ++ intros (p & Hp & Hv). apply elem_of_list_fmap in Hp as (q & -> & Hq). apply elem_of_list_fmap in Hq as (tr & -> & Htr).
              apply elem_of_list_fmap in Hv as (i & -> & Hi). exists i. split; [done|]. by eapply (tr_corners _ _ T).
        -- destruct (tr_boundary _ _ T) as [ds Hds]. exists ((λ e, (f e.1, f e.2)) <$> ds).
           unfold vss. rewrite edges_fmap, Eedge, Hds, !fmap_app, cycle_fmap. by rewrite <- !list_fmap_compose.
      * clear -HF'. apply Forall_forall. intros vs Hvs. apply elem_of_list_lookup in Hvs as [i Hi].
        destruct (Forall2_lookup_r _ _ _ _ _ HF' Hi) as (r & _ & (_ & Hl & _) & _). done.
      * eapply gluing_nonempty; [exact G|]. intros E. rewrite E in Hvl. cbn in Hvl. lia.
      * rewrite fmap_length. lia.
      * intros Hc. specialize (Hconv Hc).
        assert (∀ i, (i < n)%nat → vx (vpos (vt_verts t') (f i)) = vx (at_pos (fst <$> ct_verts c) i) ∧
          vz (vpos (vt_verts t') (f i)) = vz (at_pos (fst <$> ct_verts c) i)) as Hxy.
        { intros i Hi. assert (is !! i = Some (is !!! i)) as Hx by (apply list_lookup_lookup_total_lt; lia).
          destruct (Forall2_lookup_r _ _ _ _ _ Hsame Hx) as (v & Hv & w & Hw & Hweld).
          unfold vpos, at_pos, f, nat_row. rewrite Nat2Z.id, Hv. rewrite (rep_lookup _ _ _ _ _ Rt' Hw). cbn. split; apply Hweld. }
        assert (Forall (λ p, corners_convex (vpos (vt_verts t') <$> p)) vss) as Hcv.
        { unfold vss. rewrite <- list_fmap_compose. apply Forall_fmap, Forall_forall. intros tr Htr. rewrite Forall_forall in Hconv.
          specialize (Hconv tr Htr). unfold compose.
          assert (∀ x, x ∈ tri_list tr → (x < n)%nat) as Hx.
          { intros x Hx. apply (tr_corners _ _ T tr) in Hx; [apply elem_of_seq in Hx; lia|done]. }
          destruct tr as [[x y] z]. cbn in Hconv.
          destruct (Hxy x) as [X1 X2]; [apply Hx; unfold tri_list; set_solver|].
          destruct (Hxy y) as [Y1 Y2]; [apply Hx; unfold tri_list; set_solver|].
          destruct (Hxy z) as [Z1 Z2]; [apply Hx; unfold tri_list; set_solver|].
          unfold corners_convex. cbn. repeat constructor; cbn [fst snd]; unfold cross in *; rewrite X1, X2, Y1, Y2, Z1, Z2; lia. }
        pose proof (gluing_convex _ _ _ G Hcv) as Hg. apply Forall_forall. intros vs Hvs. rewrite Forall_forall in Hg.
        assert (place (tab ++ ext) <$> vs = vpos (vt_verts t') <$> vs) as ->; [|by apply Hg].
        apply list_fmap_ext. intros k v Hv. apply elem_of_list_lookup_2 in Hv.
        assert (∃ p, p ∈ vss ∧ v ∈ p) as (p & Hp & Hvp) by (eapply gluing_members; [exact G|]; eauto).
        unfold vss in Hp. apply elem_of_list_fmap in Hp as (p' & -> & Hp). apply elem_of_list_fmap in Hp as (tr & -> & Htr).
        apply elem_of_list_fmap in Hvp as (i & -> & Hi). apply (tr_corners _ _ T _ _ Htr), elem_of_seq in Hi.
        destruct (Hisl i) as [w Hw]; [lia|]. unfold place, vpos, at_pos, f, nat_row. rewrite Nat2Z.id.
        rewrite Hw. by rewrite (rep_lookup _ _ _ _ _ Rt' Hw).
    + destruct (gluing_edges _ _ _ G) as [ds' E']. apply Permutation_length in E'. rewrite app_length in E'.
        assert (length (edges_of vss) = 3 * length ts)%nat as El.
        { unfold vss. rewrite edges_fmap, fmap_length. clear. induction ts as [|tr ts IH]; [done|].
          rewrite fmap_cons. unfold edges_of in *. rewrite fmap_cons. cbn [concat]. rewrite app_length, IH. cbn. lia. }
        rewrite fmap_length. lia.
    + clear -HF'. apply Forall2_fmap_l. eapply Forall2_impl; [exact HF'|]. intros r vs [H _]. done.
    + rewrite <- Hpl'. done.
    + by eapply welds_apart.
    + intros w. by eapply welds_from.
Qed.

Lemma live_cons c cs : live_contours (c :: cs) = if (length (ct_verts c) <? 3)%nat then live_contours cs else c :: live_contours cs.
Proof.
  unfold live_contours. rewrite filter_cons. destruct (_ <? 3)%nat eqn:E, (decide _); try done; lia.
Qed.

Lemma all_contours_ends (B : Prop) nvp mt mv cap flags : (3 <= nvp)%nat → Z.of_nat mv <= 65535 → ∀ cs t m tab rows R A,
  Forall (good_contour B) (live_contours cs) → Forall (λ c, (length (ct_verts c) <= cap)%nat) (live_contours cs) →
  vtab_rep mv t tab → (Forall small tab ∨ B) → store_rep nvp mt m rows R A →
  (length tab + max_vertices cs <= mv)%nat → (length rows + max_tris cs <= mt)%nat →
  ends B (all_contours cap nvp cs (t, flags, m)) (λ r,
    match r with
    | Err e => e = InvalidContour ∧ ∃ c, c ∈ live_contours cs ∧ ¬ strictly_convex (fst <$> ct_verts c)
    | Ok (t', flags', m') => flags' = flags ∧ ∃ ext ps newrows, vtab_rep mv t' (tab ++ ext) ∧
        (λ p : piece, p.1.1) <$> ps = live_contours cs ∧ Forall (piece_ok nvp (tab ++ ext)) ps ∧
        (length (edges_of (concat (snd <$> ps))) <= 3 * max_tris cs)%nat ∧
        Forall2 (λ row vs, padded nvp vs row) newrows (concat (snd <$> ps)) ∧
        store_rep nvp mt m' (rows ++ newrows) (R ++ tags ct_reg ps) (A ++ tags ct_area ps) ∧
        (apart tab → apart (tab ++ ext)) ∧ (∀ w, w ∈ tab ++ ext → w ∈ tab ∨ ∃ c, c ∈ live_contours cs ∧ w ∈ fst <$> ct_verts c)
    end).
Proof.
  intros Hnvp Hmv. induction cs as [|c cs IH]; intros t m tab rows R A Hg Hc Rt Hts S Hb1 Hb2; cbn [all_contours].
  { cbn. split; [done|]. exists [], [], []. rewrite !app_nil_r. split; [done|]. split; [done|]. split; [constructor|].
    split; [cbn; lia|]. split; [constructor|]. split; [done|]. split; [done|]. intros w Hw. by left. }
  unfold pbind. unfold max_vertices, max_tris in *. rewrite live_cons in *.
  destruct (length (ct_verts c) <? 3)%nat eqn:E3.
  - unfold one_contour. rewrite E3. cbn [obind]. by eapply IH.
  - apply Forall_cons in Hg as [Hg Hgs]. apply Forall_cons in Hc as [Hc Hcs].
    cbn [fmap list_fmap sum_list foldr] in Hb1, Hb2.
    fold (sum_list ((λ c, length (ct_verts c)) <$> live_contours cs)) in Hb1.
    eapply ends_bind; [eapply (one_contour_ends B nvp mt mv cap c t flags m tab rows R A); [done|lia|done|done|done|done|cbn in Hb1; lia|done|cbn in Hb2; lia]|].
    intros [[[t' flags'] m']|e]; [|intros [-> Hc0]; split; [done|]; exists c; split; [left|done]].
    intros (-> & ext & ind & g & nr & Rt' & Hts' & Htl & Pg & Eg & HFg & S' & Hap & Hfrom).
    pose proof Pg as (Hw & _ & _ & _ & _ & Hgl & _).
    pose proof (Forall2_length _ _ _ Hw) as Hil. rewrite fmap_length in Hil.
    pose proof (Forall2_length _ _ _ HFg) as Hgr.
    eapply ends_mono; [apply (IH t' m' (tab ++ ext) (rows ++ nr) _ _ Hgs Hcs Rt' Hts' S')|].
    + unfold max_vertices. cbn in Hb1. lia.
    + rewrite app_length. unfold max_tris. cbn in Hb2. lia.
    + intros [[[t'' flags''] m'']|e]; [|intros (-> & c0 & Hc0 & Hn); split; [done|]; exists c0; split; [by right|done]].
      intros (-> & ext' & ps & nr' & Rt'' & Hps & Hok & He & HF & S'' & Hap' & Hfrom').
      split; [done|]. exists (ext ++ ext'), ((c, ind, g) :: ps), (nr ++ nr').
      rewrite !app_assoc. split; [done|]. split; [by rewrite fmap_cons, Hps|]. split; [|split; [|split; [|split; [|split]]]].
      * constructor; [by apply piece_ok_mono|done].
      * rewrite fmap_cons. cbn [concat snd]. unfold edges_of in *. rewrite fmap_app, concat_app, app_length.
        unfold max_tris in He. cbn. cbn in He. lia.
      * rewrite fmap_cons. cbn [concat snd]. by apply Forall2_app.
      * unfold tags in *. rewrite !fmap_cons. cbn [concat fst snd]. rewrite !app_assoc. done.
      * auto.
      * intros w Hww. destruct (Hfrom' w Hww) as [Hw'|(c' & Hc' & Hw')]; [|right; exists c'; split; [by right|done]].
        destruct (Hfrom w Hw') as [?|?]; [by left|right]. exists c. split; [left|done].
Qed.

Lemma remove_none hf mt nvp mv m fuel : ∀ i, (im_nv m <= mv)%nat → (im_nv m - i <= fuel)%nat →
  remove_flagged fuel hf mt nvp i (repeat false mv) m = Done (Ok m).
Proof.
  induction fuel as [|fuel IH]; intros i Hmv Hf; cbn [remove_flagged]; destruct (i <? im_nv m)%nat eqn:E; try done; [lia|].
  rewrite (get_some _ _ false) by (apply repeat_lookup; lia). cbn [obind]. apply IH; [done|lia].
Qed.

(** ** Portals *)

Definition nbrs_kept (ps ps' : list (list Z * list Z)) : Prop :=
  ∀ p e q, nbr ps' p e = Some q → nbr ps p e = Some q ∨ (nbr ps p e = Some NO_INDEX ∧ 32768 <= q <= 32771).

Lemma portal_range w h va vb q : portal w h va vb = Some q → 32768 <= q <= 32771.
Proof. unfold portal. repeat case_match; intros E; [injection E as <-..|discriminate E]; (split; vm_compute; discriminate). Qed.

Lemma portal_row_runs w h nvp verts r vs : padded nvp vs r.1 → length r.2 = nvp → Forall (λ v, (Z.to_nat v < length verts)%nat) vs →
  runs (portal_row w h nvp verts r) (λ r', r'.1 = r.1 ∧ length r'.2 = nvp ∧
    ∀ e q, r'.2 !! e = Some q → r.2 !! e = Some q ∨ (r.2 !! e = Some NO_INDEX ∧ 32768 <= q <= 32771)).
Proof.
  intros P Hl Hv. unfold portal_row. rewrite (count_padded _ _ _ P).
  apply (foldM_seq_inv (λ j r', r'.1 = r.1 ∧ length r'.2 = nvp ∧
    (∀ e q, r'.2 !! e = Some q → r.2 !! e = Some q ∨ (r.2 !! e = Some NO_INDEX ∧ 32768 <= q <= 32771)))).
  - split; [done|]. split; [done|]. auto.
  - intros j r' Hj (E1 & Hl' & Hk). unfold portal_slot. rewrite E1.
    assert (vs !! j = Some (vs !!! j)) as Hx by (apply list_lookup_lookup_total_lt; lia).
    assert (vs !! nx j (length vs) = Some (vs !!! nx j (length vs))) as Hy
      by (apply list_lookup_lookup_total_lt; apply Nat.mod_upper_bound; lia).
    rewrite (get_some r.1 j (vs !!! j)) by (rewrite (padded_get _ _ _ _ P); [done|lia]). cbn [obind].
    assert (j < length r'.2)%nat as Hj2 by (destruct P as (_ & ? & _); lia).
    destruct (get_lt r'.2 j Hj2) as (nb & -> & Hnb). cbn [obind].
    destruct (negb (nb =? NO_INDEX)) eqn:En; [by cbn|].
    rewrite (next_vert_done _ _ _ _ P) by lia. cbn [obind].
    rewrite Forall_lookup in Hv.
    destruct (get_lt verts _ (Hv _ _ Hx)) as (va & -> & _). cbn [obind].
    destruct (get_lt verts _ (Hv _ _ Hy)) as (vb & -> & _). cbn [obind].
    destruct (portal w h va vb) as [p|] eqn:Ep; [|by cbn].
    rewrite put_lt by done. cbn. split; [done|]. split; [by rewrite insert_length|].
    intros e q. destruct (decide (e = j)) as [->|Hne].
    + rewrite list_lookup_insert by done. intros E. injection E as <-. right. split; [|by eapply portal_range].
      apply Hk in Hnb. assert (nb = NO_INDEX) as -> by lia. destruct Hnb as [?|[? Hbad]]; [done|]. unfold NO_INDEX in Hbad. lia.
    + rewrite list_lookup_insert_ne by done. apply Hk.
Qed.

Lemma find_portals_runs w h nvp verts polys vss :
  Forall2 (λ (r : list Z * list Z) vs, padded nvp vs r.1 ∧ length r.2 = nvp ∧ Forall (λ v, (Z.to_nat v < length verts)%nat) vs) polys vss →
  runs (find_portals w h nvp (length polys) verts polys) (λ polys', polys'.*1 = polys.*1 ∧
    Forall (λ r : list Z * list Z, length r.2 = nvp) polys' ∧ nbrs_kept polys polys').
Proof.
  intros HF. unfold find_portals.
  eapply runs_mono; [apply (foldM_seq_inv (λ i polys', length polys' = length polys ∧
    (∀ k, (i <= k)%nat → polys' !! k = polys !! k) ∧ polys'.*1 = polys.*1 ∧
    Forall (λ r : list Z * list Z, length r.2 = nvp) polys' ∧ nbrs_kept polys polys'))|].
  - split; [done|]. split; [done|]. split; [done|]. split; [|intros p e q; by left].
    apply Forall_forall. intros r Hr. apply elem_of_list_lookup in Hr as [i Hi].
    destruct (Forall2_lookup_l _ _ _ _ _ HF Hi) as (vs & _ & _ & H & _). done.
  - intros i polys' Hi (Hl & Hrest & E1 & HL & HK).
    destruct (lookup_lt_is_Some_2 polys i) as [r Hr]; [lia|].
    rewrite (get_some _ _ r) by (by rewrite Hrest). cbn [obind].
    destruct (Forall2_lookup_l _ _ _ _ _ HF Hr) as (vs & _ & P & H & Hv).
    eapply runs_bind; [by eapply portal_row_runs|]. intros r' (Er & Hl' & Hk). cbn beta.
    rewrite put_lt by lia. cbn. split; [by rewrite insert_length|]. split; [|split; [|split]].
    + intros k Hle. rewrite list_lookup_insert_ne by lia. apply Hrest. lia.
    + rewrite list_fmap_insert, Er, E1. apply list_insert_id. by rewrite list_lookup_fmap, Hr.
    + by apply Forall_insert.
    + intros p e q. unfold nbr. destruct (decide (p = i)) as [->|Hne].
      * rewrite list_lookup_insert by lia. rewrite Hr. cbn. apply Hk.
      * rewrite list_lookup_insert_ne by done. apply HK.
  - cbn beta. intros polys' (_ & _ & H). done.
Qed.

(** ** The whole function *)

Lemma max_vertices_sum cs : max_vertices cs = sum_list ((λ c, length (ct_verts c)) <$> live_contours cs).
Proof. done. Qed.
Lemma max_cap cs : Forall (λ c, (length (ct_verts c) <= max_verts_per_cont cs)%nat) (live_contours cs).
Proof.
  unfold max_verts_per_cont. generalize (live_contours cs) as l. induction l as [|c l IH]; [constructor|].
  rewrite fmap_cons. cbn [foldr]. constructor; [lia|]. eapply Forall_impl; [exact IH|]. cbn. lia.
Qed.

Lemma tags_length f nvp ps rows : Forall2 (λ row vs, padded nvp vs row) rows (concat (snd <$> ps)) → length (tags f ps) = length rows.
Proof.
  intros HF. rewrite (Forall2_length _ _ _ HF). clear HF. unfold tags. induction ps as [|p ps IH]; [done|].
  rewrite !fmap_cons. cbn [concat]. rewrite !app_length, replicate_length, IH. done.
Qed.

Lemma piece_verts nvp verts ps : Forall (piece_ok nvp verts) ps → Forall (Forall (λ v, 0 <= v ∧ (Z.to_nat v < length verts)%nat)) (concat (snd <$> ps)).
Proof.
  intros H. apply Forall_forall. intros vs Hvs. apply elem_of_concat in Hvs as (g & Hvs & Hg).
  apply elem_of_list_fmap in Hg as (p & -> & Hp). rewrite Forall_forall in H. specialize (H p Hp).
  destruct p as [[c ind] g]. destruct H as (HF & _ & T & _). cbn in Hvs.
  apply Forall_forall. intros v Hv. assert (v ∈ ind) as Hi by (apply (tl_corners _ _ T); eauto).
  apply elem_of_list_lookup in Hi as [i Hi]. destruct (Forall2_lookup_r _ _ _ _ _ HF Hi) as (x & _ & H0 & w & Hw & _).
  split; [done|]. by eapply lookup_lt_Some.
Qed.

Lemma slots_length vss : length (all_slots vss (length vss)) = length (edges_of vss).
Proof.
  rewrite <- (fmap_length (λ s, (su s, sv s))). rewrite all_slots_edges, take_ge by done. done.
Qed.

Lemma at_slot_edge vss s : at_slot vss s ↔ has_edge vss (sp s) (se s) (su s) (sv s).
Proof. done. Qed.
Lemma nbr_nbr_at ps p e : nbr ps p e = nbr_at (ps.*2) p e.
Proof. unfold nbr, nbr_at. rewrite list_lookup_fmap. by destruct (ps !! p). Qed.

Lemma edges_three nvp rows vss : Forall2 (λ row vs, padded nvp vs row) rows vss → (3 * length vss <= length (edges_of vss))%nat.
Proof.
  intros HF. assert (Forall (λ vs : list Z, (3 <= length vs)%nat) vss) as H1.
  { apply Forall_forall. intros vs Hvs. apply elem_of_list_lookup in Hvs as [i Hi].
    destruct (Forall2_lookup_r _ _ _ _ _ HF Hi) as (r & _ & (_ & Hl & _)). lia. }
  clear -H1. unfold edges_of. induction H1 as [|vs vss Hvs _ IH]; [done|]. rewrite fmap_cons. cbn [concat length].
  rewrite app_length. assert (length (cycle_edges vs) = length vs); [|lia].
  destruct vs as [|v vs]; [done|]. cbn [cycle_edges]. rewrite zip_with_length, app_length. cbn [length]. lia.
Qed.

Lemma max_vertices_tris cs : (max_vertices cs <= 3 * max_tris cs)%nat.
Proof.
  unfold max_vertices, max_tris. assert (Forall (λ c, (3 <= length (ct_verts c))%nat) (live_contours cs)) as H.
  { apply Forall_forall. intros c Hc. by apply elem_of_list_filter in Hc as [? _]. }
  induction H as [|c l Hc _ IH]; [done|]. rewrite !fmap_cons. cbn [sum_list foldr] in *. cbn. cbn in IH. lia.
Qed.

Lemma into_polygon_mesh_ends (B : Prop) hf nvp ks : (3 <= nvp)%nat → Z.of_nat nvp <= 65535 →
  Z.of_nat (3 * max_tris (ks_contours ks)) <= 65535 →
  Forall (good_contour B) (live_contours (ks_contours ks)) →
  ends B (into_polygon_mesh hf nvp ks) (λ r,
    match r with
    | Err e => e = InvalidContour ∧ ∃ c, c ∈ live_contours (ks_contours ks) ∧ ¬ strictly_convex (fst <$> ct_verts c)
    | Ok pm => ∃ pieces, mesh_of nvp (ks_border ks) (live_contours (ks_contours ks)) (pm_verts pm) (pm_polys pm) (pm_nbrs pm)
        (pm_regs pm) (pm_areas pm) pieces ∧ length (pm_flags pm) = length (pm_polys pm) ∧
        length (pm_regs pm) = max_tris (ks_contours ks)
    end).
Proof.
  intros H3 Hnvp Hmt Hg. unfold into_polygon_mesh.
  pose proof (max_vertices_tris (ks_contours ks)) as Hmvt.
  destruct (65535 <? _) eqn:E; [exfalso; lia|].
  set (mv := max_vertices (ks_contours ks)) in *. set (mt := max_tris (ks_contours ks)) in *.
  unfold pbind. eapply ends_bind.
  { eapply (all_contours_ends B nvp mt mv (max_verts_per_cont (ks_contours ks)) (repeat false mv) H3 ltac:(lia) (ks_contours ks) _ _ [] [] [] []).
    - done.
    - apply max_cap.
    - apply empty_rep.
    - left. constructor.
    - split; cbn; rewrite ?Nat.sub_0_r; done.
    - fold mv. cbn. lia.
    - fold mt. cbn. lia. }
  intros [[[t flags] m]|e]; [|done].
  intros (-> & ext & ps & rows & Rt & Hps & Hok & He & HF & S & Hap & Hfrom). cbn [app] in *.
  set (m1 := IM (vt_verts t) (vt_n t) (take (im_np m) (im_polys m)) (im_np m) (im_regs m) (im_areas m)).
  rewrite (remove_none hf mt nvp mv m1); [..|cbn; lia].
  2: { cbn. rewrite (vr_n _ _ _ Rt). apply (vr_cap _ _ _ Rt). }
  cbn [obind]. destruct S as [S1 S2 S3 S4 S5 S6].
  set (vss := concat (snd <$> ps)) in *.
  pose proof (Forall2_length _ _ _ HF) as Hlen.
  assert (im_polys m1 = (λ r, (r, repeat NO_INDEX nvp)) <$> rows) as Ep.
  { cbn. rewrite S4, S1. rewrite take_app_alt; [done|]. by rewrite fmap_length. }
  rewrite Ep. cbn [im_nv im_np m1]. rewrite S1, (vr_n _ _ _ Rt).
  pose proof (piece_verts nvp ext ps Hok) as Hv. fold vss in Hv.
  rewrite Hlen.
  eapply ends_bind; [eapply ends_runs, (adjacency_runs (length ext) nvp _ vss)|].
  - apply Forall2_fmap_l. apply Forall2_same_length_lookup. split; [done|].
    intros i r vs Hr Hvs. rewrite Forall2_lookup in HF. specialize (HF i). rewrite Hr, Hvs in HF. inversion HF; subst. cbn.
    split; [done|]. rewrite Forall_lookup in Hv. eapply Forall_impl; [by eapply Hv|]. cbn. lia.
  - apply Forall_fmap, Forall_true. done.
  - pose proof (edges_three _ _ _ HF). lia.
  - lia.
  - unfold ascs. pose proof (filter_length (λ s, asc s = true) (all_slots vss (length vss))) as H1.
    rewrite slots_length in H1. lia.
  - intros polys (E1 & HL & Hsym & Hlinks).
    assert (polys.*1 = rows) as Er.
    { rewrite E1, <- list_fmap_compose. apply list_fmap_id. }
    assert (length polys = length vss) as Hpl by (rewrite <- (fmap_length fst polys), Er; done).
    assert (take (vt_n t) (vt_verts t) = ext) as Evt by (rewrite (vr_n _ _ _ Rt); apply Rt).
    assert (length ext <= length (vt_verts t))%nat as Hvt.
    { rewrite (vr_vlen _ _ _ Rt). apply (vr_cap _ _ _ Rt). }
    eapply (ends_bind B _ _ (λ polys', polys'.*1 = rows ∧ Forall (λ r : list Z * list Z, length r.2 = nvp) polys' ∧
      ∀ p e q, nbr polys' p e = Some q → nbr polys p e = Some q ∨ (nbr polys p e = Some NO_INDEX ∧ 0 < ks_border ks ∧ 32768 <= q <= 32771)) _).
    { destruct (0 <? ks_border ks) eqn:Eb; [|cbn; auto].
      apply ends_runs. rewrite <- Hpl. eapply runs_mono; [apply (find_portals_runs _ _ _ _ _ vss)|].
      - apply Forall2_same_length_lookup. split; [done|]. intros i r vs Hr Hvs.
        assert (rows !! i = Some r.1) as Hri by (rewrite <- Er, list_lookup_fmap, Hr; done).
        rewrite Forall2_lookup in HF. specialize (HF i). rewrite Hri, Hvs in HF. inversion HF; subst.
        split; [done|]. split; [rewrite Forall_lookup in HL; by eapply HL|].
        rewrite Forall_lookup in Hv. eapply Forall_impl; [by eapply Hv|]. change (im_verts m1) with (vt_verts t). cbn. lia.
      - cbn beta. intros polys' (E1' & HL' & HK). split; [congruence|]. split; [done|].
        intros p x q Hq. destruct (HK p x q Hq) as [?|[? ?]]; [by left|right]. split; [done|]. split; [lia|done]. }
    intros polys' (Er' & HL' & HK). cbn [ends].
    assert (length polys' = length vss) as Hpl' by (rewrite <- (fmap_length fst polys'), Er'; done).
    exists ps. unfold finish_mesh. cbn [pm_verts pm_polys pm_nbrs pm_regs pm_areas pm_flags im_np im_nv im_polys im_verts im_regs im_areas m1].
    rewrite <- (vr_n _ _ _ Rt), Evt. rewrite !(take_ge polys') by lia. rewrite Er'.
    split; [|split; [by rewrite repeat_length|]].
    2: { rewrite S5, app_length, repeat_length, S2. pose proof (edges_three _ _ _ HF). fold mt. lia. }
    split.
    + done.
    + done.
    + done.
    + rewrite S5. rewrite take_app_alt; [done|]. symmetry. by eapply tags_length.
    + rewrite S6. rewrite take_app_alt; [done|]. rewrite <- Hlen. symmetry. by eapply tags_length.
    + split; [rewrite fmap_length; lia|]. by apply Forall_fmap.
    + intros p x q. rewrite <- nbr_nbr_at. intros Hq. destruct (HK p x q Hq) as [Hq'|(_ & ?)]; [|tauto].
      destruct (Hsym p x q Hq') as [->|(s & s' & Hs & Hs' & <- & <- & -> & [O1 O2] & Hne & Hback)]; [by left|].
      right. right. exists (su s), (sv s), (sp s'), (se s'). split; [done|]. split; [congruence|].
      split; [by apply at_slot_edge|]. split; [rewrite O1, O2; by apply at_slot_edge|].
      (* portals do not overwrite the other side *)
      rewrite <- nbr_nbr_at.
      destruct Hs as (vs & Hvs & _). apply lookup_lt_Some in Hvs.
      assert (∃ q', nbr polys' (sp s') (se s') = Some q') as [q' Hq2].
      { destruct Hs' as (vs' & Hvs' & Hu' & _). unfold nbr.
        destruct (lookup_lt_is_Some_2 polys' (sp s')) as [r Hr]; [apply lookup_lt_Some in Hvs'; lia|]. rewrite Hr. cbn.
        apply lookup_lt_is_Some_2. rewrite Forall_lookup in HL'. rewrite (HL' _ _ Hr).
        destruct (Forall2_lookup_r _ _ _ _ _ HF Hvs') as (r' & _ & (_ & Hl & _)). apply lookup_lt_Some in Hu'. lia. }
      rewrite Hq2. destruct (HK _ _ _ Hq2) as [H|[H _]]; [congruence|]. exfalso.
      rewrite Hback in H. injection H as H. unfold NO_INDEX in H.
      pose proof (edges_three _ _ _ HF). lia.
    + fold vss. cbv zeta. intros p x q f u v Hp Hq Hne U1 U2.
      pose proof (Hlinks (Sl p x u v) (Sl q f v u) U1 U2 Hp Hq) as Hl. cbn in Hl. specialize (Hl ltac:(done) Hne).
      rewrite <- nbr_nbr_at. destruct Hq as (vsq & Hvsq & _). apply lookup_lt_Some in Hvsq.
      assert (∃ q', nbr polys' p x = Some q') as [q' Hq2].
      { destruct Hp as (vs' & Hvs' & Hu' & _). unfold nbr.
        destruct (lookup_lt_is_Some_2 polys' p) as [r Hr]; [apply lookup_lt_Some in Hvs'; lia|]. rewrite Hr. cbn.
        apply lookup_lt_is_Some_2. rewrite Forall_lookup in HL'. rewrite (HL' _ _ Hr).
        destruct (Forall2_lookup_r _ _ _ _ _ HF Hvs') as (r' & _ & (_ & Hl' & _)). apply lookup_lt_Some in Hu'. lia. }
      rewrite Hq2. destruct (HK _ _ _ Hq2) as [H|[H _]]; [congruence|]. exfalso.
      rewrite Hl in H. injection H as H. unfold NO_INDEX in H.
      pose proof (edges_three _ _ _ HF). lia.
    + split; [|apply Hap; intros i j a b Hi; done]. intros w Hw. destruct (Hfrom w Hw) as [Hw'|?]; [by apply elem_of_nil in Hw'|done].
Qed.
