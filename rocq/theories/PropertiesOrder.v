(** The order of the triangles of a mesh and how often they occur: C04, C10, C88. *)
From Verif Require Import Base ModelMath ModelHeightfield ModelFilters ModelHistory ModelTriMesh ModelRasterize
  SpecHeightfield SpecTriMesh HeapProofs InsertProofs FilterProofs FlowProofs HistoryProofs PropertiesHeightfield RasterSafe PropertiesRasterize PropertiesAgents TriOrderProofs.
Local Open Scope Z_scope.

(** The insertion of a span with the area of a triangle. *)
Definition ins_of (thr area : Z) (q : Z * Z * Z * Z) : insertion :=
  let '(x, z, a, b) := q in mkIns (Z.to_nat x) (Z.to_nat z) thr (mkSpan a b area None).
(** The spans of one triangle on a field of [w] times [h] cells: no heightfield is
    looked at. *)
Definition draws (w h : nat) (g : geo) (thr : Z) (p : placed_tri) (is : list insertion) : Prop :=
  ∃ a b c l, p.1 = (Some a, Some b, Some c) ∧ is = ins_of thr p.2 <$> l ∧
    rasterize_tri f32_arith emit_list (Z.of_nat w) (Z.of_nat h) (place_of g) (pt_of a, pt_of b, pt_of c) [] = Done (Some l).
Definition small (w h : nat) : Prop := Z.of_nat w < 65536 ∧ Z.of_nat h < 65536.
Definition byte (a : Z) : Prop := 0 <= a <= 255.

Lemma draws_unique w h g thr p is is' : draws w h g thr p is → draws w h g thr p is' → is = is'.
Proof. intros (a & b & c & l & E & -> & H) (a' & b' & c' & l' & E' & -> & H'). rewrite E in E'. injection E' as <- <- <-. rewrite H in H'. by injection H' as <-. Qed.

(** What is drawn is valid and within the field. *)
Lemma draws_inside w h g thr p is : small w h → byte p.2 → 0 <= thr <= 65535 → draws w h g thr p is →
  Forall valid_insertion is ∧ Forall (inside w h) is ∧ Forall (λ i, in_thr i = thr) is.
Proof.
  intros [Hw Hh] Ha Ht (a & b & c & l & _ & -> & H).
  pose proof (rasterize_safe f32_arith emit_list (Forall (λ q : Z * Z * Z * Z, 0 <= q.1.1.1 < Z.of_nat w ∧ 0 <= q.1.1.2 < Z.of_nat h ∧ 0 <= q.1.2 < q.2 ∧ q.2 <= 65535))
    (Z.of_nat w) (Z.of_nat h) (place_of g) (pt_of a, pt_of b, pt_of c) []) as Hs.
  rewrite H in Hs. destruct Hs as (l' & [= <-] & Hl); [|constructor|].
  { intros x z lo hi s Hx Hz Hlo Hhi Hs. cbn. eexists. split; [done|]. apply Forall_app_2; [done|]. constructor; [|constructor]. cbn.
    assert (∀ n, 0 <= n < 65536 → wrap_i16 n <= n) as Hwrap. { intros n Hn. unfold wrap_i16. pose proof (Z.mod_le (n + 32768) 65536). lia. }
    pose proof (Hwrap (Z.of_nat w) ltac:(lia)). pose proof (Hwrap (Z.of_nat h) ltac:(lia)). lia. }
  split_and!; apply Forall_fmap; (eapply Forall_impl; [exact Hl|]); intros [[[x z] lo] hi] (H1 & H2 & H3 & H4); cbn in *.
  - unfold valid_insertion, byte in *. cbn. lia.
  - split; cbn; lia.
  - done.
Qed.

Lemma run_ops_app a b hf : run_ops (a ++ b) hf = obind (run_ops a hf) (run_ops b).
Proof. apply foldM_app. Qed.
Lemma insert_run i hf hf' : add_span hf i = Done (Some hf') → run_ops (OpInsert <$> [i]) hf = Done hf'.
Proof. intros E. cbn. by rewrite E. Qed.

(** Rasterizing a triangle runs the insertions that it draws. *)
Lemma triangle_draws hf w h g a b c area thr hf' : hf_w hf = w → hf_h hf = h → hf_geo hf = g →
  rasterize_triangle hf (pt_of a, pt_of b, pt_of c) area thr = Done (Some hf') →
  ∃ is, draws w h g thr (Some a, Some b, Some c, area) is ∧ run_ops (OpInsert <$> is) hf = Done hf'.
Proof.
  intros Ew Eh Eg H. unfold rasterize_triangle in H. rewrite Ew, Eh, Eg in H.
  eapply (rasterize_rel f32_arith _ emit_list (λ s l, run_ops (OpInsert <$> (ins_of thr area <$> l)) hf = Done s)) with (s2 := []) in H; [|clear H|done].
  - destruct H as (l & El & Hl). eexists. split; [by exists a, b, c, l|done].
  - intros x z lo hi s1 l s1' _ _ _ _ Hl He. eexists. split; [done|]. rewrite !fmap_app, run_ops_app, Hl. cbn [obind]. by apply insert_run.
Qed.
Lemma drawn_triangle hf w h g a b c area thr is : reachable hf → small w h → byte area → 0 <= thr <= 65535 → hf_w hf = w → hf_h hf = h → hf_geo hf = g →
  draws w h g thr (Some a, Some b, Some c, area) is → ∃ hf', rasterize_triangle hf (pt_of a, pt_of b, pt_of c) area thr = Done (Some hf').
Proof.
  intros Hr [Hw Hh] Ha Ht Ew Eh Eg (a' & b' & c' & l & [= <- <- <-] & _ & H). unfold rasterize_triangle. rewrite Ew, Eh, Eg.
  eapply (rasterize_rel f32_arith emit_list (emit_span area thr) (λ _ s, by_insertions hf s)) with (s2 := hf) in H; [|clear H|by exists []].
  - destruct H as (hf' & E & _). by exists hf'.
  - intros x z lo hi l1 s l1' Hx Hz Hlo Hhi Hs _. destruct (emit_done hf area thr x z lo hi s) as (s' & E & Hs'); [by rewrite ?Ew, ?Eh..|]. by exists s'.
Qed.

(** One triangle after the other. *)
Definition add_tri (m : trimesh) (thr : Z) : nat * (Z * Z * Z) → hfield → outcome (option hfield) := λ '(i, t) hf,
  let! a := vert (tm_verts m) t.1.1 in
  let! b := vert (tm_verts m) t.1.2 in
  let! c := vert (tm_verts m) t.2 in
  let! area := get (tm_areas m) i in
  rasterize_triangle hf (pt_of a, pt_of b, pt_of c) area thr.
Lemma add_tri_eq m thr hf : rasterize_triangles hf m thr = foldE (add_tri m thr) (imap (λ i t, (i, t)) (tm_idx m)) hf.
Proof. reflexivity. Qed.
Lemma corner_get vs i : 0 <= i < Z.of_nat (length vs) → ∃ a, corner_at vs i = Some a ∧ vert vs i = Done a.
Proof.
  intros H. destruct (lookup_lt_is_Some_2 vs (Z.to_nat i)) as [a E]; [lia|]. exists a. unfold corner_at, vert, get. rewrite E.
  destruct (i <? 0) eqn:E0; [apply Z.ltb_lt in E0; lia|]. done.
Qed.
Lemma mesh_draws m thr w h g : small w h → 0 <= thr <= 65535 → ∀ idx al k hf, length al = length idx → (∀ i, al !! i = tm_areas m !! (k + i)%nat) →
  Forall (in_range (length (tm_verts m))) idx → Forall byte al → reachable hf → hf_w hf = w → hf_h hf = h → hf_geo hf = g →
  let ps := zip_with (λ t a, (corner_at (tm_verts m) t.1.1, corner_at (tm_verts m) t.1.2, corner_at (tm_verts m) t.2, a)) idx al in
  let r := foldE (add_tri m thr) (imap (λ i t, ((k + i)%nat, t)) idx) hf in
  (∀ hf', r = Done (Some hf') → ∃ L, Forall2 (draws w h g thr) ps L ∧ run_ops (OpInsert <$> concat L) hf = Done hf') ∧
  (∀ L, Forall2 (draws w h g thr) ps L → ∃ hf', r = Done (Some hf')).
Proof.
  intros Hs Ht idx. induction idx as [|t idx IH]; intros al k hf Hl Ha Hi Hb Hr Ew Eh Eg; destruct al as [|area al]; try done; cbv zeta.
  { split; [intros hf2 H; cbn in H; injection H as <-; exists []; split; [constructor|done]|]. intros L _. exists hf. done. }
  apply Forall_cons in Hi as [(I1 & I2 & I3) Hi]. apply Forall_cons in Hb as [Hb1 Hb]. cbn [zip_with]. rewrite imap_cons. cbn [foldE add_tri].
  destruct (corner_get _ _ I1) as (a & Ca & Va). destruct (corner_get _ _ I2) as (b & Cb & Vb). destruct (corner_get _ _ I3) as (c & Cc & Vc).
  rewrite Va, Vb, Vc, Ca, Cb, Cc. cbn [obind]. assert (get (tm_areas m) (k + 0) = Done area) as ->. { unfold get. by rewrite <-(Ha 0%nat). } cbn [obind].
  assert (imap ((λ i t0, ((k + i)%nat, t0)) ∘ S) idx = imap (λ i t0, ((S k + i)%nat, t0)) idx) as ->.
  { apply imap_ext. intros i x _. cbn. f_equal. lia. }
  assert (∀ hf1, rasterize_triangle hf (pt_of a, pt_of b, pt_of c) area thr = Done (Some hf1) → reachable hf1 ∧ hf_w hf1 = w ∧ hf_h hf1 = h ∧ hf_geo hf1 = g) as Hshape.
  { intros hf1 E. destruct Hs as [Hw Hh]. pose proof (C55_rasterize_triangle hf (pt_of a, pt_of b, pt_of c) area thr Hr ltac:(by rewrite Ew) ltac:(by rewrite Eh) Hb1 Ht) as H. rewrite E in H.
    destruct H as (hf' & [= <-] & Hby). destruct (by_insertions_shape _ _ Hr Hby) as (Rx & Wx & Hx & Gx). split_and!; [exact Rx|congruence|congruence|congruence]. }
  assert (length al = length idx) as Hl' by (cbn in Hl; lia). assert (∀ i, al !! i = tm_areas m !! (S k + i)%nat) as Ha'. { intros i. rewrite Nat.add_succ_comm, <-Ha. done. }
  split.
  - intros hf' (r & Er & H)%obind_done. destruct r as [hf1|]; [|done]. destruct (Hshape hf1 Er) as (R1 & W1 & H1 & G1).
    destruct (IH al (S k) hf1 Hl' Ha' Hi Hb R1 W1 H1 G1) as [IH1 _]. destruct (IH1 hf' H) as (L & HL & EL).
    destruct (triangle_draws hf w h g a b c area thr hf1 Ew Eh Eg Er) as (is & Hd & Eis). exists (is :: L). split; [by constructor|].
    cbn [concat]. rewrite fmap_app, run_ops_app, Eis. done.
  - intros L HL. apply Forall2_cons_inv_l in HL as (is & L' & Hd & HL & ->). destruct (drawn_triangle hf w h g a b c area thr is Hr Hs Hb1 Ht Ew Eh Eg Hd) as [hf1 E1].
    destruct (Hshape hf1 E1) as (R1 & W1 & H1 & G1). destruct (IH al (S k) hf1 Hl' Ha' Hi Hb R1 W1 H1 G1) as [_ IH2]. rewrite E1. cbn [obind]. by apply (IH2 L').
Qed.
Lemma permuted {A B} (P : A → B → Prop) l l' k : l ≡ₚ l' → Forall2 P l k → ∃ k', Forall2 P l' k' ∧ k ≡ₚ k'.
Proof.
  intros Hp. revert k. induction Hp as [|x l l' _ IH|x y l|l1 l2 l3 _ IH1 _ IH2]; intros k H.
  - apply Forall2_nil_inv_l in H as ->. by exists [].
  - apply Forall2_cons_inv_l in H as (b & k' & Hb & H & ->). destruct (IH k' H) as (k2 & H2 & Hk). exists (b :: k2). split; [by constructor|by constructor].
  - apply Forall2_cons_inv_l in H as (b & k' & Hb & H & ->). apply Forall2_cons_inv_l in H as (c & k2 & Hc & H & ->). exists (c :: b :: k2). split; [by repeat constructor|constructor].
  - destruct (IH1 k H) as (k2 & H2 & P2). destruct (IH2 k2 H2) as (k3 & H3 & P3). exists k3. split; [done|by etrans].
Qed.
Lemma soup_areas m : valid m → (snd <$> soup m : list Z) = tm_areas m.
Proof.
  intros [_ Hl]. unfold soup. revert Hl. generalize (tm_areas m). induction (tm_idx m) as [|t l IH]; intros [|a al] H; try done. cbn. f_equal. apply IH. cbn in H. lia.
Qed.
Lemma bytes_permuted m1 m2 : valid m1 → valid m2 → soup m1 ≡ₚ soup m2 → Forall byte (tm_areas m1) → Forall byte (tm_areas m2).
Proof. intros V1 V2 Hp H. rewrite <-(soup_areas m2 V2), <-Hp, (soup_areas m1 V1). done. Qed.

(** ** C88 *)

(** What two orders of the same triangles have in common. *)
Lemma order_core w h g m1 m2 thr hf1 : small w h → valid m1 → valid m2 → soup m1 ≡ₚ soup m2 → Forall byte (tm_areas m1) → 0 <= thr <= 65535 →
  rasterize_triangles (new_hf w h g) m1 thr = Done (Some hf1) →
  ∃ hf2 L L2, rasterize_triangles (new_hf w h g) m2 thr = Done (Some hf2) ∧ Forall2 (draws w h g thr) (soup m1) L ∧ concat L ≡ₚ concat L2 ∧
    run_ops (OpInsert <$> concat L) (new_hf w h g) = Done hf1 ∧ run_ops (OpInsert <$> concat L2) (new_hf w h g) = Done hf2 ∧
    Forall valid_insertion (concat L) ∧ Forall (inside w h) (concat L) ∧ Forall (λ i, in_thr i = thr) (concat L) ∧
    ∀ c l1 l2, is_column hf1 c l1 → is_column hf2 c l2 → geometry l1 = geometry l2.
Proof.
  intros Hs V1 V2 Hp Hb Ht E1. assert (reachable (new_hf w h g)) as Hr by (exists w, h, g, []; done).
  pose proof (bytes_permuted m1 m2 V1 V2 Hp Hb) as Hb2. rewrite add_tri_eq in E1.
  destruct (mesh_draws m1 thr w h g Hs Ht (tm_idx m1) (tm_areas m1) 0 (new_hf w h g)) as [H1 _]; [apply V1|done|apply V1|done|done|done|done|done|].
  destruct (H1 hf1 E1) as (L & HL & R1). change (Forall2 (draws w h g thr) (soup m1) L) in HL. clear H1.
  destruct (permuted _ _ _ _ Hp HL) as (L2 & HL2 & HpL).
  destruct (mesh_draws m2 thr w h g Hs Ht (tm_idx m2) (tm_areas m2) 0 (new_hf w h g)) as [H3 H4]; [apply V2|done|apply V2|done|done|done|done|done|].
  destruct (H4 L2 HL2) as (hf2 & E2). destruct (H3 hf2 E2) as (L2' & HL2' & R2). clear H3 H4.
  assert (L2' = L2) as ->. { change (Forall2 (draws w h g thr) (soup m2) L2') in HL2'. clear -HL2 HL2'. revert L2' HL2'. induction HL2 as [|p is l k Hp _ IH]; intros k' H; [by apply Forall2_nil_inv_l in H|].
    apply Forall2_cons_inv_l in H as (is' & k2 & Hp' & H & ->). f_equal; [by eapply draws_unique|by apply IH]. }
  assert (concat L ≡ₚ concat L2) as Hc by by rewrite HpL.
  assert (Forall valid_insertion (concat L) ∧ Forall (inside w h) (concat L) ∧ Forall (λ i, in_thr i = thr) (concat L)) as (Hv & Hin & Hth).
  { rewrite <-(soup_areas m1 V1) in Hb. clear -HL Hb Hs Ht. induction HL as [|p is l k Hd _ IH]; [cbn [concat]; split_and!; constructor|]. rewrite fmap_cons in Hb. apply Forall_cons in Hb as [Hb1 Hb].
    destruct (draws_inside w h g thr p is Hs Hb1 Ht Hd) as (A & B & C). destruct (IH Hb) as (A' & B' & C'). cbn [concat]. split_and!; by apply Forall_app_2. }
  assert (Forall valid_insertion (concat L2)) as Hv2 by by rewrite <-Hc.
  assert (∀ is hf, Forall valid_insertion is → run_ops (OpInsert <$> is) (new_hf w h g) = Done hf → reachable hf) as Hre.
  { intros is hf Hvi Hrun. exists w, h, g, (OpInsert <$> is). split; [by apply Forall_fmap|done]. }
  exists hf2, L, L2. split; [by rewrite add_tri_eq|]. split_and!; [done..|]. intros c l1 l2 C1 C2.
  assert (c < w * h)%nat as Hcw.
  { destruct C1 as (kl & (o & Ho & _) & _). apply lookup_lt_Some in Ho. assert (Forall valid_op (OpInsert <$> concat L)) as Hva by by apply Forall_fmap.
    pose proof (run_ops_ok _ _ _ Hva (hf_ok_new w h g)) as Hsh. rewrite R1 in Hsh. cbn [runs] in Hsh.
    destruct Hsh as [(F1 & F2 & _) [cols [Hrp Hl _]]]. cbn in F1, F2. rewrite <-(rep_len _ _ Hrp), Hl, F1, F2 in Ho. done. }
  pose proof (C04_insertion_order_irrelevant (new_hf w h g) (concat L) (concat L2) Hr Hv Hv2 (fmap_Permutation _ _ _ Hc)) as H4.
  rewrite R1 in H4. cbn [runs] in H4. rewrite R2 in H4. cbn [runs] in H4. destruct (H4 c Hcw) as (k1 & k2 & K1 & K2 & Hg).
  by rewrite (column_unique _ _ _ _ (Hre _ _ Hv R1) K1 C1), (column_unique _ _ _ _ (Hre _ _ Hv2 R2) K2 C2) in Hg.
Qed.

(** A mesh with the triangles in another order is rasterized as well. The spans have the
    same floors and ceilings, and those that are walkable are the same, except where a
    span of a walkable triangle ends deeper within the span than the merge threshold. *)
Theorem C88_triangle_order :
  ∀ w h g m1 m2 thr hf1, small w h → valid m1 → valid m2 → soup m1 ≡ₚ soup m2 → Forall byte (tm_areas m1) → 0 <= thr <= 65535 →
  rasterize_triangles (new_hf w h g) m1 thr = Done (Some hf1) →
  ∃ hf2 L, rasterize_triangles (new_hf w h g) m2 thr = Done (Some hf2) ∧ Forall2 (draws w h g thr) (soup m1) L ∧
  ∀ c l1 l2, is_column hf1 c l1 → is_column hf2 c l2 → geometry l1 = geometry l2 ∧
    ∀ k a1 a2, l1 !! k = Some a1 → l2 !! k = Some a2 →
      (∀ i, i ∈ concat L → lies_in w c a1 i → s_area (in_span i) ≠ 0 → c_max a1 - thr ≤ s_max (in_span i)) →
      (walkable a1 ↔ walkable a2).
Proof.
  intros w h g m1 m2 thr hf1 Hs V1 V2 Hp Hb Ht E1.
  destruct (order_core w h g m1 m2 thr hf1 Hs V1 V2 Hp Hb Ht E1) as (hf2 & L & L2 & E2 & HL & Hc & R1 & R2 & Hv & Hin & Hth & Hg).
  exists hf2, L. split_and!; [done|done|]. intros c l1 l2 C1 C2. split; [by eapply Hg|].
  intros k a1 a2 A1 A2 Hd. by destruct (C88_order_mostly_irrelevant w h g thr (concat L) (concat L2) hf1 hf2 c l1 l2 k a1 a2).
Qed.

(** Where all triangles have the same area nothing depends on their order. *)
Theorem C88_triangle_order_one_area :
  ∀ w h g m1 m2 thr hf1 area, small w h → valid m1 → valid m2 → soup m1 ≡ₚ soup m2 → Forall (λ a, a = area) (tm_areas m1) → byte area → 0 <= thr <= 65535 →
  rasterize_triangles (new_hf w h g) m1 thr = Done (Some hf1) →
  ∃ hf2, rasterize_triangles (new_hf w h g) m2 thr = Done (Some hf2) ∧
    ∀ c l1 l2, is_column hf1 c l1 → is_column hf2 c l2 → l1 = l2 ∧ Forall (λ a, c_area a = area) l1.
Proof.
  intros w h g m1 m2 thr hf1 area Hs V1 V2 Hp Ha Hb Ht E1.
  assert (Forall byte (tm_areas m1)) as Hbs. { eapply Forall_impl; [exact Ha|]. by intros x ->. }
  destruct (order_core w h g m1 m2 thr hf1 Hs V1 V2 Hp Hbs Ht E1) as (hf2 & L & L2 & E2 & HL & Hc & R1 & R2 & Hv & Hin & Hth & Hg).
  exists hf2. split; [done|]. intros c l1 l2 C1 C2. pose proof (Hg c l1 l2 C1 C2) as Hgeo.
  assert (Forall (λ i, s_area (in_span i) = area) (concat L)) as Hall.
  { rewrite <-(soup_areas m1 V1) in Ha. clear -HL Ha. induction HL as [|p is l k Hd _ IH]; [constructor|]. rewrite fmap_cons in Ha. apply Forall_cons in Ha as [Ha1 Ha].
    cbn [concat]. apply Forall_app_2; [|by apply IH]. destruct Hd as (a & b & c & q & _ & -> & _). apply Forall_fmap, Forall_true. intros [[[x z] lo] hi]. done. }
  assert (∀ is hf l, Forall valid_insertion is → Forall (inside w h) is → Forall (λ i, in_thr i = thr) is → Forall (λ i, s_area (in_span i) = area) is →
    run_ops (OpInsert <$> is) (new_hf w h g) = Done hf → is_column hf c l → Forall (λ a, c_area a = area) l) as Hone.
  { intros is hf l A1 A2 A3 A4 A5 A6. destruct (C88_area_of_a_span w h g thr is hf c l A1 A2 A3 A5 A6) as [_ H]. apply Forall_forall. intros m Hm.
    destruct (H m Hm) as [(i & Hi & _ & <-) _]. by apply (proj1 (Forall_forall _ _) A4). }
  assert (Forall (λ a, c_area a = area) l1) as F1 by by apply (Hone (concat L) hf1).
  assert (Forall (λ a, c_area a = area) l2) as F2. { apply (Hone (concat L2) hf2); try done; by rewrite <-Hc. }
  split; [|done]. clear -Hgeo F1 F2. revert l2 Hgeo F2. induction F1 as [|a1 l1 A1 _ IH]; intros [|a2 l2] Hgeo F2; try done.
  apply Forall_cons in F2 as [A2 F2]. cbn in Hgeo. injection Hgeo as G1 G2 G3. f_equal; [|by apply IH]. destruct a1, a2. cbn in *. congruence.
Qed.

(** ** C04 *)

(** Not only the order of the insertions is irrelevant for the floors and ceilings, but
    also how often a span is inserted. *)
Theorem C04_repeats_irrelevant :
  ∀ hf is1 is2, reachable hf → Forall valid_insertion is1 → Forall valid_insertion is2 →
  (∀ p, p ∈ placement <$> is1 ↔ p ∈ placement <$> is2) →
  runs (run_ops (OpInsert <$> is1) hf) (λ hf1, runs (run_ops (OpInsert <$> is2) hf) (λ hf2,
    ∀ c, (c < hf_w hf * hf_h hf)%nat → ∃ l1 l2, is_column hf1 c l1 ∧ is_column hf2 c l2 ∧ geometry l1 = geometry l2)).
Proof.
  intros hf is1 is2 (cols & Hok)%reachable_ok Hv1 Hv2 Hp. pose proof Hok as [Hr Hl Hf].
  eapply runs_mono; [by apply (inserts_solid2 is1 hf cols)|]. intros hf1 (Hsh1 & cols1 & Hok1 & Hall1).
  eapply runs_mono; [by apply (inserts_solid2 is2 hf cols)|]. intros hf2 (Hsh2 & cols2 & Hok2 & Hall2).
  intros c Hc. rewrite <-Hl in Hc. apply lookup_lt_is_Some in Hc as [kl Hkl].
  destruct (Hall1 _ _ Hkl) as (l1 & Hl1 & E1). destruct (Hall2 _ _ Hkl) as (l2 & Hl2 & E2). exists l1.*2, l2.*2. split_and!.
  - apply (is_column_rep _ cols1); [apply Hok1|eauto].
  - apply (is_column_rep _ cols2); [apply Hok2|eauto].
  - apply good_canonical; [by apply (ok_fine _ _ Hok1 c)|by apply (ok_fine _ _ Hok2 c)|]. intros y. rewrite E1, E2.
    assert (∀ is is', (∀ p, p ∈ placement <$> is → p ∈ placement <$> is') → covered_by (hf_w hf) is c y → covered_by (hf_w hf) is' c y) as HH.
    { intros is is' Hs (i & Hi & Ec & Hcov). assert (placement i ∈ placement <$> is') as Hin. { apply Hs. by apply elem_of_list_fmap_1. }
      apply elem_of_list_fmap in Hin as (i' & Ei & Hi'). exists i'. split; [done|]. unfold placement in Ei. injection Ei as Ex Ez Emn Emx.
      unfold covers2 in *. cbn in *. rewrite <-Ex, <-Ez, <-Emn, <-Emx. done. }
    split; (intros [H|H]; [by left|right]); (eapply HH; [|exact H]); intros p; apply Hp.
Qed.

Example C04_repeats_ex :
  let is1 := [mkIns 1 1 1 (mkSpan 3 6 1 None); mkIns 1 1 1 (mkSpan 6 9 2 None); mkIns 1 1 0 (mkSpan 3 6 5 None)] in
  let is2 := [mkIns 1 1 4 (mkSpan 6 9 0 None); mkIns 1 1 1 (mkSpan 3 6 9 None)] in
  Forall valid_insertion is1 ∧ Forall valid_insertion is2 ∧ ∀ p, p ∈ placement <$> is1 ↔ p ∈ placement <$> is2.
Proof.
  cbv zeta. split; [repeat constructor; cbn; lia|]. split; [repeat constructor; cbn; lia|]. intros p. unfold placement. cbn. rewrite !elem_of_cons. tauto.
Qed.

Lemma drawn_by w h g thr ps L i : Forall2 (draws w h g thr) ps L → i ∈ concat L → ∃ p is, p ∈ ps ∧ draws w h g thr p is ∧ i ∈ is.
Proof.
  induction 1 as [|p is ps L Hd _ IH]; cbn [concat]; [by intros ?%elem_of_nil|]. intros [Hi|Hi]%elem_of_app.
  - exists p, is. split; [left|done].
  - destruct (IH Hi) as (q & is' & Hq & H). exists q, is'. split; [by right|done].
Qed.
Lemma draws_of w h g thr ps L p : Forall2 (draws w h g thr) ps L → p ∈ ps → ∃ is, draws w h g thr p is ∧ ∀ i, i ∈ is → i ∈ concat L.
Proof.
  induction 1 as [|q is ps L Hd _ IH]; [by intros ?%elem_of_nil|]. cbn [concat]. intros [->|Hp]%elem_of_cons.
  - exists is. split; [done|]. intros i Hi. apply elem_of_app. by left.
  - destruct (IH Hp) as (is' & H & Hi). exists is'. split; [done|]. intros i Hx. apply elem_of_app. right. by apply Hi.
Qed.
(** The same corners: the same spans but for the area. *)
Lemma same_corners w h g thr (p q : placed_tri) is : p.1 = q.1 → draws w h g thr p is → ∃ is', draws w h g thr q is' ∧ placement <$> is' = placement <$> is.
Proof.
  intros E (a & b & c & l & Ep & -> & H). exists (ins_of thr q.2 <$> l). split; [exists a, b, c, l; by rewrite <-E|].
  rewrite <-!list_fmap_compose. apply list_fmap_ext. by intros ? [[[x z] lo] hi] _.
Qed.
Lemma corners_in w h g thr (ps qs : list placed_tri) L : (∀ t, t ∈ qs.*1 → t ∈ ps.*1) → Forall2 (draws w h g thr) ps L → ∃ L', Forall2 (draws w h g thr) qs L'.
Proof.
  intros Hs HL. induction qs as [|q qs IH]; [by exists []|]. destruct IH as [L' HL']. { intros t Ht. apply Hs. by right. }
  assert (q.1 ∈ ps.*1) as (p & E & Hp)%elem_of_list_fmap by (apply Hs; left). destruct (draws_of _ _ _ _ _ _ p HL Hp) as (is & Hd & _).
  destruct (same_corners w h g thr p q is (eq_sym E) Hd) as (is' & Hd' & _). exists (is' :: L'). by constructor.
Qed.
Lemma placed_in w h g thr (ps qs : list placed_tri) L L' : (∀ t, t ∈ ps.*1 → t ∈ qs.*1) → Forall2 (draws w h g thr) ps L → Forall2 (draws w h g thr) qs L' →
  ∀ x, x ∈ placement <$> concat L → x ∈ placement <$> concat L'.
Proof.
  intros Hs HL HL' x (i & -> & Hi)%elem_of_list_fmap. destruct (drawn_by _ _ _ _ _ _ i HL Hi) as (p & is & Hp & Hd & Hx).
  assert (p.1 ∈ qs.*1) as (q & E & Hq)%elem_of_list_fmap by (apply Hs; by apply elem_of_list_fmap_1).
  destruct (draws_of _ _ _ _ _ _ q HL' Hq) as (is' & Hd' & Hin). destruct (same_corners w h g thr p q is E Hd) as (is'' & Hd'' & Em).
  rewrite (draws_unique _ _ _ _ _ _ _ Hd' Hd'') in Hin. assert (placement i ∈ placement <$> is'') as (i' & -> & Hi')%elem_of_list_fmap. { rewrite Em. by apply elem_of_list_fmap_1. }
  apply elem_of_list_fmap_1. by apply Hin.
Qed.

(** Meshes with the same triangles, in any order, any number of times and with any areas,
    give the same floors and ceilings. *)
Theorem C04_same_triangles :
  ∀ w h g m1 m2 thr hf1, small w h → valid m1 → valid m2 → (∀ t, t ∈ (soup m1).*1 ↔ t ∈ (soup m2).*1) →
  Forall byte (tm_areas m1) → Forall byte (tm_areas m2) → 0 <= thr <= 65535 →
  rasterize_triangles (new_hf w h g) m1 thr = Done (Some hf1) →
  ∃ hf2, rasterize_triangles (new_hf w h g) m2 thr = Done (Some hf2) ∧
    ∀ c, (c < w * h)%nat → ∃ l1 l2, is_column hf1 c l1 ∧ is_column hf2 c l2 ∧ geometry l1 = geometry l2.
Proof.
  intros w h g m1 m2 thr hf1 Hs V1 V2 Hp Hb1 Hb2 Ht E1. assert (reachable (new_hf w h g)) as Hr by (exists w, h, g, []; done). rewrite add_tri_eq in E1.
  destruct (mesh_draws m1 thr w h g Hs Ht (tm_idx m1) (tm_areas m1) 0 (new_hf w h g)) as [H1 _]; [apply V1|done|apply V1|done|done|done|done|done|].
  destruct (H1 hf1 E1) as (L & HL & R1). change (Forall2 (draws w h g thr) (soup m1) L) in HL. clear H1.
  destruct (corners_in w h g thr (soup m1) (soup m2) L (λ t, proj2 (Hp t)) HL) as [L0 HL0].
  destruct (mesh_draws m2 thr w h g Hs Ht (tm_idx m2) (tm_areas m2) 0 (new_hf w h g)) as [H3 H4]; [apply V2|done|apply V2|done|done|done|done|done|].
  destruct (H4 L0 HL0) as (hf2 & E2). destruct (H3 hf2 E2) as (L2 & HL2 & R2). change (Forall2 (draws w h g thr) (soup m2) L2) in HL2. clear H3 H4 HL0.
  exists hf2. split; [by rewrite add_tri_eq|].
  assert (∀ m K, valid m → Forall byte (tm_areas m) → Forall2 (draws w h g thr) (soup m) K → Forall valid_insertion (concat K)) as Hv.
  { intros m K Vm Hb HK. rewrite <-(soup_areas m Vm) in Hb. clear -HK Hb Hs Ht. induction HK as [|p is l k Hd _ IH]; [constructor|]. rewrite fmap_cons in Hb. apply Forall_cons in Hb as [Hb1 Hb].
    destruct (draws_inside w h g thr p is Hs Hb1 Ht Hd) as (A & _). cbn [concat]. apply Forall_app_2; [done|by apply IH]. }
  pose proof (C04_repeats_irrelevant (new_hf w h g) (concat L) (concat L2) Hr (Hv m1 L V1 Hb1 HL) (Hv m2 L2 V2 Hb2 HL2)) as H.
  rewrite R1 in H. cbn [runs] in H. rewrite R2 in H. cbn [runs] in H. apply H. intros x. split; [by apply (placed_in w h g thr (soup m1) (soup m2) L L2 (λ t, proj1 (Hp t)))|].
  by apply (placed_in w h g thr (soup m2) (soup m1) L2 L (λ t, proj2 (Hp t))).
Qed.

(** ** The filters *)

(** A field whose columns are [V], whatever the keys of its spans. *)
Definition looks (hf : hfield) (w h : nat) (V : list (list cell)) : Prop :=
  hf_w hf = w ∧ hf_h hf = h ∧ ∃ cols, rep hf cols ∧ length cols = (w * h)%nat ∧ (λ l : list (key * cell), l.*2) <$> cols = V.
Lemma looks_column hf w h V c l : looks hf w h V → is_column hf c l ↔ V !! c = Some l.
Proof.
  intros (_ & _ & cols & Hr & _ & <-). rewrite (is_column_rep _ _ _ _ Hr), list_lookup_fmap. split.
  - intros (kl & -> & <-). done.
  - destruct (cols !! c) as [kl|]; [|done]. cbn. intros [= <-]. by exists kl.
Qed.
Lemma reachable_looks hf : reachable hf → ∃ V, looks hf (hf_w hf) (hf_h hf) V.
Proof. intros (cols & [Hr Hl _])%reachable_ok. eexists. split_and!; [done..|]. by exists cols. Qed.
Lemma looks_pass (F : nat → list cell → list cell) hf hf' w h cols cols' :
  hf_w hf = w → hf_h hf = h → length cols = (w * h)%nat → same_shape hf hf' → rep hf' cols' → length cols' = length cols →
  (∀ c l, cols !! c = Some l → ∃ l', cols' !! c = Some l' ∧ l'.*1 = l.*1 ∧ l'.*2 = F c l.*2) →
  looks hf' w h (imap F ((λ l : list (key * cell), l.*2) <$> cols)).
Proof.
  intros Hw Hh Hl (Sw & Sh & _) Hr Hl' H. split_and!; [congruence|congruence|]. exists cols'. split_and!; [done|congruence|].
  apply list_eq. intros c. rewrite list_lookup_imap, !list_lookup_fmap. destruct (cols !! c) as [l|] eqn:E.
  - destruct (H c l E) as (l' & -> & _ & V). cbn. by rewrite V.
  - apply lookup_ge_None in E. rewrite <-Hl' in E. apply lookup_ge_None in E. by rewrite E.
Qed.
(** What the three filters make of columns. *)
Definition filtered (wh climb : Z) (w h : nat) (V : list (list cell)) : list (list cell) :=
  let V1 := imap (λ _ l, low_pure climb None l) V in
  let V2 := imap (λ c l, ledge_pure (column_map w h (geometry <$> V1)) wh climb (c mod w) (c / w) l) V1 in
  imap (λ _ l, height_pure wh l) V2.
Lemma filters_look wh climb w h hf V : looks hf w h V → runs (run_filters wh climb hf) (λ hf', looks hf' w h (filtered wh climb w h V)).
Proof.
  intros (Ew & Eh & cols & Hr & Hl & <-). unfold run_filters.
  eapply runs_bind; [apply (filter_low_hanging_rep climb hf cols Hr); congruence|]. intros hf1 (S1 & cols1 & R1 & L1 & A1).
  pose proof (looks_pass (λ _ l, low_pure climb None l) hf hf1 w h cols cols1 Ew Eh Hl S1 R1 L1 A1) as (W1 & H1 & cs & Rs & Ls & Es). clear A1 R1 L1 S1 cols1.
  eapply runs_bind; [apply (filter_ledge_rep wh climb hf1 cs Rs); congruence|]. intros hf2 (S2 & cols2 & R2 & L2 & A2). rewrite W1, H1 in A2.
  pose proof (looks_pass (λ c l, ledge_pure (column_map w h (geom <$> cs)) wh climb (c mod w) (c / w) l) hf1 hf2 w h cs cols2 W1 H1 Ls S2 R2 L2 A2) as (W2 & H2 & ct & Rt & Lt & Et).
  clear A2 R2 L2 S2 cols2.
  eapply runs_mono; [apply (filter_low_height_rep wh hf2 ct Rt); congruence|]. intros hf3 (S3 & cols3 & R3 & L3 & A3).
  pose proof (looks_pass (λ _ l, height_pure wh l) hf2 hf3 w h ct cols3 W2 H2 Lt S3 R3 L3 A3) as H3.
  unfold filtered. cbv zeta. rewrite Et, Es in H3.
  assert (geom <$> cs = geometry <$> imap (λ _ l, low_pure climb None l) ((λ l : list (key * cell), l.*2) <$> cols)) as Eg. { rewrite <-Es, <-list_fmap_compose. done. }
  by rewrite Eg in H3.
Qed.
Lemma looks_same hf1 hf2 w h V1 V2 : looks hf1 w h V1 → looks hf2 w h V2 → (∀ c l1 l2, is_column hf1 c l1 → is_column hf2 c l2 → l1 = l2) → V1 = V2.
Proof.
  intros L1 L2 H. assert (∀ hf V, looks hf w h V → length V = (w * h)%nat) as Hlen. { intros hf V (_ & _ & cols & _ & E & <-). by rewrite fmap_length. }
  pose proof (Hlen _ _ L1). pose proof (Hlen _ _ L2). apply list_eq. intros c. destruct (V1 !! c) as [l1|] eqn:E1.
  - destruct (lookup_lt_is_Some_2 V2 c) as [l2 E2]. { apply lookup_lt_Some in E1. lia. } rewrite E2. f_equal. apply (H c); [by apply (looks_column _ w h V1)|by apply (looks_column _ w h V2)].
  - apply lookup_ge_None in E1. symmetry. apply lookup_ge_None. lia.
Qed.

(** ** C10 *)

(** The filters depend only on the columns, not on how the heightfield came to be. *)
Theorem C10_filters_depend_on_columns :
  ∀ hf1 hf2 wh climb, reachable hf1 → reachable hf2 → hf_w hf1 = hf_w hf2 → hf_h hf1 = hf_h hf2 →
  (∀ c l1 l2, is_column hf1 c l1 → is_column hf2 c l2 → l1 = l2) →
  runs (run_filters wh climb hf1) (λ hf1', runs (run_filters wh climb hf2) (λ hf2', ∀ c l, is_column hf1' c l ↔ is_column hf2' c l)).
Proof.
  intros hf1 hf2 wh climb R1 R2 Ew Eh H. destruct (reachable_looks hf1 R1) as [V1 L1]. destruct (reachable_looks hf2 R2) as [V2 L2]. rewrite Ew, Eh in L1.
  assert (V1 = V2) as -> by by eapply looks_same. eapply runs_mono; [by apply filters_look|]. intros hf1' L1'. eapply runs_mono; [by apply filters_look|]. intros hf2' L2' c l.
  by rewrite (looks_column _ _ _ _ _ _ L1'), (looks_column _ _ _ _ _ _ L2').
Qed.

(** ** C88, with the filters *)

Lemma populate_eq hf m wh climb : populate_from_trimesh hf m wh climb =
  let! r := rasterize_triangles hf m climb in match r with None => Done None | Some hf => let! hf := run_filters wh climb hf in Done (Some hf) end.
Proof.
  unfold populate_from_trimesh, run_filters. destruct (rasterize_triangles hf m climb) as [[hf1|]| |]; [|done..]. cbn [obind].
  destruct (filter_low_hanging climb hf1) as [hf2| |]; [|done..]. cbn [obind]. by destruct (filter_ledge wh climb hf2) as [hf3| |].
Qed.
Theorem C88_populate_one_area :
  ∀ w h g m1 m2 wh climb hf1 area, small w h → valid m1 → valid m2 → soup m1 ≡ₚ soup m2 → Forall (λ a, a = area) (tm_areas m1) → byte area → 0 <= climb <= 65535 →
  populate_from_trimesh (new_hf w h g) m1 wh climb = Done (Some hf1) →
  ∃ hf2, populate_from_trimesh (new_hf w h g) m2 wh climb = Done (Some hf2) ∧ ∀ c l, is_column hf1 c l ↔ is_column hf2 c l.
Proof.
  intros w h g m1 m2 wh climb hf1 area Hs V1 V2 Hp Ha Hb Ht E. rewrite populate_eq in E. apply obind_done in E as (r & E1 & E). destruct r as [h1|]; [|done].
  apply obind_done in E as (h1' & F1 & [= <-]).
  destruct (C88_triangle_order_one_area w h g m1 m2 climb h1 area Hs V1 V2 Hp Ha Hb Ht E1) as (h2 & E2 & Hsame).
  assert (reachable (new_hf w h g)) as Hr by (exists w, h, g, []; done). assert (Forall byte (tm_areas m1)) as Hbs. { eapply Forall_impl; [exact Ha|]. by intros x ->. }
  pose proof (bytes_permuted m1 m2 V1 V2 Hp Hbs) as Hbs2. destruct Hs as [Hw Hh].
  assert (∀ m hf, Forall byte (tm_areas m) → rasterize_triangles (new_hf w h g) m climb = Done (Some hf) → reachable hf ∧ hf_w hf = w ∧ hf_h hf = h) as Hre.
  { intros m hf Hm Em. pose proof (C55_rasterize_triangles (new_hf w h g) m climb Hr Hw Hh Hm Ht) as H. rewrite Em in H. destruct H as (hf' & [= <-] & Hby).
    destruct (by_insertions_shape _ _ Hr Hby) as (A & B & C & _). done. }
  destruct (Hre m1 h1 Hbs E1) as (R1 & W1 & H1). destruct (Hre m2 h2 Hbs2 E2) as (R2 & W2 & H2).
  pose proof (C10_filters_depend_on_columns h1 h2 wh climb R1 R2 ltac:(congruence) ltac:(congruence)) as H.
  rewrite F1 in H. cbn [runs] in H. destruct (run_filters wh climb h2) as [h2'| |] eqn:F2.
  - exists h2'. split; [by rewrite populate_eq, E2; cbn [obind]; rewrite F2|]. apply H. intros c l1 l2 C1 C2. by destruct (Hsame c l1 l2 C1 C2).
  - exfalso. apply H. intros c l1 l2 C1 C2. by destruct (Hsame c l1 l2 C1 C2).
  - exfalso. apply H. intros c l1 l2 C1 C2. by destruct (Hsame c l1 l2 C1 C2).
Qed.

(** The filters keep floors and ceilings. *)
Lemma filtered_geometry wh climb w h V c : geometry <$> filtered wh climb w h V !! c = geometry <$> V !! c.
Proof.
  unfold filtered. cbv zeta. rewrite !list_lookup_imap. destruct (V !! c) as [l|]; [|done]. cbn. f_equal. by rewrite height_pure_geometry, ledge_pure_geometry, low_pure_geometry.
Qed.
Theorem C04_same_triangles_populate :
  ∀ w h g m1 m2 wh climb hf1, small w h → valid m1 → valid m2 → (∀ t, t ∈ (soup m1).*1 ↔ t ∈ (soup m2).*1) →
  Forall byte (tm_areas m1) → Forall byte (tm_areas m2) → 0 <= climb <= 65535 →
  populate_from_trimesh (new_hf w h g) m1 wh climb = Done (Some hf1) →
  ∃ hf2, populate_from_trimesh (new_hf w h g) m2 wh climb = Done (Some hf2) ∧
    ∀ c, (c < w * h)%nat → ∃ l1 l2, is_column hf1 c l1 ∧ is_column hf2 c l2 ∧ geometry l1 = geometry l2.
Proof.
  intros w h g m1 m2 wh climb hf1 Hs V1 V2 Hp Hb1 Hb2 Ht E. rewrite populate_eq in E. apply obind_done in E as (r & E1 & E). destruct r as [h1|]; [|done].
  apply obind_done in E as (h1' & F1 & [= <-]).
  destruct (C04_same_triangles w h g m1 m2 climb h1 Hs V1 V2 Hp Hb1 Hb2 Ht E1) as (h2 & E2 & Hsame).
  assert (reachable (new_hf w h g)) as Hr by (exists w, h, g, []; done). destruct Hs as [Hw Hh].
  assert (∀ m hf, Forall byte (tm_areas m) → rasterize_triangles (new_hf w h g) m climb = Done (Some hf) → ∃ V, looks hf w h V) as Hre.
  { intros m hf Hm Em. pose proof (C55_rasterize_triangles (new_hf w h g) m climb Hr Hw Hh Hm Ht) as H. rewrite Em in H. destruct H as (hf' & [= <-] & Hby).
    destruct (by_insertions_shape _ _ Hr Hby) as (A & B & C & _). destruct (reachable_looks _ A) as [V HV]. exists V. cbn in B, C. by rewrite B, C in HV. }
  destruct (Hre m1 h1 Hb1 E1) as [U1 L1]. destruct (Hre m2 h2 Hb2 E2) as [U2 L2].
  pose proof (filters_look wh climb w h h1 U1 L1) as K1. rewrite F1 in K1. cbn [runs] in K1.
  pose proof (filters_look wh climb w h h2 U2 L2) as K2. destruct (run_filters wh climb h2) as [h2'| |] eqn:F2; [|done..]. cbn [runs] in K2.
  exists h2'. split; [by rewrite populate_eq, E2; cbn [obind]; rewrite F2|]. intros c Hc. destruct (Hsame c Hc) as (l1 & l2 & C1 & C2 & Hg).
  apply (looks_column _ _ _ _ _ _ L1) in C1. apply (looks_column _ _ _ _ _ _ L2) in C2.
  pose proof (filtered_geometry wh climb w h U1 c) as G1. pose proof (filtered_geometry wh climb w h U2 c) as G2. rewrite C1 in G1. rewrite C2 in G2.
  destruct (filtered wh climb w h U1 !! c) as [k1|] eqn:D1; [|done]. destruct (filtered wh climb w h U2 !! c) as [k2|] eqn:D2; [|done]. cbn in G1, G2. injection G1 as G1. injection G2 as G2.
  exists k1, k2. split; [by apply (looks_column _ _ _ _ _ _ K1)|]. split; [by apply (looks_column _ _ _ _ _ _ K2)|]. congruence.
Qed.

(** A wall through a floor. *)
Definition floor_and_wall : list vec3 :=
  [V3 f_zero (f_of_Z 3) f_zero; V3 f_zero (f_of_Z 3) (f_of_Z 8); V3 (f_of_Z 8) (f_of_Z 3) f_zero;
   V3 (f_of_me 5 (-1)) f_zero (f_of_me 9 (-2)); V3 (f_of_me 5 (-1)) (f_of_Z 8) (f_of_me 9 (-2)); V3 (f_of_me 5 (-1)) f_zero (f_of_me 11 (-2))].
Definition floor_first : trimesh := TM floor_and_wall [(0, 1, 2); (3, 4, 5)] [255; 0].
Definition wall_first : trimesh := TM floor_and_wall [(3, 4, 5); (0, 1, 2)] [0; 255].

(** What a mesh makes of the cell (2, 2). *)
Definition at22 (m : trimesh) : option (Z * Z) :=
  match rasterize_triangles (new_hf 10 10 ten) m 1 with
  | Done (Some hf) => match span_at hf 2 2 with Done (Some s) => Some (s_max s, s_area s) | _ => None end
  | _ => None
  end.
Lemma at22_Some m top area : at22 m = Some (top, area) →
  ∃ hf s, rasterize_triangles (new_hf 10 10 ten) m 1 = Done (Some hf) ∧ span_at hf 2 2 = Done (Some s) ∧ s_max s = top ∧ s_area s = area.
Proof.
  unfold at22. destruct (rasterize_triangles (new_hf 10 10 ten) m 1) as [[hf|]| |]; [|intros H; discriminate H..]. destruct (span_at hf 2 2) as [[s|]| |] eqn:E; [|intros H; discriminate H..].
  intros H. injection H as <- <-. exists hf, s. split; [reflexivity|]. split; [exact E|]. split; reflexivity.
Qed.
Lemma fw_valid m : tm_verts m = floor_and_wall → tm_idx m = [(0, 1, 2); (3, 4, 5)] ∨ tm_idx m = [(3, 4, 5); (0, 1, 2)] → length (tm_areas m) = 2%nat → valid m.
Proof. intros Ev Ei Ea. unfold valid. rewrite Ev, Ea. destruct Ei as [-> | ->]; (split; [repeat constructor; cbn; lia|reflexivity]). Qed.

(** With the same triangles in another order another part of the scene is walkable. *)
Theorem C88_triangle_order_refuted : ∃ m1 m2 hf1 hf2 s1 s2, valid m1 ∧ valid m2 ∧ soup m1 ≡ₚ soup m2 ∧ Forall byte (tm_areas m1) ∧
  rasterize_triangles (new_hf 10 10 ten) m1 1 = Done (Some hf1) ∧ rasterize_triangles (new_hf 10 10 ten) m2 1 = Done (Some hf2) ∧
  span_at hf1 2 2 = Done (Some s1) ∧ span_at hf2 2 2 = Done (Some s2) ∧ s_max s1 = s_max s2 ∧ s_area s1 = 0 ∧ s_area s2 = 255.
Proof.
  assert (at22 floor_first = Some (8, 0)) as E1 by (vm_compute; reflexivity). assert (at22 wall_first = Some (8, 255)) as E2 by (vm_compute; reflexivity).
  apply at22_Some in E1 as (hf1 & s1 & A1 & B1 & C1 & D1). apply at22_Some in E2 as (hf2 & s2 & A2 & B2 & C2 & D2).
  exists floor_first, wall_first, hf1, hf2, s1, s2. split; [apply fw_valid; [reflexivity|left; reflexivity|reflexivity]|]. split; [apply fw_valid; [reflexivity|right; reflexivity|reflexivity]|].
  split; [constructor|]. split; [repeat constructor; unfold byte; lia|]. split; [exact A1|]. split; [exact A2|]. split; [exact B1|]. split; [exact B2|].
  split; [rewrite C1, C2; reflexivity|]. split; [exact D1|exact D2].
Qed.

Example C88_triangles_ex : small 10 10 ∧ valid floor_first ∧ valid wall_first ∧ soup floor_first ≡ₚ soup wall_first ∧ Forall byte (tm_areas floor_first) ∧
  ∃ hf s, rasterize_triangles (new_hf 10 10 ten) floor_first 1 = Done (Some hf) ∧ span_at hf 2 2 = Done (Some s) ∧ s_max s = 8 ∧ s_area s = 0.
Proof.
  split; [split; cbn; lia|]. split; [apply fw_valid; [reflexivity|left; reflexivity|reflexivity]|]. split; [apply fw_valid; [reflexivity|right; reflexivity|reflexivity]|].
  split; [constructor|]. split; [repeat constructor; unfold byte; lia|]. apply at22_Some. vm_compute. reflexivity.
Qed.

(** All of it walkable. *)
Definition floor_first' : trimesh := TM floor_and_wall [(0, 1, 2); (3, 4, 5)] [63; 63].
Definition wall_first' : trimesh := TM floor_and_wall [(3, 4, 5); (0, 1, 2)] [63; 63].
Example C88_one_area_ex : valid floor_first' ∧ valid wall_first' ∧ soup floor_first' ≡ₚ soup wall_first' ∧ Forall (λ a, a = 63) (tm_areas floor_first') ∧
  ∃ hf s, rasterize_triangles (new_hf 10 10 ten) floor_first' 1 = Done (Some hf) ∧ span_at hf 2 2 = Done (Some s) ∧ s_max s = 8 ∧ s_area s = 63.
Proof.
  split; [apply fw_valid; [reflexivity|left; reflexivity|reflexivity]|]. split; [apply fw_valid; [reflexivity|right; reflexivity|reflexivity]|].
  split; [constructor|]. split; [repeat constructor|]. apply at22_Some. vm_compute. reflexivity.
Qed.
Example C88_populate_ex : ∃ hf, populate_from_trimesh (new_hf 10 10 ten) floor_first' 2 1 = Done (Some hf) ∧ ∃ s, span_at hf 1 1 = Done (Some s).
Proof.
  assert (match populate_from_trimesh (new_hf 10 10 ten) floor_first' 2 1 with
    | Done (Some hf) => match span_at hf 1 1 with Done (Some _) => true | _ => false end | _ => false end = true) as H by (vm_compute; reflexivity).
  destruct (populate_from_trimesh (new_hf 10 10 ten) floor_first' 2 1) as [[hf|]| |]; [|discriminate H..]. exists hf. split; [reflexivity|].
  destruct (span_at hf 1 1) as [[s|]| |]; [|discriminate H..]. exists s. reflexivity.
Qed.

(** The floor twice, with other areas. *)
Definition floor_twice : trimesh := TM floor_and_wall [(0, 1, 2); (3, 4, 5); (0, 1, 2)] [1; 2; 3].
Example C04_same_triangles_ex : valid floor_first ∧ valid floor_twice ∧ (∀ t, t ∈ (soup floor_first).*1 ↔ t ∈ (soup floor_twice).*1) ∧
  Forall byte (tm_areas floor_first) ∧ Forall byte (tm_areas floor_twice) ∧ ∃ hf, rasterize_triangles (new_hf 10 10 ten) floor_first 1 = Done (Some hf).
Proof.
  destruct C88_triangles_ex as (_ & V & _ & _ & B & hf & s & E & _). split; [exact V|]. split; [split; [repeat constructor; cbn; lia|reflexivity]|].
  split; [|split; [exact B|split; [repeat constructor; unfold byte; lia|exists hf; exact E]]]. clear.
  intros t. unfold soup, floor_first, floor_twice. cbn [tm_verts tm_idx tm_areas zip_with fmap list_fmap]. rewrite !elem_of_cons. tauto.
Qed.

Example C04_populate_ex : ∃ hf, populate_from_trimesh (new_hf 10 10 ten) floor_first 2 1 = Done (Some hf).
Proof.
  assert (match populate_from_trimesh (new_hf 10 10 ten) floor_first 2 1 with Done (Some _) => true | _ => false end = true) as H by (vm_compute; reflexivity).
  destruct (populate_from_trimesh (new_hf 10 10 ten) floor_first 2 1) as [[hf|]| |]; [|discriminate H..]. exists hf. reflexivity.
Qed.

(** Two fields that hold the same columns with different links. *)
Lemma links_differ : match rasterize_triangles (new_hf 10 10 ten) floor_first' 1, rasterize_triangles (new_hf 10 10 ten) wall_first' 1 with
  | Done (Some h1), Done (Some h2) => Nat.eqb (hf_w h1) (hf_w h2) && Nat.eqb (hf_h h1) (hf_h h2) && negb (bool_decide (hf_cols h1 = hf_cols h2)) | _, _ => false end = true.
Proof. vm_compute. reflexivity. Qed.
Example C10_columns_ex : ∃ hf1 hf2, rasterize_triangles (new_hf 10 10 ten) floor_first' 1 = Done (Some hf1) ∧ rasterize_triangles (new_hf 10 10 ten) wall_first' 1 = Done (Some hf2) ∧
  hf_w hf1 = hf_w hf2 ∧ hf_h hf1 = hf_h hf2 ∧ (∀ c l1 l2, is_column hf1 c l1 → is_column hf2 c l2 → l1 = l2) ∧ hf_cols hf1 ≠ hf_cols hf2.
Proof.
  destruct C88_one_area_ex as (V1 & V2 & Hp & Ha & hf1 & s & E1 & _).
  destruct (C88_triangle_order_one_area 10 10 ten floor_first' wall_first' 1 hf1 63) as (hf2 & E2 & H); [split; cbn; lia|exact V1|exact V2|exact Hp|exact Ha|unfold byte; lia|lia|exact E1|].
  exists hf1, hf2. split; [exact E1|]. split; [exact E2|]. pose proof links_differ as Hc. rewrite E1, E2 in Hc. clear V1 V2 Hp Ha E1 E2.
  apply andb_prop in Hc as [Hc Hn]. apply andb_prop in Hc as [W Hh]. apply Nat.eqb_eq in W, Hh. apply negb_true_iff, bool_decide_eq_false in Hn.
  split; [exact W|]. split; [exact Hh|]. split; [|exact Hn]. intros c l1 l2 C1 C2. exact (proj1 (H c l1 l2 C1 C2)).
Qed.

Print Assumptions C04_repeats_irrelevant.
Print Assumptions C04_same_triangles.
Print Assumptions C04_same_triangles_populate.
Print Assumptions C10_filters_depend_on_columns.
Print Assumptions C88_populate_one_area.
Print Assumptions C88_triangle_order.
Print Assumptions C88_triangle_order_one_area.
Print Assumptions C88_triangle_order_refuted.
