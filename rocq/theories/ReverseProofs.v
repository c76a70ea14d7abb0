(** Convex polygons with four or more corners that wind the wrong way, as the
    outlines of obstacles do, are never triangulated. *)
From Verif Require Import Base ModelMath ModelContours ModelPoly SpecPoly FlowProofs GivesProofs TriangulateProofs ConvexProofs.
Local Open Scope Z_scope.

Definition rsc (P : nat → vtx) (n : nat) : Prop :=
  ∀ i j k, (i < j < k)%nat → (k < n)%nat → 0 < cross (P i) (P j) (P k).
Lemma rsc_cyc P n i j k : rsc P n → cyc i j k → (i < n)%nat → (j < n)%nat → (k < n)%nat → 0 < cross (P i) (P j) (P k).
Proof.
  intros H [C|[C|C]] Hi Hj Hk.
  - by apply H.
  - rewrite cross_cycle. by apply H.
  - rewrite <- cross_cycle. by apply H.
Qed.
Lemma cross_swap a b c : cross b a c = - cross a b c.
Proof. unfold cross. lia. Qed.

Lemma reverse_cone P n i : rsc P n → (3 < n)%nat → (i < n)%nat →
  in_coneb P i (nx (nx i n) n) n = false ∧ in_cone_looseb P i (nx (nx i n) n) n = false.
Proof.
  intros Hsc H3 Hi.
  assert (nx i n < n)%nat as H1 by (apply nx_lt; lia).
  assert (nx (nx i n) n < n)%nat as H2 by (apply nx_lt; lia).
  assert (pv i n < n)%nat as Hp by (apply pv_lt; lia).
  pose proof (nx_cases i n Hi) as C1. pose proof (nx_cases _ n H1) as C2. pose proof (pv_cases i n Hi) as C3.
  set (i1 := nx i n) in *. set (j := nx i1 n) in *. set (p := pv i n) in *.
  assert (0 < cross (P p) (P i) (P i1)) as Ha by (apply (rsc_cyc _ n); [done|unfold cyc; lia|done..]).
  assert (0 < cross (P i) (P j) (P p)) as Hb by (apply (rsc_cyc _ n); [done|unfold cyc; lia|done..]).
  assert (0 < cross (P j) (P i) (P i1)) as Hc by (apply (rsc_cyc _ n); [done|unfold cyc; lia|done..]).
  rewrite cross_swap in Hc.
  unfold in_coneb, in_cone_looseb. fold p i1. unfold left_onb, leftb. rewrite (cross_swap (P i) (P j) (P p)).
  replace (cross (P p) (P i) (P i1) <=? 0) with false by lia.
  replace (cross (P i) (P j) (P i1) <=? 0) with true by lia.
  replace (- cross (P i) (P j) (P p) <=? 0) with true by lia. done.
Qed.

Section run.
Context (verts : list vtx) (B : Prop).

Lemma reverse_mark n (idx : list node) : length idx = n → fine verts B idx → (3 < n)%nat → rsc (npos verts idx) n →
  ends B (mark_ears n verts idx) (λ idx', idx' = idx).
Proof.
  intros Hn Hf H3 Hr. unfold mark_ears. apply (ends_seq_inv B (λ k idx', idx' = idx)); [done|].
  intros i idx' Hi ->. cbn in Hi.
  eapply ends_bind; [apply is_diagonal_ends; [done|done|lia|lia|apply nx_lt; lia]|].
  intros d ->. unfold diagb. destruct (reverse_cone (npos verts idx) n i Hr H3 ltac:(lia)) as [-> _]. done.
Qed.

Theorem reverse_triangulate indices cap :
  (∀ i, i ∈ indices → (∃ v, verts !! i = Some v ∧ small v) ∨ B) → (3 < length indices)%nat →
  (∀ i j k a b c, (i < j < k)%nat → (at_pos verts <$> indices) !! i = Some a → (at_pos verts <$> indices) !! j = Some b →
     (at_pos verts <$> indices) !! k = Some c → 0 < cross a b c) →
  ends B (triangulate verts indices cap) (λ r, r = Err InvalidContour).
Proof.
  intros Hv H3 Hsc. unfold triangulate.
  set (idx := (λ i, (i, false)) <$> indices). set (n := length indices) in *.
  assert (length idx = n) as Hl by (unfold idx; apply fmap_length).
  assert (fine verts B idx) as Hf.
  { intros e He. apply elem_of_list_fmap in He as (i & -> & Hi). by apply Hv. }
  assert (rsc (npos verts idx) n) as Hr.
  { intros i j k Hijk Hk.
    assert (∀ k, (k < n)%nat → (at_pos verts <$> indices) !! k = Some (npos verts idx k)) as Hpos.
    { intros x Hx. destruct (lookup_lt_is_Some_2 indices x) as [a Ha]; [done|].
      rewrite list_lookup_fmap, Ha. cbn. f_equal. unfold npos, idx. rewrite list_lookup_fmap, Ha. done. }
    eapply Hsc; [done|apply Hpos; lia..]. }
  eapply ends_bind; [by apply reverse_mark|]. intros idx' ->.
  destruct n as [|n'] eqn:En; [lia|]. cbn [ear_loop]. rewrite <-En in *.
  destruct (3 <? n)%nat eqn:E3; [|lia].
  eapply ends_bind; [by apply best_ear_ends|]. intros b Hb. destruct b as [[m i]|].
  { destruct Hb as [_ (a & Ha)]. unfold idx in Ha. rewrite list_lookup_fmap in Ha. apply fmap_Some in Ha as (? & _ & [=]). }
  eapply ends_bind; [by apply best_loose_ear_ends|]. intros b Hb'. destruct b as [[m i]|]; [|done].
  destruct Hb' as [Hi Hd]. unfold diag_looseb in Hd. destruct (reverse_cone (npos verts idx) n i Hr H3 Hi) as [_ E]. by rewrite E in Hd.
Qed.
End run.

(** A mesh is only made if every contour is triangulated. *)
Lemma pbind_done {A C} (m : outcome (presult A)) (k : A → outcome (presult C)) c :
  pbind m k = Done (Ok c) → ∃ a, m = Done (Ok a) ∧ k a = Done (Ok c).
Proof. unfold pbind. intros (r & -> & H)%obind_done. destruct r as [a|e]; [by exists a|done]. Qed.
Lemma all_triangulated cap nvp cs : ∀ st st', all_contours cap nvp cs st = Done (Ok st') →
  Forall (λ c, (3 <= length (ct_verts c))%nat → ∃ tris, triangulate (fst <$> ct_verts c) (seq 0 (length (ct_verts c))) cap = Done (Ok tris)) cs.
Proof.
  induction cs as [|c cs IH]; intros st st'; cbn [all_contours]; [constructor|].
  intros (st1 & E1 & E2)%pbind_done. constructor; [|by eapply IH].
  intros H3. unfold one_contour in E1. destruct st as [[t flags] m]. destruct (length (ct_verts c) <? 3)%nat eqn:E; [apply Nat.ltb_lt in E; lia|].
  apply pbind_done in E1 as (tris & E1 & _). by exists tris.
Qed.
Lemma mesh_triangulated hf nvp ks pm : into_polygon_mesh hf nvp ks = Done (Ok pm) →
  ∃ cap, Forall (λ c, (3 <= length (ct_verts c))%nat → ∃ tris, triangulate (fst <$> ct_verts c) (seq 0 (length (ct_verts c))) cap = Done (Ok tris))
    (ks_contours ks).
Proof.
  unfold into_polygon_mesh. destruct (65535 <? _); [done|]. intros (st & E & _)%pbind_done. eexists. by eapply all_triangulated.
Qed.
