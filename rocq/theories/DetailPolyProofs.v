(** Interior samples and the detail of one polygon. *)
From Verif Require Import Base FlowProofs ModelMath FloatOrder ModelHeightfield ModelCompact ModelContours ModelPoly ModelTriMesh ModelMarkArea ModelDetail SpecDetail DetailHullProofs DetailEdgeProofs DetailTessProofs DetailDelaunayProofs.
Local Open Scope Z_scope.

Definition tri_lt (n : nat) (t : dtri) : Prop := let '(a, b, c) := t in (a < n ∧ b < n ∧ c < n)%nat.

Lemma next_idx_done i n : (0 < n)%nat → (i < n)%nat → ∃ j, next_idx i n = Done j ∧ (j < n)%nat.
Proof.
  intros. unfold next_idx. destruct n as [|n]; [lia|]. eexists. split; [done|]. apply Nat.mod_upper_bound. lia.
Qed.

Lemma poly_min_extent_runs verts n : (n ≤ length verts)%nat → runs (poly_min_extent_sq verts n) (λ _, True).
Proof.
  intros H. unfold poly_min_extent_sq. apply runs_ends, ends_keep; [done|]. intros i m Hi _. apply elem_of_seq in Hi.
  destruct (next_idx_done i n) as (j & -> & Hj); [lia..|]. cbn [obind].
  destruct (get_lt verts i) as (? & -> & _); [lia|]. destruct (get_lt verts j) as (? & -> & _); [lia|]. done.
Qed.

Lemma dist_to_poly_runs n verts q : (0 < n ≤ length verts)%nat → runs (dist_to_poly n verts q) (λ _, True).
Proof.
  intros H. unfold dist_to_poly. destruct (n =? 0)%nat eqn:E; [lia|].
  eapply (runs_bind _ _ (λ _, True)); [|by intros [[? ?] ?]].
  apply runs_ends. eapply ends_mono; [apply (ends_seq_inv False (λ i '(j, _, _), (j < n)%nat))|done].
  - lia.
  - intros i [[j c] d] Hi Hj. destruct (get_lt verts i) as (? & -> & _); [lia|]. destruct (get_lt verts j) as (? & -> & _); [lia|].
    cbn. lia.
Qed.

(** ** Vertical distance to a mesh *)
Definition tri_dist (q : vec3) (verts : list vec3) (t : dtri) : option f32 :=
  let '(a, b, c) := t in
  match verts !! a, verts !! b, verts !! c with
  | Some va, Some vb, Some vc => dist_pt_tri q va vb vc
  | _, _, _ => None
  end.

Lemma dist_to_tri_mesh_spec q verts tris : Forall (tri_lt (length verts)) tris →
  ∃ r, dist_to_tri_mesh q verts tris = Done r ∧
    match r with
    | Some d => ∃ t, t ∈ tris ∧ tri_dist q verts t = Some d
    | None => ∀ t d, t ∈ tris → tri_dist q verts t = Some d → f_lt d F32_MAX = false
    end.
Proof.
  intros Ht. unfold dist_to_tri_mesh.
  match goal with |- context [foldM ?f _ _] => set (g := f) end.
  assert (runs (foldM g tris F32_MAX) (λ m,
    (m = F32_MAX ∧ ∀ t d, t ∈ tris → tri_dist q verts t = Some d → f_lt d F32_MAX = false) ∨
    (f_lt m F32_MAX = true ∧ ∃ t, t ∈ tris ∧ tri_dist q verts t = Some m))) as H.
  { apply runs_ends.
    apply (ends_inv False (λ l m,
      (m = F32_MAX ∧ ∀ t d, t ∈ l → tri_dist q verts t = Some d → f_lt d F32_MAX = false) ∨
      (f_lt m F32_MAX = true ∧ ∃ t, t ∈ l ∧ tri_dist q verts t = Some m))).
    - left. split; [done|]. intros t d Hx. by apply elem_of_nil in Hx.
    - intros pre [[a b] c] post m El Hm. rewrite El in Ht. apply Forall_app in Ht as [_ Ht]. apply Forall_cons in Ht as [Hlt _].
      unfold g. cbn in Hlt. destruct (get_lt verts a) as (va & -> & Ha); [lia|]. destruct (get_lt verts b) as (vb & -> & Hb); [lia|].
      destruct (get_lt verts c) as (vc & -> & Hc); [lia|]. cbn [obind ends].
      assert (tri_dist q verts (a, b, c) = dist_pt_tri q va vb vc) as Etd by (unfold tri_dist; by rewrite Ha, Hb, Hc).
      assert (∀ m, f_lt m F32_MAX = true ∧ (∃ t, t ∈ pre ∧ tri_dist q verts t = Some m) →
                   f_lt m F32_MAX = true ∧ (∃ t, t ∈ pre ++ [(a, b, c)] ∧ tri_dist q verts t = Some m)) as Hkeep.
      { intros m' [Hlt' (t & Hin & Hd)]. split; [done|]. exists t. split; [set_solver|done]. }
      destruct (dist_pt_tri q va vb vc) as [d|] eqn:Ed.
      + destruct (f_lt d m) eqn:Elt.
        * right. split.
          -- destruct Hm as [[-> _]|[Hm _]]; [done|by eapply f_lt_trans].
          -- exists (a, b, c). split; [apply elem_of_app; right; by apply elem_of_list_singleton|done].
        * destruct Hm as [[-> Hm]|Hm]; [left|right; by apply Hkeep]. split; [done|].
          intros t d' [Hin| ->%elem_of_list_singleton]%elem_of_app Hd'; [by eapply Hm|]. congruence.
      + destruct Hm as [[-> Hm]|Hm]; [left|right; by apply Hkeep]. split; [done|].
        intros t d' [Hin| ->%elem_of_list_singleton]%elem_of_app Hd'; [by eapply Hm|]. congruence. }
  destruct (foldM g tris F32_MAX) as [m| |]; [|done..]. cbn [obind].
  destruct H as [[-> H]|[Hlt H]].
  - exists None. split; [|done]. by rewrite (eq_refl : f_eq F32_MAX F32_MAX = true).
  - exists (Some m). split; [|done]. destruct (f_eq m F32_MAX) eqn:E; [|done]. exfalso.
    unfold f_lt, SFltb in Hlt. unfold f_eq, SFeqb in E. destruct (SFcompare m F32_MAX) as [[]|]; done.
Qed.

(** ** Adding samples *)

(** The mesh is within [err] of [q], or has no triangle above or below it. *)
Definition near (err : f32) (verts : list vec3) (tris : list dtri) (q : vec3) : Prop :=
  (∃ t d, t ∈ tris ∧ tri_dist q verts t = Some d ∧ f_lt err d = false) ∨
  (∀ t d, t ∈ tris → tri_dist q verts t = Some d → f_lt d F32_MAX = false).

Section best.
  Context (p : dparams) (verts : list vec3) (tris : list dtri).
  Context (Ht : Forall (tri_lt (length verts)) tris).

  Lemma best_sample_spec samples :
    ∃ bestd best, best_sample p verts tris samples = Done (bestd, best) ∧
      (∀ i s, samples !! i = Some (s, false) → ∃ r, dist_to_tri_mesh (sample_pos p i s) verts tris = Done r ∧
        match r with Some d => f_lt bestd d = false | None => True end) ∧
      is_Some (f_rank bestd) ∧
      match best with
      | Some (i, pt) => ∃ s, samples !! i = Some (s, false) ∧ pt = sample_pos p i s
      | None => bestd = f_zero
      end.
  Proof.
    unfold best_sample. match goal with |- context [foldM ?f _ _] => set (g := f) end.
    set (I := λ (n : nat) '(bestd, best),
      (∀ i s, (i < n)%nat → samples !! i = Some (s, false) → ∃ r, dist_to_tri_mesh (sample_pos p i s) verts tris = Done r ∧
        match r with Some d => f_lt bestd d = false | None => True end) ∧
      is_Some (f_rank bestd) ∧
      match best with
      | Some (i, pt) => ∃ s, samples !! i = Some (s, false) ∧ pt = sample_pos p i s
      | None => bestd = f_zero
      end).
    assert (runs (foldM g (imap (λ i s, (i, s)) samples) (f_zero, None)) (I (length samples))) as H.
    { apply runs_ends. eapply ends_mono; [apply (ends_inv False (λ l, I (length l)))|].
      - unfold I. cbn. split; [intros; lia|]. split; [apply f_zero_rank|done].
      - intros pre [i [s added]] post [bestd best] El (H1 & H2 & H3).
        assert (imap (λ i s, (i, s)) samples !! length pre = Some (i, (s, added))) as Hi
          by (rewrite El, lookup_app_r, Nat.sub_diag by lia; done).
        rewrite list_lookup_imap in Hi. apply fmap_Some in Hi as (x & Hx & [= -> <-]).
        rewrite app_length, Nat.add_1_r. unfold g.
        assert (∀ d b, (∀ i s, (i < length pre)%nat → samples !! i = Some (s, false) → ∃ r, dist_to_tri_mesh (sample_pos p i s) verts tris = Done r ∧
            match r with Some d' => f_lt d d' = false | None => True end) → 
          (added = false → ∃ r, dist_to_tri_mesh (sample_pos p (length pre) s) verts tris = Done r ∧
            match r with Some d' => f_lt d d' = false | None => True end) →
          is_Some (f_rank d) → 
          match b with Some (i, pt) => ∃ s, samples !! i = Some (s, false) ∧ pt = sample_pos p i s | None => d = f_zero end →
          I (S (length pre)) (d, b)) as Hstep.
        { intros d b G1 G2 G3 G4. split; [|done]. intros k s' Hk Hs'. destruct (decide (k = length pre)) as [->|]; [|apply G1; [lia|done]].
          rewrite Hs' in Hx. injection Hx as -> <-. by apply G2. }
        destruct added; [by apply Hstep|].
        destruct (dist_to_tri_mesh_spec (sample_pos p (length pre) s) verts tris Ht) as (r & Er & _). rewrite Er. cbn [obind ends].
        destruct r as [d|].
        + destruct (f_lt bestd d) eqn:El'.
          * apply Hstep.
            -- intros k s' Hk Hs'. destruct (H1 k s' Hk Hs') as (r & Hr & Hd). exists r. split; [done|]. destruct r as [d'|]; [|done].
               destruct (f_lt d d') eqn:E'; [|done]. by rewrite (f_lt_trans _ _ _ El' E') in Hd.
            -- intros _. exists (Some d). split; [done|]. destruct (f_lt d d) eqn:E'; [|done].
               apply f_lt_rank in E' as (x & y & Hx' & Hy & Hxy). rewrite Hx' in Hy. injection Hy as <-.
               destruct x as [[]]. unfold rank_lt in Hxy. lia.
            -- by eapply f_lt_rank_r.
            -- by exists s.
          * apply Hstep; [done| |done|done]. intros _. by exists (Some d).
        + apply Hstep; [done| |done|done]. intros _. by exists None.
      - intros [d b]. by rewrite imap_length. }
    destruct (foldM g _ _) as [[bestd best]| |] eqn:Ef; [|done..]. destruct H as (H1 & H2 & H3).
    exists bestd, best. split; [done|]. split; [|done]. intros i s Hi. apply H1; [by eapply lookup_lt_Some|done].
  Qed.
End best.

Definition todo (samples : list sample) : nat := length (filter (λ s : sample, s.2 = false) samples).

Lemma todo_insert samples i s : samples !! i = Some (s, false) → todo samples = S (todo (<[i := (s, true)]> samples)).
Proof.
  revert i. induction samples as [|[s' b] samples IH]; intros i Hi; [done|]. unfold todo in *. destruct i as [|i].
  - injection Hi as -> ->. cbn [insert list_insert]. rewrite filter_cons_True by done. rewrite filter_cons_False by done. done.
  - cbn in Hi. cbn [insert list_insert]. specialize (IH i Hi). destruct b.
    + rewrite !filter_cons_False by done. done.
    + rewrite !filter_cons_True by done. cbn. by rewrite IH.
Qed.

Lemma todo_none samples i s : todo samples = 0%nat → samples !! i = Some (s, false) → False.
Proof.
  intros H Hi. apply elem_of_list_lookup_2 in Hi. apply nil_length_inv in H.
  assert ((s, false) ∈ filter (λ s : sample, s.2 = false) samples) as Hin by (by apply elem_of_list_filter).
  rewrite H in Hin. by apply elem_of_nil in Hin.
Qed.

Lemma face_ok_lt pts n t : face_ok pts n t → tri_lt n t.
Proof. destruct t as [[a b] c]. intros [H _]. cbn. lia. Qed.
Lemma oriented_lt pts n t : oriented pts n t → tri_lt n t.
Proof. destruct t as [[a b] c]. intros [[H _]|[[H _]|[H _]]]; cbn; lia. Qed.
Lemma tri_lt_mono n m t : tri_lt n t → (n ≤ m)%nat → tri_lt m t.
Proof. destruct t as [[a b] c]. cbn. lia. Qed.

Lemma SFcompare_swap (x y : f32) : SFcompare x y = Some Lt → SFcompare y x = Some Gt.
Proof.
  unfold SFcompare. destruct x as [s|s| |s m e], y as [s'|s'| |s' m' e']; try (destruct s); try (destruct s'); try done.
  - destruct (Z.compare_spec e e'); destruct (Z.compare_spec e' e); try lia; subst; try done.
    change (Pos.compare_cont Eq m m') with (Pos.compare m m'). change (Pos.compare_cont Eq m' m) with (Pos.compare m' m).
    rewrite (Pos.compare_antisym m m'). destruct (Pos.compare m m'); done.
  - destruct (Z.compare_spec e e'); destruct (Z.compare_spec e' e); try lia; subst; try done.
    change (Pos.compare_cont Eq m m') with (Pos.compare m m'). change (Pos.compare_cont Eq m' m) with (Pos.compare m' m).
    rewrite (Pos.compare_antisym m m'). destruct (Pos.compare m m'); done.
Qed.

Section add.
  Context (p : dparams) (nhull : nat) (hull : list nat).
  Context (Hn2 : (2 ≤ nhull ≤ length hull)%nat).
  Context (Hhull : ∀ i h, (i < nhull)%nat → hull !! i = Some h → (h < nhull)%nat) (Hnd : NoDup (take nhull hull)).

  Lemma add_samples_spec n samples verts nverts tris :
    (todo samples ≤ n)%nat → length verts = 256%nat → (nhull ≤ nverts ≤ 127)%nat → Forall (tri_lt nverts) tris →
    ∃ verts' tris' extra, add_samples n p nhull hull samples verts nverts tris = Done (verts', (nverts + length extra)%nat, tris') ∧
      length verts' = 256%nat ∧ (nverts + length extra ≤ 127)%nat ∧
      take (nverts + length extra) verts' = take nverts verts ++ extra ∧
      Forall (tri_lt (nverts + length extra)) tris' ∧
      (extra = [] ∧ tris' = tris ∨ Forall (oriented verts' (nverts + length extra)) tris') ∧
      (∀ v, v ∈ extra → ∃ i s, samples !! i = Some (s, false) ∧ v = sample_pos p i s) ∧
      (∀ i s, samples !! i = Some (s, false) → nonneg (dp_err p) → sample_pos p i s ∈ extra ∨ (nverts + length extra = 127)%nat ∨
        near (dp_err p) verts' tris' (sample_pos p i s)).
  Proof.
    revert samples verts nverts tris. induction n as [|n IH]; intros samples verts nverts tris Htd Hlv Hnv Ht; cbn [add_samples].
    { exists verts, tris, []. cbn. rewrite Nat.add_0_r, app_nil_r. split; [done|]. split; [done|]. split; [lia|]. split; [done|]. split; [done|].
      split; [by left|]. split; [intros v Hv; by apply elem_of_nil in Hv|].
      intros i s Hi _. exfalso. eapply todo_none; [|done]. lia. }
    assert ((∀ i s, samples !! i = Some (s, false) → nonneg (dp_err p) → (nverts = 127)%nat ∨ near (dp_err p) verts tris (sample_pos p i s)) →
      ∃ verts' tris' extra, Done (verts, nverts, tris) = Done (verts', (nverts + length extra)%nat, tris') ∧
      length verts' = 256%nat ∧ (nverts + length extra ≤ 127)%nat ∧
      take (nverts + length extra) verts' = take nverts verts ++ extra ∧
      Forall (tri_lt (nverts + length extra)) tris' ∧
      (extra = [] ∧ tris' = tris ∨ Forall (oriented verts' (nverts + length extra)) tris') ∧
      (∀ v, v ∈ extra → ∃ i s, samples !! i = Some (s, false) ∧ v = sample_pos p i s) ∧
      (∀ i s, samples !! i = Some (s, false) → nonneg (dp_err p) → sample_pos p i s ∈ extra ∨ (nverts + length extra = 127)%nat ∨
        near (dp_err p) verts' tris' (sample_pos p i s))) as Hstop.
    { intros HQ. exists verts, tris, []. cbn. rewrite Nat.add_0_r, app_nil_r. split; [done|]. split; [done|]. split; [lia|]. split; [done|]. split; [done|].
      split; [by left|]. split; [intros v Hv; by apply elem_of_nil in Hv|]. intros i s Hi He. right. by apply (HQ i). }
    unfold MAX_VERTS. destruct (127 <=? nverts)%nat eqn:E127.
    { apply Hstop. intros i s Hi _. left. lia. }
    destruct (best_sample_spec p verts tris) with (samples := samples) as (bestd & best & -> & Hb1 & Hb2 & Hb3).
    { eapply Forall_impl; [done|]. intros t Htt. eapply tri_lt_mono; [done|lia]. }
    cbn [obind].
    assert (∀ i s, samples !! i = Some (s, false) → (∀ d, f_lt bestd d = false → f_lt (dp_err p) d = false) → near (dp_err p) verts tris (sample_pos p i s)) as Hnear.
    { intros i s Hi Hd. destruct (Hb1 i s Hi) as (r & Hr & Hrd).
      destruct (dist_to_tri_mesh_spec (sample_pos p i s) verts tris) as (r' & Hr' & Hspec).
      { eapply Forall_impl; [done|]. intros t Htt. eapply tri_lt_mono; [done|lia]. }
      rewrite Hr in Hr'. injection Hr' as <-. destruct r as [d|]; [left|by right].
      destruct Hspec as (t & Hin & Htd'). exists t, d. split; [done|]. split; [done|]. by apply Hd. }
    destruct (f_le bestd (dp_err p)) eqn:Ele.
    { apply Hstop. intros i s Hi _. right. apply (Hnear i s Hi). intros d Hd.
      destruct (f_lt (dp_err p) d) eqn:Elt; [|done].
      destruct (f_lt_split _ bestd _ Hb2 Elt) as [H|H]; [|congruence]. exfalso.
      unfold f_le, SFleb, f_lt, SFltb in *.
      assert (SFcompare (dp_err p) bestd = Some Lt) as Hc by (destruct (SFcompare (dp_err p) bestd) as [[]|]; done).
      rewrite (SFcompare_swap _ _ Hc) in Ele. done. }
    destruct best as [[i pt]|].
    2:{ subst bestd. apply Hstop. intros i s Hi He. right. apply (Hnear i s Hi). intros d Hd.
        destruct (f_lt (dp_err p) d) eqn:Elt; [|done]. unfold nonneg in He.
        destruct (f_lt_split _ f_zero _ f_zero_rank Elt); congruence. }
    destruct Hb3 as (s & Hs & ->). unfold get. rewrite Hs. cbn [obind fst]. rewrite put_lt by lia. cbn [obind].
    set (pt := sample_pos p i s). set (verts1 := <[nverts := pt]> verts).
    assert (length verts1 = 256%nat) as Hl1 by (unfold verts1; by rewrite insert_length).
    pose proof (delaunay_hull_spec verts1 (S nverts) ltac:(lia) nhull hull ltac:(lia) ltac:(done)) as Hdel.
    assert (runs (delaunay_hull (S nverts) verts1 nhull hull) (Forall (oriented verts1 (S nverts)))) as Hdr.
    { apply Hdel; [|done]. intros k h Hk Hkh. specialize (Hhull k h Hk Hkh). lia. }
    clear Hdel. destruct (delaunay_hull _ _ _ _) as [tris1| |]; [|done..]. cbn [runs] in Hdr. cbn [obind].
    pose proof (todo_insert samples i s Hs) as Htd1.
    destruct (IH (<[i := (s, true)]> samples) verts1 (S nverts) tris1) as (verts' & tris' & extra & -> & H1 & H2 & H3 & H4 & H5 & H6 & H7);
      [lia|done|lia|eapply Forall_impl; [done|]; intros; by eapply oriented_lt|].
    exists verts', tris', (pt :: extra). cbn [length].
    replace (nverts + S (length extra))%nat with (S nverts + length extra)%nat by lia.
    split; [done|]. split; [done|]. split; [done|].
    split.
    { rewrite H3. unfold verts1. rewrite take_insert_snoc by lia. by rewrite <-app_assoc. }
    split; [done|].
    assert (∀ j s', <[i := (s, true)]> samples !! j = Some (s', false) → samples !! j = Some (s', false)) as Hsub.
    { intros j s' Hj. apply list_lookup_insert_Some in Hj as [(_ & ? & _)|[_ Hj]]; [congruence|done]. }
    split.
    { right. destruct H5 as [[-> ->]|H5]; [|done]. 
      assert (take (S nverts) verts' = take (S nverts) verts1) as Etk.
      { cbn [length] in H3. rewrite Nat.add_0_r, app_nil_r in H3. done. }
      cbn [length]. rewrite Nat.add_0_r. eapply Forall_impl; [exact Hdr|].
      assert (∀ t, face_ok verts1 (S nverts) t → face_ok verts' (S nverts) t) as Hface.
      { intros [[a b] c] [Hlt (pa & pb & pc & Ha & Hb & Hc & Hcr)]. split; [done|]. exists pa, pb, pc.
        assert (∀ k, (k < S nverts)%nat → verts' !! k = verts1 !! k) as Hk.
        { intros k Hk. rewrite <-(lookup_take verts' (S nverts) k Hk), Etk. by apply lookup_take. }
        rewrite !Hk by lia. done. }
      intros [[a b] c] [H|[H|H]]; [left|right; left|right; right]; by apply Hface. }
    split.
    { intros v [->|Hv]%elem_of_cons; [by exists i, s|]. destruct (H6 v Hv) as (j & s' & Hj & ->). exists j, s'. split; [by apply Hsub|done]. }
    intros j s' Hj He. destruct (decide (j = i)) as [->|Hne].
    { rewrite Hs in Hj. injection Hj as <-. left. by apply elem_of_list_here. }
    destruct (H7 j s') as [Hin|[Heq|Hnr]]; [by rewrite list_lookup_insert_ne|done|left; by apply elem_of_list_further|right; left; lia|right; right; done].
  Qed.
End add.

(** ** The grid of samples *)
Section grid.
  Context (B : Prop) (p : dparams) (hp : hpatch).
  Context (okp : vec3 → Prop) (Hh : ∀ f, okp f → ends B (get_height f (dp_ics p) (dp_ch p) (dp_radius p) hp) (λ _, True)).

  (** A grid point that is not within half a sample distance of the outline. *)
  Definition grid_sample (inp : list vec3) (nin : nat) (my : f32) (x z : Z) (s : sample) : Prop :=
    ∃ d y, dist_to_poly nin inp (V3 (f_mul (f_of_Z x) (dp_dist p)) my (f_mul (f_of_Z z) (dp_dist p))) = Done d ∧
      f_lt (f_div (f_neg (dp_dist p)) f_two) d = false ∧
      height_at p hp (V3 (f_mul (f_of_Z x) (dp_dist p)) my (f_mul (f_of_Z z) (dp_dist p))) y ∧
      s = (wrap_u16 x, y, wrap_u16 z, false).
  Definition inside_poly (inp : list vec3) (nin : nat) (my : f32) (x z : Z) : Prop :=
    ∃ d, dist_to_poly nin inp (V3 (f_mul (f_of_Z x) (dp_dist p)) my (f_mul (f_of_Z z) (dp_dist p))) = Done d ∧
      f_lt (f_div (f_neg (dp_dist p)) f_two) d = false.

  Lemma sample_at_ends inp nin my x z acc : (0 < nin ≤ length inp)%nat →
    okp (V3 (f_mul (f_of_Z x) (dp_dist p)) my (f_mul (f_of_Z z) (dp_dist p))) →
    ends B (sample_at p hp inp nin my x z acc) (λ acc',
      (acc' = acc ∧ ¬ inside_poly inp nin my x z) ∨ ∃ s, grid_sample inp nin my x z s ∧ acc' = acc ++ [s]).
  Proof.
    intros Hn Hokp. unfold sample_at. cbv zeta. set (pt := V3 _ _ _).
    pose proof (dist_to_poly_runs nin inp pt Hn) as Hd. destruct (dist_to_poly nin inp pt) as [d| |] eqn:Ed; [|done..]. cbn [obind].
    destruct (f_lt _ d) eqn:El.
    - left. split; [done|]. intros (d' & Hd' & Hl). fold pt in Hd'. rewrite Ed in Hd'. injection Hd' as <-. congruence.
    - eapply ends_bind; [by apply (height_ends B p hp okp Hh)|]. intros y Hy. right. eexists. split; [|done]. by exists d, y.
  Qed.

  (** The positions of the grid around [inp]. *)
  Definition grid_okp (inp : list vec3) (nin : nat) : Prop :=
    ∀ lo hi my x z, aabb_xyz inp nin = Done (lo, hi) →
      f_cast f_floor_Z I32_MIN I32_MAX (f_div (v_x lo) (dp_dist p)) ≤ x → f_cast f_floor_Z I32_MIN I32_MAX (f_div (v_z lo) (dp_dist p)) ≤ z →
      okp (V3 (f_mul (f_of_Z x) (dp_dist p)) my (f_mul (f_of_Z z) (dp_dist p))).
  Lemma sample_grid_ends inp nin : (0 < nin ≤ length inp)%nat → grid_okp inp nin →
    ends B (sample_grid p hp inp nin) (λ samples, ∃ lo hi, aabb_xyz inp nin = Done (lo, hi) ∧
      let x0 := f_cast f_floor_Z I32_MIN I32_MAX (f_div (v_x lo) (dp_dist p)) in
      let x1 := f_cast f_ceil_Z I32_MIN I32_MAX (f_div (v_x hi) (dp_dist p)) in
      let z0 := f_cast f_floor_Z I32_MIN I32_MAX (f_div (v_z lo) (dp_dist p)) in
      let z1 := f_cast f_ceil_Z I32_MIN I32_MAX (f_div (v_z hi) (dp_dist p)) in
      let my := f_mul (f_add (v_y hi) (v_y lo)) c_0_5 in
      (∀ s, s ∈ samples → ∃ x z, x0 ≤ x < x1 ∧ z0 ≤ z < z1 ∧ grid_sample inp nin my x z s) ∧
      (∀ x z, x0 ≤ x < x1 → z0 ≤ z < z1 → inside_poly inp nin my x z → ∃ s, s ∈ samples ∧ grid_sample inp nin my x z s)).
  Proof.
    intros Hn Hokp. unfold sample_grid. destruct (aabb_xyz inp nin) as [[lo hi]| |] eqn:Ea.
    2:{ exfalso. unfold aabb_xyz in Ea. destruct (get_lt inp 0) as (v & Hv & _); [lia|]. rewrite Hv in Ea. done. }
    2:{ exfalso. unfold aabb_xyz in Ea. destruct (get_lt inp 0) as (v & Hv & _); [lia|]. rewrite Hv in Ea. done. }
    cbn [obind]. set (x0 := f_cast _ _ _ (f_div (v_x lo) _)). set (x1 := f_cast _ _ _ (f_div (v_x hi) _)).
    set (z0 := f_cast _ _ _ (f_div (v_z lo) _)). set (z1 := f_cast _ _ _ (f_div (v_z hi) _)). set (my := f_mul _ c_0_5).
    assert (∀ a b k, k ∈ z_range a (b - 1) ↔ a ≤ k < b) as Hzr.
    { intros a b k. unfold z_range. rewrite elem_of_list_fmap. setoid_rewrite elem_of_seq. split.
      - intros (j & -> & Hj). lia.
      - intros Hk. exists (Z.to_nat (k - a)). lia. }
    set (Inv := λ (done : Z → Z → Prop) (samples : list sample),
      (∀ s, s ∈ samples → ∃ x z, x0 ≤ x < x1 ∧ z0 ≤ z < z1 ∧ grid_sample inp nin my x z s) ∧
      (∀ x z, done x z → inside_poly inp nin my x z → ∃ s, s ∈ samples ∧ grid_sample inp nin my x z s)).
    eapply (ends_mono B _ (Inv (λ x z, x0 ≤ x < x1 ∧ z ∈ z_range z0 (z1 - 1)))).
    - apply (ends_inv B (λ l, Inv (λ x z, x0 ≤ x < x1 ∧ z ∈ l))).
      + split; [intros s Hs; by apply elem_of_nil in Hs|]. intros x z [_ Hz]. by apply elem_of_nil in Hz.
      + intros pz z rz acc Elz Hacc.
        assert (z0 ≤ z < z1) as Hz. { apply Hzr. rewrite Elz. set_solver. }
        eapply (ends_mono B _ (Inv (λ x z', (x0 ≤ x < x1 ∧ z' ∈ pz) ∨ (x ∈ z_range x0 (x1 - 1) ∧ z' = z)))).
        * apply (ends_inv B (λ l, Inv (λ x z', (x0 ≤ x < x1 ∧ z' ∈ pz) ∨ (x ∈ l ∧ z' = z)))).
          -- destruct Hacc as [G1 G2]. split; [done|]. intros x z' [Hxz|[Hx _]]; [by apply G2|by apply elem_of_nil in Hx].
          -- intros px x rx acc' Elx [G1 G2].
             assert (x0 ≤ x < x1) as Hx. { apply Hzr. rewrite Elx. set_solver. }
             eapply ends_mono; [apply sample_at_ends; [done|apply (Hokp lo hi); [done|unfold x0 in Hx; lia|unfold z0 in Hz; lia]]|]. cbn. intros acc'' [[-> Hno]|(s & Hs & ->)].
             ++ split; [done|]. intros x' z' [Hxz|[[Hx'| ->%elem_of_list_singleton]%elem_of_app ->]] Hin; [apply G2; auto|apply G2; auto|done].
             ++ split.
                ** intros s' [Hs'| ->%elem_of_list_singleton]%elem_of_app; [by apply G1|]. by exists x, z.
                ** intros x' z' Hxz Hin.
                   assert (((x0 ≤ x' < x1 ∧ z' ∈ pz) ∨ (x' ∈ px ∧ z' = z)) ∨ (x' = x ∧ z' = z)) as [Hd|[-> ->]].
                   { destruct Hxz as [Hxz|[[Hx'| ->%elem_of_list_singleton]%elem_of_app ->]]; auto. }
                   --- destruct (G2 x' z' Hd Hin) as (s' & Hs' & ?). exists s'. split; [apply elem_of_app; by left|done].
                   --- exists s. split; [apply elem_of_app; right; by apply elem_of_list_singleton|done].
        * intros acc' [G1 G2]. split; [done|]. intros x z' [Hx Hz'] Hin. apply G2; [|done].
          apply elem_of_app in Hz' as [Hz'| ->%elem_of_list_singleton]; [by left|]. right. split; [by apply Hzr|done].
    - intros samples [G1 G2]. exists lo, hi. split; [done|]. cbv zeta. split; [done|]. intros x z Hx Hz. apply G2.
      split; [done|]. by apply Hzr.
  Qed.
End grid.

(** ** One polygon *)

(** No coordinate is so large that the number of samples leaves its type. *)
Definition ratios_ok (p : dparams) (inp : list vec3) : Prop := ∀ a b, a ∈ inp → b ∈ inp → ratio_ok p a b.

(** The detail of one polygon with corners [inp]. [E] are the extra vertices of
    the edges, [extra] those of the interior. *)
Record poly_detail (p : dparams) (hp : hpatch) (inp : list vec3) (d : ddetail) (E : list (list vec3)) (extra : list vec3) : Prop := {
  pd_edges : length E = length inp;
  pd_count : dd_n d = (length inp + length (concat E) + length extra)%nat;
  pd_max : (dd_n d ≤ 127)%nat;
  pd_buf : length (dd_verts d) = 256%nat;
  pd_verts : take (dd_n d) (dd_verts d) = inp ++ concat E ++ extra;
  pd_out : ∀ i e a b, E !! i = Some e → inp !! before (length inp) i = Some a → inp !! i = Some b → edge_out p hp (length inp + length (concat (take i E))) a b e;
  pd_tmax : (length (dd_tris d) ≤ 255)%nat;
  pd_tris : Forall (tri_lt (dd_n d)) (dd_tris d);
  pd_flags : Forall2 (flags_exact (outline E)) (dd_tris d) (dd_flags d);
  pd_shape : (extra = [] ∧ covers (outline E) (dd_tris d) ∧ length (dd_tris d) = (length (outline E) - 2)%nat) ∨
             Forall (oriented (dd_verts d) (dd_n d)) (dd_tris d);
}.

(** The interior is sampled: every sample inside is near the mesh or a vertex,
    unless the vertices or triangles have run out. *)
Definition interior_ok (p : dparams) (hp : hpatch) (inp : list vec3) (d : ddetail) (extra : list vec3) : Prop :=
  ∃ lo hi (samples : list sample), aabb_xyz inp (length inp) = Done (lo, hi) ∧
    let x0 := f_cast f_floor_Z I32_MIN I32_MAX (f_div (v_x lo) (dp_dist p)) in
    let x1 := f_cast f_ceil_Z I32_MIN I32_MAX (f_div (v_x hi) (dp_dist p)) in
    let z0 := f_cast f_floor_Z I32_MIN I32_MAX (f_div (v_z lo) (dp_dist p)) in
    let z1 := f_cast f_ceil_Z I32_MIN I32_MAX (f_div (v_z hi) (dp_dist p)) in
    let my := f_mul (f_add (v_y hi) (v_y lo)) c_0_5 in
    (∀ s, s ∈ samples → ∃ x z, x0 ≤ x < x1 ∧ z0 ≤ z < z1 ∧ grid_sample p hp inp (length inp) my x z s) ∧
    (∀ x z, x0 ≤ x < x1 → z0 ≤ z < z1 → inside_poly p inp (length inp) my x z →
      ∃ s, s ∈ samples ∧ grid_sample p hp inp (length inp) my x z s) ∧
    (∀ v, v ∈ extra → ∃ i s b, samples !! i = Some (s, b) ∧ v = sample_pos p i s) ∧
    (∀ i s b, samples !! i = Some (s, b) → nonneg (dp_err p) →
      sample_pos p i s ∈ extra ∨ dd_n d = 127%nat ∨ length (dd_tris d) = 255%nat ∨ near (dp_err p) (dd_verts d) (dd_tris d) (sample_pos p i s)).

Lemma build_poly_detail_ends B p hp (okp : vec3 → Prop) inp verts :
  (∀ f, okp f → ends B (get_height f (dp_ics p) (dp_ch p) (dp_radius p) hp) (λ _, True)) →
  (3 ≤ length inp)%nat → (length inp ≤ 126 ∨ B)%nat → (ratios_ok p inp ∨ B) → (f_lt f_zero (dp_dist p) = true ∨ B) →
  (∀ a b n k, a ∈ inp → b ∈ inp → (k ≤ n)%nat → (n ≤ 31)%nat → okp (edge_pos a b n k)) → grid_okp p okp inp (length inp) →
  length verts = 256%nat →
  ends B (build_poly_detail p hp inp (length inp) verts) (λ d,
    f_lt f_zero (dp_dist p) = true ∧
    ∃ E extra, poly_detail p hp inp d E extra ∧
      ∀ mext, poly_min_extent_sq inp (length inp) = Done mext →
        (f_lt mext (f_mul (f_mul (dp_dist p) f_two) (f_mul (dp_dist p) f_two)) = true ∧ extra = []) ∨ interior_ok p hp inp d extra).
Proof.
  intros Hh H3 Hn Hr Hs Hok1 Hok2 Hv. set (nin := length inp) in *. unfold build_poly_detail.
  unfold copy_corners. destruct (_ || _) eqn:Ecc; cbn [obind ends].
  { assert (256 < nin)%nat by (apply orb_true_iff in Ecc as [?|?]; [lia|lia]). destruct Hn; [lia|done]. }
  apply orb_false_iff in Ecc as [Ec1 Ec2].
  rewrite (take_ge inp) by (unfold nin; lia). set (verts1 := inp ++ drop nin verts).
  assert (length verts1 = 256%nat) as Hl1 by (unfold verts1; rewrite app_length, drop_length; fold nin; lia).
  assert (take nin verts1 = inp) as Htk1 by (unfold verts1; rewrite take_app_le, take_ge by (fold nin; lia); done).
  assert (poly_min_extent_sq verts1 nin = poly_min_extent_sq inp nin) as Hmx.
  { unfold poly_min_extent_sq. rewrite Htk1, (take_ge inp) by (fold nin; lia).
    assert (∀ k, (k < nin)%nat → get verts1 k = get inp k) as Hgk.
    { intros k Hk. unfold get, verts1. by rewrite lookup_app_l. }
    assert (∀ l m, (∀ k, k ∈ l → (k < nin)%nat) → foldM (λ i mind,
      let! ni := next_idx i nin in let! p1 := get verts1 i in let! p2 := get verts1 ni in
      let maxd := foldl (λ m '(j, v), if ((j =? i) || (j =? ni))%nat then m else fmax m (seg_dist2 (xz v) (xz p1) (xz p2))) f_zero (imap (λ j v, (j, v)) inp) in
      Done (fmin mind maxd)) l m = foldM (λ i mind,
      let! ni := next_idx i nin in let! p1 := get inp i in let! p2 := get inp ni in
      let maxd := foldl (λ m '(j, v), if ((j =? i) || (j =? ni))%nat then m else fmax m (seg_dist2 (xz v) (xz p1) (xz p2))) f_zero (imap (λ j v, (j, v)) inp) in
      Done (fmin mind maxd)) l m) as Hfold.
    { induction l as [|k l IH]; intros m Hl; [done|]. cbn [foldM]. assert (k < nin)%nat as Hk by (apply Hl; set_solver).
      destruct (next_idx_done k nin) as (j & -> & Hj); [lia|done|]. cbn [obind]. rewrite !Hgk by done.
      destruct (get inp k); [|done..]. cbn [obind]. destruct (get inp j); [|done..]. cbn [obind]. apply IH. intros; apply Hl; set_solver. }
    apply Hfold. intros k Hk%elem_of_seq. lia. }
  rewrite Hmx. pose proof (poly_min_extent_runs inp nin ltac:(lia)) as Hext.
  destruct (poly_min_extent_sq inp nin) as [mext| |] eqn:Emx; [|done..]. cbn [obind]. clear Hext.
  destruct (f_lt f_zero (dp_dist p)) eqn:Esm.
  2:{ cbn [obind dv_hull dv_nh dv_verts]. rewrite triangulate_hull_empty. cbn. by destruct Hs. }
  eapply ends_bind.
  { apply (tess_outline_ends B p hp okp Hh inp nin verts1); [lia|left; lia|done| |done|done|lia|].
    - destruct Hr as [Hr|]; [right|by left]. done.
    - rewrite Htk1, take_ge by (fold nin; lia). done. }
  intros st (E & HlE & Hpos & Hmax & Ho). destruct Ho as (O1 & O2 & O3 & O4 & O5 & O6 & O7).
  destruct st as [vs n hull nh]. cbn [dv_hull dv_nh dv_verts dv_n] in *.
  assert (take nh hull = outline E) as Hol by (rewrite O6; unfold outline; by rewrite HlE).
  assert (n = nh) as -> by lia.
  assert (nin ≤ nh)%nat by lia.
  pose proof (outline_perm E) as Hperm. rewrite <-Hol in Hperm.
  assert (∀ i h, hull !! i = Some h → (i < nh)%nat → (h < nh)%nat) as Hval.
  { intros i h Hi Hlt. assert (h ∈ take nh hull) as Hin by (apply elem_of_list_lookup; exists i; by rewrite lookup_take).
    rewrite Hperm in Hin. apply elem_of_seq in Hin. lia. }
  destruct (triangulate_hull_spec vs hull nh) with (nin := nin) as (ts & -> & Hlt & Hct & Hcov); [lia|lia| |].
  { intros i h Hi Hlt. specialize (Hval i h Hi Hlt). lia. }
  cbn [obind].
  assert (Forall (tri_lt nh) ts) as Htlt.
  { apply Forall_forall. intros [[a b] c] Hin. specialize (Hct _ Hin). cbn in Hct.
    assert (∀ x, x ∈ take nh hull → (x < nh)%nat) as Hx. { intros x Hx. rewrite Hperm in Hx. apply elem_of_seq in Hx. lia. }
    cbn. split; [|split]; apply Hx, Hct; rewrite !elem_of_cons; auto. }
  assert (∀ vs' n' ts' extra, (n' = nh + length extra)%nat → (n' ≤ 127)%nat → length vs' = 256%nat →
    take n' vs' = take nh vs ++ extra → Forall (tri_lt n') ts' →
    ((extra = [] ∧ ts' = ts) ∨ Forall (oriented vs' n') ts') →
    (∀ d, d = DDet vs' n' (take MAX_TRIS ts') (dd_flags d) →
        (f_lt mext (f_mul (f_mul (dp_dist p) f_two) (f_mul (dp_dist p) f_two)) = true ∧ extra = []) ∨ interior_ok p hp inp d extra) →
    ends B (let! flags := set_tri_flags nh hull (take MAX_TRIS ts') in Done (DDet vs' n' (take MAX_TRIS ts') flags)) (λ d,
      true = true ∧ ∃ E extra, poly_detail p hp inp d E extra ∧
      ∀ m, Done mext = Done m →
        (f_lt m (f_mul (f_mul (dp_dist p) f_two) (f_mul (dp_dist p) f_two)) = true ∧ extra = []) ∨ interior_ok p hp inp d extra)) as Hfin.
  { intros vs' n' ts' extra En Hn' Hl' Htk Hlt' Hshape Hint.
    destruct (set_tri_flags_spec hull nh) with (tris := take MAX_TRIS ts') as (fs & -> & HF); [lia|lia|done|]. cbn [obind ends].
    split; [done|]. exists E, extra. split.
    - constructor; cbn [dd_n dd_verts dd_tris dd_flags].
      + done.
      + fold nin. lia.
      + done.
      + done.
      + rewrite Htk, O5, (take_ge inp) by (fold nin; lia). by rewrite <-app_assoc.
      + intros i e a b He. fold nin. by apply O7.
      + rewrite take_length. unfold MAX_TRIS. lia.
      + by apply Forall_take.
      + by rewrite <-Hol.
      + destruct Hshape as [[-> ->]|Hor]; [left|right; by apply Forall_take].
        rewrite take_ge by (unfold MAX_TRIS; lia). rewrite <-Hol. split; [done|]. split; [done|]. rewrite take_length. lia.
    - intros m [= <-]. by apply Hint. }
  set (two := f_mul (dp_dist p) f_two) in *.
  destruct (f_lt mext (f_mul two two)) eqn:Elt; cbn [orb negb].
  { cbn [obind]. apply (Hfin vs nh ts []); [cbn; lia|lia|done|by rewrite app_nil_r|done|by left|]. intros d _. left. done. }
  rewrite obind_assoc. eapply ends_bind; [apply (sample_grid_ends B p hp okp Hh); [fold nin; lia|done]|].
  intros samples (lo & hi & Hab & Hsd & Hcp).
  destruct (add_samples_spec p nh hull) with (n := length samples) (samples := samples) (verts := vs) (nverts := nh) (tris := ts)
    as (vs' & ts' & extra & -> & A1 & A2 & A3 & A4 & A5 & A6 & A7).
  - lia.
  - intros i h Hi Hih. by eapply Hval.
  - rewrite Hperm. apply NoDup_seq.
  - unfold todo. apply filter_length.
  - done.
  - lia.
  - done.
  - cbn [obind]. apply (Hfin vs' (nh + length extra)%nat ts' extra); [done|done|done|done|done|done|].
    intros d Ed. right. exists lo, hi, samples. split; [done|]. cbv zeta in Hsd, Hcp |- *. split; [done|]. split; [done|].
    assert (∀ i s b, samples !! i = Some (s, b) → b = false) as Hfalse.
    { intros i s b Hi. apply elem_of_list_lookup_2 in Hi. apply Hsd in Hi as (x & z & _ & _ & (dd & y & _ & _ & _ & [= _ ->])). done. }
    split.
    + intros v Hvin. destruct (A6 v Hvin) as (i & s & Hi & ->). by exists i, s, false.
    + intros i s b Hi He. pose proof (Hfalse _ _ _ Hi) as ->. rewrite Ed. cbn [dd_n dd_tris dd_verts].
      destruct (A7 i s Hi He) as [?|[?|Hnr]]; [by left|right; left; lia|]. right. right.
      destruct (decide (255 ≤ length ts')%nat) as [Hge|Hge].
      * left. rewrite take_length. unfold MAX_TRIS. lia.
      * right. rewrite take_ge by (unfold MAX_TRIS; lia). done.
Qed.
