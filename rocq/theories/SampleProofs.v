(** Where samples are taken, in real numbers: the even-odd test in f32 and the jitter. *)
From Coq Require Import Reals Lra.
From Flocq Require Import Core.Core Relative.
From Verif Require Import Base ModelMath ModelTriMesh ModelDetail FloatOrder FloatSignProofs FloatReal FloatSpotProofs CameraProofs FlowProofs FloatClipProofs SpecSamples.
From Coq Require Import Floats.SpecFloat.
Local Open Scope R_scope.

(** ** Rounding relative to the number *)

Definition f_tiny : R := powerRZ 2 (-125).
Lemma tiny_pos : 0 < f_tiny. Proof. apply powerRZ_lt. lra. Qed.
Lemma rnd_err2 x : Rabs (rnd x - x) <= f_u * Rabs x + f_tiny.
Proof.
  assert (f_eps = f_u / 2) as E.
  { rewrite f_u_val. unfold f_eps, powerRZ. change (Pos.to_nat 24) with 24%nat. cbn [Rpow_def.pow]. lra. }
  pose proof f_u_val as U. pose proof tiny_pos. pose proof (Rabs_pos x) as Hx. destruct (Rle_or_lt (powerRZ 2 (-126)) (Rabs x)) as [H1|H1].
  - pose proof (rnd_rel x H1) as H'. rewrite E, U in H'. rewrite U. lra.
  - assert (f_tiny = powerRZ 2 (-126) * 2) as Et. { unfold f_tiny. replace (-125)%Z with (-126 + 1)%Z by lia. rewrite powerRZ_add by lra. change (powerRZ 2 1) with (2 * 1). lra. }
    assert (Rabs (rnd x) <= powerRZ 2 (-126)) as H2. { apply rnd_abs_le; [apply pow2_format; lia|lra]. }
    apply Rabs_le_inv in H2. apply Rlt_le, Rabs_le_inv in H1. rewrite Et. apply Rle_trans with (powerRZ 2 (-126) * 2); [apply Rabs_le; lra|]. rewrite U. nra.
Qed.
Lemma tiny_small : f_tiny * 33554432 <= f_u / 1000000.
Proof.
  apply Rle_trans with (powerRZ 2 (-43)).
  - replace 33554432 with (powerRZ 2 25). 2:{ unfold powerRZ. change (Pos.to_nat 25) with 25%nat. cbn [Rpow_def.pow]. lra. }
    unfold f_tiny. rewrite <-powerRZ_add by lra. rewrite <-!bp. apply bpow_le. lia.
  - rewrite f_u_val. unfold powerRZ. change (Pos.to_nat 43) with 43%nat. cbn [Rpow_def.pow]. lra.
Qed.

(** ** One side *)

Section Side.
Context (M : R) (HM : 1 <= M) (HMb : 8 * (M * M) <= f_big).
Context (px pz ax az bx bz : f32) (Fpx : fin px) (Fpz : fin pz) (Fax : fin ax) (Faz : fin az) (Fbx : fin bx) (Fbz : fin bz).
Context (Bpz : Rabs (f_R pz) <= M) (Bax : Rabs (f_R ax) <= M) (Baz : Rabs (f_R az) <= M) (Bbx : Rabs (f_R bx) <= M) (Bbz : Rabs (f_R bz) <= M).
(** The ends are apart. *)
Context (Hgap : f_R az = f_R bz ∨ M / 65536 <= Rabs (f_R bz - f_R az)).
Definition computed : f32 := f_add (f_div (f_mul (f_sub bx ax) (f_sub pz az)) (f_sub bz az)) ax.

Lemma computed_ok : met (f_R px, f_R pz) (f_R ax, f_R az) (f_R bx, f_R bz) →
  fin computed ∧ Rabs (f_R computed - meets_at (f_R px, f_R pz) (f_R ax, f_R az) (f_R bx, f_R bz)) <= 16 * f_u * M.
Proof.
  intros Hmet. unfold meets_at, met in *. cbn [fst snd] in *. assert (M <= M * M) as HMM by nra.
  set (w := f_R pz - f_R az). set (D := f_R bz - f_R az) in *. set (X := f_R bx - f_R ax).
  assert (M / 65536 <= Rabs D) as HD. { destruct Hgap as [E|H]; [|exact H]. exfalso. lra. }
  assert (0 <= w * D ∧ Rabs w <= Rabs D) as [Hs Hw].
  { unfold w, D. destruct Hmet as [[H1 H2]|[H1 H2]]; split; try nra; unfold Rabs; repeat destruct (Rcase_abs _); lra. }
  pose proof f_u_val as U. pose proof tiny_pos as T0. pose proof tiny_small as T1.
  assert (0 < Rabs D) as HD0 by lra.
  destruct (sub_ok bx ax (2 * M)) as (FX & EX & DX); [done|done|apply Rabs_le_inv in Bbx, Bax; apply Rabs_le; lra|lra|].
  destruct (sub_ok pz az (2 * M)) as (FW & EW & _); [done|done|apply Rabs_le_inv in Bpz, Baz; apply Rabs_le; lra|lra|].
  destruct (sub_ok bz az (2 * M)) as (FD & ED & _); [done|done|apply Rabs_le_inv in Bbz, Baz; apply Rabs_le; lra|lra|].
  fold X in EX, DX. fold w in EW. fold D in ED. unfold computed. set (X' := f_sub bx ax) in *. set (W' := f_sub pz az) in *. set (D' := f_sub bz az) in *.
  pose proof (rnd_err2 w) as Ew. rewrite <-EW in Ew. pose proof (rnd_err2 D) as Ed. rewrite <-ED in Ed.
  (* relative to D *)
  assert (f_tiny <= f_u / 1000000 * Rabs D) as Ht.
  { apply Rle_trans with (f_tiny * 33554432 * (M / 65536)); [|apply Rmult_le_compat; lra]. assert (1 <= 33554432 * (M / 65536)) by lra. nra. }
  assert (Rabs (f_R D' - D) <= 101 / 100 * f_u * Rabs D) as Ed1 by (rewrite U in *; lra).
  assert (Rabs (f_R W' - w) <= 101 / 100 * f_u * Rabs D) as Ew1 by (rewrite U in *; lra).
  assert (99 / 100 * Rabs D <= Rabs (f_R D')) as HD'.
  { pose proof (Rabs_triang_inv D (f_R D')) as H. rewrite Rabs_minus_sym in H. rewrite U in *. lra. }
  assert (f_R D' ≠ 0) as D'0. { intros E. rewrite E, Rabs_R0 in HD'. lra. }
  assert (D ≠ 0) as D0. { intros E. rewrite E, Rabs_R0 in HD0. lra. }
  set (r := w / D). assert (w = r * D) as Er by (unfold r; field; done).
  assert (Rabs r <= 1) as Hr. { unfold r, Rdiv. rewrite Rabs_mult, Rabs_inv. apply Rmult_le_reg_r with (Rabs D); [done|]. rewrite Rmult_assoc, Rinv_l by lra. lra. }
  set (r' := f_R W' / f_R D'). assert (f_R W' = r' * f_R D') as Er' by (unfold r'; field; done).
  assert (Rabs (r' - r) <= 21 / 10 * f_u) as Hrr.
  { apply Rmult_le_reg_r with (Rabs (f_R D')); [lra|]. rewrite <-Rabs_mult. replace ((r' - r) * f_R D') with ((f_R W' - w) + (- r) * (f_R D' - D)) by (rewrite Er', Er; ring).
    eapply Rle_trans; [apply Rabs_triang|]. rewrite Rabs_mult, Rabs_Ropp. pose proof (Rabs_pos (f_R D' - D)).
    apply Rle_trans with (101 / 100 * f_u * Rabs D + 1 * (101 / 100 * f_u * Rabs D)); [apply Rplus_le_compat; [done|]; apply Rmult_le_compat; try apply Rabs_pos; lra|]. rewrite U in *. lra. }
  assert (Rabs r' <= 101 / 100) as Hr'.
  { replace r' with (r + (r' - r)) by ring. eapply Rle_trans; [apply Rabs_triang|]. rewrite U in *. lra. }
  assert (Rabs X <= 2 * M) as HX. { unfold X. apply Rabs_le_inv in Bbx, Bax. apply Rabs_le. lra. }
  assert (Rabs (f_R X') <= 201 / 100 * M) as HX'.
  { replace (f_R X') with (X + (f_R X' - X)) by ring. eapply Rle_trans; [apply Rabs_triang|]. rewrite U in *. lra. }
  (* the product *)
  assert (Rabs D <= 2 * M) as HD2. { unfold D. apply Rabs_le_inv in Bbz, Baz. apply Rabs_le. lra. }
  assert (Rabs (f_R D') <= 201 / 100 * M) as HD'2.
  { replace (f_R D') with (D + (f_R D' - D)) by ring. eapply Rle_trans; [apply Rabs_triang|]. rewrite U in *. lra. }
  assert (Rabs (f_R W') <= 101 / 100 * Rabs (f_R D')) as HW'. { rewrite Er', Rabs_mult. apply Rmult_le_compat_r; [apply Rabs_pos|done]. }
  assert (Rabs (f_R X' * f_R W') <= 5 * (M * M)) as HP.
  { rewrite Rabs_mult. apply Rle_trans with (201 / 100 * M * (101 / 100 * (201 / 100 * M))); [|clear -HM HMM; lra]. apply Rmult_le_compat; try apply Rabs_pos; lra. }
  destruct (mul_ok X' W' (5 * (M * M))) as (FP & EP & _); [done|done|done|clear -HM HMM HMb; lra|].
  set (P := f_mul X' W') in *. pose proof (rnd_err2 (f_R X' * f_R W')) as DP. rewrite <-EP in DP.
  set (y := f_R X' * r'). assert (f_R X' * f_R W' = y * f_R D') as Ey by (unfold y; rewrite Er'; ring). rewrite Ey in DP.
  set (y' := f_R P / f_R D'). assert (f_R P = y' * f_R D') as Ey' by (unfold y'; field; done).
  assert (Rabs y <= 2031 / 1000 * M) as Hy.
  { unfold y. rewrite Rabs_mult. apply Rle_trans with (201 / 100 * M * (101 / 100)); [|lra]. apply Rmult_le_compat; try apply Rabs_pos; lra. }
  assert (Rabs (y' - y) <= 21 / 10 * f_u * M) as Hyy.
  { apply Rmult_le_reg_r with (Rabs (f_R D')); [lra|]. rewrite <-Rabs_mult. replace ((y' - y) * f_R D') with (f_R P - y * f_R D') by (rewrite Ey'; ring).
    eapply Rle_trans; [exact DP|]. rewrite Rabs_mult.
    assert (Rabs y * Rabs (f_R D') <= 2031 / 1000 * M * Rabs (f_R D')) by (apply Rmult_le_compat_r; [apply Rabs_pos|done]).
    assert (Rabs (f_R D') <= M * Rabs (f_R D')) by (rewrite <-(Rmult_1_l (Rabs (f_R D'))) at 1; apply Rmult_le_compat_r; [apply Rabs_pos|exact HM]). rewrite U in *. lra. }
  assert (Rabs y' <= 204 / 100 * M) as Hy'.
  { replace y' with (y + (y' - y)) by ring. eapply Rle_trans; [apply Rabs_triang|]. rewrite U in *. lra. }
  destruct (f_div_R P D') as [EQ FQ]; [apply FP|apply FD|apply FP|done|apply big_rnd; fold y'; lra|]. fold y' in EQ.
  assert (fin (f_div P D')) as FQ' by (split; [apply f_div_valid; [apply FP|apply FD]|done]).
  pose proof (rnd_err y' (204 / 100 * M) Hy' ltac:(lra)) as DQ. rewrite <-EQ in DQ. set (Q := f_div P D') in *.
  assert (Rabs (f_R Q) <= 205 / 100 * M) as HQ.
  { replace (f_R Q) with (y' + (f_R Q - y')) by ring. eapply Rle_trans; [apply Rabs_triang|]. rewrite U in *. lra. }
  destruct (add_ok Q ax (306 / 100 * M)) as (FS & _ & DS); [done|done| |lra|].
  { eapply Rle_trans; [apply Rabs_triang|]. lra. }
  split; [done|].
  replace (f_R (f_add Q ax) - (f_R ax + X * w / D)) with ((f_R (f_add Q ax) - (f_R Q + f_R ax)) + ((f_R Q - y') + ((y' - y) + ((f_R X' - X) * r' + X * (r' - r))))) by (unfold y, r; field; done).
  eapply Rle_trans; [apply Rabs_triang|]. eapply Rle_trans; [apply Rplus_le_compat_l, Rabs_triang|].
  eapply Rle_trans; [apply Rplus_le_compat_l, Rplus_le_compat_l, Rabs_triang|]. eapply Rle_trans; [apply Rplus_le_compat_l, Rplus_le_compat_l, Rplus_le_compat_l, Rabs_triang|].
  rewrite !Rabs_mult.
  assert (Rabs (f_R X' - X) * Rabs r' <= f_u * (2 * M) * (101 / 100)) by (apply Rmult_le_compat; try apply Rabs_pos; lra).
  assert (Rabs X * Rabs (r' - r) <= 2 * M * (21 / 10 * f_u)) by (apply Rmult_le_compat; try apply Rabs_pos; lra).
  rewrite U in *. lra.
Qed.

(** The test of [dist_to_poly]. *)
Definition tested : bool := negb (eqb (f_lt pz az) (f_lt pz bz)) && f_lt px computed.
Lemma tested_ok : let p := (f_R px, f_R pz) in let a := (f_R ax, f_R az) in let b := (f_R bx, f_R bz) in
  (if tested then hit p a b else ¬ hit p a b) ∨ (met p a b ∧ Rabs (p.1 - meets_at p a b) <= 16 * f_u * M).
Proof.
  cbv zeta. set (p := (f_R px, f_R pz)). set (a := (f_R ax, f_R az)). set (b := (f_R bx, f_R bz)).
  assert (negb (eqb (f_lt pz az) (f_lt pz bz)) = true ↔ met p a b) as Hm.
  { unfold met, p, a, b. cbn [fst snd]. pose proof (lt_iff pz az Fpz Faz) as H1. pose proof (lt_iff pz bz Fpz Fbz) as H2. rewrite <-H1, <-H2.
    destruct (f_lt pz az), (f_lt pz bz); cbn; split; try done; intros H; try (by left); try (by right); destruct H as [[]|[]]; done. }
  unfold tested. destruct (negb _) eqn:E; cbn [andb].
  - assert (met p a b) as Hmet by (by apply Hm). destruct (computed_ok Hmet) as [Fc Dc]. fold p a b in Dc.
    destruct (Rle_or_lt (Rabs (p.1 - meets_at p a b)) (16 * f_u * M)) as [H|H]; [by right|left].
    pose proof (lt_iff px computed Fpx Fc) as Hl. apply Rabs_le_inv in Dc. unfold p at 1 in H. cbn [fst] in H. destruct (f_lt px computed).
    + split; [done|]. unfold p at 1. cbn [fst]. destruct Hl as [Hl _]. specialize (Hl eq_refl). revert H. unfold Rabs. destruct (Rcase_abs _); lra.
    + intros [_ Hh]. unfold p at 1 in Hh. cbn [fst] in Hh. assert (¬ f_R px < f_R computed) as Hn. { intros Hx. apply Hl in Hx. done. }
      revert H. unfold Rabs. destruct (Rcase_abs _); lra.
  - left. intros [Hmet _]. apply Hm in Hmet. done.
Qed.
End Side.

(** ** All sides *)

Lemma parity_snoc p a b l c : parity p l c → (hit p a b → parity p (l ++ [(a, b)]) (negb c)) ∧ (¬ hit p a b → parity p (l ++ [(a, b)]) c).
Proof.
  induction 1 as [|a' b' l c Hh _ [IH1 IH2]|a' b' l c Hh _ [IH1 IH2]]; cbn.
  - split; intros H; [apply (parity_hit p a b [] false H)|apply (parity_miss p a b [] false H)]; constructor.
  - split; intros H; (apply parity_hit; [done|]); [by apply IH1|by apply IH2].
  - split; intros H; (apply parity_miss; [done|]); [by apply IH1|by apply IH2].
Qed.
Lemma sides_fmap {A C} (f : A → C) l : sides (f <$> l) = (λ e, (f e.1, f e.2)) <$> sides l.
Proof.
  unfold sides. rewrite fmap_last. destruct (last l) as [e|]; [|done]. cbn [fmap option_fmap option_map]. change (f e :: (f <$> l)) with (f <$> (e :: l)).
  generalize (e :: l). induction l as [|x l IH]; intros [|y k]; [done|done|done|]. cbn. f_equal. apply IH.
Qed.

Lemma nn_min d x : is_nan d = false → nonneg d → nonneg x → is_nan (fmin d x) = false ∧ nonneg (fmin d x).
Proof. intros H1 H2 H3. unfold fmin. rewrite H1. destruct (is_nan x) eqn:E; [done|]. by destruct (f_lt d x). Qed.
Lemma seg_dist2_nonneg q a b : nonneg (seg_dist2 q a b).
Proof. unfold seg_dist2. cbv zeta. unfold dot2. apply nonneg_add; apply f_square_nonneg. Qed.

Section Polygon.
Context (M : R) (HM : 1 <= M) (HMb : 8 * (M * M) <= f_big).
Context (pt : vec3) (inp : list vec3).
Definition bounded (v : vec3) : Prop := (fin (v_x v) ∧ Rabs (f_R (v_x v)) <= M) ∧ (fin (v_z v) ∧ Rabs (f_R (v_z v)) <= M).
Context (Hpt : bounded pt) (Hinp : ∀ a, a ∈ inp → bounded a).
Context (Hgap : ∀ a b, a ∈ inp → b ∈ inp → f_R (v_z a) = f_R (v_z b) ∨ M / 65536 <= Rabs (f_R (v_z b) - f_R (v_z a))).

(** A polygon that counts as inside is inside, or a side is right beside the point. *)
Lemma dist_to_poly_inside d half : dist_to_poly (length inp) inp pt = Done d → fin half → f_R half < 0 → f_lt half d = false →
  inside (plan pt) (plan <$> inp) ∨ beside (16 * f_u * M) (plan pt) (plan <$> inp).
Proof.
  intros Hd Fh Hh Hlt. unfold dist_to_poly in Hd. destruct (length inp =? 0)%nat eqn:E0; [done|]. apply Nat.eqb_neq in E0.
  destruct (last inp) as [e|] eqn:El. 2:{ apply last_None in El. by rewrite El in E0. }
  set (J := λ (k : nat) (st : nat * bool * f32), st.1.1 = match k with O => (length inp - 1)%nat | S k => k end ∧ is_nan st.2 = false ∧ nonneg st.2 ∧
    (parity (plan pt) ((λ e, (plan e.1, plan e.2)) <$> take k (sides inp)) st.1.2 ∨ beside (16 * f_u * M) (plan pt) (plan <$> inp))).
  apply obind_done in Hd as ([[j c] dmin] & Hf & Hd). injection Hd as Hd.
  assert (J (length inp) (j, c, dmin)) as (_ & J1 & J2 & J3); cbn [fst snd] in *.
  { revert Hf. set (f := λ i _, _). intros Hf.
    assert (∀ n k st st', (k + n = length inp)%nat → J k st → foldM f (seq k n) st = Done st' → J (length inp) st') as H.
    { clear -HM HMb Hpt Hinp Hgap E0 El. induction n as [|n IH]; intros k st st' Hk HJ Hst.
      - cbn in Hst. injection Hst as <-. by replace (length inp) with k by lia.
      - cbn [seq foldM] in Hst. apply obind_done in Hst as (st1 & H1 & H2). eapply IH; [|clear H2|exact H2]; [lia|].
        destruct st as [[j c] dmin]. destruct HJ as (Ej & Hnan & Hnn & Hpar). cbn [fst snd] in *. unfold f in H1.
        apply obind_done in H1 as (vi & Gi & H1). apply obind_done in H1 as (vj & Gj & H1). cbv zeta in H1. injection H1 as <-.
        apply get_done in Gi. apply get_done in Gj.
        assert (sides inp !! k = Some (vi, vj)) as Hside.
        { unfold sides. rewrite El. apply lookup_zip_with_Some. exists vi, vj. split; [done|]. split; [done|]. destruct k as [|k]; cbn.
          - rewrite Ej in Gj. rewrite last_lookup in El. replace (length inp - 1)%nat with (Nat.pred (length inp)) in Gj by lia. congruence.
          - by rewrite <-Ej. }
        split; [done|]. cbn [fst snd]. destruct (nn_min dmin (seg_dist2 (xz pt) (xz vj) (xz vi)) Hnan Hnn) as [M1 M2]; [apply seg_dist2_nonneg|].
        split; [done|]. split; [done|]. destruct Hpar as [Hpar|Hpar]; [|by right].
        pose proof (elem_of_list_lookup_2 _ _ _ Gi) as Ii. pose proof (elem_of_list_lookup_2 _ _ _ Gj) as Ij.
        destruct (Hinp vi Ii) as [[I1 I2] [I3 I4]]. destruct (Hinp vj Ij) as [[I5 I6] [I7 I8]]. destruct Hpt as [[P1 P2] [P3 P4]].
        pose proof (tested_ok M HM HMb (v_x pt) (v_z pt) (v_x vi) (v_z vi) (v_x vj) (v_z vj) P1 P3 I1 I3 I5 I7 P4 I2 I4 I6 I8 (Hgap vi vj Ii Ij)) as Ht.
        cbv zeta in Ht. change (f_R (v_x pt), f_R (v_z pt)) with (plan pt) in Ht. change (f_R (v_x vi), f_R (v_z vi)) with (plan vi) in Ht. change (f_R (v_x vj), f_R (v_z vj)) with (plan vj) in Ht.
        destruct Ht as [Ht|Ht]; [left|right].
        + rewrite (take_S_r _ _ _ Hside), fmap_app. cbn [fmap list_fmap fst snd]. destruct (parity_snoc (plan pt) (plan vi) (plan vj) _ _ Hpar) as [Q1 Q2].
          unfold tested, computed in Ht. destruct (negb _ && _); [by apply Q1|by apply Q2].
        + exists (plan vi), (plan vj). split; [|done]. rewrite sides_fmap. apply elem_of_list_fmap. exists (vi, vj). split; [done|]. by eapply elem_of_list_lookup_2. }
    eapply (H (length inp) 0%nat); [lia| |exact Hf]. split; [done|]. split; [by vm_compute|]. split; [by vm_compute|]. left. constructor. }
  destruct J3 as [J3|J3]; [left|by right]. unfold inside. rewrite sides_fmap.
  assert (length (sides inp) = length inp) as Hlen. { unfold sides. rewrite El, zip_with_length. cbn. lia. }
  rewrite <-Hlen, firstn_all in J3. destruct c; [done|exfalso]. subst d.
  assert (f_lt half dmin = true) as Ht; [|congruence]. clear -J1 J2 Fh Hh. destruct half as [s|s| |[] m e]; cbn in Hh; [lra|by destruct Fh|by destruct Fh| |].
  - unfold nonneg in J2. destruct dmin as [s|[]| |[] m' e']; done.
  - exfalso. apply (Rlt_irrefl 0). eapply Rlt_trans; [|exact Hh]. by apply (f_R_pos false m e).
Qed.
End Polygon.

(** ** The jitter *)

Lemma int_fin z : (Z.abs z <= 2 ^ 24)%Z → fin (f_of_Z z) ∧ f_R (f_of_Z z) = IZR z.
Proof. intros H. destruct (f_of_Z_R z H) as [E F]. split; [split; [apply f_of_Z_valid|done]|done]. Qed.
Lemma big_20 : 1048576 <= f_big.
Proof. unfold f_big. replace 1048576 with (powerRZ 2 20) by (unfold powerRZ; change (Pos.to_nat 20) with 20%nat; cbn [Rpow_def.pow]; lra). rewrite <-!bp. apply bpow_le. lia. Qed.

Lemma jitter_ok k i : fin (jitter k i) ∧ -1 <= f_R (jitter k i) <= 1.
Proof.
  unfold jitter. set (v := Z.land (Z.of_nat i * k) 65535).
  assert (0 <= v <= 65535)%Z as Hv.
  { unfold v. change 65535%Z with (Z.ones 16) at 1 2. rewrite Z.land_ones by lia. change (2 ^ 16)%Z with 65536%Z. change (Z.ones 16) with 65535%Z. pose proof (Z.mod_pos_bound (Z.of_nat i * k) 65536). lia. }
  destruct (int_fin v) as [Fv Ev]; [lia|]. destruct (int_fin 65535) as [Fn En]; [lia|]. destruct (int_fin 2) as [F2 E2]; [lia|]. destruct (int_fin 1) as [F1 E1]; [lia|].
  pose proof big_20. assert (0 <= IZR v <= 65535) as HvR by (split; apply IZR_le; lia).
  assert (0 <= IZR v / 65535 <= 1) as Hq by lra.
  destruct (f_div_R (f_of_Z v) (f_of_Z 65535)) as [Eq Fq]; [apply Fv|apply Fn|apply Fv|rewrite En; lra|rewrite Ev, En; apply big_rnd; rewrite Rabs_pos_eq; lra|].
  rewrite Ev, En in Eq. set (q := f_div (f_of_Z v) (f_of_Z 65535)) in *. assert (fin q) as Fq' by (split; [apply f_div_valid; [apply Fv|apply Fn]|done]).
  assert (0 <= f_R q <= 1) as Bq. { rewrite Eq. split; [rewrite <-rnd_0; apply rnd_mono; lra|rewrite <-rnd_1; apply rnd_mono; lra]. }
  destruct (mul_ok q f_two 2) as (Fm & Em & _); [done|exact F2|unfold f_two; rewrite E2, Rabs_pos_eq; lra|lra|].
  unfold f_two in Em at 2. rewrite E2 in Em. set (m := f_mul q f_two) in *.
  assert (0 <= f_R m <= 2) as Bm. { rewrite Em. split; [rewrite <-rnd_0; apply rnd_mono; lra|]. apply Rle_trans with (rnd 2); [apply rnd_mono; lra|]. rewrite (rnd_int 2) by lia. lra. }
  change f_one with (f_of_Z 1). destruct (sub_ok m (f_of_Z 1) 1) as (Fs & Es & _); [done|exact F1|rewrite E1; apply Rabs_le; lra|lra|].
  split; [done|]. rewrite Es, E1. split; [apply Rle_trans with (rnd (-1)); [rewrite (rnd_int (-1)) by lia; lra|]|apply Rle_trans with (rnd 1); [|rewrite rnd_1; lra]]; apply rnd_mono; lra.
Qed.

Lemma tenth_ok : fin c_0_1 ∧ 0 <= f_R c_0_1 <= 1 / 10 + f_u.
Proof.
  assert (c_0_1 = S754_finite false 13421773 (-27)) as E by (vm_compute; reflexivity). rewrite E. split; [split; [vm_compute; reflexivity|done]|].
  rewrite f_u_val. unfold f_R. unfold powerRZ. change (Pos.to_nat 27) with 27%nat. cbn [Rpow_def.pow]. lra.
Qed.

Section Place.
Context (B : R) (HB : 1 <= B) (HBb : 8 * B <= f_big).
Context (cs dist : f32) (Fcs : fin cs) (Fd : fin dist) (Hcs : B / 8192 <= f_R cs <= B) (Hd : B / 16384 <= f_R dist <= B).

(** A grid position, and the sample beside it. *)
Lemma grid_ok x : (0 <= x <= 65535)%Z → IZR x * f_R dist <= 3 / 2 * B →
  let g := f_mul (f_of_Z x) dist in fin g ∧ Rabs (f_R g) <= 2 * B ∧ Rabs (f_R g - IZR x * f_R dist) <= f_R cs / 512.
Proof.
  intros Hx Hxd. cbv zeta. destruct (int_fin x) as [Fx Ex]; [lia|]. pose proof f_u_val as U.
  assert (0 <= IZR x) as X0 by (apply IZR_le; lia). assert (0 <= IZR x * f_R dist) as X1 by (apply Rmult_le_pos; lra).
  destruct (mul_ok (f_of_Z x) dist (3 / 2 * B)) as (Fm & _ & Dm); [done|done|rewrite Ex, Rabs_pos_eq; lra|lra|].
  rewrite Ex in Dm. apply Rabs_le_inv in Dm. rewrite U in Dm. split; [done|]. split; apply Rabs_le; lra.
Qed.

Lemma sample_ok g k i : fin g → Rabs (f_R g) <= 2 * B →
  Rabs (f_R (f_add g (f_mul (f_mul (jitter k i) cs) c_0_1)) - f_R g) <= f_R cs / 9.
Proof.
  intros Fg Bg. destruct (jitter_ok k i) as [Fj Hj]. destruct tenth_ok as [Ft Ht]. pose proof f_u_val as U.
  assert (Rabs (f_R (jitter k i) * f_R cs) <= f_R cs) as H1. { apply Rabs_le. nra. }
  destruct (mul_ok (jitter k i) cs B) as (F1 & _ & D1); [done|done|lra|lra|]. set (a := f_mul (jitter k i) cs) in *.
  assert (Rabs (f_R a) <= f_R cs + f_u * B) as Ba. { replace (f_R a) with (f_R (jitter k i) * f_R cs + (f_R a - f_R (jitter k i) * f_R cs)) by ring. eapply Rle_trans; [apply Rabs_triang|]. lra. }
  assert (Rabs (f_R a * f_R c_0_1) <= (f_R cs + f_u * B) * (1 / 10 + f_u)) as H2.
  { rewrite Rabs_mult, (Rabs_pos_eq (f_R c_0_1)) by lra. apply Rmult_le_compat; try apply Rabs_pos; lra. }
  assert ((f_R cs + f_u * B) * (1 / 10 + f_u) <= f_R cs * (1002 / 10000)) as H3. { rewrite U. clear -Hcs HB. lra. }
  destruct (mul_ok a c_0_1 B) as (F2 & _ & D2); [done|done|lra|lra|]. set (b := f_mul a c_0_1) in *.
  assert (Rabs (f_R b) <= f_R cs * (1002 / 10000) + f_u * B) as Bb. { replace (f_R b) with (f_R a * f_R c_0_1 + (f_R b - f_R a * f_R c_0_1)) by ring. eapply Rle_trans; [apply Rabs_triang|]. lra. }
  destruct (add_ok g b (3 * B)) as (F3 & _ & D3); [done|done| |lra|].
  { eapply Rle_trans; [apply Rabs_triang|]. rewrite U in *. lra. }
  replace (f_R (f_add g b) - f_R g) with ((f_R (f_add g b) - (f_R g + f_R b)) + f_R b) by ring. eapply Rle_trans; [apply Rabs_triang|]. rewrite U in *. lra.
Qed.

(** The last position of the grid. *)
Lemma last_ok hi x : fin hi → 0 <= f_R hi <= 101 / 100 * B → (0 <= x < f_cast f_ceil_Z I32_MIN I32_MAX (f_div hi dist))%Z →
  (0 <= x <= 65535)%Z ∧ IZR x * f_R dist <= 3 / 2 * B.
Proof.
  intros Fh Hh Hx. pose proof f_u_val as U. pose proof big_20 as B20. assert (0 < f_R dist) as D0 by lra.
  set (q := f_R hi / f_R dist). assert (q * f_R dist = f_R hi) as Eq by (unfold q; field; lra).
  assert (0 <= q <= 16600) as Hq.
  { split; [apply Rmult_le_pos; [lra|]; apply Rlt_le; by apply Rinv_0_lt_compat|]. apply Rmult_le_reg_r with (f_R dist); [done|]. rewrite Eq. lra. }
  destruct (f_div_R hi dist) as [EQ FQ]; [apply Fh|apply Fd|apply Fh|lra|apply big_rnd; fold q; rewrite Rabs_pos_eq; lra|]. fold q in EQ.
  pose proof (rnd_err q 16600 ltac:(rewrite Rabs_pos_eq; lra) ltac:(lra)) as D. rewrite <-EQ in D. apply Rabs_le_inv in D.
  rewrite cast_ceil in Hx by exact FQ. set (Q := f_R (f_div hi dist)) in *.
  pose proof (Zceil_lb Q) as Hc. revert Hx Hc. generalize (Zceil Q). intros c Hx Hc.
  assert (x <= c - 1)%Z as Hxc by (unfold sat, I32_MIN, I32_MAX in Hx; lia). apply IZR_le in Hxc. rewrite minus_IZR in Hxc.
  assert (IZR x <= q + 16600 * f_u) as HxQ by lra. split.
  - split; [lia|]. apply le_IZR. rewrite U in *. lra.
  - apply Rle_trans with ((q + 16600 * f_u) * f_R dist); [apply Rmult_le_compat_r; lra|]. rewrite Rmult_plus_distr_r, Eq, U. lra.
Qed.
End Place.

(** The bounding box takes its coordinates from the corners. *)
Lemma aabb_xyz_coords inp n lo hi : aabb_xyz inp n = Done (lo, hi) →
  (∃ a b, a ∈ inp ∧ b ∈ inp ∧ v_x lo = v_x a ∧ v_z lo = v_z b) ∧ (∃ a b, a ∈ inp ∧ b ∈ inp ∧ v_x hi = v_x a ∧ v_z hi = v_z b).
Proof.
  unfold aabb_xyz. intros H. apply obind_done in H as (v0 & H0 & H). apply get_done, elem_of_list_lookup_2 in H0.
  set (P := λ c : vec3 * vec3, (∃ a b, a ∈ inp ∧ b ∈ inp ∧ v_x c.1 = v_x a ∧ v_z c.1 = v_z b) ∧ (∃ a b, a ∈ inp ∧ b ∈ inp ∧ v_x c.2 = v_x a ∧ v_z c.2 = v_z b)).
  assert (∀ a b, fmin a b = a ∨ fmin a b = b) as Om by (intros a b; unfold fmin; repeat destruct (_ : bool); tauto).
  assert (∀ a b, fmax a b = a ∨ fmax a b = b) as OM by (intros a b; unfold fmax; repeat destruct (_ : bool); tauto).
  assert (∀ l c, (∀ v, v ∈ l → v ∈ inp) → P c → P (foldl (λ '(lo, hi) v,
    (V3 (fmin (v_x lo) (v_x v)) (fmin (v_y lo) (v_y v)) (fmin (v_z lo) (v_z v)),
     V3 (fmax (v_x hi) (v_x v)) (fmax (v_y hi) (v_y v)) (fmax (v_z hi) (v_z v)))) c l)) as Hf.
  { induction l as [|v l IH]; intros [l0 h0] Hl Hc; [done|]. cbn [foldl]. apply IH; [intros; apply Hl; by right|]. assert (v ∈ inp) as Hv by (apply Hl; left).
    destruct Hc as [(a & b & A1 & A2 & A3 & A4) (a' & b' & A5 & A6 & A7 & A8)]. cbn [fst snd] in *. split; cbn [fst snd v_x v_z].
    - destruct (Om (v_x l0) (v_x v)) as [->| ->], (Om (v_z l0) (v_z v)) as [->| ->]; eauto 10.
    - destruct (OM (v_x h0) (v_x v)) as [->| ->], (OM (v_z h0) (v_z v)) as [->| ->]; eauto 10. }
  injection H as H. specialize (Hf (take n inp) (v0, v0)). rewrite H in Hf. apply Hf.
  - intros v Hv. apply elem_of_take in Hv as (i & Hi & _). by eapply elem_of_list_lookup_2.
  - split; exists v0, v0; done.
Qed.
