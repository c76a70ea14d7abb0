(** Lemmas for the theorems about the editor's camera: comparisons, bounds and signs of
    f32 results. *)
From Coq Require Import Reals Lra.
From Flocq Require Import Core.Core IEEE754.BinarySingleNaN Relative.
From Verif Require Import Base ModelMath ModelCamera FloatReal FloatSignProofs FloatSpotProofs FloatSideProofs.
From Coq Require Import Floats.SpecFloat.
Local Open Scope R_scope.

#[local] Existing Instance FloatReal.prec24.
#[local] Existing Instance FloatReal.emax128.
Local Notation bin := (binary_float 24 128).

(** Not a NaN. *)
Definition f_num (x : f32) : Prop := x ≠ S754_nan.
Lemma finite_num x : FloatReal.f_finite x → f_num x. Proof. by destruct x. Qed.

Lemma bin_num (b : bin) : BinarySingleNaN.is_finite b = true → f_num (B2SF b). Proof. by destruct b. Qed.
Lemma f_mul_num x y : f_valid x → f_valid y → f_num x → FloatReal.f_finite y → f_R y ≠ 0 → f_num (f_mul x y).
Proof.
  intros Hx Hy Nx Fy Zy. destruct x as [sx|sx| |sx mx ex]; try done.
  - by destruct y.
  - destruct y as [sy|sy| |sy my ey]; done.
  - set (x := S754_finite sx mx ex) in *. rewrite <-(to_bin_SF x Hx), <-(to_bin_SF y Hy), mul_eq.
    pose proof (Bmult_correct 24 128 FloatReal.prec24 FloatReal.emax128 mode_NE (to_bin x Hx) (to_bin y Hy)) as H.
    destruct (Rlt_bool _ _).
    + destruct H as (_ & H & _). apply bin_num. rewrite H. apply andb_true_intro. split; by apply to_bin_finite.
    + rewrite H. done.
Qed.
Lemma f_sub_num x y : f_valid x → f_valid y → FloatReal.f_finite x → f_num y → f_num (f_sub x y).
Proof.
  intros Hx Hy Fx Ny. destruct y as [sy|sy| |sy my ey]; try done.
  - by destruct x as [[]| | |], sy.
  - by destruct x as [sx|sx| |sx mx ex].
  - set (y := S754_finite sy my ey) in *. rewrite <-(to_bin_SF x Hx), <-(to_bin_SF y Hy), sub_eq.
    assert (BinarySingleNaN.is_finite (to_bin x Hx) = true) as Fx' by (by apply to_bin_finite).
    assert (BinarySingleNaN.is_finite (to_bin y Hy) = true) as Fy' by (by apply to_bin_finite).
    pose proof (Bminus_correct 24 128 FloatReal.prec24 FloatReal.emax128 mode_NE (to_bin x Hx) (to_bin y Hy) Fx' Fy') as H.
    destruct (Rlt_bool _ _).
    + destruct H as (_ & H & _). by apply bin_num.
    + destruct H as (H & _). rewrite H. done.
Qed.

(** Comparing from both sides. *)
Lemma compare_swap x y : SFcompare y x = match SFcompare x y with Some c => Some (CompOpp c) | None => None end.
Proof.
  destruct x as [[]|[]| |[] m e], y as [[]|[]| |[] m' e']; cbn; try done;
    rewrite (Z.compare_antisym e e'); destruct (Z.compare e e'); cbn; try done;
    change (Pos.compare_cont Eq m' m) with (Pos.compare m' m); change (Pos.compare_cont Eq m m') with (Pos.compare m m');
    rewrite (Pos.compare_antisym m m'); by destruct (Pos.compare m m').
Qed.
Lemma compare_num x y : f_num x → f_num y → ∃ c, SFcompare x y = Some c.
Proof. intros Hx Hy. destruct x as [[]|[]| |[] m e], y as [[]|[]| |[] m' e']; cbn; try done; try (by eexists); destruct (Z.compare e e'); by eexists. Qed.
Lemma not_lt_le x y : f_num x → f_num y → f_lt x y = false → f_le y x = true.
Proof.
  intros Hx Hy H. unfold f_lt, SFltb in H. unfold f_le, SFleb. rewrite (compare_swap x y). destruct (compare_num x y Hx Hy) as [c E].
  rewrite E in *. by destruct c.
Qed.
Lemma clamp_range lo hi x : f_num lo → f_num hi → f_num x → f_lt hi lo = false → f_le lo (f_clamp lo hi x) = true ∧ f_le (f_clamp lo hi x) hi = true.
Proof.
  intros Hl Hh Hx Hlh. unfold f_clamp.
  assert (∀ y, f_num y → f_le y y = true) as Hr. { intros y Hy. apply not_lt_le; [done|done|]. unfold f_lt, SFltb. pose proof (compare_swap y y) as E. destruct (SFcompare y y) as [[]|]; done. }
  destruct (f_lt x lo) eqn:E1.
  - rewrite Hlh. split; [by apply Hr|]. by apply not_lt_le.
  - destruct (f_lt hi x) eqn:E2.
    + split; [by apply not_lt_le|by apply Hr].
    + split; by apply not_lt_le.
Qed.

(** Values are their own roundings, so rounding respects them as bounds. *)
Lemma f_R_format x : f_valid x → rnd (f_R x) = f_R x.
Proof. intros Hx. rewrite <-(to_bin_R x Hx). apply round_generic; [apply valid_rnd_N|]. apply generic_format_B2R. Qed.
Lemma f_R_max x : f_valid x → Rabs (f_R x) < powerRZ 2 128.
Proof. intros Hx. rewrite <-(to_bin_R x Hx). pose proof (abs_B2R_lt_emax 24 128 (to_bin x Hx)) as H. by rewrite bpow_powerRZ in H. Qed.
Lemma rnd_abs_le x b : rnd b = b → Rabs x <= b → Rabs (rnd x) <= b.
Proof.
  intros Hb H. apply Rabs_le. apply Rabs_le_inv in H. split.
  - replace (- b) with (rnd (- b)); [apply rnd_mono; lra|]. unfold rnd. rewrite round_NE_opp. by f_equal.
  - rewrite <-Hb. apply rnd_mono. lra.
Qed.
Lemma f_R_abs_format x : f_valid x → rnd (Rabs (f_R x)) = Rabs (f_R x).
Proof.
  intros Hx. unfold Rabs. destruct (Rcase_abs _); [|by apply f_R_format]. unfold rnd. rewrite round_NE_opp. f_equal. by apply f_R_format.
Qed.
(** A factor of at most 1 keeps numbers finite. *)
Lemma f_mul_shrink x y : f_valid x → f_valid y → FloatReal.f_finite x → FloatReal.f_finite y → Rabs (f_R y) <= 1 →
  f_R (f_mul x y) = rnd (f_R x * f_R y) ∧ FloatReal.f_finite (f_mul x y).
Proof.
  intros Hx Hy Fx Fy H1. apply f_mul_R; try done. apply Rle_lt_trans with (Rabs (f_R x)); [|by apply f_R_max].
  apply rnd_abs_le; [by apply f_R_abs_format|]. rewrite Rabs_mult. pose proof (Rabs_pos (f_R x)). nra.
Qed.
Lemma pow2_format k : (-149 <= k)%Z → rnd (powerRZ 2 k) = powerRZ 2 k.
Proof.
  intros Hk. pose proof (bpow_powerRZ radix2 k) as E. cbn in E. rewrite <-E. apply round_generic; [apply valid_rnd_N|]. apply generic_format_bpow. unfold FLT_exp. lia.
Qed.

Lemma f_mul_comm x y : f_mul x y = f_mul y x.
Proof.
  destruct x as [sx|sx| |sx mx ex], y as [sy|sy| |sy my ey]; cbn; try reflexivity; try (by rewrite xorb_comm).
  by rewrite xorb_comm, Pos.mul_comm, Z.add_comm.
Qed.
Lemma rnd_opp x : rnd (- x) = - rnd x.
Proof. unfold rnd. apply round_NE_opp. Qed.

(** Halving, and squares of small vectors. *)
Definition f_half : f32 := f_of_me 1 (-1).
Lemma f_half_ok : f_valid f_half ∧ FloatReal.f_finite f_half ∧ f_R f_half = / 2.
Proof. split; [by vm_compute|]. split; [by vm_compute|]. assert (f_half = S754_finite false 8388608 (-24)) as -> by (by vm_compute). unfold f_R, powerRZ. replace (2 ^ Pos.to_nat 24) with 16777216; [lra|]. change (Pos.to_nat 24) with 24%nat. cbn [Rpow_def.pow]. lra. Qed.
Lemma f_halve x k : (-148 <= k)%Z → f_valid x → FloatReal.f_finite x → Rabs (f_R x) <= powerRZ 2 k →
  f_valid (f_mul x f_half) ∧ FloatReal.f_finite (f_mul x f_half) ∧ Rabs (f_R (f_mul x f_half)) <= powerRZ 2 (k - 1).
Proof.
  intros Hk Hx Fx H. destruct f_half_ok as (Vh & Fh & Eh). split; [by apply f_mul_valid|].
  destruct (f_mul_shrink x f_half) as [E F]; try done. { rewrite Eh. rewrite Rabs_pos_eq; lra. }
  split; [done|]. rewrite E, Eh. apply rnd_abs_le; [apply pow2_format; lia|].
  rewrite Rabs_mult, (Rabs_pos_eq (/ 2)) by lra. replace (powerRZ 2 (k - 1)) with (powerRZ 2 k * / 2); [nra|].
  unfold Z.sub. rewrite powerRZ_add by lra. change (powerRZ 2 (- (1))) with (/ (2 * 1)). by rewrite Rmult_1_r.
Qed.
Lemma f_lt_R x y : f_valid x → f_valid y → FloatReal.f_finite x → FloatReal.f_finite y → f_R x < f_R y → f_lt x y = true.
Proof.
  intros Hx Hy Fx Fy H. unfold f_lt, SFltb.
  pose proof (Bcompare_correct 24 128 (to_bin x Hx) (to_bin y Hy)) as E. unfold Bcompare in E. rewrite !to_bin_SF, !to_bin_R in E.
  rewrite E; [|by apply to_bin_finite..]. by rewrite Rcompare_Lt.
Qed.

Lemma bp k : bpow radix2 k = powerRZ 2 k. Proof. exact (bpow_powerRZ radix2 k). Qed.

(** ** Velocities *)

(** All components are numbers of at most 2^k. *)
Definition slow (k : Z) (v : vec3) : Prop := ∀ x, x = v_x v ∨ x = v_y v ∨ x = v_z v → f_valid x ∧ FloatReal.f_finite x ∧ Rabs (f_R x) <= powerRZ 2 k.
Lemma slow_mono k k' v : (k <= k')%Z → slow k v → slow k' v.
Proof.
  intros Hk Hs x Hx. destruct (Hs x Hx) as (A & B & C). split; [done|]. split; [done|]. eapply Rle_trans; [exact C|].
  rewrite <-!bp. by apply bpow_le.
Qed.
Lemma slow_zero k : slow k v_zero.
Proof.
  intros x Hx. assert (x = f_zero) as -> by (by destruct Hx as [->|[->| ->]]). split; [done|]. split; [done|]. cbn. rewrite Rabs_R0. apply powerRZ_le. lra.
Qed.
Lemma small_square x k : (-74 <= k <= 0)%Z → f_valid x → FloatReal.f_finite x → Rabs (f_R x) <= powerRZ 2 k →
  f_valid (f_mul x x) ∧ FloatReal.f_finite (f_mul x x) ∧ Rabs (f_R (f_mul x x)) <= powerRZ 2 (k + k).
Proof.
  intros Hk Hx Fx Hb. split; [by apply f_mul_valid|].
  assert (powerRZ 2 k <= 1) as H1.
  { rewrite <-bp. change 1 with (bpow radix2 0). apply bpow_le. lia. }
  destruct (f_mul_shrink x x) as [E F]; [done|done|done|done|lra|]. split; [done|]. rewrite E. apply rnd_abs_le; [apply pow2_format; lia|].
  rewrite Rabs_mult, powerRZ_add by lra. pose proof (Rabs_pos (f_R x)). nra.
Qed.
Lemma f_add_bound x y b c k : f_valid x → f_valid y → FloatReal.f_finite x → FloatReal.f_finite y → Rabs (f_R x) <= b → Rabs (f_R y) <= c →
  (-149 <= k <= 127)%Z → b + c <= powerRZ 2 k → f_valid (f_add x y) ∧ FloatReal.f_finite (f_add x y) ∧ Rabs (f_R (f_add x y)) <= powerRZ 2 k.
Proof.
  intros Hx Hy Fx Fy Bx By Hk Hb. split; [by apply f_add_valid|].
  assert (Rabs (rnd (f_R x + f_R y)) <= powerRZ 2 k) as H.
  { apply rnd_abs_le; [apply pow2_format; lia|]. pose proof (Rabs_triang (f_R x) (f_R y)). lra. }
  destruct (f_add_R x y) as [E F]; [done..| |].
  { eapply Rle_lt_trans; [exact H|]. rewrite <-!bp. apply bpow_lt. lia. }
  split; [done|]. by rewrite E.
Qed.
Lemma slow_short v : slow (-11) v → f_lt (v_length2 v) f_1e6 = true.
Proof.
  intros H. destruct (H (v_x v)) as (A1 & A2 & A3); [tauto|]. destruct (H (v_y v)) as (B1 & B2 & B3); [tauto|]. destruct (H (v_z v)) as (C1 & C2 & C3); [tauto|].
  destruct (small_square (v_x v) (-11)) as (D1 & D2 & D3); [lia|done..|]. destruct (small_square (v_y v) (-11)) as (E1 & E2 & E3); [lia|done..|].
  destruct (small_square (v_z v) (-11)) as (F1 & F2 & F3); [lia|done..|]. change (-11 + -11)%Z with (-22)%Z in *.
  assert (powerRZ 2 (-22) + powerRZ 2 (-22) <= powerRZ 2 (-21)) as P1.
  { replace (-22)%Z with (-21 + -1)%Z by lia. rewrite powerRZ_add by lra. change (powerRZ 2 (-1)) with (/ (2 * 1)). rewrite Rmult_1_r. lra. }
  assert (powerRZ 2 (-21) + powerRZ 2 (-22) <= powerRZ 2 (-20)) as P2.
  { assert (powerRZ 2 (-21) + powerRZ 2 (-21) <= powerRZ 2 (-20)) as P.
    { replace (-21)%Z with (-20 + -1)%Z by lia. rewrite powerRZ_add by lra. change (powerRZ 2 (-1)) with (/ (2 * 1)). rewrite Rmult_1_r. lra. }
    pose proof (powerRZ_lt 2 (-22) ltac:(lra)). lra. }
  destruct (f_add_bound _ _ _ _ (-21) D1 E1 D2 E2 D3 E3 ltac:(lia) P1) as (G1 & G2 & G3).
  destruct (f_add_bound _ _ _ _ (-20) G1 F1 G2 F2 G3 F3 ltac:(lia) P2) as (I1 & I2 & I3).
  apply f_lt_R; [done|by vm_compute|done|by vm_compute|]. fold (v_length2 v) in *. apply Rabs_le_inv in I3.
  assert (f_1e6 = S754_finite false 8796093 (-43)) as -> by (by vm_compute). unfold v_length2. eapply Rle_lt_trans; [apply I3|].
  unfold f_R, powerRZ. change (Pos.to_nat 20) with 20%nat. change (Pos.to_nat 43) with 43%nat. cbn [Rpow_def.pow].
  apply Rmult_lt_reg_r with (8796093022208); [lra|]. rewrite Rmult_assoc.
  match goal with |- ?a * _ < _ * (?b * _) => replace (a * 8796093022208) with 8388608 by lra; replace (b * 8796093022208) with 1 by lra end. lra.
Qed.

Lemma rest_factor : f_sub (f_of_Z 1) (f_clamp f_zero (f_of_Z 1) f_half) = f_half.
Proof. by vm_compute. Qed.
Lemma coast_slow k v sp : (-10 <= k)%Z → slow k v → slow (k - 1) (velocity v_zero sp f_half v).
Proof.
  intros Hk Hs. unfold velocity. change (negb (v_eq v_zero v_zero)) with false. rewrite rest_factor.
  destruct (f_lt _ _); [apply slow_zero|]. intros x Hx. cbn in Hx.
  destruct Hx as [->|[->| ->]]; (edestruct Hs as (A & B & C); [|apply f_halve; [lia|exact A|exact B|exact C]]); tauto.
Qed.
Lemma coast_stops v sp : slow (-10) v → velocity v_zero sp f_half v = v_zero.
Proof.
  intros Hs. unfold velocity. change (negb (v_eq v_zero v_zero)) with false. rewrite rest_factor.
  rewrite slow_short; [done|]. intros x Hx. cbn in Hx.
  destruct Hx as [->|[->| ->]]; (edestruct Hs as (A & B & C); [|change (-11)%Z with (-10 - 1)%Z; apply f_halve; [lia|exact A|exact B|exact C]]); tauto.
Qed.
