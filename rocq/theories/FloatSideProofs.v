(** How far apart corners of a mesh can be, in sample distances: square roots as
    rounded operations on real numbers, and a bound on the sides of polygons. *)
From Coq Require Import Reals Lra.
From Flocq Require Import Core.Core IEEE754.BinarySingleNaN Relative.
From Verif Require Import Base ModelMath ModelDetail FloatReal FloatSignProofs FloatSpotProofs.
From Coq Require Import Floats.SpecFloat.
Local Open Scope R_scope.

#[local] Instance prec24 : Prec_gt_0 24. Proof. reflexivity. Qed.
#[local] Instance emax128 : Prec_lt_emax 24 128. Proof. reflexivity. Qed.
Local Notation bin := (binary_float 24 128).

Lemma sqrt_eq (x : bin) : f_sqrt (B2SF x) = B2SF (Bsqrt mode_NE x).
Proof.
  unfold f_sqrt. destruct x as [|[]| |[]]; try done. cbn. rewrite B2SF_SF2B.
  match goal with |- context [SFsqrt_core_binary ?a ?b ?c ?d] => destruct (SFsqrt_core_binary a b c d) as [[mz ez] lz] end.
  apply round_aux_eq.
Qed.
Lemma f_sqrt_valid x : f_valid x → f_valid (f_sqrt x).
Proof. intros Hx. rewrite <-(to_bin_SF x Hx), sqrt_eq. apply valid_B2SF. Qed.
(** The root of a number that is not negative. *)
Lemma f_sqrt_R x : f_valid x → f_finite x → 0 <= f_R x → f_R (f_sqrt x) = rnd (R_sqrt.sqrt (f_R x)) ∧ f_finite (f_sqrt x).
Proof.
  intros Hx Fx Hp. rewrite <-(to_bin_SF x Hx), sqrt_eq, !to_bin_SF.
  pose proof (Bsqrt_correct 24 128 prec24 emax128 mode_NE (to_bin x Hx)) as (H1 & H2 & _). rewrite to_bin_R in H1.
  change (round radix2 _ _ (R_sqrt.sqrt (f_R x))) with (rnd (R_sqrt.sqrt (f_R x))) in H1.
  rewrite <-B2R_f, <-finite_f. split; [done|]. rewrite H2. clear H1 H2. destruct x as [s|s| |[] m e]; try done.
  exfalso. cbn in Hp. pose proof (powerRZ_lt 2 e ltac:(lra)). assert (IZR (Z.neg m) < 0) by (by apply IZR_lt). nra.
Qed.

(** Rounding at most doubles. *)
Lemma rnd_double x : Rabs (rnd x) <= 2 * Rabs x.
Proof.
  assert (Rnd_N_pt (generic_format radix2 (FLT_exp (-149) 24)) x (rnd x)) as [_ H]. { apply round_N_pt. apply FLT_exp_valid. reflexivity. }
  specialize (H 0 (generic_format_0 _ _)). rewrite Rminus_0_l, Rabs_Ropp in H.
  replace (rnd x) with (x + (rnd x - x)) by lra. pose proof (Rabs_triang x (rnd x - x)). lra.
Qed.
Lemma rnd_le x y : Rabs x <= y → Rabs (rnd x) <= 2 * y.
Proof. intros H. pose proof (rnd_double x). lra. Qed.
Lemma rnd_pos x : 0 <= x → 0 <= rnd x.
Proof. intros H. rewrite <-rnd_0. by apply rnd_mono. Qed.

Lemma pw_128 x n : (n < 128)%nat → x <= 2 ^ n → x < powerRZ 2 128.
Proof.
  intros Hn Hx. apply Rle_lt_trans with (2 ^ n); [done|]. change 128%Z with (Z.of_nat 128). rewrite <-pow_powerRZ. apply Rlt_pow; [lra|done].
Qed.

Section side.
  Context (cs dist : f32).
  Hypothesis Vc : f_valid cs. Hypothesis Fc : f_finite cs. Hypothesis Pc : 0 < f_R cs.
  Hypothesis Bc : f_R cs <= 2 ^ 40.
  Hypothesis Vd : f_valid dist. Hypothesis Fd : f_finite dist. Hypothesis Pd : 0 < f_R dist.
  Hypothesis Bd : f_R cs <= 2 ^ 40 * f_R dist.

  Lemma coord_R k : (0 <= k <= 32767)%Z → f_valid (f_mul (f_of_Z k) cs) ∧ f_finite (f_mul (f_of_Z k) cs) ∧ 0 <= f_R (f_mul (f_of_Z k) cs) <= 2 ^ 16 * f_R cs.
  Proof.
    intros Hk. destruct (f_of_Z_R k) as [E F]; [lia|]. split; [apply f_mul_valid; [apply f_of_Z_valid|done]|].
    assert (0 <= IZR k <= 32767) as Hk' by (split; apply IZR_le; lia).
    assert (0 <= f_R (f_of_Z k) * f_R cs <= 32767 * f_R cs) as Hb by (rewrite E; nra).
    destruct (f_mul_R (f_of_Z k) cs) as [E2 F2]; [apply f_of_Z_valid|done|done|done| |].
    - apply (pw_128 _ 56); [lia|]. eapply Rle_trans; [apply (rnd_le _ (32767 * f_R cs)); rewrite Rabs_pos_eq; lra|lra].
    - split; [done|]. rewrite E2. split; [apply rnd_pos; lra|].
      pose proof (rnd_le (f_R (f_of_Z k) * f_R cs) (32767 * f_R cs) ltac:(rewrite Rabs_pos_eq; lra)). pose proof (Rle_abs (rnd (f_R (f_of_Z k) * f_R cs))). lra.
  Qed.
  Lemma diff_R j k : (0 <= j <= 32767)%Z → (0 <= k <= 32767)%Z →
    let d := f_sub (f_mul (f_of_Z j) cs) (f_mul (f_of_Z k) cs) in f_valid d ∧ f_finite d ∧ Rabs (f_R d) <= 2 ^ 17 * f_R cs.
  Proof.
    intros Hj Hk d. destruct (coord_R j Hj) as (V1 & F1 & B1). destruct (coord_R k Hk) as (V2 & F2 & B2).
    split; [by apply f_sub_valid|].
    pose proof (rnd_le (f_R (f_mul (f_of_Z j) cs) - f_R (f_mul (f_of_Z k) cs)) (2 ^ 16 * f_R cs) ltac:(apply Rabs_le; lra)) as H.
    destruct (f_sub_R _ _ V1 V2 F1 F2) as [E F]; [apply (pw_128 _ 57); [lia|lra]|].
    split; [done|]. unfold d. rewrite E. lra.
  Qed.
  Lemma square_R d : f_valid d → f_finite d → Rabs (f_R d) <= 2 ^ 17 * f_R cs → 
    f_valid (f_mul d d) ∧ f_finite (f_mul d d) ∧ 0 <= f_R (f_mul d d) <= 2 ^ 35 * (f_R cs * f_R cs).
  Proof.
    intros V F H. split; [by apply f_mul_valid|].
    assert (0 <= f_R d * f_R d <= 2 ^ 34 * (f_R cs * f_R cs)) as Hb.
    { replace (f_R d * f_R d) with (Rabs (f_R d) * Rabs (f_R d)) by (rewrite <-Rabs_mult, Rabs_pos_eq; nra). pose proof (Rabs_pos (f_R d)).
      split; [nra|]. replace (2 ^ 34 * (f_R cs * f_R cs)) with ((2 ^ 17 * f_R cs) * (2 ^ 17 * f_R cs)) by lra. by apply Rmult_le_compat. }
    assert (f_R cs * f_R cs <= 2 ^ 80) as Hc2. { replace (2 ^ 80) with (2 ^ 40 * 2 ^ 40) by lra. apply Rmult_le_compat; lra. }
    pose proof (rnd_le (f_R d * f_R d) (2 ^ 34 * (f_R cs * f_R cs)) ltac:(rewrite Rabs_pos_eq; lra)) as H2.
    destruct (f_mul_R d d V V F F) as [E F']; [apply (pw_128 _ 115); [lia|lra]|].
    split; [done|]. rewrite E. split; [apply rnd_pos; lra|]. pose proof (Rle_abs (rnd (f_R d * f_R d))). lra.
  Qed.
  Lemma side_R dx dz : f_valid dx → f_finite dx → Rabs (f_R dx) <= 2 ^ 17 * f_R cs → f_valid dz → f_finite dz → Rabs (f_R dz) <= 2 ^ 17 * f_R cs →
    let s := f_sqrt (f_add (f_mul dx dx) (f_mul dz dz)) in f_valid s ∧ f_finite s ∧ 0 <= f_R s <= 2 ^ 20 * f_R cs.
  Proof.
    intros V1 F1 B1 V2 F2 B2 s. destruct (square_R dx V1 F1 B1) as (V3 & F3 & B3). destruct (square_R dz V2 F2 B2) as (V4 & F4 & B4).
    assert (f_R cs * f_R cs <= 2 ^ 80) as Hc2. { replace (2 ^ 80) with (2 ^ 40 * 2 ^ 40) by lra. apply Rmult_le_compat; lra. }
    set (a := f_mul dx dx) in *. set (b := f_mul dz dz) in *.
    pose proof (rnd_le (f_R a + f_R b) (2 ^ 36 * (f_R cs * f_R cs)) ltac:(rewrite Rabs_pos_eq; lra)) as H2.
    destruct (f_add_R a b V3 V4 F3 F4) as [E F']; [apply (pw_128 _ 117); [lia|lra]|].
    assert (0 <= f_R (f_add a b)) as Hp by (rewrite E; apply rnd_pos; lra).
    destruct (f_sqrt_R (f_add a b)) as [E2 F2']; [by apply f_add_valid|done|done|].
    split; [by apply f_sqrt_valid, f_add_valid|]. split; [done|]. unfold s. rewrite E2. pose proof (sqrt_pos (f_R (f_add a b))) as Hsp. split; [by apply rnd_pos|].
    assert (R_sqrt.sqrt (f_R (f_add a b)) <= 2 ^ 19 * f_R cs) as Hs.
    { rewrite <-(sqrt_square (2 ^ 19 * f_R cs)) by lra. apply sqrt_le_1_alt. rewrite E. pose proof (Rle_abs (rnd (f_R a + f_R b))).
      assert (0 <= f_R cs * f_R cs) by nra. replace (2 ^ 19 * f_R cs * (2 ^ 19 * f_R cs)) with (2 ^ 38 * (f_R cs * f_R cs)) by lra. lra. }
    pose proof (rnd_le (R_sqrt.sqrt (f_R (f_add a b))) (2 ^ 19 * f_R cs) ltac:(rewrite Rabs_pos_eq; lra)). pose proof (Rle_abs (rnd (R_sqrt.sqrt (f_R (f_add a b))))). lra.
  Qed.
  Lemma side_count s : f_valid s → f_finite s → 0 <= f_R s <= 2 ^ 20 * f_R cs → (f_cast f_floor_Z 0 U64_MAX (f_div s dist) < U64_MAX)%Z.
  Proof.
    intros V F H. assert (0 <= f_R s / f_R dist <= 2 ^ 60) as Hq.
    { split; [apply Rmult_le_pos; [lra|]; left; by apply Rinv_0_lt_compat|]. apply (Rmult_le_reg_r (f_R dist)); [done|].
      unfold Rdiv. rewrite Rmult_assoc, Rinv_l by lra. lra. }
    pose proof (rnd_le (f_R s / f_R dist) (2 ^ 60) ltac:(rewrite Rabs_pos_eq; lra)) as H2.
    destruct (f_div_R s dist V Vd F) as [E F']; [lra|apply (pw_128 _ 61); [lia|lra]|].
    rewrite cast_floor by done. rewrite E. pose proof (Rle_abs (rnd (f_R s / f_R dist))) as H3.
    assert (Zfloor (rnd (f_R s / f_R dist)) <= 2 ^ 61)%Z as Hf.
    { apply le_IZR. eapply Rle_trans; [apply Zfloor_lb|]. assert (IZR (2 ^ 61) = 2 ^ 61) as -> by (cbn; lra). lra. }
    unfold sat, U64_MAX. lia.
  Qed.
End side.
