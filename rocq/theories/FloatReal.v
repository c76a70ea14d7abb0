(** The f32 operations of the model as rounded operations on real numbers, from
    Flocq's theorems about binary floating-point arithmetic. *)
From Coq Require Import Reals Lra.
From Flocq Require Import Core.Core IEEE754.BinarySingleNaN Relative.
From Verif Require Import Base ModelMath.
Local Open Scope R_scope.

(** A float as the code can hold it: its mantissa and exponent are in range. *)
Definition f_valid (x : f32) : Prop := SpecFloat.valid_binary 24 128 x = true.
Definition f_finite (x : f32) : Prop := match x with S754_zero _ | S754_finite _ _ _ => True | _ => False end.
(** Its value, 0 for infinities and NaN. *)
Definition f_R (x : f32) : R :=
  match x with
  | S754_finite s m e => IZR (if s then Z.neg m else Z.pos m) * powerRZ 2 e
  | _ => 0
  end.

(** The nearest f32 value, without upper bound on the exponent. *)
Definition rnd (x : R) : R := round radix2 (FLT_exp (-149) 24) ZnearestE x.

Lemma f_R_SF x : f_R x = SF2R radix2 x.
Proof.
  destruct x as [| | |s m e]; [done|done|done|]. unfold f_R, SF2R, F2R. cbn [Fnum Fexp]. rewrite bpow_powerRZ.
  destruct s; cbn [cond_Zopp]; [by rewrite <-Pos2Z.opp_pos|done].
Qed.

#[local] Instance prec24 : Prec_gt_0 24. Proof. reflexivity. Qed.
#[local] Instance emax128 : Prec_lt_emax 24 128. Proof. reflexivity. Qed.
Local Notation bin := (binary_float 24 128).

Lemma round_aux_eq sx mx ex lx :
  SpecFloat.binary_round_aux 24 128 sx mx ex lx = BinarySingleNaN.binary_round_aux 24 128 mode_NE sx mx ex lx.
Proof.
  unfold SpecFloat.binary_round_aux, BinarySingleNaN.binary_round_aux.
  destruct (SpecFloat.shr_fexp _ _ _) as [mrs' e']; cbn -[choice_mode SpecFloat.round_nearest_even].
  assert (∀ m l, SpecFloat.round_nearest_even m l = choice_mode mode_NE sx m l) as ->; [|done].
  intros m [|[]]; cbn; [done| |done|done]. unfold Round.cond_incr. by destruct (Z.even m).
Qed.
Lemma round_eq s m e : SpecFloat.binary_round 24 128 s m e = BinarySingleNaN.binary_round 24 128 mode_NE s m e.
Proof.
  unfold SpecFloat.binary_round, BinarySingleNaN.binary_round, shl_align_fexp.
  destruct (SpecFloat.shl_align _ _ _) as [mz ez]. apply round_aux_eq.
Qed.
Lemma normalize_eq m e sz :
  SpecFloat.binary_normalize 24 128 m e sz = B2SF (BinarySingleNaN.binary_normalize 24 128 prec24 emax128 mode_NE m e sz).
Proof. destruct m; cbn; [done| |]; rewrite B2SF_SF2B; apply round_eq. Qed.

Definition to_bin (x : f32) (H : f_valid x) : bin := SF2B x H.
Lemma to_bin_SF x H : B2SF (to_bin x H) = x. Proof. apply B2SF_SF2B. Qed.
Lemma to_bin_R x H : B2R (to_bin x H) = f_R x. Proof. unfold to_bin. by rewrite B2R_SF2B, f_R_SF. Qed.
Lemma to_bin_finite x H : BinarySingleNaN.is_finite (to_bin x H) = true ↔ f_finite x.
Proof. unfold to_bin. by destruct x. Qed.
Lemma finite_iff x : is_finite_SF x = true ↔ f_finite x. Proof. by destruct x. Qed.

Lemma div_eq (x y : bin) : f_div (B2SF x) (B2SF y) = B2SF (Bdiv mode_NE x y).
Proof.
  unfold f_div. destruct x, y; try done. cbn. rewrite B2SF_SF2B.
  match goal with |- context [SFdiv_core_binary ?a ?b ?c ?d ?e ?f] => destruct (SFdiv_core_binary a b c d e f) as [[mz ez] lz] end.
  apply round_aux_eq.
Qed.
Lemma mul_eq (x y : bin) : f_mul (B2SF x) (B2SF y) = B2SF (Bmult mode_NE x y).
Proof. unfold f_mul. destruct x, y; try done. cbn. rewrite B2SF_SF2B. apply round_aux_eq. Qed.
Lemma add_eq (x y : bin) : f_add (B2SF x) (B2SF y) = B2SF (Bplus mode_NE x y).
Proof. unfold f_add. destruct x, y; try done; try (cbn; by destruct (Bool.eqb _ _)). apply normalize_eq. Qed.
Lemma sub_eq (x y : bin) : f_sub (B2SF x) (B2SF y) = B2SF (Bminus mode_NE x y).
Proof.
  unfold f_sub. destruct x, y; try done; try (cbn; by destruct (Bool.eqb _ _)). cbn. unfold Zminus. rewrite <-cond_Zopp_negb. apply normalize_eq.
Qed.

Lemma valid_B2SF (x : bin) : f_valid (B2SF x). Proof. apply valid_binary_B2SF. Qed.

Lemma f_div_valid x y : f_valid x → f_valid y → f_valid (f_div x y).
Proof. intros Hx Hy. rewrite <-(to_bin_SF x Hx), <-(to_bin_SF y Hy), div_eq. apply valid_B2SF. Qed.
Lemma f_mul_valid x y : f_valid x → f_valid y → f_valid (f_mul x y).
Proof. intros Hx Hy. rewrite <-(to_bin_SF x Hx), <-(to_bin_SF y Hy), mul_eq. apply valid_B2SF. Qed.
Lemma f_add_valid x y : f_valid x → f_valid y → f_valid (f_add x y).
Proof. intros Hx Hy. rewrite <-(to_bin_SF x Hx), <-(to_bin_SF y Hy), add_eq. apply valid_B2SF. Qed.
Lemma f_sub_valid x y : f_valid x → f_valid y → f_valid (f_sub x y).
Proof. intros Hx Hy. rewrite <-(to_bin_SF x Hx), <-(to_bin_SF y Hy), sub_eq. apply valid_B2SF. Qed.

Lemma B2R_f (x : bin) : B2R x = f_R (B2SF x). Proof. by rewrite f_R_SF, SF2R_B2SF. Qed.
Lemma finite_f (x : bin) : BinarySingleNaN.is_finite x = true ↔ f_finite (B2SF x). Proof. by destruct x. Qed.

(** Operations on finite floats whose rounded result is below 2^128. *)
Lemma f_div_R x y :
  f_valid x → f_valid y → f_finite x → f_R y ≠ 0 → Rabs (rnd (f_R x / f_R y)) < powerRZ 2 128 →
  f_R (f_div x y) = rnd (f_R x / f_R y) ∧ f_finite (f_div x y).
Proof.
  intros Hx Hy Fx Hn Hb. rewrite <-(to_bin_SF x Hx), <-(to_bin_SF y Hy), div_eq, !to_bin_SF.
  pose proof (Bdiv_correct 24 128 prec24 emax128 mode_NE (to_bin x Hx) (to_bin y Hy)) as H. rewrite !to_bin_R in H. specialize (H Hn).
  change (round radix2 _ _ (f_R x / f_R y)) with (rnd (f_R x / f_R y)) in H.
  rewrite Rlt_bool_true in H by (by rewrite bpow_powerRZ). destruct H as (H1 & H2 & _).
  rewrite <-B2R_f, <-finite_f, H2. split; [done|]. by apply to_bin_finite.
Qed.
Lemma f_mul_R x y :
  f_valid x → f_valid y → f_finite x → f_finite y → Rabs (rnd (f_R x * f_R y)) < powerRZ 2 128 →
  f_R (f_mul x y) = rnd (f_R x * f_R y) ∧ f_finite (f_mul x y).
Proof.
  intros Hx Hy Fx Fy Hb. rewrite <-(to_bin_SF x Hx), <-(to_bin_SF y Hy), mul_eq, !to_bin_SF.
  pose proof (Bmult_correct 24 128 prec24 emax128 mode_NE (to_bin x Hx) (to_bin y Hy)) as H. rewrite !to_bin_R in H.
  change (round radix2 _ _ (f_R x * f_R y)) with (rnd (f_R x * f_R y)) in H.
  rewrite Rlt_bool_true in H by (by rewrite bpow_powerRZ). destruct H as (H1 & H2 & _).
  rewrite <-B2R_f, <-finite_f, H2. split; [done|]. apply andb_true_intro. split; by apply to_bin_finite.
Qed.
Lemma f_add_R x y :
  f_valid x → f_valid y → f_finite x → f_finite y → Rabs (rnd (f_R x + f_R y)) < powerRZ 2 128 →
  f_R (f_add x y) = rnd (f_R x + f_R y) ∧ f_finite (f_add x y).
Proof.
  intros Hx Hy Fx Fy Hb. rewrite <-(to_bin_SF x Hx), <-(to_bin_SF y Hy), add_eq, !to_bin_SF.
  pose proof (Bplus_correct 24 128 prec24 emax128 mode_NE (to_bin x Hx) (to_bin y Hy)) as H. rewrite !to_bin_R in H.
  change (round radix2 _ _ (f_R x + f_R y)) with (rnd (f_R x + f_R y)) in H.
  rewrite Rlt_bool_true in H by (by rewrite bpow_powerRZ). rewrite !to_bin_finite in H. destruct (H Fx Fy) as (H1 & H2 & _).
  by rewrite <-B2R_f, <-finite_f, H2.
Qed.
Lemma f_sub_R x y :
  f_valid x → f_valid y → f_finite x → f_finite y → Rabs (rnd (f_R x - f_R y)) < powerRZ 2 128 →
  f_R (f_sub x y) = rnd (f_R x - f_R y) ∧ f_finite (f_sub x y).
Proof.
  intros Hx Hy Fx Fy Hb. rewrite <-(to_bin_SF x Hx), <-(to_bin_SF y Hy), sub_eq, !to_bin_SF.
  pose proof (Bminus_correct 24 128 prec24 emax128 mode_NE (to_bin x Hx) (to_bin y Hy)) as H. rewrite !to_bin_R in H.
  change (round radix2 _ _ (f_R x - f_R y)) with (rnd (f_R x - f_R y)) in H.
  rewrite Rlt_bool_true in H by (by rewrite bpow_powerRZ). rewrite !to_bin_finite in H. destruct (H Fx Fy) as (H1 & H2 & _).
  by rewrite <-B2R_f, <-finite_f, H2.
Qed.
(** A quotient that is too large is infinite, with the sign of the operands. *)
Lemma f_div_overflow x y :
  f_valid x → f_valid y → f_R y ≠ 0 → powerRZ 2 128 <= Rabs (rnd (f_R x / f_R y)) → 0 <= f_R x / f_R y →
  f_div x y = S754_infinity false.
Proof.
  intros Hx Hy Hn Hb Hp. rewrite <-(to_bin_SF x Hx), <-(to_bin_SF y Hy), div_eq.
  pose proof (Bdiv_correct 24 128 prec24 emax128 mode_NE (to_bin x Hx) (to_bin y Hy)) as H. rewrite !to_bin_R in H. specialize (H Hn).
  change (round radix2 _ _ (f_R x / f_R y)) with (rnd (f_R x / f_R y)) in H.
  rewrite Rlt_bool_false in H by (by rewrite bpow_powerRZ). rewrite H. cbn.
  enough (xorb (Bsign (to_bin x Hx)) (Bsign (to_bin y Hy)) = false) as -> by done.
  assert (f_R x ≠ 0) as Hx0.
  { intros E. rewrite E in Hb. unfold rnd, Rdiv in Hb. rewrite Rmult_0_l, round_0, Rabs_R0 in Hb by (apply valid_rnd_N).
    pose proof (powerRZ_lt 2 128 ltac:(lra)). lra. }
  assert (0 < f_R x / f_R y) as Hpos.
  { destruct Hp as [|E]; [done|]. exfalso. symmetry in E. apply Rmult_integral in E as [|E]; [done|].
    by apply (Rinv_neq_0_compat _ Hn). }
  assert (∀ s m e, (0 < f_R (S754_finite s m e) → s = false) ∧ (f_R (S754_finite s m e) < 0 → s = true)) as Hsg.
  { intros s m e. cbn. pose proof (powerRZ_lt 2 e ltac:(lra)) as Hpw. destruct s; (split; [|done]) || (split; [done|]).
    - intros H0. assert (IZR (Z.neg m) < 0) by (by apply IZR_lt). nra.
    - intros H0. assert (0 < IZR (Z.pos m)) by (by apply IZR_lt). nra. }
  destruct x as [| | |sx mx ex]; try done. destruct y as [| | |sy my ey]; try done. cbn [to_bin SF2B Bsign].
  destruct (Hsg sx mx ex) as [X1 X2]. destruct (Hsg sy my ey) as [Y1 Y2].
  set (a := f_R (S754_finite sx mx ex)) in *. set (b := f_R (S754_finite sy my ey)) in *.
  assert (a * b > 0) as Hab. { replace (a * b) with (a / b * (b * b)) by (by field). apply Rmult_lt_0_compat; [done|nra]. }
  destruct (Rlt_or_le 0 a) as [Ha|Ha]; destruct (Rlt_or_le 0 b) as [Hb'|Hb'].
  - by rewrite X1, Y1.
  - nra.
  - nra.
  - rewrite X2, Y2; [done|nra|nra].
Qed.

(** Integers up to 2^24 are exact, and rounding is monotone. *)
Lemma rnd_mono x y : x <= y → rnd x <= rnd y.
Proof. intros H. apply round_le; [apply FLT_exp_valid; done|apply valid_rnd_N|done]. Qed.
Lemma rnd_int n : (Z.abs n <= 2 ^ 24)%Z → rnd (IZR n) = IZR n.
Proof.
  intros H. apply round_generic; [apply valid_rnd_N|].
  destruct (decide (Z.abs n = 2 ^ 24)%Z) as [E|Hne].
  - apply generic_format_FLT. exists (Float radix2 (Z.sgn n) 24); [|cbn; lia|cbn; lia].
    unfold F2R. cbn. rewrite <-mult_IZR. f_equal. lia.
  - apply generic_format_FLT. exists (Float radix2 n 0); [|cbn in *; lia|cbn; lia].
    unfold F2R. cbn. ring.
Qed.
(** The relative error is at most 2^-24 for values of normal size. *)
Definition f_eps : R := powerRZ 2 (-24).
Lemma rnd_rel x : powerRZ 2 (-126) <= Rabs x → Rabs (rnd x - x) <= f_eps * Rabs x.
Proof.
  intros H. pose proof (relative_error_N_FLT radix2 (-149) 24 ltac:(lia) (λ x, negb (Z.even x)) x) as R.
  rewrite bpow_powerRZ in R. specialize (R H). unfold rnd, f_eps.
  replace (powerRZ 2 (-24)) with (/ 2 * bpow radix2 (-24 + 1)); [done|].
  rewrite bpow_powerRZ, powerRZ_add by (by apply IZR_neq). change (IZR radix2) with 2. rewrite powerRZ_1. field.
Qed.

(** Rounding a float to an integer. *)
Lemma pow2_R k : (0 <= k)%Z → powerRZ 2 k = IZR (2 ^ k).
Proof. intros H. change 2 with (IZR radix2). rewrite <-bpow_powerRZ. symmetry. by apply (IZR_Zpower radix2). Qed.
Lemma floor_R s m e : f_floor_Z s m e = Zfloor (f_R (S754_finite s m e)).
Proof.
  unfold f_floor_Z, f_R. set (v := if s then Z.neg m else Z.pos m). destruct (Z.leb_spec 0 e) as [He|He].
  - rewrite <-(Zfloor_IZR (v * 2 ^ e)). by rewrite mult_IZR, pow2_R.
  - rewrite <-Zfloor_div by (apply Z.pow_nonzero; lia). f_equal. unfold Rdiv. f_equal.
    rewrite <-pow2_R by lia. rewrite <-powerRZ_neg'. by rewrite Z.opp_involutive.
Qed.
Lemma ceil_R s m e : f_ceil_Z s m e = Zceil (f_R (S754_finite s m e)).
Proof.
  unfold f_ceil_Z, Zceil. rewrite floor_R. f_equal. f_equal. unfold f_R. destruct s; cbn [negb].
  - rewrite <-Ropp_mult_distr_l_reverse, <-opp_IZR. done.
  - rewrite <-Ropp_mult_distr_l_reverse, <-opp_IZR. done.
Qed.
Lemma trunc_R s m e : f_trunc_Z s m e = Ztrunc (f_R (S754_finite s m e)).
Proof.
  pose proof (floor_R false m e) as H. unfold f_floor_Z in H. unfold f_trunc_Z. rewrite H.
  assert (0 <= f_R (S754_finite false m e)) as Hp.
  { cbn. apply Rmult_le_pos; [by apply IZR_le|]. apply powerRZ_le. lra. }
  destruct s.
  - replace (f_R (S754_finite true m e)) with (- f_R (S754_finite false m e)).
    + rewrite Ztrunc_opp. by rewrite Ztrunc_floor.
    + cbn. rewrite <-Ropp_mult_distr_l_reverse, <-opp_IZR. done.
  - by rewrite Ztrunc_floor.
Qed.

Lemma cast_ceil lo hi x : f_finite x → f_cast f_ceil_Z lo hi x = sat lo hi (Zceil (f_R x)).
Proof. destruct x; try done; intros _; cbn [f_cast]; [change (f_R _) with 0; by rewrite Zceil_IZR|by rewrite ceil_R]. Qed.
Lemma cast_floor lo hi x : f_finite x → f_cast f_floor_Z lo hi x = sat lo hi (Zfloor (f_R x)).
Proof. destruct x; try done; intros _; cbn [f_cast]; [change (f_R _) with 0; by rewrite Zfloor_IZR|by rewrite floor_R]. Qed.
Lemma cast_trunc lo hi x : f_finite x → f_cast f_trunc_Z lo hi x = sat lo hi (Ztrunc (f_R x)).
Proof. destruct x; try done; intros _; cbn [f_cast]; [change (f_R _) with 0; by rewrite Ztrunc_IZR|by rewrite trunc_R]. Qed.
