(** Positions on edges between coordinates that are not negative are not
    negative. *)
From Coq Require Import Reals Lra.
From Flocq Require Import Core.Core IEEE754.BinarySingleNaN.
From Verif Require Import Base ModelMath FloatOrder FloatSignProofs FloatReal.
From Coq Require Import Floats.SpecFloat.
Local Open Scope R_scope.

Lemma f_of_Z_R z : (Z.abs z <= 2 ^ 24)%Z → f_R (f_of_Z z) = IZR z ∧ f_finite (f_of_Z z).
Proof.
  intros Hz. unfold f_of_Z. rewrite normalize_eq.
  pose proof (binary_normalize_correct 24 128 prec24 emax128 mode_NE z 0 false) as H.
  assert (F2R (Float radix2 z 0) = IZR z) as E by (unfold F2R; cbn; lra). rewrite E in H. cbv zeta in H.
  change (round radix2 _ _ (IZR z)) with (rnd (IZR z)) in H. rewrite rnd_int in H by done.
  rewrite Rlt_bool_true in H.
  - destruct H as (H1 & H2 & _). by rewrite <-B2R_f, <-finite_f.
  - rewrite <-abs_IZR. apply Rle_lt_trans with (IZR (2 ^ 24)); [by apply IZR_le|].
    rewrite <-(bpow_powerRZ radix2) || idtac. change (IZR (2 ^ 24) < bpow radix2 128). cbn [bpow]. apply IZR_lt. by vm_compute.
Qed.
Lemma f_of_Z_valid z : f_valid (f_of_Z z).
Proof. unfold f_of_Z. rewrite normalize_eq. apply valid_B2SF. Qed.

Lemma f_R_pos s m e : 0 < f_R (S754_finite s m e) ↔ s = false.
Proof.
  cbn. pose proof (powerRZ_lt 2 e ltac:(lra)) as Hpw. destruct s.
  - assert (IZR (Z.neg m) < 0) by (by apply IZR_lt). split; [nra|done].
  - assert (0 < IZR (Z.pos m)) by (by apply IZR_lt). split; [done|nra].
Qed.
Lemma nonneg_R x : f_finite x → nonneg x ↔ 0 <= f_R x.
Proof.
  unfold nonneg. destruct x as [s|s| |s m e]; intros Hx; try done.
  - destruct s; (split; [cbn; lra|done]).
  - pose proof (f_R_pos s m e) as H. destruct s.
    + split; [done|]. intros H0. cbn in H, H0. pose proof (powerRZ_lt 2 e ltac:(lra)). assert (IZR (Z.neg m) < 0) by (by apply IZR_lt). nra.
    + split; [|done]. intros _. apply Rlt_le. by apply H.
Qed.

(** Finite floats are their own rounding, and below 2^128. *)
Lemma f_R_rnd x : f_valid x → rnd (f_R x) = f_R x.
Proof.
  intros Hx. apply round_generic; [apply valid_rnd_N|]. rewrite <-(to_bin_R x Hx). apply generic_format_B2R.
Qed.
Lemma f_R_bound x : f_valid x → Rabs (f_R x) < powerRZ 2 128.
Proof. intros Hx. rewrite <-(to_bin_R x Hx), <-(bpow_powerRZ radix2). apply abs_B2R_lt_emax. Qed.
Lemma rnd_0 : rnd 0 = 0.
Proof. apply round_0. apply valid_rnd_N. Qed.
Lemma rnd_opp_f x : f_valid x → rnd (- f_R x) = - f_R x.
Proof. intros Hx. unfold rnd. rewrite round_NE_opp. f_equal. by apply f_R_rnd. Qed.

Lemma edge_coord_nonneg a b u : f_valid a → f_valid b → f_valid u → nonneg a → nonneg b →
  (u = S754_nan ∨ f_finite u ∧ 0 <= f_R u <= 1) → nonneg (f_add a (f_mul (f_sub b a) u)).
Proof.
  intros Va Vb Vu Na Nb [->|[Fu Hu]].
  { assert (f_mul (f_sub b a) S754_nan = S754_nan) as -> by (by destruct (f_sub b a)). by destruct a. }
  assert ((f_finite a ∧ f_finite b) ∨ ¬ (f_finite a ∧ f_finite b)) as [[Fa Fb]|Hinf].
  { destruct a, b; cbn; tauto. }
  2:{ unfold nonneg in *. destruct u as [su|su| |su mu eu]; try done.
      - destruct a as [sa|[]| |[] ma ea]; try done; destruct b as [sb|[]| |[] mb eb]; try done; cbn in Hinf; tauto || (by destruct su) || (by destruct sa, su) || idtac.
      - assert (su = false) as ->.
        { destruct su; [|done]. exfalso. destruct Hu as [Hu _]. cbn in Hu. pose proof (powerRZ_lt 2 eu ltac:(lra)). assert (IZR (Z.neg mu) < 0) by (by apply IZR_lt). nra. }
        destruct a as [sa|[]| |[] ma ea]; try done; destruct b as [sb|[]| |[] mb eb]; try done; cbn in Hinf; tauto || (by destruct sa) || idtac. }
  assert (0 <= f_R a) as Ha by (by apply nonneg_R). assert (0 <= f_R b) as Hb by (by apply nonneg_R).
  pose proof (f_R_bound a Va) as Ba. rewrite Rabs_pos_eq in Ba by done. pose proof (f_R_bound b Vb) as Bb. rewrite Rabs_pos_eq in Bb by done.
  (* b - a lies between -a and b *)
  assert (- f_R a <= rnd (f_R b - f_R a) <= f_R b) as Hd.
  { split; [rewrite <-(rnd_opp_f a Va)|rewrite <-(f_R_rnd b Vb) at 2]; apply rnd_mono; lra. }
  destruct (f_sub_R b a Vb Va Fb Fa) as [Ed Fd]; [apply Rabs_def1; lra|].
  pose proof (f_sub_valid b a Vb Va) as Vd. rewrite <-Ed in Hd. set (d := f_sub b a) in *.
  assert (- f_R a <= rnd (f_R d * f_R u) <= f_R b) as Hm.
  { split; [rewrite <-(rnd_opp_f a Va)|rewrite <-(f_R_rnd b Vb)]; apply rnd_mono; nra. }
  destruct (f_mul_R d u Vd Vu Fd Fu) as [Em Fm]; [apply Rabs_def1; lra|].
  pose proof (f_mul_valid d u Vd Vu) as Vm. rewrite <-Em in Hm. set (m := f_mul d u) in *.
  pose proof (f_add_valid a m Va Vm) as Vs.
  destruct (Rlt_or_le (f_R m) 0) as [Hneg|Hpos].
  - assert (0 <= rnd (f_R a + f_R m) <= f_R a) as Hs.
    { split; [rewrite <-rnd_0|rewrite <-(f_R_rnd a Va) at 2]; apply rnd_mono; lra. }
    destruct (f_add_R a m Va Vm Fa Fm) as [Es Fs]; [apply Rabs_def1; lra|]. apply nonneg_R; [done|]. rewrite Es. lra.
  - apply nonneg_add; [done|]. by apply nonneg_R.
Qed.

(** The [k]-th of [n] equal parts. *)
Lemma part_range n k : (k ≤ n)%nat → (n ≤ 31)%nat →
  f_div (f_of_Z (Z.of_nat k)) (f_of_Z (Z.of_nat n)) = S754_nan ∨
  f_finite (f_div (f_of_Z (Z.of_nat k)) (f_of_Z (Z.of_nat n))) ∧ 0 <= f_R (f_div (f_of_Z (Z.of_nat k)) (f_of_Z (Z.of_nat n))) <= 1.
Proof.
  intros Hk Hn. destruct n as [|n]. { assert (k = 0%nat) as -> by lia. left. done. } right.
  destruct (f_of_Z_R (Z.of_nat k)) as [Ek Fk]; [lia|]. destruct (f_of_Z_R (Z.of_nat (S n))) as [En Fn]; [lia|].
  assert (0 < IZR (Z.of_nat (S n))) as Hp by (apply IZR_lt; lia).
  assert (0 <= IZR (Z.of_nat k)) as Hk0 by (apply IZR_le; lia).
  assert (IZR (Z.of_nat k) <= IZR (Z.of_nat (S n))) as Hkn by (apply IZR_le; lia).
  assert (0 <= IZR (Z.of_nat k) / IZR (Z.of_nat (S n)) <= 1) as Hq.
  { split; [apply Rmult_le_pos; [done|apply Rlt_le, Rinv_0_lt_compat, Hp]|]. apply Rmult_le_reg_r with (IZR (Z.of_nat (S n))); [done|].
    unfold Rdiv. rewrite Rmult_assoc, Rinv_l, Rmult_1_r, Rmult_1_l; lra. }
  assert (0 <= rnd (IZR (Z.of_nat k) / IZR (Z.of_nat (S n))) <= 1) as Hr.
  { split; [rewrite <-rnd_0|rewrite <-(rnd_int 1) by lia]; apply rnd_mono; lra. }
  destruct (f_div_R (f_of_Z (Z.of_nat k)) (f_of_Z (Z.of_nat (S n)))) as [E F].
  - apply f_of_Z_valid.
  - apply f_of_Z_valid.
  - done.
  - rewrite En. lra.
  - rewrite Ek, En. apply Rabs_def1; [|pose proof (powerRZ_lt 2 128 ltac:(lra)); lra].
    apply Rle_lt_trans with 1; [lra|]. rewrite <-(bpow_powerRZ radix2). cbn [bpow]. apply IZR_lt. by vm_compute.
  - rewrite E, Ek, En. done.
Qed.
