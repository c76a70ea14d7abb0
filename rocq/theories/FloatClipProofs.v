(** Cutting an edge at a grid line in f32: how far the computed point is from the line,
    and what it keeps of the ends of the edge. *)
From Coq Require Import Reals Lra.
From Flocq Require Import Core.Core IEEE754.BinarySingleNaN Relative.
From Verif Require Import Base ModelMath ModelRasterize FloatReal FloatSpotProofs CameraProofs.
From Coq Require Import Floats.SpecFloat.
Local Open Scope R_scope.

(** A finite number as the code can hold it. *)
Definition fin (x : f32) : Prop := f_valid x ∧ FloatReal.f_finite x.

(** ** Comparisons *)

Lemma cmp_R x y : fin x → fin y → SFcompare x y = Some (Rcompare (f_R x) (f_R y)).
Proof.
  intros [Hx Fx] [Hy Fy]. pose proof (Bcompare_correct 24 128 (to_bin x Hx) (to_bin y Hy)) as E. unfold Bcompare in E.
  rewrite !to_bin_SF, !to_bin_R in E. apply E; by apply to_bin_finite.
Qed.
Lemma lt_iff x y : fin x → fin y → f_lt x y = true ↔ f_R x < f_R y.
Proof.
  intros Hx Hy. unfold f_lt, SFltb. rewrite (cmp_R x y Hx Hy). destruct (Rcompare_spec (f_R x) (f_R y)); split; try done; lra.
Qed.
Lemma le_iff x y : fin x → fin y → f_le x y = true ↔ f_R x <= f_R y.
Proof.
  intros Hx Hy. unfold f_le, SFleb. rewrite (cmp_R x y Hx Hy). destruct (Rcompare_spec (f_R x) (f_R y)); split; try done; lra.
Qed.
Lemma eq_iff x y : fin x → fin y → f_eq x y = true ↔ f_R x = f_R y.
Proof.
  intros Hx Hy. unfold f_eq, SFeqb. rewrite (cmp_R x y Hx Hy). destruct (Rcompare_spec (f_R x) (f_R y)); split; try done; lra.
Qed.

(** ** Rounding errors *)

Lemma rnd_1 : rnd 1 = 1. Proof. exact (rnd_int 1 ltac:(lia)). Qed.
Definition f_u : R := powerRZ 2 (-23).
Lemma f_u_val : f_u = / 8388608.
Proof. unfold f_u, powerRZ. change (Pos.to_nat 23) with 23%nat. f_equal. cbn [Rpow_def.pow]. lra. Qed.
Lemma rnd_err x c : Rabs x <= c → 1 <= c → Rabs (rnd x - x) <= f_u * c.
Proof.
  intros Hx Hc. assert (f_eps = f_u / 2) as E.
  { rewrite f_u_val. unfold f_eps, powerRZ. change (Pos.to_nat 24) with 24%nat. cbn [Rpow_def.pow]. lra. }
  pose proof f_u_val as U. destruct (Rle_or_lt (powerRZ 2 (-126)) (Rabs x)) as [H|H].
  - pose proof (rnd_rel x H) as H'. rewrite E, U in H'. rewrite U. pose proof (Rabs_pos x). lra.
  - assert (powerRZ 2 (-126) <= f_u / 4) as H1.
    { rewrite f_u_val. apply Rle_trans with (powerRZ 2 (-25)); [rewrite <-!bp; apply bpow_le; lia|].
      unfold powerRZ. change (Pos.to_nat 25) with 25%nat. cbn [Rpow_def.pow]. lra. }
    assert (Rabs (rnd x) <= powerRZ 2 (-126)) as H2. { apply rnd_abs_le; [apply pow2_format; lia|lra]. }
    apply Rabs_le. apply Rabs_le_inv in H2. apply Rlt_le, Rabs_le_inv in H. rewrite U in *. lra.
Qed.

(** Everything is far below the largest number. *)
Definition f_big : R := powerRZ 2 110.
Lemma big_lt : f_big < powerRZ 2 128. Proof. unfold f_big. rewrite <-!bp. apply bpow_lt. lia. Qed.
Lemma big_rnd x : Rabs x <= f_big → Rabs (rnd x) < powerRZ 2 128.
Proof. intros H. eapply Rle_lt_trans; [|apply big_lt]. apply rnd_abs_le; [|done]. apply pow2_format. lia. Qed.

Lemma sub_ok x y c : fin x → fin y → Rabs (f_R x - f_R y) <= c → 1 <= c <= f_big →
  fin (f_sub x y) ∧ f_R (f_sub x y) = rnd (f_R x - f_R y) ∧ Rabs (f_R (f_sub x y) - (f_R x - f_R y)) <= f_u * c.
Proof.
  intros [Hx Fx] [Hy Fy] Hc Hb. destruct (f_sub_R x y) as [E F]; try done. { apply big_rnd. lra. }
  split; [split; [by apply f_sub_valid|done]|]. split; [done|]. rewrite E. apply rnd_err; lra.
Qed.
Lemma add_ok x y c : fin x → fin y → Rabs (f_R x + f_R y) <= c → 1 <= c <= f_big →
  fin (f_add x y) ∧ f_R (f_add x y) = rnd (f_R x + f_R y) ∧ Rabs (f_R (f_add x y) - (f_R x + f_R y)) <= f_u * c.
Proof.
  intros [Hx Fx] [Hy Fy] Hc Hb. destruct (f_add_R x y) as [E F]; try done. { apply big_rnd. lra. }
  split; [split; [by apply f_add_valid|done]|]. split; [done|]. rewrite E. apply rnd_err; lra.
Qed.
Lemma mul_ok x y c : fin x → fin y → Rabs (f_R x * f_R y) <= c → 1 <= c <= f_big →
  fin (f_mul x y) ∧ f_R (f_mul x y) = rnd (f_R x * f_R y) ∧ Rabs (f_R (f_mul x y) - (f_R x * f_R y)) <= f_u * c.
Proof.
  intros [Hx Fx] [Hy Fy] Hc Hb. destruct (f_mul_R x y) as [E F]; try done. { apply big_rnd. lra. }
  split; [split; [by apply f_mul_valid|done]|]. split; [done|]. rewrite E. apply rnd_err; lra.
Qed.

(** ** The cut *)

Section Cut.
(** Everything is at most [M]. *)
Context (M : R) (HM : 1 <= M) (HMb : 8 * M <= f_big).
(** The line, and the coordinates of both ends along its axis, on different sides of it. *)
Context (L zb za : f32) (FL : fin L) (Fb : fin zb) (Fa : fin za).
Context (BL : Rabs (f_R L) <= M) (Bb : Rabs (f_R zb) <= M) (Ba : Rabs (f_R za) <= M).
Let db := f_sub L zb.
Let da := f_sub L za.
Context (Hsides : (0 <= f_R db ∧ f_R da < 0) ∨ (f_R db < 0 ∧ 0 <= f_R da)).
Definition ratio : f32 := f_div db (f_sub db da).

Lemma dist_ok z : fin z → Rabs (f_R z) <= M →
  fin (f_sub L z) ∧ f_R (f_sub L z) = rnd (f_R L - f_R z) ∧ Rabs (f_R (f_sub L z) - (f_R L - f_R z)) <= 2 * f_u * M ∧ Rabs (f_R (f_sub L z)) <= 3 * M.
Proof.
  intros Fz Bz. apply Rabs_le_inv in BL. apply Rabs_le_inv in Bz.
  destruct (sub_ok L z (2 * M)) as (A & E & D); [done|done|apply Rabs_le; lra|lra|].
  split; [done|]. split; [done|]. rewrite f_u_val in *. split; [lra|]. apply Rabs_le_inv in D. apply Rabs_le. lra.
Qed.

Lemma ratio_ok : fin ratio ∧ 0 <= f_R ratio <= 1 ∧ (f_R db = 0 → f_R ratio = 0) ∧
  ∃ e, f_R db = f_R ratio * e + (f_R db - f_R ratio * e) ∧ Rabs (f_R db - f_R ratio * e) <= 7 * f_u * M ∧ Rabs (e - (f_R za - f_R zb)) <= 10 * f_u * M.
Proof.
  destruct (dist_ok zb Fb Bb) as (Fdb & Edb & Ddb & Mdb). destruct (dist_ok za Fa Ba) as (Fda & Eda & Dda & Mda).
  fold db in Fdb, Edb, Ddb, Mdb. fold da in Fda, Eda, Dda, Mda.
  pose proof (Rabs_le_inv _ _ Mdb) as Mdb'. pose proof (Rabs_le_inv _ _ Mda) as Mda'.
  destruct (sub_ok db da (6 * M)) as (FE & EE & DE); [done|done|apply Rabs_le; lra|lra|].
  set (E := f_sub db da) in *.
  assert (rnd (f_R db) = f_R db) as Rdb by (apply f_R_format, Fdb). assert (rnd (f_R da) = f_R da) as Rda by (apply f_R_format, Fda).
  assert (f_R E ≠ 0 ∧ 0 <= f_R db / f_R E <= 1) as [HE0 Hq].
  { destruct Hsides as [[H1 H2]|[H1 H2]].
    - assert (f_R db <= f_R E) as G1. { rewrite EE, <-Rdb at 1. apply rnd_mono. lra. }
      assert (0 < f_R E) as G2.
      { apply Rlt_le_trans with (- f_R da); [lra|]. rewrite EE. replace (- f_R da) with (rnd (- f_R da)); [apply rnd_mono; lra|]. by rewrite rnd_opp, Rda. }
      split; [lra|]. split; [apply Rmult_le_pos; [done|]; apply Rlt_le, Rinv_0_lt_compat; done|]. apply Rmult_le_reg_r with (f_R E); [done|]. unfold Rdiv. rewrite Rmult_assoc, Rinv_l by lra. lra.
    - assert (f_R E <= f_R db) as G1. { rewrite EE, <-Rdb. apply rnd_mono. lra. }
      assert (f_R E < 0) as G2 by lra.
      assert (f_R db / f_R E = (- f_R db) / (- f_R E)) as -> by (field; lra).
      split; [lra|]. split; [apply Rmult_le_pos; [lra|]; apply Rlt_le, Rinv_0_lt_compat; lra|]. apply Rmult_le_reg_r with (- f_R E); [lra|]. unfold Rdiv. rewrite Rmult_assoc, Rinv_l by lra. lra. }
  destruct (f_div_R db E) as [Es Fs]; [apply Fdb|apply FE|apply Fdb|done| |].
  { apply big_rnd. rewrite Rabs_pos_eq by lra. lra. }
  change (f_div db E) with ratio in Es, Fs. assert (fin ratio) as Fr. { split; [apply f_div_valid; [apply Fdb|apply FE]|done]. }
  split; [done|]. split; [|split].
  - rewrite Es. split; [rewrite <-rnd_0; apply rnd_mono; lra|rewrite <-rnd_1; apply rnd_mono; lra].
  - intros Z. rewrite Es, Z. unfold Rdiv. rewrite Rmult_0_l. apply rnd_0.
  - exists (f_R E). split; [ring|]. split.
    + pose proof (rnd_err (f_R db / f_R E) 1) as H. rewrite <-Es in H. specialize (H ltac:(rewrite Rabs_pos_eq; lra) ltac:(lra)).
      replace (f_R db - f_R ratio * f_R E) with (- ((f_R ratio - f_R db / f_R E) * f_R E)) by (field; done).
      rewrite Rabs_Ropp, Rabs_mult. assert (Rabs (f_R E) <= 7 * M) as HEb.
      { apply Rabs_le_inv in DE. rewrite f_u_val in DE. apply Rabs_le. lra. }
      pose proof (Rabs_pos (f_R E)). pose proof (Rabs_pos (f_R ratio - f_R db / f_R E)). rewrite f_u_val in *. nra.
    + apply Rabs_le_inv in DE. apply Rabs_le_inv in Ddb. apply Rabs_le_inv in Dda. apply Rabs_le. lra.
Qed.

(** One coordinate of the cut point. *)
Definition cut1 (xb xa : f32) : f32 := f_add xb (f_mul (f_sub xa xb) ratio).

Lemma cut1_ok xb xa b : fin xb → fin xa → Rabs (f_R xb) <= b → Rabs (f_R xa) <= b → 1 <= b <= M →
  fin (cut1 xb xa) ∧ Rabs (f_R (cut1 xb xa)) <= b + 7 * f_u * M ∧
  (f_R xa = f_R xb → f_R (cut1 xb xa) = f_R xb) ∧ (f_R db = 0 → f_R (cut1 xb xa) = f_R xb) ∧
  Rabs (f_R (cut1 xb xa) - (f_R xb + f_R ratio * (f_R xa - f_R xb))) <= 7 * f_u * M.
Proof.
  intros Fxb Fxa Bxb Bxa Hb. destruct ratio_ok as (Fr & Hr & Hr0 & _).
  pose proof (Rabs_le_inv _ _ Bxb) as Bxb'. pose proof (Rabs_le_inv _ _ Bxa) as Bxa'.
  destruct (sub_ok xa xb (2 * M)) as (FD & ED & DD); [done|done|apply Rabs_le; lra|lra|].
  set (D := f_sub xa xb) in *. pose proof (Rabs_le_inv _ _ DD) as DD'.
  assert (Rabs (f_R D) <= 3 * M) as MD. { rewrite f_u_val in *. apply Rabs_le. lra. }
  pose proof (Rabs_le_inv _ _ MD) as MD'.
  destruct (mul_ok D ratio (3 * M)) as (FP & EP & DP); [done|done| |lra|].
  { rewrite Rabs_mult, (Rabs_pos_eq (f_R ratio)) by lra. pose proof (Rabs_pos (f_R D)). nra. }
  set (P := f_mul D ratio) in *. pose proof (Rabs_le_inv _ _ DP) as DP'.
  set (s := f_R ratio) in *.
  assert (Rabs (f_R xb + f_R P - (f_R xb + s * (f_R xa - f_R xb))) <= 5 * f_u * M) as H1.
  { replace (f_R xb + f_R P - (f_R xb + s * (f_R xa - f_R xb))) with ((f_R P - f_R D * s) + s * (f_R D - (f_R xa - f_R xb))) by ring.
    eapply Rle_trans; [apply Rabs_triang|]. rewrite (Rabs_mult s), (Rabs_pos_eq s) by lra.
    pose proof (Rabs_pos (f_R D - (f_R xa - f_R xb))). rewrite f_u_val in *. nra. }
  pose proof (Rabs_le_inv _ _ H1) as H1'.
  assert (- b <= f_R xb + s * (f_R xa - f_R xb) <= b) as H2.
  { replace (f_R xb + s * (f_R xa - f_R xb)) with ((1 - s) * f_R xb + s * f_R xa) by ring. nra. }
  destruct (add_ok xb P (2 * M)) as (FX & EX & DX); [done|done| |lra|].
  { rewrite f_u_val in *. apply Rabs_le. lra. }
  fold P in FX, EX, DX. change (f_add xb P) with (cut1 xb xa) in *. pose proof (Rabs_le_inv _ _ DX) as DX'.
  assert (∀ X, X = 0 → f_R P = rnd X → f_R (cut1 xb xa) = f_R xb) as Hsame.
  { intros X -> E0. rewrite rnd_0 in E0. rewrite EX, E0, Rplus_0_r. apply f_R_format, Fxb. }
  split; [done|]. split; [apply Rabs_le; lra|]. split; [|split].
  - intros E. eapply Hsame; [|exact EP]. rewrite ED, E. replace (f_R xb - f_R xb) with 0 by ring. rewrite rnd_0. ring.
  - intros E. eapply Hsame; [|exact EP]. rewrite (Hr0 E). ring.
  - apply Rabs_le. lra.
Qed.

(** Along the axis the cut point is close to the line. *)
Lemma cut1_line : Rabs (f_R (cut1 zb za) - f_R L) <= 26 * f_u * M.
Proof.
  destruct (cut1_ok zb za M) as (_ & _ & _ & _ & H); [done|done|done|done|lra|].
  destruct ratio_ok as (_ & Hr & _ & e & _ & H1 & H2). destruct (dist_ok zb Fb Bb) as (_ & _ & H3 & _). fold db in H3.
  set (s := f_R ratio) in *.
  replace (f_R (cut1 zb za) - f_R L) with
    ((f_R (cut1 zb za) - (f_R zb + s * (f_R za - f_R zb))) + (- (s * (e - (f_R za - f_R zb))) + (- (f_R db - s * e) + (f_R db - (f_R L - f_R zb))))) by ring.
  eapply Rle_trans; [apply Rabs_triang|]. eapply Rle_trans; [apply Rplus_le_compat_l, Rabs_triang|].
  eapply Rle_trans; [apply Rplus_le_compat_l, Rplus_le_compat_l, Rabs_triang|].
  rewrite !Rabs_Ropp, (Rabs_mult s), (Rabs_pos_eq s) by lra. pose proof (Rabs_pos (e - (f_R za - f_R zb))). rewrite f_u_val in *. nra.
Qed.
End Cut.
