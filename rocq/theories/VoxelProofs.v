(** Lengths in voxels: quotients of f32 values, rounded up or down to [u16]. *)
From Coq Require Import Reals Lra.
From Flocq Require Import Core.Core.
From Verif Require Import Base ModelMath ModelConfig FloatReal.
Local Open Scope R_scope.

(** A non-negative, a positive length. *)
Definition size (x : f32) : Prop := f_valid x ∧ f_finite x ∧ 0 <= f_R x.
Definition pos_size (x : f32) : Prop := f_valid x ∧ f_finite x ∧ 0 < f_R x.

(** [n] voxels of size [v] hold the length [x] and [n - 1] do not: the latter
    exactly, the former up to the error of one f32 division, if the quotient is not
    subnormal. *)
Definition voxels_up (x v : R) (n : Z) : Prop :=
  IZR (n - 1) * v < x ∧ (x = 0 ∨ powerRZ 2 (-126) * v <= x → x * (1 - f_eps) <= IZR n * v).
(** [n + 1] voxels of size [v] are longer than [x] and [n] are not, up to the
    error of one division. *)
Definition voxels_down (x v : R) (n : Z) : Prop := x < IZR (n + 1) * v ∧ IZR n * v <= x * (1 + f_eps).

Lemma quot_le x v k : 0 < v → (x / v <= k ↔ x <= k * v).
Proof.
  intros Hv. split; intros H.
  - replace x with (x / v * v) by (field; lra). apply Rmult_le_compat_r; lra.
  - apply (Rmult_le_reg_r v); [done|]. replace (x / v * v) with x by (field; lra). done.
Qed.
Lemma quot_ge x v k : 0 < v → (k <= x / v ↔ k * v <= x).
Proof.
  intros Hv. split; intros H.
  - replace x with (x / v * v) by (field; lra). apply Rmult_le_compat_r; lra.
  - apply (Rmult_le_reg_r v); [done|]. replace (x / v * v) with x by (field; lra). done.
Qed.
Lemma quot_lt x v k : 0 < v → (x / v < k ↔ x < k * v).
Proof.
  intros Hv. split; intros H.
  - replace x with (x / v * v) by (field; lra). by apply Rmult_lt_compat_r.
  - apply (Rmult_lt_reg_r v); [done|]. replace (x / v * v) with x by (field; lra). done.
Qed.
Lemma quot_gt x v k : 0 < v → (k < x / v ↔ k * v < x).
Proof.
  intros Hv. split; intros H.
  - replace x with (x / v * v) by (field; lra). by apply Rmult_lt_compat_r.
  - apply (Rmult_lt_reg_r v); [done|]. replace (x / v * v) with x by (field; lra). done.
Qed.
Lemma quot_nonneg x v : 0 <= x → 0 < v → 0 <= x / v.
Proof. intros Hx Hv. apply Rmult_le_pos; [done|]. by apply Rlt_le, Rinv_0_lt_compat. Qed.

Lemma rnd_0 : rnd 0 = 0. Proof. apply (rnd_int 0). lia. Qed.
Lemma rnd_nonneg x : 0 <= x → 0 <= rnd x.
Proof. intros H. rewrite <-rnd_0. by apply rnd_mono. Qed.
Lemma pow2_lt a b : (a < b)%Z → powerRZ 2 a < powerRZ 2 b.
Proof. intros H. change 2 with (IZR radix2). rewrite <-!bpow_powerRZ. by apply bpow_lt. Qed.
Lemma rnd_pow2 e : (-149 <= e)%Z → rnd (powerRZ 2 e) = powerRZ 2 e.
Proof.
  intros H. apply round_generic; [apply valid_rnd_N|]. change 2 with (IZR radix2). rewrite <-bpow_powerRZ.
  apply generic_format_bpow. unfold FLT_exp. lia.
Qed.
Lemma eps_small : 0 < f_eps < 1.
Proof. unfold f_eps. split; [apply powerRZ_lt; lra|]. by apply (pow2_lt (-24) 0). Qed.

(** The quotient of a length by a positive length, as a float: either its
    rounded value, or infinite. *)
Lemma quotient x v : size x → pos_size v →
  (f_finite (f_div x v) ∧ f_R (f_div x v) = rnd (f_R x / f_R v)) ∨
  (f_div x v = S754_infinity false ∧ powerRZ 2 128 <= rnd (f_R x / f_R v)).
Proof.
  intros (Vx & Fx & Px) (Vv & Fv & Pv). pose proof (quot_nonneg _ _ Px Pv) as Hq. pose proof (rnd_nonneg _ Hq) as Hr.
  rewrite <-(Rabs_pos_eq (rnd _)) in Hr |- * by done.
  destruct (Rlt_or_le (Rabs (rnd (f_R x / f_R v))) (powerRZ 2 128)) as [Hl|Hl].
  - left. rewrite Rabs_pos_eq by (by apply rnd_nonneg). destruct (f_div_R x v Vx Vv Fx (Rgt_not_eq _ _ Pv) Hl). done.
  - right. split; [|by rewrite Rabs_Rabsolu || done]. apply f_div_overflow; [done|done|by apply Rgt_not_eq|done|done].
Qed.
Lemma huge : 65535 < powerRZ 2 128.
Proof. apply Rlt_trans with (powerRZ 2 16); [|by apply pow2_lt]. rewrite pow2_R by lia. by apply IZR_lt. Qed.

(** Rounding up: comparisons with integers are exact in one direction. *)
Lemma ceil_le x v k : size x → pos_size v → (0 <= k <= 65535)%Z → f_R x <= IZR k * f_R v → (f_ceil_u16 (f_div x v) <= k)%Z.
Proof.
  intros Hx Hv Hk Hle. pose proof Hv as (_ & _ & Pv).
  assert (rnd (f_R x / f_R v) <= IZR k) as Hr. { rewrite <-(rnd_int k) by lia. apply rnd_mono. by apply quot_le. }
  destruct (quotient x v Hx Hv) as [[Hf E]|[_ H]].
  - unfold f_ceil_u16. rewrite cast_ceil by done. rewrite E. unfold sat. pose proof (Zceil_glb k _ Hr). lia.
  - pose proof huge. assert (IZR k <= 65535) by (apply IZR_le; lia). lra.
Qed.
Lemma ceil_ge x v k : size x → pos_size v → (0 <= k <= 65535)%Z → IZR k * f_R v <= f_R x → (k <= f_ceil_u16 (f_div x v))%Z.
Proof.
  intros Hx Hv Hk Hge. pose proof Hv as (_ & _ & Pv).
  assert (IZR k <= rnd (f_R x / f_R v)) as Hr. { rewrite <-(rnd_int k) by lia. apply rnd_mono. by apply quot_ge. }
  destruct (quotient x v Hx Hv) as [[Hf E]|[-> H]].
  - unfold f_ceil_u16. rewrite cast_ceil by done. rewrite E. unfold sat.
    assert (k <= Zceil (rnd (f_R x / f_R v)))%Z; [|lia]. apply le_IZR. pose proof (Zceil_ub (rnd (f_R x / f_R v))). lra.
  - unfold f_ceil_u16. cbn. lia.
Qed.
Lemma ceil_range x : (0 <= f_ceil_u16 x <= 65535)%Z.
Proof. unfold f_ceil_u16, f_cast, sat. destruct x as [|[]| |]; lia. Qed.
Lemma floor_range x : (0 <= f_floor_u16 x <= 65535)%Z.
Proof. unfold f_floor_u16, f_cast, sat. destruct x as [|[]| |]; lia. Qed.
Lemma trunc_range x : (0 <= f_to_u16 x <= 65535)%Z.
Proof. unfold f_to_u16, f_cast, sat. destruct x as [|[]| |]; lia. Qed.

Lemma ceil_voxels x v : size x → pos_size v → (f_ceil_u16 (f_div x v) < 65535)%Z →
  voxels_up (f_R x) (f_R v) (f_ceil_u16 (f_div x v)).
Proof.
  intros Hx Hv Hn. pose proof (ceil_range (f_div x v)) as Hrg. set (n := f_ceil_u16 (f_div x v)) in *.
  pose proof Hx as (_ & _ & Px). pose proof Hv as (_ & _ & Pv). split.
  - destruct (decide (n = 0)%Z) as [E|Hn0].
    + rewrite E. change (IZR (0 - 1)) with (-1). lra.
    + apply Rnot_le_lt. intros Hle. pose proof (ceil_le x v (n - 1) Hx Hv ltac:(lia) Hle). lia.
  - intros Hnorm. destruct eps_small as [E0 E1].
    assert (rnd (f_R x / f_R v) <= IZR n) as Hr.
    { destruct (quotient x v Hx Hv) as [[Hf E]|[E _]].
      - assert (n = sat 0 65535 (Zceil (rnd (f_R x / f_R v)))) as En. { unfold n, f_ceil_u16. rewrite cast_ceil by done. by rewrite E. }
        apply Rle_trans with (IZR (Zceil (rnd (f_R x / f_R v)))); [apply Zceil_ub|]. apply IZR_le. unfold sat in En. lia.
      - unfold n in Hn. rewrite E in Hn. by cbn in Hn. }
    destruct Hnorm as [->|Hnorm].
    { assert (0 <= IZR n) by (apply IZR_le; lia). nra. }
    assert (powerRZ 2 (-126) <= f_R x / f_R v) as Hq by (by apply quot_ge).
    pose proof (quot_nonneg _ _ Px Pv) as Hq0.
    pose proof (rnd_rel (f_R x / f_R v)) as Hrel. rewrite (Rabs_pos_eq (f_R x / f_R v)) in Hrel by done. specialize (Hrel Hq).
    apply Rabs_le_inv in Hrel. assert (f_R x / f_R v * (1 - f_eps) <= IZR n) as Hfin by lra.
    replace (f_R x * (1 - f_eps)) with (f_R x / f_R v * (1 - f_eps) * f_R v) by (field; lra). apply Rmult_le_compat_r; lra.
Qed.

Lemma floor_voxels x v : size x → pos_size v →
  let n := f_floor_u16 (f_div x v) in ((n < 65535)%Z → voxels_down (f_R x) (f_R v) n) ∧ f_to_u16 (f_div x v) = n.
Proof.
  intros Hx Hv n. pose proof (floor_range (f_div x v)) as Hrg. fold n in Hrg.
  pose proof Hx as (_ & _ & Px). pose proof Hv as (_ & _ & Pv). pose proof (quot_nonneg _ _ Px Pv) as Hq0.
  pose proof (rnd_nonneg _ Hq0) as Hr0. destruct (quotient x v Hx Hv) as [[Hf E]|[E _]].
  - assert (n = sat 0 65535 (Zfloor (rnd (f_R x / f_R v)))) as En. { unfold n, f_floor_u16. rewrite cast_floor by done. by rewrite E. }
    split; [|unfold f_to_u16; rewrite cast_trunc by done; by rewrite E, Ztrunc_floor].
    intros Hn. assert (0 <= Zfloor (rnd (f_R x / f_R v)))%Z as Hfl by (by apply Zfloor_lub).
    assert (n = Zfloor (rnd (f_R x / f_R v))) as En' by (unfold sat in En; lia).
    pose proof (Zfloor_lb (rnd (f_R x / f_R v))) as H1. pose proof (Zfloor_ub (rnd (f_R x / f_R v))) as H2. rewrite <-En' in H1, H2.
    split.
    + apply Rnot_le_lt. intros Hle. assert (IZR (n + 1) <= rnd (f_R x / f_R v)) as Hc.
      { rewrite <-(rnd_int (n + 1)) by lia. apply rnd_mono. by apply quot_ge. }
      rewrite plus_IZR in Hc. lra.
    + destruct eps_small as [E0 E1]. destruct (Rlt_or_le (f_R x / f_R v) (powerRZ 2 (-126))) as [Hs|Hq].
      * assert (n = 0)%Z as ->; [|nra]. assert (rnd (f_R x / f_R v) <= powerRZ 2 (-126)) as Hsm.
        { rewrite <-rnd_pow2 by lia. apply rnd_mono. lra. }
        pose proof (pow2_lt (-126) 0 ltac:(lia)) as Hp. change (powerRZ 2 0) with 1 in Hp.
        assert (n < 1)%Z; [|lia]. apply lt_IZR. lra.
      * pose proof (rnd_rel (f_R x / f_R v)) as Hrel. rewrite (Rabs_pos_eq (f_R x / f_R v)) in Hrel by done. specialize (Hrel Hq).
        apply Rabs_le_inv in Hrel. assert (IZR n <= f_R x / f_R v * (1 + f_eps)) as Hfin by lra.
        replace (f_R x * (1 + f_eps)) with (f_R x / f_R v * (1 + f_eps) * f_R v) by (field; lra). apply Rmult_le_compat_r; lra.
  - split; [|unfold n; by rewrite E]. unfold n. rewrite E. cbn. lia.
Qed.
