(** How far apart the samples of an edge are, in real numbers. *)
From Coq Require Import Reals Lra.
From Flocq Require Import Core.Core.
From Verif Require Import Base ModelMath ModelTriMesh ModelDetail FloatOrder FloatReal FloatSpotProofs CameraProofs FloatClipProofs FloatSideProofs SampleProofs SpecClipping SpecDetail SpecRefine
  DetailTessProofs ToleranceProofs RefineProofs.
From Coq Require Import Floats.SpecFloat.
Local Open Scope R_scope.

Lemma tiny_u : 64 * f_tiny <= f_u.
Proof.
  unfold f_tiny. rewrite f_u_val. replace (/ 8388608) with (powerRZ 2 (-23)) by (unfold powerRZ; change (Pos.to_nat 23) with 23%nat; cbn [Rpow_def.pow]; lra).
  replace 64 with (powerRZ 2 6) by (unfold powerRZ; change (Pos.to_nat 6) with 6%nat; cbn [Rpow_def.pow]; lra).
  rewrite <-!bp, <-bpow_plus. apply bpow_le. lia.
Qed.
Lemma tiny_root : ∃ d, 0 <= d <= f_u / 4 ∧ d * d = 32 * f_tiny.
Proof.
  exists (powerRZ 2 (-60)). assert (powerRZ 2 (-60) = bpow radix2 (-60)) as E by (by rewrite bp). split; [split|].
  - rewrite E. apply bpow_ge_0.
  - rewrite f_u_val. replace (/ 8388608 / 4) with (powerRZ 2 (-25)) by (unfold powerRZ; change (Pos.to_nat 25) with 25%nat; cbn [Rpow_def.pow]; lra).
    rewrite <-!bp. apply bpow_le. lia.
  - unfold f_tiny. replace 32 with (powerRZ 2 5) by (unfold powerRZ; change (Pos.to_nat 5) with 5%nat; cbn [Rpow_def.pow]; lra).
    rewrite <-!bp, <-!bpow_plus. done.
Qed.

Lemma sqrt_le_by x y : 0 <= y → x <= y * y → R_sqrt.sqrt x <= y.
Proof. intros Hy H. rewrite <-(sqrt_square y Hy). by apply sqrt_le_1_alt. Qed.

(** The triangle inequality, with the error split by coordinates. *)
Lemma hypot_near dx dz ex ez : R_sqrt.sqrt ((dx + ex) * (dx + ex) + (dz + ez) * (dz + ez)) <= R_sqrt.sqrt (dx * dx + dz * dz) + Rabs ex + Rabs ez.
Proof.
  assert (0 <= dx * dx + dz * dz) as H0 by nra. set (h := R_sqrt.sqrt (dx * dx + dz * dz)).
  assert (h * h = dx * dx + dz * dz) as Hh by (by apply sqrt_sqrt). assert (0 <= h) as Hp by apply sqrt_pos.
  pose proof (Rabs_pos ex) as A1. pose proof (Rabs_pos ez) as A2.
  assert (Rabs dx <= h) as D1. { rewrite <-(sqrt_square (Rabs dx)) by apply Rabs_pos. apply sqrt_le_1_alt. rewrite <-Rabs_mult, Rabs_pos_eq; nra. }
  assert (Rabs dz <= h) as D2. { rewrite <-(sqrt_square (Rabs dz)) by apply Rabs_pos. apply sqrt_le_1_alt. rewrite <-Rabs_mult, Rabs_pos_eq; nra. }
  apply sqrt_le_by; [lra|].
  assert (dx * ex <= h * Rabs ex) as X1. { eapply Rle_trans; [apply Rle_abs|]. rewrite Rabs_mult. by apply Rmult_le_compat_r. }
  assert (dz * ez <= h * Rabs ez) as X2. { eapply Rle_trans; [apply Rle_abs|]. rewrite Rabs_mult. by apply Rmult_le_compat_r. }
  assert (Rabs ex * Rabs ex = ex * ex) as S1. { rewrite <-Rabs_mult. apply Rabs_pos_eq. nra. }
  assert (Rabs ez * Rabs ez = ez * ez) as S2. { rewrite <-Rabs_mult. apply Rabs_pos_eq. nra. }
  pose proof (Rmult_le_pos _ _ A1 A2).
  replace ((h + Rabs ex + Rabs ez) * (h + Rabs ex + Rabs ez)) with (h * h + Rabs ex * Rabs ex + Rabs ez * Rabs ez + 2 * (h * Rabs ex) + 2 * (h * Rabs ez) + 2 * (Rabs ex * Rabs ez)) by ring.
  rewrite Hh, S1, S2. lra.
Qed.

Section step.
  Context (M : R) (HM : 1 <= M <= 1099511627776).

  Lemma len_ok a b : fin (v_x a) → fin (v_z a) → fin (v_x b) → fin (v_z b) →
    Rabs (f_R (v_x a)) <= M → Rabs (f_R (v_z a)) <= M → Rabs (f_R (v_x b)) <= M → Rabs (f_R (v_z b)) <= M →
    fin (edge_len a b) ∧ 0 <= f_R (edge_len a b) <= 5 * M ∧ plan_len a b <= f_R (edge_len a b) * (1 + 6 * f_u) + 5 * f_u * M.
  Proof.
    intros Fxa Fza Fxb Fzb Rxa Rza Rxb Rzb. pose proof f_u_val as U. pose proof big_105 as BB. pose proof tiny_pos as T0. pose proof tiny_u as T1.
    destruct (diff_ok M HM _ _ Fxa Fxb Rxa Rxb) as [Fx Bx]. destruct (diff_ok M HM _ _ Fza Fzb Rza Rzb) as [Fz Bz].
    apply Rabs_le_inv in Rxa, Rza, Rxb, Rzb.
    destruct (sub_ok (v_x b) (v_x a) (2 * M)) as (_ & _ & Dx); [done|done|apply Rabs_le; lra|lra|].
    destruct (sub_ok (v_z b) (v_z a) (2 * M)) as (_ & _ & Dz); [done|done|apply Rabs_le; lra|lra|].
    change (edge_len a b) with (f_sqrt (f_add (f_mul (f_sub (v_x b) (v_x a)) (f_sub (v_x b) (v_x a))) (f_mul (f_sub (v_z b) (v_z a)) (f_sub (v_z b) (v_z a))))).
    set (dx := f_sub (v_x b) (v_x a)) in *. set (dz := f_sub (v_z b) (v_z a)) in *.
    destruct (prod_ok M HM dx dx Fx Fx Bx Bx) as (P1 & E1 & Q1). destruct (prod_ok M HM dz dz Fz Fz Bz Bz) as (P2 & E2 & Q2).
    unfold plan_len. set (p1 := f_mul dx dx) in *. set (p2 := f_mul dz dz) in *.
    assert (1 <= M * M <= 1099511627776 * 1099511627776) as HMM. { split; [replace 1 with (1 * 1) by ring|]; apply Rmult_le_compat; lra. }
    set (X := f_R dx) in *. set (Z := f_R dz) in *. pose proof (sq_nonneg X) as X2. pose proof (sq_nonneg Z) as Z2.
    pose proof (rnd_err2 (X * X)) as G1. pose proof (rnd_err2 (Z * Z)) as G2. rewrite (Rabs_pos_eq (X * X)) in G1 by done. rewrite (Rabs_pos_eq (Z * Z)) in G2 by done.
    rewrite <-E1 in G1. rewrite <-E2 in G2.
    assert (0 <= f_R p1) as N1 by (rewrite E1, <-rnd_0; by apply rnd_mono). assert (0 <= f_R p2) as N2 by (rewrite E2, <-rnd_0; by apply rnd_mono).
    apply Rabs_le_inv in Q1, Q2, G1, G2.
    destruct (add_ok p1 p2 (20 * (M * M))) as (PS & ES & _); [done|done|apply Rabs_le; lra|lra|].
    pose proof (rnd_err2 (f_R p1 + f_R p2)) as GS. rewrite (Rabs_pos_eq (f_R p1 + f_R p2)) in GS by lra. rewrite <-ES in GS. apply Rabs_le_inv in GS.
    assert (0 <= f_R (f_add p1 p2)) as NS by (rewrite ES, <-rnd_0; apply rnd_mono; lra).
    set (s := f_add p1 p2) in *. destruct (f_sqrt_R s) as [EL FL]; [apply PS|apply PS|done|].
    assert (fin (f_sqrt s)) as FL' by (split; [apply f_sqrt_valid, PS|done]). split; [exact FL'|].
    set (r := R_sqrt.sqrt (f_R s)) in *. assert (0 <= r) as Nr by apply sqrt_pos. assert (r * r = f_R s) as Er by (by apply sqrt_sqrt).
    assert (r <= 46 / 10 * M) as Br. { apply sqrt_le_by; [lra|]. replace (46 / 10 * M * (46 / 10 * M)) with (2116 / 100 * (M * M)) by field. rewrite U in GS. lra. }
    pose proof (rnd_err2 r) as GL. rewrite (Rabs_pos_eq r) in GL by done. rewrite <-EL in GL. apply Rabs_le_inv in GL.
    assert (0 <= f_R (f_sqrt s)) as NL by (rewrite EL, <-rnd_0; by apply rnd_mono). set (L := f_R (f_sqrt s)) in *.
    split; [split; [done|]; rewrite U in *; lra|].
    assert (f_R s >= (1 - 2 * f_u) * (X * X + Z * Z) - 4 * f_tiny) as HS.
    { rewrite U in *. lra. }
    destruct tiny_root as (d & Hd & Ed).
    assert (R_sqrt.sqrt (X * X + Z * Z) <= r * (1 + 3 * f_u) + d) as Hc.
    { apply sqrt_le_by; [assert (0 <= r * (1 + 3 * f_u)) by (apply Rmult_le_pos; rewrite ?U; lra); lra|].
      assert (0 <= r * d) as Hrd by (apply Rmult_le_pos; lra).
      replace ((r * (1 + 3 * f_u) + d) * (r * (1 + 3 * f_u) + d)) with ((r * r) * ((1 + 3 * f_u) * (1 + 3 * f_u)) + 2 * (r * d) * (1 + 3 * f_u) + d * d) by ring.
      rewrite Er, Ed. assert (0 <= 2 * (r * d) * (1 + 3 * f_u)) by (apply Rmult_le_pos; rewrite ?U; lra).
      assert (f_R s * (1 + 6 * f_u) <= f_R s * ((1 + 3 * f_u) * (1 + 3 * f_u))) by (apply Rmult_le_compat_l; [done|rewrite U; lra]).
      set (h := X * X + Z * Z) in *. rewrite U in *. lra. }
    set (ex := f_R (v_x b) - f_R (v_x a) - X). set (ez := f_R (v_z b) - f_R (v_z a) - Z).
    replace (f_R (v_x b) - f_R (v_x a)) with (X + ex) by (unfold ex; ring). replace (f_R (v_z b) - f_R (v_z a)) with (Z + ez) by (unfold ez; ring).
    eapply Rle_trans; [apply hypot_near|].
    assert (Rabs ex <= f_u * (2 * M)) as Hex by (unfold ex; rewrite Rabs_minus_sym; done). assert (Rabs ez <= f_u * (2 * M)) as Hez by (unfold ez; rewrite Rabs_minus_sym; done).
    assert (r * (1 + 3 * f_u) <= L * (1 + 6 * f_u) + 2 * f_tiny) as HrL by (rewrite U in *; lra).
    assert (f_u <= f_u * M) by (rewrite U; lra). lra.
  Qed.

  (** Without a limit on the number of samples, successive ones are at most the sampling
      distance apart. *)
  Lemma count_ok p nv a b n : fin (v_x a) → fin (v_z a) → fin (v_x b) → fin (v_z b) →
    Rabs (f_R (v_x a)) <= M → Rabs (f_R (v_z a)) <= M → Rabs (f_R (v_x b)) <= M → Rabs (f_R (v_z b)) <= M →
    fin (dp_dist p) → M / 32768 <= f_R (dp_dist p) <= M → edge_count p nv a b n →
    n = 31%nat ∨ (nv + n = 126)%nat ∨ plan_len a b <= INR n * (f_R (dp_dist p) * (1 + / 524288)) + 6 * f_u * M.
  Proof.
    intros Fxa Fza Fxb Fzb Rxa Rza Rxb Rzb Fd Hd Hc. pose proof f_u_val as U. pose proof big_105 as BB. pose proof tiny_pos as T0. pose proof tiny_u as T1.
    destruct (len_ok a b) as (FL & BL & DL); [done..|]. unfold edge_count in Hc. set (L := edge_len a b) in *. set (dist := dp_dist p) in *.
    assert (0 < f_R dist) as Hd0 by lra.
    assert (0 <= f_R L / f_R dist <= 163840) as HQ.
    { split; [apply Rmult_le_pos; [lra|apply Rlt_le, Rinv_0_lt_compat, Hd0]|]. apply Rmult_le_reg_r with (f_R dist); [done|]. unfold Rdiv. rewrite Rmult_assoc, Rinv_l, Rmult_1_r by lra. lra. }
    destruct (f_div_R L dist) as [EQ FQ]; [apply FL|apply Fd|apply FL|lra|apply big_rnd; rewrite Rabs_pos_eq; lra|].
    set (q := f_div L dist) in *. pose proof (rnd_err2 (f_R L / f_R dist)) as GQ. rewrite (Rabs_pos_eq (f_R L / f_R dist)) in GQ by lra. rewrite <-EQ in GQ. apply Rabs_le_inv in GQ.
    assert (0 <= f_R q) as Nq by (rewrite EQ, <-rnd_0; apply rnd_mono; lra).
    assert (f_R q < 200000) as Bq by (rewrite U in *; lra).
    rewrite cast_floor in Hc by done. set (c := Zfloor (f_R q)) in *.
    assert (IZR c <= f_R q) as C1 by apply Zfloor_lb. assert (f_R q < IZR c + 1) as C2 by apply Zfloor_ub.
    assert (0 <= c < 200000)%Z as C3. { split; [apply le_IZR; apply Zfloor_le in Nq; rewrite Zfloor_IZR in Nq; by apply IZR_le|apply lt_IZR; lra]. }
    unfold sat, U64_MAX in Hc. destruct (decide (n = 31%nat)) as [|N1]; [by left|right]. destruct (decide (nv + n = 126)%nat) as [|N2]; [by left|right].
    assert (Z.of_nat n = 1 + c)%Z as En by lia. rewrite INR_IZR_INZ, En, plus_IZR.
    assert (f_R L = f_R L / f_R dist * f_R dist) as ELd by (unfold Rdiv; rewrite Rmult_assoc, Rinv_l; lra).
    set (g := f_R L / f_R dist) in *.
    assert (g <= (1 + IZR c) * (1 + 2 * f_u) + 2 * f_tiny) as Hg.
    { assert (0 <= IZR c) by (apply IZR_le; lia). rewrite U in *. lra. }
    assert (f_R L <= ((1 + IZR c) * (1 + 2 * f_u) + 2 * f_tiny) * f_R dist) as HL by (rewrite ELd; apply Rmult_le_compat_r; lra).
    assert (f_R L * (1 + 6 * f_u) <= ((1 + IZR c) * (1 + 2 * f_u) + 2 * f_tiny) * f_R dist * (1 + 6 * f_u)) as HL' by (apply Rmult_le_compat_r; [rewrite U; lra|exact HL]).
    assert (f_tiny * f_R dist <= f_u / 64 * M) as HT by (apply Rmult_le_compat; lra).
    assert (0 <= (1 + IZR c) * f_R dist) as HN by (apply Rmult_le_pos; [assert (0 <= IZR c) by (apply IZR_le; lia); lra|lra]).
    set (k := (1 + IZR c) * f_R dist) in *. set (y := f_tiny * f_R dist) in *.
    replace (((1 + IZR c) * (1 + 2 * f_u) + 2 * f_tiny) * f_R dist * (1 + 6 * f_u)) with (k * ((1 + 2 * f_u) * (1 + 6 * f_u)) + 2 * y * (1 + 6 * f_u)) in HL' by (unfold k, y; ring).
    replace ((1 + IZR c) * (f_R dist * (1 + / 524288))) with (k * (1 + / 524288)) by (unfold k; ring).
    eapply Rle_trans; [exact DL|]. clearbody k y. rewrite U in *. lra.
  Qed.
End step.
