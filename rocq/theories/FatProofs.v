(** The distance of a point from a triangle that is not thin, in real numbers. *)
From Coq Require Import Reals Lra.
From Flocq Require Import Core.Core.
From Verif Require Import Base ModelMath ModelTriMesh ModelDetail FloatOrder FloatReal FloatSpotProofs CameraProofs FloatClipProofs SampleProofs SpecClipping SpecDetail SpecRefine
  ToleranceProofs RefineProofs EdgeStepProofs.
From Coq Require Import Floats.SpecFloat.
Local Open Scope R_scope.

Lemma prod_near x y x' y' e f X Y : Rabs (x - x') <= e → Rabs (y - y') <= f → Rabs x <= X → Rabs y' <= Y → Rabs (x * y - x' * y') <= X * f + e * Y.
Proof.
  intros H1 H2 H3 H4. replace (x * y - x' * y') with (x * (y - y') + (x - x') * y') by ring. eapply Rle_trans; [apply Rabs_triang|]. rewrite !Rabs_mult.
  apply Rplus_le_compat; apply Rmult_le_compat; try apply Rabs_pos; done.
Qed.
Lemma prod_le x y X Y : Rabs x <= X → Rabs y <= Y → Rabs (x * y) <= X * Y.
Proof. intros H1 H2. rewrite Rabs_mult. apply Rmult_le_compat; try apply Rabs_pos; done. Qed.

Section fat.
  Context (T : R) (HT : 1 <= T <= 1100000).
  Let Q := T * T.
  Local Lemma Q_range : 1 <= Q <= 1210000000000.
  Proof. unfold Q. split; [replace 1 with (1 * 1) by ring|replace 1210000000000 with (1100000 * 1100000) by ring]; apply Rmult_le_compat; lra. Qed.
  Local Lemma QQ_range : 1 <= Q * Q <= 1464100000000000000000000.
  Proof. pose proof Q_range. split; [replace 1 with (1 * 1) by ring|replace 1464100000000000000000000 with (1210000000000 * 1210000000000) by ring]; apply Rmult_le_compat; lra. Qed.

  (** A scalar product in the plane. *)
  Lemma dot2_ok x1 z1 x2 z2 : fin x1 → fin z1 → fin x2 → fin z2 → Rabs (f_R x1) <= T → Rabs (f_R z1) <= T → Rabs (f_R x2) <= T → Rabs (f_R z2) <= T →
    let d := f_add (f_mul x1 x2) (f_mul z1 z2) in let r := f_R x1 * f_R x2 + f_R z1 * f_R z2 in
    fin d ∧ Rabs (f_R d - r) <= 5 * f_u * Q ∧ Rabs (f_R d) <= 201 / 100 * Q ∧ Rabs r <= 2 * Q.
  Proof.
    intros Fx1 Fz1 Fx2 Fz2 Bx1 Bz1 Bx2 Bz2. cbv zeta. pose proof f_u_val as U. pose proof big_105 as BB. pose proof Q_range as HQ.
    pose proof (prod_le _ _ _ _ Bx1 Bx2) as P1. pose proof (prod_le _ _ _ _ Bz1 Bz2) as P2. fold Q in P1, P2.
    destruct (mul_ok x1 x2 Q) as (F1 & _ & D1); [done|done|done|lra|]. destruct (mul_ok z1 z2 Q) as (F2 & _ & D2); [done|done|done|lra|].
    apply Rabs_le_inv in P1, P2, D1, D2.
    destruct (add_ok (f_mul x1 x2) (f_mul z1 z2) (2001 / 1000 * Q)) as (F3 & _ & D3); [done|done|apply Rabs_le; rewrite U in *; lra|lra|]. apply Rabs_le_inv in D3.
    split; [done|]. split_and!; apply Rabs_le; rewrite U in *; lra.
  Qed.

  (** A difference of products of scalar products. *)
  Lemma det_ok d1 d2 d3 d4 r1 r2 r3 r4 : fin d1 → fin d2 → fin d3 → fin d4 →
    Rabs (f_R d1 - r1) <= 5 * f_u * Q → Rabs (f_R d2 - r2) <= 5 * f_u * Q → Rabs (f_R d3 - r3) <= 5 * f_u * Q → Rabs (f_R d4 - r4) <= 5 * f_u * Q →
    Rabs (f_R d1) <= 201 / 100 * Q → Rabs (f_R d2) <= 201 / 100 * Q → Rabs (f_R d3) <= 201 / 100 * Q → Rabs (f_R d4) <= 201 / 100 * Q →
    Rabs r1 <= 2 * Q → Rabs r2 <= 2 * Q → Rabs r3 <= 2 * Q → Rabs r4 <= 2 * Q →
    let e := f_sub (f_mul d1 d2) (f_mul d3 d4) in let r := r1 * r2 - r3 * r4 in
    fin e ∧ Rabs (f_R e - r) <= 64 * f_u * (Q * Q) ∧ Rabs r <= 8 * (Q * Q).
  Proof.
    intros F1 F2 F3 F4 D1 D2 D3 D4 B1 B2 B3 B4 R1 R2 R3 R4. cbv zeta. pose proof f_u_val as U. pose proof big_105 as BB. pose proof QQ_range as HQ.
    pose proof (prod_near _ _ _ _ _ _ _ _ D1 D2 B1 R2) as N1. pose proof (prod_near _ _ _ _ _ _ _ _ D3 D4 B3 R4) as N3.
    pose proof (prod_le _ _ _ _ B1 B2) as P1. pose proof (prod_le _ _ _ _ B3 B4) as P3. pose proof (prod_le _ _ _ _ R1 R2) as S1. pose proof (prod_le _ _ _ _ R3 R4) as S3.
    replace (201 / 100 * Q * (201 / 100 * Q)) with (40401 / 10000 * (Q * Q)) in P1, P3 by field. replace (2 * Q * (2 * Q)) with (4 * (Q * Q)) in S1, S3 by ring.
    replace (201 / 100 * Q * (5 * f_u * Q) + 5 * f_u * Q * (2 * Q)) with (2005 / 100 * f_u * (Q * Q)) in N1, N3 by field. set (q := Q * Q) in *.
    destruct (mul_ok d1 d2 (40401 / 10000 * q)) as (G1 & _ & E1); [done|done|done|lra|]. destruct (mul_ok d3 d4 (40401 / 10000 * q)) as (G3 & _ & E3); [done|done|done|lra|].
    apply Rabs_le_inv in N1, N3, P1, P3, S1, S3, E1, E3.
    destruct (sub_ok (f_mul d1 d2) (f_mul d3 d4) (9 * q)) as (G5 & _ & E5); [done|done|apply Rabs_le; clearbody q; rewrite U in *; lra|lra|]. apply Rabs_le_inv in E5.
    split; [done|]. clearbody q. split; apply Rabs_le; rewrite U in *; lra.
  Qed.

  (** A weight, from the numerator and the determinant. *)
  Lemma weight_ok K N D n d : 1 <= K <= 256 → fin N → fin D → Rabs (f_R N - n) <= 64 * f_u * (Q * Q) → Rabs (f_R D - d) <= 64 * f_u * (Q * Q) →
    Rabs n <= 8 * (Q * Q) → Q * Q <= K * d → d <= 8 * (Q * Q) →
    let w := f_mul N (f_div f_one D) in fin w ∧ Rabs (f_R w) <= 2600 ∧ (Rabs (f_R w) <= 2 ∨ Rabs (n / d) <= 101 / 100 → Rabs (f_R w - n / d) <= 256 * K * f_u).
  Proof.
    intros HK FN FD DN DD Bn Hd Bd. cbv zeta. pose proof f_u_val as U. pose proof big_105 as BB. pose proof QQ_range as HQ. pose proof tiny_pos as T0. pose proof tiny_u as T1.
    set (q := Q * Q) in *. clearbody q. apply Rabs_le_inv in DN, DD, Bn.
    assert (q <= 256 * d) as Hd256. { assert (0 <= d) as Hd0 by (destruct (Rle_or_lt 0 d); [done|assert (K * d <= 0) by nra; lra]). apply Rle_trans with (K * d); [done|]. apply Rmult_le_compat_r; lra. }
    assert (0 < d) as Hd0 by lra.
    assert (64 * f_u * q <= d / 500) as Hs by (rewrite U; lra).
    assert (499 / 500 * d <= f_R D <= 501 / 500 * d) as HD by lra. assert (0 < f_R D) as HD0 by lra.
    assert (0 < / f_R D <= 257) as Hi.
    { split; [by apply Rinv_0_lt_compat|]. apply Rmult_le_reg_r with (f_R D); [done|]. rewrite Rinv_l by lra. lra. }
    destruct (int_fin 1) as [F1 E1]; [lia|]. change f_one with (f_of_Z 1).
    destruct (f_div_R (f_of_Z 1) D) as [EI FI]; [apply F1|apply FD|apply F1|lra|rewrite E1; apply big_rnd; unfold Rdiv; rewrite Rmult_1_l, Rabs_pos_eq; lra|].
    rewrite E1 in EI. unfold Rdiv in EI. rewrite Rmult_1_l in EI.
    assert (fin (f_div (f_of_Z 1) D)) as FI' by (split; [apply f_div_valid; [apply F1|apply FD]|done]). set (I := f_div (f_of_Z 1) D) in *.
    pose proof (rnd_err2 (/ f_R D)) as GI. rewrite <-EI, (Rabs_pos_eq (/ f_R D)) in GI by lra. apply Rabs_le_inv in GI.
    set (i := / f_R D) in *. assert (i * f_R D = 1) as Ei by (unfold i; rewrite Rinv_l; lra).
    assert (Rabs (f_R N) <= 9 * q) as BN by (apply Rabs_le; rewrite U in *; lra).
    (* the product *)
    assert (Rabs (f_R N * f_R I - f_R N * i) <= f_u * Rabs (f_R N * i) + f_u / 100) as GP.
    { replace (f_R N * f_R I - f_R N * i) with (f_R N * (f_R I - i)) by ring. rewrite !Rabs_mult, (Rabs_pos_eq i) by lra.
      apply Rle_trans with (Rabs (f_R N) * (f_u * i + f_tiny)); [apply Rmult_le_compat_l; [apply Rabs_pos|by apply Rabs_le]|].
      assert (Rabs (f_R N) * f_tiny <= f_u / 100).
      { apply Rle_trans with (9 * q * f_tiny); [apply Rmult_le_compat_r; lra|]. apply Rle_trans with (16384 * 1099511627776 * 1099511627776 * f_tiny); [apply Rmult_le_compat_r; lra|].
        unfold f_tiny. rewrite U. replace (16384 * 1099511627776 * 1099511627776) with (powerRZ 2 94) by (unfold powerRZ; change (Pos.to_nat 94) with 94%nat; cbn [Rpow_def.pow]; lra).
        rewrite <-!bp, <-bpow_plus. apply Rle_trans with (bpow radix2 (-31)); [apply bpow_le; lia|]. rewrite bp. unfold powerRZ. change (Pos.to_nat 31) with 31%nat. cbn [Rpow_def.pow]. lra. }
      lra. }
    assert (Rabs (f_R N * i) <= 2400) as BP.
    { rewrite Rabs_mult, (Rabs_pos_eq i) by lra. apply Rle_trans with (9 * q * i); [apply Rmult_le_compat_r; lra|].
      assert (q <= 257 * f_R D) by lra. apply Rle_trans with (9 * (257 * f_R D) * i); [apply Rmult_le_compat_r; lra|]. replace (9 * (257 * f_R D) * i) with (9 * (257) * (i * f_R D)) by ring. rewrite Ei. lra. }
    set (w0 := f_R N * i) in *. apply Rabs_le_inv in GP.
    assert (Rabs (f_R N * f_R I) <= 2500) as BP'. { apply Rabs_le. pose proof (Rabs_le_inv _ _ BP). rewrite U in *. lra. }
    destruct (mul_ok N I 2500) as (FW & EW & DW); [done|done|done|lra|]. split; [done|].
    split. { apply Rabs_le_inv in BP', DW. apply Rabs_le. rewrite U in *. lra. } clear DW. intros Hw.
    pose proof (rnd_err2 (f_R N * f_R I)) as GW. rewrite <-EW in GW. set (w := f_R (f_mul N I)) in *.
    set (ni := f_R N * f_R I) in *. clearbody ni w.
    (* the exact quotient *)
    set (rho := n / d). assert (n = rho * d) as En by (unfold rho, Rdiv; rewrite Rmult_assoc, Rinv_l; lra).
    assert (w0 - rho = ((f_R N - n) - rho * (f_R D - d)) * i) as Ew.
    { replace ((f_R N - n - rho * (f_R D - d)) * i) with (f_R N * i - rho * (i * f_R D) + (rho * d - n) * i) by ring. rewrite Ei, <-En. unfold w0. ring. }
    assert (q * i <= 101 / 100 * K) as Hqi.
    { apply Rle_trans with (K * d * i); [apply Rmult_le_compat_r; lra|]. assert (d * i <= 101 / 100). { apply Rle_trans with (101 / 100 * f_R D * i); [apply Rmult_le_compat_r; lra|]. rewrite Rmult_assoc, (Rmult_comm (f_R D)), Ei. lra. }
      replace (K * d * i) with (K * (d * i)) by ring. rewrite (Rmult_comm (101 / 100)). apply Rmult_le_compat_l; lra. }
    assert (Rabs (w0 - rho) <= 65 * f_u * K * (1 + Rabs rho)) as Hwr.
    { rewrite Ew, Rabs_mult, (Rabs_pos_eq i) by lra. apply Rle_trans with (64 * f_u * q * (1 + Rabs rho) * i).
      - apply Rmult_le_compat_r; [lra|]. unfold Rminus at 1. eapply Rle_trans; [apply Rabs_triang|]. rewrite Rabs_Ropp, Rabs_mult.
        assert (Rabs rho * Rabs (f_R D - d) <= Rabs rho * (64 * f_u * q)) by (apply Rmult_le_compat_l; [apply Rabs_pos|by apply Rabs_le]).
        assert (Rabs (f_R N - n) <= 64 * f_u * q) by (by apply Rabs_le). lra.
      - replace (64 * f_u * q * (1 + Rabs rho) * i) with (64 * f_u * (1 + Rabs rho) * (q * i)) by ring. replace (65 * f_u * K * (1 + Rabs rho)) with (65 * f_u * (1 + Rabs rho) * K) by ring.
        assert (0 <= f_u * (1 + Rabs rho)) as Hnn by (apply Rmult_le_pos; [rewrite U; lra|pose proof (Rabs_pos rho); lra]).
        apply Rle_trans with (64 * f_u * (1 + Rabs rho) * (101 / 100 * K)); [apply Rmult_le_compat_l; lra|].
        pose proof (Rmult_le_pos _ K Hnn ltac:(lra)). lra. }
    assert (65 * f_u * K <= 1 / 500) as HuK by (rewrite U; lra).
    assert (Rabs ni <= 2001 / 1000 ∧ Rabs w0 <= 2002 / 1000 ∧ Rabs rho <= 201 / 100) as (Bni & Bw0 & Br).
    { pose proof (Rabs_pos rho) as Pr0. destruct Hw as [Hw|Hw].
      - assert (Rabs ni <= 2001 / 1000) as Bni. { pose proof (Rabs_triang w (ni - w)) as Tr. replace (w + (ni - w)) with ni in Tr by ring. rewrite (Rabs_minus_sym ni w) in Tr. pose proof (Rabs_pos ni). rewrite U in *. lra. }
      assert (Rabs w0 <= 2002 / 1000) as Bw0. { pose proof (Rabs_triang ni (w0 - ni)) as Tr. replace (ni + (w0 - ni)) with w0 in Tr by ring. assert (Rabs (w0 - ni) <= f_u * Rabs w0 + f_u / 100) by (rewrite Rabs_minus_sym; by apply Rabs_le). pose proof (Rabs_pos w0). rewrite U in *. lra. }
        assert (Rabs rho <= 201 / 100) as Br.
        { pose proof (Rabs_triang w0 (rho - w0)) as Tr. replace (w0 + (rho - w0)) with rho in Tr by ring. rewrite (Rabs_minus_sym rho) in Tr. pose proof (Rabs_pos rho) as Pr.
          assert (65 * f_u * K * (1 + Rabs rho) <= 1 / 500 * (1 + Rabs rho)) by (apply Rmult_le_compat_r; lra). lra. }
        split; [done|]. by split.
      - fold rho in Hw. assert (65 * f_u * K * (1 + Rabs rho) <= 1 / 500 * (1 + Rabs rho)) by (apply Rmult_le_compat_r; lra).
        apply Rabs_le_inv in Hw, Hwr. assert (Rabs rho <= 101 / 100) by (by apply Rabs_le). assert (Rabs w0 <= 102 / 100) as Bw0 by (apply Rabs_le; lra).
        assert (Rabs (ni - w0) <= f_u * Rabs w0 + f_u / 100) as Hnw by (by apply Rabs_le). apply Rabs_le_inv in Hnw. pose proof (Rabs_le_inv _ _ Bw0).
        split; [apply Rabs_le; rewrite U in *; lra|]. split; lra. }
    assert (Rabs (w - w0) <= 5 * f_u) as Hww.
    { replace (w - w0) with ((w - ni) + (ni - w0)) by ring. eapply Rle_trans; [apply Rabs_triang|]. assert (Rabs (ni - w0) <= f_u * Rabs w0 + f_u / 100) by (by apply Rabs_le). rewrite U in *. lra. }
    replace (w - rho) with ((w - w0) + (w0 - rho)) by ring. eapply Rle_trans; [apply Rabs_triang|].
    assert (65 * f_u * K * (1 + Rabs rho) <= 65 * f_u * K * (301 / 100)) by (apply Rmult_le_compat_l; [rewrite U; lra|lra]).
    assert (f_u * 1 <= f_u * K) by (apply Rmult_le_compat_l; [rewrite U|]; lra). lra.
  Qed.
End fat.

Lemma fin_1em4 : fin c_1em4 ∧ fin (f_neg c_1em4) ∧ / 10001 <= f_R c_1em4 <= / 9999 ∧ f_R (f_neg c_1em4) = - f_R c_1em4.
Proof.
  change c_1em4 with (S754_finite false 13743895 (-37)). change (f_neg (S754_finite false 13743895 (-37))) with (S754_finite true 13743895 (-37)).
  split; [split; [vm_compute; reflexivity|exact I]|]. split; [split; [vm_compute; reflexivity|exact I]|].
  unfold f_R, powerRZ. change (Pos.to_nat 37) with 37%nat. cbn [Rpow_def.pow]. lra.
Qed.

Lemma abs_ok x : fin x → fin (f_abs x) ∧ f_R (f_abs x) = Rabs (f_R x).
Proof.
  intros [V F]. destruct x as [[]|[]| |[] m e]; try done; (split; [split; [exact V|done]|]); unfold f_abs, SFabs, f_R; rewrite ?Rabs_R0; try done.
  - pose proof (powerRZ_lt 2 e ltac:(lra)). rewrite Rabs_mult, (Rabs_pos_eq (powerRZ 2 e)) by lra. f_equal. rewrite Rabs_left; [|apply IZR_lt; lia]. by rewrite <-opp_IZR.
  - pose proof (powerRZ_lt 2 e ltac:(lra)). rewrite Rabs_pos_eq; [done|]. apply Rmult_le_pos; [apply IZR_le; lia|lra].
Qed.

(** A difference of coordinates. *)
Lemma delta_ok S x y : 1 <= S <= 1099511627776 → fin x → fin y → Rabs (f_R x - f_R y) <= S →
  fin (f_sub x y) ∧ Rabs (f_R (f_sub x y) - (f_R x - f_R y)) <= f_u * S ∧ Rabs (f_R (f_sub x y)) <= 101 / 100 * S.
Proof.
  intros HS Fx Fy H. pose proof big_105 as BB. pose proof f_u_val as U. destruct (sub_ok x y S) as (F & _ & D); [done|done|done|lra|].
  split; [done|]. split; [done|]. apply Rabs_le_inv in H, D. apply Rabs_le. rewrite U in *. lra.
Qed.

(** The weights that [dist_pt_tri] computes. *)
Definition wt_inv (a b c : vec3) : f32 :=
  let v0 := v_sub c a in let v1 := v_sub b a in
  f_div f_one (f_sub (f_mul (dot2 (xz v0) (xz v0)) (dot2 (xz v1) (xz v1))) (f_mul (dot2 (xz v0) (xz v1)) (dot2 (xz v0) (xz v1)))).
Definition wt_u (p a b c : vec3) : f32 :=
  let v0 := v_sub c a in let v1 := v_sub b a in let v2 := v_sub p a in
  f_mul (f_sub (f_mul (dot2 (xz v1) (xz v1)) (dot2 (xz v0) (xz v2))) (f_mul (dot2 (xz v0) (xz v1)) (dot2 (xz v1) (xz v2)))) (wt_inv a b c).
Definition wt_v (p a b c : vec3) : f32 :=
  let v0 := v_sub c a in let v1 := v_sub b a in let v2 := v_sub p a in
  f_mul (f_sub (f_mul (dot2 (xz v0) (xz v0)) (dot2 (xz v1) (xz v2))) (f_mul (dot2 (xz v0) (xz v1)) (dot2 (xz v0) (xz v2)))) (wt_inv a b c).
Lemma dist_pt_tri_wt p a b c : dist_pt_tri p a b c =
  if f_le (f_neg c_1em4) (wt_u p a b c) && f_le (f_neg c_1em4) (wt_v p a b c) && f_le (f_add (wt_u p a b c) (wt_v p a b c)) (f_add f_one c_1em4) then
    Some (f_abs (f_sub (f_add (f_add (v_y a) (f_mul (f_sub (v_y c) (v_y a)) (wt_u p a b c))) (f_mul (f_sub (v_y b) (v_y a)) (wt_v p a b c))) (v_y p)))
  else None.
Proof. reflexivity. Qed.

(** They are near exact weights. *)
Lemma weights_ok K S p a b c : 1 <= K <= 128 → 1 <= S <= 1048576 → (∀ v, v ∈ [p; a; b; c] → fin (v_x v) ∧ fin (v_z v)) →
  spread S a p → spread S a b → spread S a c → fat K S a b c →
  let u := wt_u p a b c in let v := wt_v p a b c in
  let X0 := f_R (f_sub (v_x c) (v_x a)) in let Z0 := f_R (f_sub (v_z c) (v_z a)) in let X1 := f_R (f_sub (v_x b) (v_x a)) in let Z1 := f_R (f_sub (v_z b) (v_z a)) in
  ∃ wU wV, fin u ∧ fin v ∧ Rabs (f_R u) <= 2600 ∧ Rabs (f_R v) <= 2600 ∧
    (Rabs (f_R u) <= 2 ∨ Rabs wU <= 101 / 100 → Rabs (f_R u - wU) <= 256 * (105 / 100 * K) * f_u) ∧
    (Rabs (f_R v) <= 2 ∨ Rabs wV <= 101 / 100 → Rabs (f_R v - wV) <= 256 * (105 / 100 * K) * f_u) ∧
    wU * X0 + wV * X1 = f_R (f_sub (v_x p) (v_x a)) ∧ wU * Z0 + wV * Z1 = f_R (f_sub (v_z p) (v_z a)) ∧
    0 < (X0 * Z1 - X1 * Z0) * (X0 * Z1 - X1 * Z0) ∧
    101 / 100 * S * (101 / 100 * S) * (101 / 100 * S * (101 / 100 * S)) <= 105 / 100 * K * ((X0 * Z1 - X1 * Z0) * (X0 * Z1 - X1 * Z0)).
Proof.
  intros HK HS Hfin Sp Sb Sc Hfat. pose proof f_u_val as U. pose proof big_105 as BB. cbv zeta.
  destruct (Hfin p) as (Fpx & Fpz); [set_solver|]. destruct (Hfin a) as (Fax & Faz); [set_solver|].
  destruct (Hfin b) as (Fbx & Fbz); [set_solver|]. destruct (Hfin c) as (Fcx & Fcz); [set_solver|]. clear Hfin.
  unfold fat in Hfat. cbv zeta in Hfat. destruct Sp as [Spx Spz]. destruct Sb as [Sbx Sbz]. destruct Sc as [Scx Scz].
  assert (1 <= S <= 1099511627776) as HS' by lra.
  destruct (delta_ok S _ _ HS' Fcx Fax Scx) as (F0 & D0 & B0). destruct (delta_ok S _ _ HS' Fcz Faz Scz) as (G0 & E0 & C0).
  destruct (delta_ok S _ _ HS' Fbx Fax Sbx) as (F1 & D1 & B1). destruct (delta_ok S _ _ HS' Fbz Faz Sbz) as (G1 & E1 & C1).
  destruct (delta_ok S _ _ HS' Fpx Fax Spx) as (F2 & D2 & B2). destruct (delta_ok S _ _ HS' Fpz Faz Spz) as (G2 & E2 & C2).
  set (T := 101 / 100 * S) in *. assert (1 <= T <= 1100000) as HT by (unfold T; lra).
  unfold wt_u, wt_v, wt_inv, dot2. cbn [xz v_sub v_x v_y v_z fst snd].
  set (x0 := f_sub (v_x c) (v_x a)) in *. set (z0 := f_sub (v_z c) (v_z a)) in *. set (x1 := f_sub (v_x b) (v_x a)) in *. set (z1 := f_sub (v_z b) (v_z a)) in *.
  set (x2 := f_sub (v_x p) (v_x a)) in *. set (z2 := f_sub (v_z p) (v_z a)) in *.
  destruct (dot2_ok T HT x0 z0 x0 z0) as (P00 & A00 & L00 & R00); [done..|]. destruct (dot2_ok T HT x0 z0 x1 z1) as (P01 & A01 & L01 & R01); [done..|].
  destruct (dot2_ok T HT x0 z0 x2 z2) as (P02 & A02 & L02 & R02); [done..|]. destruct (dot2_ok T HT x1 z1 x1 z1) as (P11 & A11 & L11 & R11); [done..|].
  destruct (dot2_ok T HT x1 z1 x2 z2) as (P12 & A12 & L12 & R12); [done..|].
  set (d00 := f_add (f_mul x0 x0) (f_mul z0 z0)) in *. set (d01 := f_add (f_mul x0 x1) (f_mul z0 z1)) in *. set (d02 := f_add (f_mul x0 x2) (f_mul z0 z2)) in *.
  set (d11 := f_add (f_mul x1 x1) (f_mul z1 z1)) in *. set (d12 := f_add (f_mul x1 x2) (f_mul z1 z2)) in *.
  set (X0 := f_R x0) in *. set (Z0 := f_R z0) in *. set (X1 := f_R x1) in *. set (Z1 := f_R z1) in *. set (X2 := f_R x2) in *. set (Z2 := f_R z2) in *.
  destruct (det_ok T HT _ _ _ _ _ _ _ _ P00 P11 P01 P01 A00 A11 A01 A01 L00 L11 L01 L01 R00 R11 R01 R01) as (PD & AD & LD).
  destruct (det_ok T HT _ _ _ _ _ _ _ _ P11 P02 P01 P12 A11 A02 A01 A12 L11 L02 L01 L12 R11 R02 R01 R12) as (PU & AU & LU).
  destruct (det_ok T HT _ _ _ _ _ _ _ _ P00 P12 P01 P02 A00 A12 A01 A02 L00 L12 L01 L02 R00 R12 R01 R02) as (PV & AV & LV).
  clear A00 A01 A02 A11 A12 L00 L01 L02 L11 L12 R00 R01 R02 R11 R12.
  set (dd := f_sub (f_mul d00 d11) (f_mul d01 d01)) in *. set (nu := f_sub (f_mul d11 d02) (f_mul d01 d12)) in *. set (nv := f_sub (f_mul d00 d12) (f_mul d01 d02)) in *.
  set (cr := X0 * Z1 - X1 * Z0).
  replace ((X0 * X0 + Z0 * Z0) * (X1 * X1 + Z1 * Z1) - (X0 * X1 + Z0 * Z1) * (X0 * X1 + Z0 * Z1)) with (cr * cr) in AD, LD by (unfold cr; ring).
  set (NU := (X1 * X1 + Z1 * Z1) * (X0 * X2 + Z0 * Z2) - (X0 * X1 + Z0 * Z1) * (X1 * X2 + Z1 * Z2)) in *.
  set (NV := (X0 * X0 + Z0 * Z0) * (X1 * X2 + Z1 * Z2) - (X0 * X1 + Z0 * Z1) * (X0 * X2 + Z0 * Z2)) in *.
  (* the determinant *)
  assert (T * T * (T * T) <= 105 / 100 * K * (cr * cr)) as Hdet.
  { pose proof (prod_near _ _ _ _ _ _ _ _ D0 E1 B0 Sbz) as N1. pose proof (prod_near _ _ _ _ _ _ _ _ D1 E0 B1 Scz) as N2.
    set (t1 := (f_R (v_x c) - f_R (v_x a)) * (f_R (v_z b) - f_R (v_z a))) in *. set (t2 := (f_R (v_x b) - f_R (v_x a)) * (f_R (v_z c) - f_R (v_z a))) in *.
    set (q := S * S) in *. replace (T * (f_u * S) + f_u * S * S) with (201 / 100 * f_u * q) in N1, N2 by (unfold T, q; field).
    assert (0 < q) as Hq by (apply Rmult_lt_0_compat; lra).
    assert (q <= 12 * Rabs (t1 - t2)) as Hbig.
    { destruct (Rle_or_lt q (12 * Rabs (t1 - t2))) as [|Hl]; [done|exfalso]. pose proof (Rabs_pos (t1 - t2)) as Hp.
      assert (12 * Rabs (t1 - t2) * (12 * Rabs (t1 - t2)) < q * q) as Hsq by (apply Rmult_le_0_lt_compat; lra).
      assert (Rabs (t1 - t2) * Rabs (t1 - t2) = (t1 - t2) * (t1 - t2)) as Ea by (rewrite <-Rabs_mult; apply Rabs_pos_eq, sq_nonneg).
      pose proof (sq_nonneg (t1 - t2)) as Hnn. assert (K * ((t1 - t2) * (t1 - t2)) <= 128 * ((t1 - t2) * (t1 - t2))) by (apply Rmult_le_compat_r; lra). lra. }
    assert (Rabs (cr - (t1 - t2)) <= Rabs (t1 - t2) / 100000) as Hc.
    { replace (cr - (t1 - t2)) with ((X0 * Z1 - t1) - (X1 * Z0 - t2)) by (unfold cr; ring). unfold Rminus at 1. eapply Rle_trans; [apply Rabs_triang|]. rewrite Rabs_Ropp. rewrite U in N1, N2. lra. }
    assert (99999 / 100000 * Rabs (t1 - t2) <= Rabs cr) as Hc'.
    { pose proof (Rabs_triang cr ((t1 - t2) - cr)) as Tr. replace (cr + (t1 - t2 - cr)) with (t1 - t2) in Tr by ring. rewrite (Rabs_minus_sym (t1 - t2) cr) in Tr. lra. }
    assert (9999 / 10000 * ((t1 - t2) * (t1 - t2)) <= cr * cr) as Hsq.
    { rewrite <-(Rabs_pos_eq ((t1 - t2) * (t1 - t2))) by apply sq_nonneg. rewrite <-(Rabs_pos_eq (cr * cr)) by apply sq_nonneg. rewrite !Rabs_mult.
      pose proof (Rabs_pos (t1 - t2)) as Hp. apply Rle_trans with ((99999 / 100000 * Rabs (t1 - t2)) * (99999 / 100000 * Rabs (t1 - t2))); [|apply Rmult_le_compat; lra].
      pose proof (sq_nonneg (Rabs (t1 - t2))). lra. }
    replace (T * T * (T * T)) with (104060401 / 100000000 * (q * q)) by (unfold T, q; field).
    apply Rle_trans with (104060401 / 100000000 * (K * ((t1 - t2) * (t1 - t2)))); [apply Rmult_le_compat_l; [lra|exact Hfat]|].
    assert (K * (9999 / 10000 * ((t1 - t2) * (t1 - t2))) <= K * (cr * cr)) by (apply Rmult_le_compat_l; lra).
    pose proof (Rmult_le_pos K _ ltac:(lra) (sq_nonneg cr)). lra. }
  apply Rabs_le_inv in LD.
  destruct (weight_ok T HT (105 / 100 * K) nu dd NU (cr * cr)) as (FU & BU & WU); [lra|done|done|done|done|done|exact Hdet|lra|].
  destruct (weight_ok T HT (105 / 100 * K) nv dd NV (cr * cr)) as (FV & BV & WV); [lra|done|done|done|done|done|exact Hdet|lra|].
  assert (0 < cr * cr) as Hcr.
  { destruct (Rle_or_lt (cr * cr) 0) as [Hn|]; [exfalso|done]. assert (105 / 100 * K * (cr * cr) <= 0). { assert (cr * cr = 0) as -> by (pose proof (sq_nonneg cr); lra). lra. }
    assert (0 < T * T * (T * T)) by (repeat apply Rmult_lt_0_compat; lra). lra. }
  exists (NU / (cr * cr)), (NV / (cr * cr)).
  split; [exact FU|]. split; [exact FV|]. split; [exact BU|]. split; [exact BV|]. split; [exact WU|]. split; [exact WV|].
  split. { unfold NU, NV. field_simplify_eq; [unfold cr; ring|intros Hz; rewrite Hz in Hcr; lra]. }
  split. { unfold NU, NV. field_simplify_eq; [unfold cr; ring|intros Hz; rewrite Hz in Hcr; lra]. }
  split; [exact Hcr|exact Hdet].
Qed.

Lemma tri_near K S H err p a b c d : 1 <= K <= 128 → 1 <= S <= 1048576 → 1 <= H <= 549755813888 →
  (∀ v, v ∈ [p; a; b; c] → fin (v_x v) ∧ fin (v_z v) ∧ fin (v_y v) ∧ Rabs (f_R (v_y v)) <= H) →
  spread S a p → spread S a b → spread S a c → fat K S a b c →
  fin err → dist_pt_tri p a b c = Some d → f_lt err d = false →
  near_tri p a b c (/ 5000 + K / 8192) (S / 1048576) (f_R err + K * H / 4096).
Proof.
  intros HK HS HH Hfin Sp Sb Sc Hfat Ferr Hd Hlt. pose proof f_u_val as U. pose proof big_105 as BB.
  pose proof Hfin as Hfin'. destruct (Hfin p) as (Fpx & Fpz & Fpy & Hpy); [set_solver|]. destruct (Hfin a) as (Fax & Faz & Fay & Hay); [set_solver|].
  destruct (Hfin b) as (Fbx & Fbz & Fby & Hby); [set_solver|]. destruct (Hfin c) as (Fcx & Fcz & Fcy & Hcy); [set_solver|]. 
  destruct (weights_ok K S p a b c) as (wU & wV & FU & FV & BU & BV & WU & WV & CX & CZ & _ & _); [done|done|intros x Hx; by destruct (Hfin' x Hx) as (? & ? & _)|done..|].
  clear Hfin' Hfat. destruct Sp as [Spx Spz]. destruct Sb as [Sbx Sbz]. destruct Sc as [Scx Scz].
  assert (1 <= S <= 1099511627776) as HS' by lra.
  destruct (delta_ok S _ _ HS' Fcx Fax Scx) as (F0 & D0 & B0). destruct (delta_ok S _ _ HS' Fcz Faz Scz) as (G0 & E0 & C0).
  destruct (delta_ok S _ _ HS' Fbx Fax Sbx) as (F1 & D1 & B1). destruct (delta_ok S _ _ HS' Fbz Faz Sbz) as (G1 & E1 & C1).
  destruct (delta_ok S _ _ HS' Fpx Fax Spx) as (F2 & D2 & B2). destruct (delta_ok S _ _ HS' Fpz Faz Spz) as (G2 & E2 & C2).
  rewrite dist_pt_tri_wt in Hd. set (u := wt_u p a b c) in *. set (v := wt_v p a b c) in *.
  set (X0 := f_R (f_sub (v_x c) (v_x a))) in *. set (Z0 := f_R (f_sub (v_z c) (v_z a))) in *. set (X1 := f_R (f_sub (v_x b) (v_x a))) in *. set (Z1 := f_R (f_sub (v_z b) (v_z a))) in *.
  set (X2 := f_R (f_sub (v_x p) (v_x a))) in *. set (Z2 := f_R (f_sub (v_z p) (v_z a))) in *.
  destruct (f_le (f_neg c_1em4) u && f_le (f_neg c_1em4) v && f_le (f_add u v) (f_add f_one c_1em4)) eqn:Etest; [|discriminate Hd].
  injection Hd as <-. apply andb_true_iff in Etest as [Etest T3]. apply andb_true_iff in Etest as [T1 T2].
  destruct fin_1em4 as (Fe & Fne & He & Ene). apply le_iff in T1, T2; [|done..]. rewrite Ene in T1, T2.
  destruct (int_fin 1) as [F1' E1']; [lia|].
  destruct (add_ok f_one c_1em4 2) as (Fo & _ & Do); [exact F1'|done|change f_one with (f_of_Z 1); rewrite E1'; apply Rabs_le; lra|lra|]. change (f_R f_one) with (f_R (f_of_Z 1)) in Do. rewrite E1' in Do.
  pose proof (Rabs_le_inv _ _ BU) as BU'. pose proof (Rabs_le_inv _ _ BV) as BV'.
  destruct (add_ok u v 5200) as (Fs & Es & Ds); [done|done|apply Rabs_le; lra|lra|]. apply le_iff in T3; [|done..]. apply Rabs_le_inv in Do, Ds.
  set (uR := f_R u) in *. set (vR := f_R v) in *. set (sR := f_R (f_add u v)) in *. set (oR := f_R (f_add f_one c_1em4)) in *. set (eR := f_R c_1em4) in *.
  assert (- / 9999 <= uR <= 1002 / 1000) as RU by (rewrite U in *; lra). assert (- / 9999 <= vR <= 1002 / 1000) as RV by (rewrite U in *; lra).
  assert (uR + vR <= 1 + / 8000) as RS.
  { destruct (Rle_or_lt (uR + vR) 0); [lra|]. pose proof (rnd_err (uR + vR) 2 ltac:(apply Rabs_le; rewrite U in *; lra) ltac:(lra)) as Dr. rewrite <-Es in Dr. apply Rabs_le_inv in Dr. rewrite U in *. lra. }
  specialize (WU ltac:(left; apply Rabs_le; lra)). specialize (WV ltac:(left; apply Rabs_le; lra)).
  pose proof (Rabs_le_inv _ _ WU) as WU'. pose proof (Rabs_le_inv _ _ WV) as WV'.
  assert (256 * (105 / 100 * K) * f_u <= K / 31000) as HE by (rewrite U; lra).
  assert (Rabs wU <= 102 / 100) as QU by (apply Rabs_le; lra). assert (Rabs wV <= 102 / 100) as QV by (apply Rabs_le; lra).
  exists wV, wU. split; [lra|]. split; [lra|]. split; [lra|].
  assert (∀ e e', Rabs e <= e' → Rabs (wU * e) <= 102 / 100 * e' ∧ Rabs (wV * e) <= 102 / 100 * e') as Hmul by (intros e e' He'; split; by apply prod_le).
  split.
  { destruct (Hmul _ _ D0) as [M0 _]. destruct (Hmul _ _ D1) as [_ M1]. fold X0 in M0. fold X1 in M1. apply Rabs_le_inv in M0, M1, D2. apply Rabs_le. rewrite U in *. lra. }
  split.
  { destruct (Hmul _ _ E0) as [M0 _]. destruct (Hmul _ _ E1) as [_ M1]. fold Z0 in M0. fold Z1 in M1. apply Rabs_le_inv in M0, M1, E2. apply Rabs_le. rewrite U in *. lra. }
  (* the height *)
  assert (Rabs (f_R (v_y c) - f_R (v_y a)) <= 2 * H ∧ Rabs (f_R (v_y b) - f_R (v_y a)) <= 2 * H) as [Y0 Y1].
  { apply Rabs_le_inv in Hay, Hby, Hcy. split; apply Rabs_le; lra. }
  destruct (delta_ok (2 * H) _ _ ltac:(lra) Fcy Fay Y0) as (Fy0 & Dy0 & By0). destruct (delta_ok (2 * H) _ _ ltac:(lra) Fby Fay Y1) as (Fy1 & Dy1 & By1).
  set (y0 := f_sub (v_y c) (v_y a)) in *. set (y1 := f_sub (v_y b) (v_y a)) in *.
  assert (Rabs uR <= 1002 / 1000) as AU by (apply Rabs_le; lra). assert (Rabs vR <= 1002 / 1000) as AV by (apply Rabs_le; lra).
  pose proof (prod_le _ _ _ _ By0 AU) as P0. pose proof (prod_le _ _ _ _ By1 AV) as P1.
  pose proof (prod_near _ _ _ _ _ _ _ _ Dy0 WU By0 QU) as N0. pose proof (prod_near _ _ _ _ _ _ _ _ Dy1 WV By1 QV) as N1.
  assert (101 / 100 * (2 * H) * (256 * (105 / 100 * K) * f_u) + f_u * (2 * H) * (102 / 100) <= K * H / 15000) as HN.
  { assert (0 <= K * H) by (apply Rmult_le_pos; lra). assert (1 * H <= K * H) by (apply Rmult_le_compat_r; lra).
    replace (101 / 100 * (2 * H) * (256 * (105 / 100 * K) * f_u)) with (543 * (K * H) * f_u - (54300 - 5429760 / 100) / 100 * (K * H) * f_u) by field. rewrite U. lra. }
  destruct (mul_ok y0 u (203 / 100 * H)) as (Fm0 & _ & Dm0); [done|done|fold uR; lra|lra|]. destruct (mul_ok y1 v (203 / 100 * H)) as (Fm1 & _ & Dm1); [done|done|fold vR; lra|lra|].
  fold uR in Dm0. fold vR in Dm1. apply Rabs_le_inv in P0, P1, N0, N1, Dm0, Dm1, Hay, Hpy.
  destruct (add_ok (v_y a) (f_mul y0 u) (4 * H)) as (Fs1 & _ & Ds1); [done|done|apply Rabs_le; rewrite U in *; lra|lra|]. apply Rabs_le_inv in Ds1.
  destruct (add_ok (f_add (v_y a) (f_mul y0 u)) (f_mul y1 v) (7 * H)) as (Fs2 & _ & Ds2); [done|done|apply Rabs_le; rewrite U in *; lra|lra|]. apply Rabs_le_inv in Ds2.
  destruct (sub_ok (f_add (f_add (v_y a) (f_mul y0 u)) (f_mul y1 v)) (v_y p) (9 * H)) as (Fs3 & _ & Ds3); [done|done|apply Rabs_le; rewrite U in *; lra|lra|]. apply Rabs_le_inv in Ds3.
  destruct (abs_ok _ Fs3) as [Fab Eab].
  assert (f_R (f_abs (f_sub (f_add (f_add (v_y a) (f_mul y0 u)) (f_mul y1 v)) (v_y p))) <= f_R err) as Hle.
  { apply Rnot_lt_le. intros Hl. apply lt_iff in Hl; [|done..]. rewrite Hl in Hlt. discriminate Hlt. }
  rewrite Eab in Hle. apply Rabs_le_inv in Hle.
  assert (1 * H <= K * H) by (apply Rmult_le_compat_r; lra).
  set (s3 := f_R (f_sub (f_add (f_add (v_y a) (f_mul y0 u)) (f_mul y1 v)) (v_y p))) in *. set (s2 := f_R (f_add (f_add (v_y a) (f_mul y0 u)) (f_mul y1 v))) in *.
  set (s1 := f_R (f_add (v_y a) (f_mul y0 u))) in *. set (m0 := f_R (f_mul y0 u)) in *. set (m1 := f_R (f_mul y1 v)) in *.
  apply Rabs_le. rewrite U in *. lra.
Qed.

Lemma max_big : fin F32_MAX ∧ 16777215 * 1099511627776 <= f_R F32_MAX.
Proof.
  change F32_MAX with (S754_finite false 16777215 104). split; [split; [vm_compute; reflexivity|exact I]|].
  unfold f_R. apply Rmult_le_compat_l; [lra|]. replace 1099511627776 with (powerRZ 2 40) by (unfold powerRZ; change (Pos.to_nat 40) with 40%nat; cbn [Rpow_def.pow]; lra).
  rewrite <-!bp. apply bpow_le. lia.
Qed.

(** A point over a triangle that is not thin is found to be. *)
Lemma tri_found K S H p a b c : 1 <= K <= 128 → 1 <= S <= 1048576 → 1 <= H <= 549755813888 →
  (∀ v, v ∈ [p; a; b; c] → fin (v_x v) ∧ fin (v_z v) ∧ fin (v_y v) ∧ Rabs (f_R (v_y v)) <= H) →
  spread S a p → spread S a b → spread S a c → fat K S a b c → well_over p a b c (K / 12000 - / 11000) →
  ∃ d, dist_pt_tri p a b c = Some d ∧ f_lt d F32_MAX = true.
Proof.
  intros HK HS HH Hfin Sp Sb Sc Hfat Hover. pose proof f_u_val as U. pose proof big_105 as BB.
  pose proof Hfin as Hfin'. destruct (Hfin p) as (Fpx & Fpz & Fpy & Hpy); [set_solver|]. destruct (Hfin a) as (Fax & Faz & Fay & Hay); [set_solver|].
  destruct (Hfin b) as (Fbx & Fbz & Fby & Hby); [set_solver|]. destruct (Hfin c) as (Fcx & Fcz & Fcy & Hcy); [set_solver|].
  destruct (weights_ok K S p a b c) as (wU & wV & FU & FV & BU & BV & WU & WV & CX & CZ & Hcr & Hdet); [done|done|intros x Hx; by destruct (Hfin' x Hx) as (? & ? & _)|done..|].
  clear Hfin Hfin' Hfat. destruct Sp as [Spx Spz]. destruct Sb as [Sbx Sbz]. destruct Sc as [Scx Scz].
  assert (1 <= S <= 1099511627776) as HS' by lra.
  destruct (delta_ok S _ _ HS' Fcx Fax Scx) as (F0 & D0 & B0). destruct (delta_ok S _ _ HS' Fcz Faz Scz) as (G0 & E0 & C0).
  destruct (delta_ok S _ _ HS' Fbx Fax Sbx) as (F1 & D1 & B1). destruct (delta_ok S _ _ HS' Fbz Faz Sbz) as (G1 & E1 & C1).
  destruct (delta_ok S _ _ HS' Fpx Fax Spx) as (F2 & D2 & B2). destruct (delta_ok S _ _ HS' Fpz Faz Spz) as (G2 & E2 & C2).
  rewrite dist_pt_tri_wt. set (u := wt_u p a b c) in *. set (v := wt_v p a b c) in *.
  set (X0 := f_R (f_sub (v_x c) (v_x a))) in *. set (Z0 := f_R (f_sub (v_z c) (v_z a))) in *. set (X1 := f_R (f_sub (v_x b) (v_x a))) in *. set (Z1 := f_R (f_sub (v_z b) (v_z a))) in *.
  set (X2 := f_R (f_sub (v_x p) (v_x a))) in *. set (Z2 := f_R (f_sub (v_z p) (v_z a))) in *.
  destruct Hover as (s & t & Hs & Ht & Hst & Ex & Ez).
  assert (- / 30000 <= s <= 10002 / 10000) as Rs by lra. assert (- / 30000 <= t <= 10002 / 10000) as Rt by lra.
  assert (Rabs s <= 10002 / 10000) as As by (apply Rabs_le; lra). assert (Rabs t <= 10002 / 10000) as At by (apply Rabs_le; lra).
  (* the exact weights of the rounded differences *)
  set (cr := X0 * Z1 - X1 * Z0) in *.
  assert (∀ e e', Rabs e <= e' → Rabs (t * e) <= 10002 / 10000 * e' ∧ Rabs (s * e) <= 10002 / 10000 * e') as Hmul by (intros e e' He'; split; by apply prod_le).
  assert (Rabs ((wU - t) * X0 + (wV - s) * X1) <= 31 / 10 * f_u * S) as Hx.
  { replace ((wU - t) * X0 + (wV - s) * X1) with (X2 - t * X0 - s * X1) by (rewrite <-CX; ring).
    destruct (Hmul _ _ D0) as [M0 _]. destruct (Hmul _ _ D1) as [_ M1]. apply Rabs_le_inv in M0, M1, D2. apply Rabs_le. rewrite U in *. lra. }
  assert (Rabs ((wU - t) * Z0 + (wV - s) * Z1) <= 31 / 10 * f_u * S) as Hz.
  { replace ((wU - t) * Z0 + (wV - s) * Z1) with (Z2 - t * Z0 - s * Z1) by (rewrite <-CZ; ring).
    destruct (Hmul _ _ E0) as [M0 _]. destruct (Hmul _ _ E1) as [_ M1]. apply Rabs_le_inv in M0, M1, E2. apply Rabs_le. rewrite U in *. lra. }
  set (rx := (wU - t) * X0 + (wV - s) * X1) in *. set (rz := (wU - t) * Z0 + (wV - s) * Z1) in *.
  set (T := 101 / 100 * S) in *. assert (0 < T) as HT by (unfold T; lra).
  assert (T * T <= 105 / 100 * K * Rabs cr) as Hq.
  { apply Rnot_lt_le. intros Hl. assert (0 <= 105 / 100 * K * Rabs cr) as H0 by (apply Rmult_le_pos; [lra|apply Rabs_pos]).
    assert ((105 / 100 * K * Rabs cr) * (105 / 100 * K * Rabs cr) < T * T * (T * T)) as Hsq by (apply Rmult_le_0_lt_compat; lra).
    replace (105 / 100 * K * Rabs cr * (105 / 100 * K * Rabs cr)) with (105 / 100 * K * (105 / 100 * K * (Rabs cr * Rabs cr))) in Hsq by ring.
    assert (Rabs cr * Rabs cr = cr * cr) as Ea by (rewrite <-Rabs_mult; apply Rabs_pos_eq; lra). rewrite Ea in Hsq.
    assert (1 * (105 / 100 * K * (cr * cr)) <= 105 / 100 * K * (105 / 100 * K * (cr * cr))); [|lra].
    apply Rmult_le_compat_r; [apply Rmult_le_pos; lra|lra]. }
  assert (0 < Rabs cr) as Hc0 by (apply Rabs_pos_lt; intros Hn; rewrite Hn in Hcr; lra).
  assert (∀ w x z, w * cr = rx * z - rz * x → Rabs x <= T → Rabs z <= T → Rabs w <= 7 * K * f_u) as Hw.
  { intros w x z Ew Bx Bz. apply Rmult_le_reg_r with (Rabs cr); [done|]. rewrite <-Rabs_mult, Ew.
    pose proof (prod_le _ _ _ _ Hx Bz) as M1. pose proof (prod_le _ _ _ _ Hz Bx) as M2. unfold Rminus. eapply Rle_trans; [apply Rabs_triang|]. rewrite Rabs_Ropp.
    apply Rle_trans with (31 / 10 * f_u * S * T + 31 / 10 * f_u * S * T); [lra|].
    replace (31 / 10 * f_u * S * T + 31 / 10 * f_u * S * T) with (620 / 101 * f_u * (T * T)) by (unfold T; field).
    apply Rle_trans with (620 / 101 * f_u * (105 / 100 * K * Rabs cr)); [apply Rmult_le_compat_l; [rewrite U; lra|done]|].
    assert (0 <= K * f_u * Rabs cr) by (repeat apply Rmult_le_pos; rewrite ?U; lra). lra. }
  assert (Rabs (wU - t) <= 7 * K * f_u) as HU by (apply (Hw _ X1 Z1); [unfold rx, rz, cr; ring|done|done]).
  assert (Rabs (wV - s) <= 7 * K * f_u) as HV.
  { rewrite <-Rabs_Ropp. apply (Hw _ X0 Z0); [unfold rx, rz, cr; ring|done|done]. }
  apply Rabs_le_inv in HU, HV. assert (7 * K * f_u <= K / 1190000) as HE1 by (rewrite U; lra). assert (256 * (105 / 100 * K) * f_u <= K / 31000) as HE by (rewrite U; lra).
  specialize (WU ltac:(right; apply Rabs_le; lra)). specialize (WV ltac:(right; apply Rabs_le; lra)). apply Rabs_le_inv in WU, WV.
  (* the test *)
  destruct fin_1em4 as (Fe & Fne & He & Ene). destruct (int_fin 1) as [F1' E1']; [lia|].
  destruct (add_ok f_one c_1em4 2) as (Fo & _ & Do); [exact F1'|done|change f_one with (f_of_Z 1); rewrite E1'; apply Rabs_le; lra|lra|]. change (f_R f_one) with (f_R (f_of_Z 1)) in Do. rewrite E1' in Do.
  set (uR := f_R u) in *. set (vR := f_R v) in *.
  assert (- / 10500 <= uR <= 102 / 100) as RU by lra. assert (- / 10500 <= vR <= 102 / 100) as RV by lra. assert (uR + vR <= 1 + / 11000) as RS by lra.
  destruct (add_ok u v 3) as (Fs & _ & Ds); [done|done|apply Rabs_le; fold uR vR; lra|lra|]. fold uR vR in Ds. apply Rabs_le_inv in Do, Ds.
  assert (f_le (f_neg c_1em4) u = true) as ->. { apply le_iff; [done|done|]. rewrite Ene. fold uR. lra. }
  assert (f_le (f_neg c_1em4) v = true) as ->. { apply le_iff; [done|done|]. rewrite Ene. fold vR. lra. }
  assert (f_le (f_add u v) (f_add f_one c_1em4) = true) as ->. { apply le_iff; [done|done|]. rewrite U in *. lra. }
  cbn [andb]. eexists. split; [reflexivity|].
  (* the height *)
  assert (Rabs (f_R (v_y c) - f_R (v_y a)) <= 2 * H ∧ Rabs (f_R (v_y b) - f_R (v_y a)) <= 2 * H) as [Y0 Y1].
  { apply Rabs_le_inv in Hay, Hby, Hcy. split; apply Rabs_le; lra. }
  destruct (delta_ok (2 * H) _ _ ltac:(lra) Fcy Fay Y0) as (Fy0 & _ & By0). destruct (delta_ok (2 * H) _ _ ltac:(lra) Fby Fay Y1) as (Fy1 & _ & By1).
  set (y0 := f_sub (v_y c) (v_y a)) in *. set (y1 := f_sub (v_y b) (v_y a)) in *.
  assert (Rabs uR <= 102 / 100) as AU by (apply Rabs_le; lra). assert (Rabs vR <= 102 / 100) as AV by (apply Rabs_le; lra).
  pose proof (prod_le _ _ _ _ By0 AU) as P0. pose proof (prod_le _ _ _ _ By1 AV) as P1.
  destruct (mul_ok y0 u (21 / 10 * H)) as (Fm0 & _ & Dm0); [done|done|fold uR; lra|lra|]. destruct (mul_ok y1 v (21 / 10 * H)) as (Fm1 & _ & Dm1); [done|done|fold vR; lra|lra|].
  fold uR in Dm0. fold vR in Dm1. apply Rabs_le_inv in P0, P1, Dm0, Dm1, Hay, Hpy.
  destruct (add_ok (v_y a) (f_mul y0 u) (4 * H)) as (Fs1 & _ & Ds1); [done|done|apply Rabs_le; rewrite U in *; lra|lra|]. apply Rabs_le_inv in Ds1.
  destruct (add_ok (f_add (v_y a) (f_mul y0 u)) (f_mul y1 v) (7 * H)) as (Fs2 & _ & Ds2); [done|done|apply Rabs_le; rewrite U in *; lra|lra|]. apply Rabs_le_inv in Ds2.
  destruct (sub_ok (f_add (f_add (v_y a) (f_mul y0 u)) (f_mul y1 v)) (v_y p) (9 * H)) as (Fs3 & _ & Ds3); [done|done|apply Rabs_le; rewrite U in *; lra|lra|]. apply Rabs_le_inv in Ds3.
  destruct (abs_ok _ Fs3) as [Fab Eab]. destruct max_big as [FM BM]. apply lt_iff; [done|done|]. rewrite Eab.
  apply Rle_lt_trans with (10 * H); [apply Rabs_le; rewrite U in *; lra|]. lra.
Qed.
