(** How far samples are from the detail of an edge, in real numbers. *)
From Coq Require Import Reals Lra.
From Flocq Require Import Core.Core BinarySingleNaN.
From Verif Require Import Base ModelMath ModelTriMesh ModelDetail FloatOrder FloatReal FloatSpotProofs CameraProofs FloatClipProofs SampleProofs SpecClipping SpecDetail SpecRefine
  ModelContours ToleranceProofs.
From Coq Require Import Floats.SpecFloat.
Local Open Scope R_scope.

(** A quotient is finite or infinite. *)
Lemma div_inf x y : fin x → fin y → f_R y ≠ 0 → fin (f_div x y) ∨ ∃ s, f_div x y = S754_infinity s.
Proof.
  intros [Hx Fx] [Hy Fy] Hn. destruct (Rlt_or_le (Rabs (rnd (f_R x / f_R y))) (powerRZ 2 128)) as [Hb|Hb].
  - left. destruct (f_div_R x y Hx Hy Fx Hn Hb) as [_ F]. split; [by apply f_div_valid|done].
  - right. rewrite <-(to_bin_SF x Hx), <-(to_bin_SF y Hy), div_eq.
    pose proof (Bdiv_correct 24 128 prec24 emax128 mode_NE (to_bin x Hx) (to_bin y Hy)) as H. rewrite !to_bin_R in H. specialize (H Hn).
    change (round radix2 _ _ (f_R x / f_R y)) with (rnd (f_R x / f_R y)) in H.
    rewrite Rlt_bool_false in H by (by rewrite bpow_powerRZ). rewrite H. cbn. by eexists.
Qed.

Lemma clamp_inf s : fin (f_clamp01 (S754_infinity s)) ∧ 0 <= f_R (f_clamp01 (S754_infinity s)) <= 1.
Proof.
  destruct (int_fin 0) as [F0 E0]; [lia|]. destruct (int_fin 1) as [F1 E1]; [lia|].
  destruct s.
  - change (f_clamp01 (S754_infinity true)) with (f_of_Z 0). split; [done|lra].
  - change (f_clamp01 (S754_infinity false)) with (f_of_Z 1). split; [done|lra].
Qed.

Lemma big_105 : 1099511627776 * 1099511627776 * 33554432 <= f_big.
Proof. unfold f_big. replace (1099511627776 * 1099511627776 * 33554432) with (powerRZ 2 105) by (unfold powerRZ; change (Pos.to_nat 105) with 105%nat; cbn [Rpow_def.pow]; lra). rewrite <-!bp. apply bpow_le. lia. Qed.

Section seg.
  Context (M : R) (HM : 1 <= M <= 1099511627776).

  (** One coordinate of the difference. *)
  Lemma coord3_ok t a b p : fin a → fin b → fin p → Rabs (f_R a) <= M → Rabs (f_R b) <= M → Rabs (f_R p) <= M → fin t → 0 <= f_R t <= 1 →
    let e := f_sub (f_add a (f_mul (f_sub b a) t)) p in
    fin e ∧ Rabs (f_R e) <= 3 * M ∧ Rabs (f_R e - (f_R a + f_R t * (f_R b - f_R a) - f_R p)) <= 8 * f_u * M.
  Proof.
    intros Fa Fb Fp Ra Rb Rp Ft Ht. cbv zeta. pose proof f_u_val as U. pose proof big_105 as B. apply Rabs_le_inv in Ra, Rb, Rp.
    destruct (sub_ok b a (2 * M)) as (F1 & _ & D1); [done|done|apply Rabs_le; lra|lra|]. set (q := f_sub b a) in *. apply Rabs_le_inv in D1.
    assert (∃ w, f_R q = f_R b - f_R a + w ∧ Rabs w <= f_u * (2 * M)) as (w & Eq & Hw). { exists (f_R q - (f_R b - f_R a)). split; [ring|]. by apply Rabs_le. }
    assert (Rabs (f_R t * w) <= f_u * (2 * M)) as Htw.
    { rewrite Rabs_mult, (Rabs_pos_eq (f_R t)) by lra. apply Rle_trans with (1 * (f_u * (2 * M))); [|lra]. apply Rmult_le_compat; [lra|apply Rabs_pos|lra|done]. }
    assert (- M <= f_R a + f_R t * (f_R b - f_R a) <= M) as Rs.
    { replace (f_R a + f_R t * (f_R b - f_R a)) with ((1 - f_R t) * f_R a + f_R t * f_R b) by ring.
      pose proof (Rmult_le_compat_l (1 - f_R t) (- M) (f_R a) ltac:(lra) ltac:(lra)). pose proof (Rmult_le_compat_l (1 - f_R t) (f_R a) M ltac:(lra) ltac:(lra)).
      pose proof (Rmult_le_compat_l (f_R t) (- M) (f_R b) ltac:(lra) ltac:(lra)). pose proof (Rmult_le_compat_l (f_R t) (f_R b) M ltac:(lra) ltac:(lra)). lra. }
    assert (f_R q * f_R t = f_R t * (f_R b - f_R a) + f_R t * w) as Eqt by (rewrite Eq; ring). apply Rabs_le_inv in Htw.
    destruct (mul_ok q t (201 / 100 * M)) as (F2 & _ & D2); [done|done|rewrite Eqt; apply Rabs_le; rewrite U in *; lra|lra|]. rewrite Eqt in D2. set (m := f_mul q t) in *. apply Rabs_le_inv in D2.
    destruct (add_ok a m (101 / 100 * M)) as (F3 & _ & D3); [done|done|apply Rabs_le; rewrite U in *; lra|lra|]. set (s := f_add a m) in *. apply Rabs_le_inv in D3.
    destruct (sub_ok s p (202 / 100 * M)) as (F4 & _ & D4); [done|done|apply Rabs_le; rewrite U in *; lra|lra|]. apply Rabs_le_inv in D4.
    split; [done|]. split; apply Rabs_le; rewrite U in *; lra.
  Qed.

  (** Sums of three products are finite. *)
  Lemma prod_ok x y : fin x → fin y → Rabs (f_R x) <= 3 * M → Rabs (f_R y) <= 3 * M →
    fin (f_mul x y) ∧ f_R (f_mul x y) = rnd (f_R x * f_R y) ∧ Rabs (f_R (f_mul x y)) <= 10 * (M * M).
  Proof.
    intros Fx Fy Bx By. pose proof f_u_val as U. pose proof big_105 as B.
    assert (1 <= M * M <= 1099511627776 * 1099511627776) as HMM. { split; [replace 1 with (1 * 1) by ring|]; apply Rmult_le_compat; lra. }
    assert (Rabs (f_R x * f_R y) <= 9 * (M * M)) as H. { rewrite Rabs_mult. replace (9 * (M * M)) with ((3 * M) * (3 * M)) by ring. apply Rmult_le_compat; try apply Rabs_pos; done. }
    destruct (mul_ok x y (9 * (M * M))) as (F & E & D); [done|done|done|lra|]. split; [done|]. split; [done|].
    apply Rabs_le_inv in H, D. apply Rabs_le. rewrite U in *. lra.
  Qed.
  Lemma dot_ok (x1 y1 x2 y2 x3 y3 : f32) : fin x1 → fin y1 → fin x2 → fin y2 → fin x3 → fin y3 →
    Rabs (f_R x1) <= 3 * M → Rabs (f_R y1) <= 3 * M → Rabs (f_R x2) <= 3 * M → Rabs (f_R y2) <= 3 * M → Rabs (f_R x3) <= 3 * M → Rabs (f_R y3) <= 3 * M →
    fin (f_add (f_mul x1 y1) (f_mul x2 y2)) ∧ f_R (f_add (f_mul x1 y1) (f_mul x2 y2)) = rnd (f_R (f_mul x1 y1) + f_R (f_mul x2 y2)) ∧
    fin (f_add (f_add (f_mul x1 y1) (f_mul x2 y2)) (f_mul x3 y3)) ∧
    f_R (f_add (f_add (f_mul x1 y1) (f_mul x2 y2)) (f_mul x3 y3)) = rnd (f_R (f_add (f_mul x1 y1) (f_mul x2 y2)) + f_R (f_mul x3 y3)).
  Proof.
    intros F1 G1 F2 G2 F3 G3 B1 C1 B2 C2 B3 C3. pose proof f_u_val as U. pose proof big_105 as B.
    assert (1 <= M * M <= 1099511627776 * 1099511627776) as HMM. { split; [replace 1 with (1 * 1) by ring|]; apply Rmult_le_compat; lra. }
    destruct (prod_ok x1 y1 F1 G1 B1 C1) as (P1 & _ & Q1). destruct (prod_ok x2 y2 F2 G2 B2 C2) as (P2 & _ & Q2). destruct (prod_ok x3 y3 F3 G3 B3 C3) as (P3 & _ & Q3).
    apply Rabs_le_inv in Q1, Q2, Q3.
    destruct (add_ok (f_mul x1 y1) (f_mul x2 y2) (20 * (M * M))) as (F & E & D); [done|done|apply Rabs_le; lra|lra|]. apply Rabs_le_inv in D.
    split; [done|]. split; [done|].
    destruct (add_ok (f_add (f_mul x1 y1) (f_mul x2 y2)) (f_mul x3 y3) (40 * (M * M))) as (F' & E' & _); [done|done|apply Rabs_le; rewrite U in *; lra|lra|]. done.
  Qed.

  Lemma diff_ok a b : fin a → fin b → Rabs (f_R a) <= M → Rabs (f_R b) <= M → fin (f_sub b a) ∧ Rabs (f_R (f_sub b a)) <= 3 * M.
  Proof.
    intros Fa Fb Ra Rb. pose proof f_u_val as U. pose proof big_105 as B. apply Rabs_le_inv in Ra, Rb.
    destruct (sub_ok b a (2 * M)) as (F & _ & D); [done|done|apply Rabs_le; lra|lra|]. split; [done|]. apply Rabs_le_inv in D. apply Rabs_le. rewrite U in *. lra.
  Qed.

  (** The squared distance in [f32] is at least nearly that of some point of the
      segment. *)
  Lemma seg3_ok pt p q : fits3 M pt → fits3 M p → fits3 M q →
    fin (seg_dist3 pt p q) ∧ ∃ s ex ey ez, 0 <= s <= 1 ∧
      Rabs (ex - (f_R (v_x p) + s * (f_R (v_x q) - f_R (v_x p)) - f_R (v_x pt))) <= 8 * f_u * M ∧
      Rabs (ey - (f_R (v_y p) + s * (f_R (v_y q) - f_R (v_y p)) - f_R (v_y pt))) <= 8 * f_u * M ∧
      Rabs (ez - (f_R (v_z p) + s * (f_R (v_z q) - f_R (v_z p)) - f_R (v_z pt))) <= 8 * f_u * M ∧
      ex * ex + ey * ey + ez * ez <= f_R (seg_dist3 pt p q) * (1 + 4 * f_u) + 8 * f_tiny.
  Proof.
    assert (∀ x, fits M x → fin x ∧ Rabs (f_R x) <= M) as Hfit by (intros x (? & ? & ?); done).
    intros (T1 & T2 & T3) (P1 & P2 & P3) (Q1 & Q2 & Q3).
    destruct (Hfit _ T1) as [FT1 BT1]. destruct (Hfit _ T2) as [FT2 BT2]. destruct (Hfit _ T3) as [FT3 BT3].
    destruct (Hfit _ P1) as [FP1 BP1]. destruct (Hfit _ P2) as [FP2 BP2]. destruct (Hfit _ P3) as [FP3 BP3].
    destruct (Hfit _ Q1) as [FQ1 BQ1]. destruct (Hfit _ Q2) as [FQ2 BQ2]. destruct (Hfit _ Q3) as [FQ3 BQ3]. clear Hfit T1 T2 T3 P1 P2 P3 Q1 Q2 Q3.
    unfold seg_dist3. cbv zeta. set (T := if f_lt f_zero _ then _ else _).
    assert (fin (f_clamp01 T) ∧ 0 <= f_R (f_clamp01 T) <= 1) as [Fc Hc].
    { destruct (diff_ok _ _ FP1 FQ1 BP1 BQ1) as [F1 B1]. destruct (diff_ok _ _ FP2 FQ2 BP2 BQ2) as [F2 B2]. destruct (diff_ok _ _ FP3 FQ3 BP3 BQ3) as [F3 B3].
      destruct (diff_ok _ _ FP1 FT1 BP1 BT1) as [F4 B4]. destruct (diff_ok _ _ FP2 FT2 BP2 BT2) as [F5 B5]. destruct (diff_ok _ _ FP3 FT3 BP3 BT3) as [F6 B6].
      pose proof (dot_ok _ _ _ _ _ _ F1 F1 F2 F2 F3 F3 B1 B1 B2 B2 B3 B3) as (_ & _ & Fd & _).
      pose proof (dot_ok _ _ _ _ _ _ F1 F4 F2 F5 F3 F6 B1 B4 B2 B5 B3 B6) as (_ & _ & Ft & _).
      unfold T, v_dot, v_sub. cbn [v_x v_y v_z]. set (d := f_add (f_add (f_mul (f_sub (v_x q) (v_x p)) (f_sub (v_x q) (v_x p))) _) _) in *. set (t := f_add (f_add (f_mul _ (f_sub (v_x pt) (v_x p))) _) _) in *.
      destruct (f_lt f_zero d) eqn:L; [|by apply clamp_ok]. apply lt_iff in L; [|exact (proj1 (int_fin 0 ltac:(lia)))|done]. change (f_R f_zero) with 0 in L.
      destruct (div_inf t d Ft Fd) as [F|(s & ->)]; [lra|by apply clamp_ok|apply clamp_inf]. }
    set (t := f_clamp01 T) in *. clearbody t. unfold v_dot, v_sub, v_add, v_scale. cbn [v_x v_y v_z].
    destruct (coord3_ok t (v_x p) (v_x q) (v_x pt)) as (Fx & Bx & Dx); [done..|]. destruct (coord3_ok t (v_y p) (v_y q) (v_y pt)) as (Fy & By & Dy); [done..|].
    destruct (coord3_ok t (v_z p) (v_z q) (v_z pt)) as (Fz & Bz & Dz); [done..|].
    set (ex := f_sub _ (v_x pt)) in *. set (ey := f_sub _ (v_y pt)) in *. set (ez := f_sub _ (v_z pt)) in *. clearbody ex ey ez.
    pose proof (dot_ok _ _ _ _ _ _ Fx Fx Fy Fy Fz Fz Bx Bx By By Bz Bz) as (_ & E1 & Fd & E2).
    destruct (prod_ok _ _ Fx Fx Bx Bx) as (_ & Ex & _). destruct (prod_ok _ _ Fy Fy By By) as (_ & Ey & _). destruct (prod_ok _ _ Fz Fz Bz Bz) as (_ & Ez & _).
    split; [done|]. exists (f_R t), (f_R ex), (f_R ey), (f_R ez). do 4 (split; [done|]).
    pose proof f_u_val as U. pose proof tiny_pos as T0.
    assert (∀ x y, 0 <= x → y = rnd x → 0 <= y ∧ x * (1 - f_u) - f_tiny <= y) as Hr.
    { intros x y Hx ->. split; [apply Rle_trans with (rnd 0); [rewrite rnd_0; lra|by apply rnd_mono]|].
      pose proof (rnd_err2 x) as H. rewrite (Rabs_pos_eq x) in H by done. apply Rabs_le_inv in H. lra. }
    pose proof (sq_nonneg (f_R ex)) as Sx. pose proof (sq_nonneg (f_R ey)) as Sy. pose proof (sq_nonneg (f_R ez)) as Sz.
    destruct (Hr _ _ Sx Ex) as [Ax Cx]. destruct (Hr _ _ Sy Ey) as [Ay Cy]. destruct (Hr _ _ Sz Ez) as [Az Cz].
    destruct (Hr _ _ (Rplus_le_le_0_compat _ _ Ax Ay) E1) as [A1 C1]. destruct (Hr _ _ (Rplus_le_le_0_compat _ _ A1 Az) E2) as [A2 C2]. clear Hr.
    set (D := f_R (f_add _ (f_mul ez ez))) in *. set (S1 := f_R (f_add (f_mul ex ex) (f_mul ey ey))) in *.
    set (X := f_R ex * f_R ex) in *. set (Y := f_R ey * f_R ey) in *. set (Z := f_R ez * f_R ez) in *.
    set (X' := f_R (f_mul ex ex)) in *. set (Y' := f_R (f_mul ey ey)) in *. set (Z' := f_R (f_mul ez ez)) in *.
    rewrite U in *. clearbody D S1 X Y Z X' Y' Z'. clear -Cx Cy Cz C1 C2 Ax Ay Az A1 A2 Sx Sy Sz T0. lra.
  Qed.

  (** If the [f32] distance is not above the tolerance, the real one is not
      much above it. *)
  Lemma seg3_off err pt p q : fits3 M pt → fits3 M p → fits3 M q → fin err → 0 <= f_R err <= 1099511627776 →
    f_lt (f_mul err err) (seg_dist3 pt p q) = false → off_seg pt p q (f_R err * (1 + / 1048576) + 15 * f_u * M).
  Proof.
    intros H1 H2 H3 Fe He HL. pose proof f_u_val as U. pose proof big_105 as B. pose proof tiny_pos as T0.
    assert (0 <= f_R err * f_R err <= 1099511627776 * 1099511627776) as S. { split; [apply sq_nonneg|]. apply Rmult_le_compat; lra. }
    destruct (mul_ok err err (1099511627776 * 1099511627776)) as (Fm & Em & _); [done|done|rewrite Rabs_pos_eq; lra|lra|].
    pose proof (rnd_err2 (f_R err * f_R err)) as Dm. rewrite <-Em, (Rabs_pos_eq (f_R err * f_R err)) in Dm by lra. apply Rabs_le_inv in Dm.
    destruct (seg3_ok pt p q H1 H2 H3) as (Fd & s & ex & ey & ez & Hs & Dx & Dy & Dz & HD).
    assert (f_R (seg_dist3 pt p q) <= f_R (f_mul err err)) as HL'. { apply Rnot_lt_le. rewrite <-lt_iff by done. congruence. }
    exists s. split; [done|]. cbv zeta. set (gx := _ - f_R (v_x pt)) in *. set (gy := _ - f_R (v_y pt)) in *. set (gz := _ - f_R (v_z pt)) in *.
    set (E := f_R err) in *. set (D := f_R (seg_dist3 pt p q)) in *. clearbody gx gy gz E D.
    assert (ex * ex + ey * ey + ez * ez <= (E * (1 + / 1048576) + f_u * M) * (E * (1 + / 1048576) + f_u * M)) as L1.
    { assert (f_tiny <= / 1099511627776 * / 1099511627776) as T2.
      { unfold f_tiny. replace (/ 1099511627776 * / 1099511627776) with (powerRZ 2 (-80)) by (unfold powerRZ; change (Pos.to_nat 80) with 80%nat; cbn [Rpow_def.pow]; lra). rewrite <-!bp. apply bpow_le. lia. }
      assert (D <= E * E * (1 + f_u) + f_tiny) as K by lra.
      pose proof (Rmult_le_compat_r (1 + 4 * f_u) _ _ ltac:(rewrite U; lra) K) as K'.
      assert ((E * E * (1 + f_u) + f_tiny) * (1 + 4 * f_u) <= E * E * (1 + 6 * f_u) + 2 * f_tiny) as K2 by (rewrite U; lra).
      assert (0 <= E * (f_u * M)) as P1 by (apply Rmult_le_pos; [lra|]; rewrite U; lra).
      assert (f_u * f_u <= (f_u * M) * (f_u * M)) as P2 by (apply Rmult_le_compat; rewrite U; lra).
      rewrite U in *. lra. }
    assert (0 <= E * (1 + / 1048576) + f_u * M) as P by (rewrite U; lra).
    set (L := E * (1 + / 1048576) + f_u * M) in *. set (d := 8 * f_u * M) in *.
    assert (0 <= d) as Pd by (unfold d; rewrite U; lra).
    apply Rle_trans with (L + 7 / 4 * d); [|unfold L, d; rewrite U; lra].
    rewrite <-(sqrt_Rsqr (L + 7 / 4 * d)) by lra. apply sqrt_le_1_alt. unfold Rsqr.
    assert (∃ u, gx = ex + u ∧ - d <= u <= d) as (u & -> & Hu). { exists (gx - ex). split; [ring|]. apply Rabs_le_inv in Dx. lra. }
    assert (∃ w, gy = ey + w ∧ - d <= w <= d) as (w & -> & Hw). { exists (gy - ey). split; [ring|]. apply Rabs_le_inv in Dy. lra. }
    assert (∃ r, gz = ez + r ∧ - d <= r <= d) as (r & -> & Hr). { exists (gz - ez). split; [ring|]. apply Rabs_le_inv in Dz. lra. }
    clear -L1 P Pd Hu Hw Hr.
    assert (u * u + w * w + r * r <= 3 * (d * d)) as HW. { assert (u * u <= d * d) by nra. assert (w * w <= d * d) by nra. assert (r * r <= d * d) by nra. lra. }
    assert (ex * u + ey * w + ez * r <= L * (7 / 4 * d)) as CS.
    { apply Rsqr_incr_0_var; [|apply Rmult_le_pos; lra]. unfold Rsqr.
      assert ((ex * u + ey * w + ez * r) * (ex * u + ey * w + ez * r) <= (ex * ex + ey * ey + ez * ez) * (u * u + w * w + r * r)) as C1.
      { pose proof (sq_nonneg (ex * w - ey * u)). pose proof (sq_nonneg (ex * r - ez * u)). pose proof (sq_nonneg (ey * r - ez * w)). lra. }
      assert ((ex * ex + ey * ey + ez * ez) * (u * u + w * w + r * r) <= (L * L) * (3 * (d * d))) as C2.
      { apply Rmult_le_compat; [| |done|done]; [pose proof (sq_nonneg ex); pose proof (sq_nonneg ey); pose proof (sq_nonneg ez); lra|pose proof (sq_nonneg u); pose proof (sq_nonneg w); pose proof (sq_nonneg r); lra]. }
      pose proof (sq_nonneg (L * d)) as C3. lra. }
    pose proof (sq_nonneg d). lra.
  Qed.
End seg.

(** ** Samples of an edge *)

Lemma part_ok n k : (k ≤ n)%nat → (1 ≤ n ≤ 31)%nat → let t := f_div (f_of_Z (Z.of_nat k)) (f_of_Z (Z.of_nat n)) in
  fin t ∧ 0 <= f_R t <= 1 ∧ Rabs (f_R t - INR k / INR n) <= f_u.
Proof.
  intros Hk Hn. cbv zeta. rewrite !INR_IZR_INZ. destruct (int_fin (Z.of_nat k)) as [Fk Ek]; [lia|]. destruct (int_fin (Z.of_nat n)) as [Fn En]; [lia|].
  assert (0 < IZR (Z.of_nat n)) as Hp by (apply IZR_lt; lia). assert (0 <= IZR (Z.of_nat k)) as Hk0 by (apply IZR_le; lia).
  assert (IZR (Z.of_nat k) <= IZR (Z.of_nat n)) as Hkn by (apply IZR_le; lia).
  assert (0 <= IZR (Z.of_nat k) / IZR (Z.of_nat n) <= 1) as Hq.
  { split; [apply Rmult_le_pos; [done|apply Rlt_le, Rinv_0_lt_compat, Hp]|]. apply Rmult_le_reg_r with (IZR (Z.of_nat n)); [done|].
    unfold Rdiv. rewrite Rmult_assoc, Rinv_l, Rmult_1_r, Rmult_1_l; lra. }
  set (q := IZR (Z.of_nat k) / IZR (Z.of_nat n)) in *. pose proof big_105 as B.
  destruct (f_div_R (f_of_Z (Z.of_nat k)) (f_of_Z (Z.of_nat n))) as [E F]; [apply Fk|apply Fn|apply Fk|lra|rewrite Ek, En; fold q; apply big_rnd; rewrite Rabs_pos_eq; lra|].
  rewrite Ek, En in E. fold q in E. split; [split; [apply f_div_valid; [apply Fk|apply Fn]|done]|]. rewrite E. split.
  - split; [apply Rle_trans with (rnd 0); [rewrite rnd_0; lra|apply rnd_mono; lra]|apply Rle_trans with (rnd 1); [apply rnd_mono; lra|rewrite rnd_1; lra]].
  - pose proof (rnd_err q 1 ltac:(rewrite Rabs_pos_eq; lra) ltac:(lra)). lra.
Qed.

Lemma pos_ok M t a b r : 1 <= M <= 1099511627776 → fin a → fin b → Rabs (f_R a) <= M → Rabs (f_R b) <= M → fin t → 0 <= f_R t <= 1 → Rabs (f_R t - r) <= f_u →
  let e := f_add a (f_mul (f_sub b a) t) in
  fin e ∧ Rabs (f_R e) <= 101 / 100 * M ∧ Rabs (f_R e - (f_R a + r * (f_R b - f_R a))) <= 8 * f_u * M.
Proof.
  intros HM Fa Fb Ra Rb Ft Ht Hr. cbv zeta. pose proof f_u_val as U. pose proof big_105 as B. apply Rabs_le_inv in Ra, Rb.
  destruct (sub_ok b a (2 * M)) as (F1 & _ & D1); [done|done|apply Rabs_le; lra|lra|]. set (q := f_sub b a) in *. apply Rabs_le_inv in D1.
  assert (∃ w, f_R q = f_R b - f_R a + w ∧ Rabs w <= f_u * (2 * M)) as (w & Eq & Hw). { exists (f_R q - (f_R b - f_R a)). split; [ring|]. by apply Rabs_le. }
  assert (Rabs (f_R t * w) <= f_u * (2 * M)) as Htw.
  { rewrite Rabs_mult, (Rabs_pos_eq (f_R t)) by lra. apply Rle_trans with (1 * (f_u * (2 * M))); [|lra]. apply Rmult_le_compat; [lra|apply Rabs_pos|lra|done]. }
  assert (Rabs ((f_R t - r) * (f_R b - f_R a)) <= f_u * (2 * M)) as Hrw.
  { rewrite Rabs_mult. apply Rmult_le_compat; try apply Rabs_pos; [done|]. apply Rabs_le. lra. }
  assert (- M <= f_R a + f_R t * (f_R b - f_R a) <= M) as Rs.
  { replace (f_R a + f_R t * (f_R b - f_R a)) with ((1 - f_R t) * f_R a + f_R t * f_R b) by ring.
    pose proof (Rmult_le_compat_l (1 - f_R t) (- M) (f_R a) ltac:(lra) ltac:(lra)). pose proof (Rmult_le_compat_l (1 - f_R t) (f_R a) M ltac:(lra) ltac:(lra)).
    pose proof (Rmult_le_compat_l (f_R t) (- M) (f_R b) ltac:(lra) ltac:(lra)). pose proof (Rmult_le_compat_l (f_R t) (f_R b) M ltac:(lra) ltac:(lra)). lra. }
  assert (f_R q * f_R t = f_R t * (f_R b - f_R a) + f_R t * w) as Eqt by (rewrite Eq; ring). apply Rabs_le_inv in Htw, Hrw.
  destruct (mul_ok q t (201 / 100 * M)) as (F2 & _ & D2); [done|done|rewrite Eqt; apply Rabs_le; rewrite U in *; lra|lra|]. rewrite Eqt in D2. set (m := f_mul q t) in *. apply Rabs_le_inv in D2.
  destruct (add_ok a m (1005 / 1000 * M)) as (F3 & _ & D3); [done|done|apply Rabs_le; rewrite U in *; lra|lra|]. apply Rabs_le_inv in D3.
  split; [done|]. split; apply Rabs_le; rewrite U in *; lra.
Qed.

Lemma off_seg_start a b d : 0 <= d → off_seg a a b d.
Proof. intros Hd. exists 0. split; [lra|]. cbv zeta. replace (_ + _ + _) with 0 by ring. by rewrite sqrt_0. Qed.
Lemma off_seg_end a b d : 0 <= d → off_seg b a b d.
Proof. intros Hd. exists 1. split; [lra|]. cbv zeta. replace (_ + _ + _) with 0 by ring. by rewrite sqrt_0. Qed.

(** All samples are near the line through the kept ones. *)
Lemma kept_follow (far : vec3 → vec3 → vec3 → Prop) n (samples : list vec3) keep e d : length samples = S n → simplified far samples keep →
  Forall2 (λ k v, samples !! k = Some v) (inner keep) e → 0 <= d →
  (∀ v a b, v ∈ samples → a ∈ samples → b ∈ samples → (1 ≤ n)%nat → ¬ far v a b → off_seg v a b d) → line_follows samples e d.
Proof.
  intros Hl (K0 & K2 & Kn & Kinc & Kfar) HF Hd Hoff.
  destruct (lookup_lt_is_Some_2 samples 0) as [s0 Hs0]; [lia|]. destruct (lookup_lt_is_Some_2 samples n) as [sn Hsn]; [lia|].
  exists s0, sn. split; [by destruct samples|]. split; [rewrite last_lookup, Hl; done|].
  assert (length e = length keep - 2)%nat as Hle. { apply Forall2_length in HF. unfold inner in HF. rewrite take_length, drop_length in HF. lia. }
  assert (∀ i a, keep !! i = Some a → (s0 :: e ++ [sn]) !! i = samples !! a) as Hline.
  { intros i a Hi. pose proof (lookup_lt_Some _ _ _ Hi) as Hil. destruct i as [|i]; [assert (a = 0)%nat as -> by congruence; done|].
    change ((s0 :: e ++ [sn]) !! S i) with ((e ++ [sn]) !! i). destruct (decide (i < length e)%nat) as [Hi'|Hi'].
    - rewrite lookup_app_l by done. destruct (lookup_lt_is_Some_2 e i Hi') as [v Hv]. rewrite Hv.
      destruct (Forall2_lookup_r _ _ _ _ _ HF Hv) as (k & Hk & Hkv). unfold inner in Hk. apply lookup_take_Some in Hk as [Hk _]. rewrite lookup_drop in Hk. cbn in Hk. congruence.
    - rewrite lookup_app_r by lia. assert (i = length e) as -> by lia. rewrite Nat.sub_diag. cbn.
      replace (S (length e)) with (length keep - 1)%nat in Hi by lia. rewrite Kn in Hi. injection Hi as <-. rewrite Hl. by replace (S n - 1)%nat with n by lia. }
  intros v Hv. apply elem_of_list_lookup in Hv as (m & Hm). pose proof (lookup_lt_Some _ _ _ Hm) as Hml.
  destruct (decide (n = 0)%nat) as [->|Hn0].
  { assert (m = 0)%nat as -> by lia. assert (v = s0) as -> by congruence.
    destruct (lookup_lt_is_Some_2 (s0 :: e ++ [sn]) 1) as [b Hb]; [cbn; rewrite app_length; cbn; lia|].
    exists 0%nat, s0, b. split; [done|]. split; [done|]. by apply off_seg_start. }
  assert (∀ i a b, keep !! i = Some a → keep !! S i = Some b → (a < b)%nat) as Hinc. { intros i a b Ha Hb. destruct (Kinc i a b Ha Hb); [done|lia]. }
  assert (∃ i a b, keep !! i = Some a ∧ keep !! S i = Some b ∧ (a <= m <= b)%nat) as (i & a & b & Ha & Hb & Hab).
  { assert (∀ j, (j < length keep)%nat → (∃ i a b, keep !! i = Some a ∧ keep !! S i = Some b ∧ (a <= m <= b)%nat) ∨ ∀ a, keep !! j = Some a → (a <= m)%nat) as H.
    { induction j as [|j IH]; intros Hj; [right; intros a Ha; assert (a = 0)%nat by congruence; lia|].
      destruct IH as [IH|IH]; [lia|by left|]. destruct (lookup_lt_is_Some_2 keep j) as [a Ha]; [lia|]. destruct (lookup_lt_is_Some_2 keep (S j) Hj) as [b Hb].
      destruct (decide (m <= b)%nat) as [Hle'|Hgt]; [left; exists j, a, b; split; [done|]; split; [done|]; pose proof (IH a Ha); lia|].
      right. intros b' Hb'. assert (b' = b) as -> by congruence. lia. }
    destruct (H (length keep - 1)%nat ltac:(lia)) as [?|Hlast]; [done|]. specialize (Hlast _ Kn).
    destruct (lookup_lt_is_Some_2 keep (length keep - 2)) as [a Ha]; [lia|]. exists (length keep - 2)%nat, a, (length samples - 1)%nat.
    assert (keep !! S (length keep - 2) = Some (length samples - 1)%nat) as Hb by (by replace (S (length keep - 2)) with (length keep - 1)%nat by lia).
    split; [done|]. split; [done|]. pose proof (Hinc _ _ _ Ha Hb). lia. }
  pose proof (Hline _ _ Ha) as La. pose proof (Hline _ _ Hb) as Lb. pose proof (Hinc _ _ _ Ha Hb) as Hlt.
  assert (∀ i a, keep !! i = Some a → ∃ va, samples !! a = Some va) as Hex.
  { intros i' a' Hi'. pose proof (Hline _ _ Hi') as L. apply lookup_lt_is_Some. apply lookup_lt_is_Some. rewrite <-L. apply lookup_lt_is_Some. cbn. rewrite app_length. cbn. apply lookup_lt_Some in Hi'. lia. }
  destruct (Hex _ _ Ha) as (va & Hva). destruct (Hex _ _ Hb) as (vb & Hvb). exists i, va, vb. rewrite La, Lb. split; [done|]. split; [done|].
  destruct (decide (m = a)) as [->|Hna]; [assert (v = va) as -> by congruence; by apply off_seg_start|].
  destruct (decide (m = b)) as [->|Hnb]; [assert (v = vb) as -> by congruence; by apply off_seg_end|].
  apply Hoff; [by eapply elem_of_list_lookup_2..|lia|]. by apply (Kfar i a b m); [..|lia|done|done|done].
Qed.
