(** How far contour vertices are from segments, in real numbers. *)
From Coq Require Import Reals Lra.
From Flocq Require Import Core.Core.
From Verif Require Import Base ModelMath ModelHeightfield ModelFilters ModelCompact ModelDistance ModelRegions ModelContours SpecHeightfield SpecCompact SpecDistance SpecRegions SpecContours SpecTolerance FloatOrder FloatReal FloatSpotProofs CameraProofs FloatClipProofs SampleProofs
  PackProofs CompactProofs LinkProofs GraphProofs DistanceProofs SweepProofs FlowProofs WatershedProofs OrbitProofs ContourWalkProofs SpecOutline SimplifyProofs ContourSetProofs.
From Coq Require Import Floats.SpecFloat.
Local Open Scope R_scope.

Lemma clamp_ok t : fin t → fin (f_clamp01 t) ∧ 0 <= f_R (f_clamp01 t) <= 1.
Proof.
  intros Ft. destruct (int_fin 0) as [F0 E0]; [lia|]. destruct (int_fin 1) as [F1 E1]; [lia|].
  assert (f_zero = f_of_Z 0) as Ez by reflexivity. unfold f_clamp01. rewrite Ez.
  destruct (f_lt t (f_of_Z 0)) eqn:A.
  - destruct (f_lt (f_of_Z 1) (f_of_Z 0)) eqn:C; [discriminate|]. split; [done|lra].
  - destruct (f_lt (f_of_Z 1) t) eqn:C; [split; [done|lra]|]. split; [done|].
    assert (¬ (f_R t < 0)) as H1. { rewrite <-E0, <-lt_iff by done. congruence. }
    assert (¬ (1 < f_R t)) as H2. { rewrite <-E1, <-lt_iff by done. congruence. } lra.
Qed.

Lemma sq_nonneg (x : R) : 0 <= x * x.
Proof. nra. Qed.

Lemma big_40 : 1099511627776 <= f_big.
Proof. unfold f_big. replace 1099511627776 with (powerRZ 2 40) by (unfold powerRZ; change (Pos.to_nat 40) with 40%nat; cbn [Rpow_def.pow]; lra). rewrite <-!bp. apply bpow_le. lia. Qed.
Lemma tiny_le : f_tiny <= / 1099511627776.
Proof. unfold f_tiny. replace (/ 1099511627776) with (powerRZ 2 (-40)) by (unfold powerRZ; change (Pos.to_nat 40) with 40%nat; cbn [Rpow_def.pow]; lra). rewrite <-!bp. apply bpow_le. lia. Qed.

(** One coordinate of the difference between the point on the segment and the
    vertex. *)
Lemma coord_ok n t (a b p : Z) : (1 <= n <= 65535)%Z → (0 <= a <= n)%Z → (0 <= b <= n)%Z → (0 <= p <= n)%Z → fin t → 0 <= f_R t <= 1 →
  let e := f_sub (f_add (f_of_Z a) (f_mul t (f_sub (f_of_Z b) (f_of_Z a)))) (f_of_Z p) in
  fin e ∧ Rabs (f_R e) <= 2 * IZR n ∧ Rabs (f_R e - (IZR a + f_R t * (IZR b - IZR a) - IZR p)) <= 4 * f_u * IZR n.
Proof.
  intros Hn Ha Hb Hp Ft Ht. cbv zeta. pose proof f_u_val as U. pose proof big_40 as B.
  destruct (int_fin a) as [Fa Ea]; [lia|]. destruct (int_fin b) as [Fb Eb]; [lia|]. destruct (int_fin p) as [Fp Ep]; [lia|].
  assert (1 <= IZR n <= 65535) as Rn by (split; apply IZR_le; lia).
  assert (0 <= IZR a <= IZR n) as Ra by (split; apply IZR_le; lia).
  assert (0 <= IZR b <= IZR n) as Rb by (split; apply IZR_le; lia).
  assert (0 <= IZR p <= IZR n) as Rp by (split; apply IZR_le; lia).
  destruct (sub_ok (f_of_Z b) (f_of_Z a) (IZR n)) as (F1 & E1 & _); [done|done|rewrite Ea, Eb; apply Rabs_le; lra|lra|].
  rewrite Ea, Eb, <-minus_IZR, rnd_int, minus_IZR in E1 by lia. set (q := f_sub (f_of_Z b) (f_of_Z a)) in *.
  assert (0 <= IZR a + f_R t * (IZR b - IZR a) <= IZR n) as Rs.
  { replace (IZR a + f_R t * (IZR b - IZR a)) with ((1 - f_R t) * IZR a + f_R t * IZR b) by ring.
    pose proof (Rmult_le_compat_l (1 - f_R t) 0 (IZR a) ltac:(lra) ltac:(lra)). pose proof (Rmult_le_compat_l (1 - f_R t) (IZR a) (IZR n) ltac:(lra) ltac:(lra)).
    pose proof (Rmult_le_compat_l (f_R t) 0 (IZR b) ltac:(lra) ltac:(lra)). pose proof (Rmult_le_compat_l (f_R t) (IZR b) (IZR n) ltac:(lra) ltac:(lra)). lra. }
  destruct (mul_ok t q (IZR n)) as (F2 & _ & D2); [done|done|rewrite E1; apply Rabs_le; lra|lra|]. rewrite E1 in D2. set (m := f_mul t q) in *. apply Rabs_le_inv in D2.
  destruct (add_ok (f_of_Z a) m (101 / 100 * IZR n)) as (F3 & _ & D3); [done|done|rewrite Ea; apply Rabs_le; rewrite U in *; lra|lra|]. rewrite Ea in D3. set (s := f_add (f_of_Z a) m) in *. apply Rabs_le_inv in D3.
  destruct (sub_ok s (f_of_Z p) (102 / 100 * IZR n)) as (F4 & _ & D4); [done|done|rewrite Ep; apply Rabs_le; rewrite U in *; lra|lra|]. rewrite Ep in D4. apply Rabs_le_inv in D4.
  split; [done|]. split; apply Rabs_le; rewrite U in *; lra.
Qed.

(** The factor along the segment is between 0 and 1. *)
Lemma factor_ok n (ax az bx bz px pz : Z) : (1 <= n <= 65535)%Z → (0 <= ax <= n)%Z → (0 <= az <= n)%Z → (0 <= bx <= n)%Z → (0 <= bz <= n)%Z → (0 <= px <= n)%Z → (0 <= pz <= n)%Z →
  let pqx := f_sub (f_of_Z bx) (f_of_Z ax) in let pqz := f_sub (f_of_Z bz) (f_of_Z az) in
  let dx := f_sub (f_of_Z px) (f_of_Z ax) in let dz := f_sub (f_of_Z pz) (f_of_Z az) in
  let d := f_add (f_mul pqx pqx) (f_mul pqz pqz) in
  let t := f_add (f_mul pqx dx) (f_mul pqz dz) in
  fin (if f_lt f_zero d then f_div t d else t).
Proof.
  intros Hn Hax Haz Hbx Hbz Hpx Hpz. cbv zeta. pose proof f_u_val as U. pose proof big_40 as B.
  assert (∀ a b : Z, (0 <= a <= n)%Z → (0 <= b <= n)%Z → fin (f_sub (f_of_Z b) (f_of_Z a)) ∧ f_R (f_sub (f_of_Z b) (f_of_Z a)) = IZR (b - a) ∧ Rabs (IZR (b - a)) <= 65536) as Hs.
  { intros a b Ha Hb. destruct (int_fin a) as [Fa Ea]; [lia|]. destruct (int_fin b) as [Fb Eb]; [lia|].
    assert (Rabs (IZR (b - a)) <= 65536) as H by (rewrite <-abs_IZR; apply IZR_le; lia).
    destruct (sub_ok (f_of_Z b) (f_of_Z a) 65536) as (F1 & E1 & _); [done|done|rewrite Ea, Eb, <-minus_IZR; done|lra|].
    rewrite Ea, Eb, <-minus_IZR, rnd_int in E1 by lia. done. }
  destruct (Hs ax bx Hax Hbx) as (F1 & E1 & B1). destruct (Hs az bz Haz Hbz) as (F2 & E2 & B2).
  destruct (Hs ax px Hax Hpx) as (F3 & E3 & B3). destruct (Hs az pz Haz Hpz) as (F4 & E4 & B4). clear Hs.
  set (pqx := f_sub (f_of_Z bx) (f_of_Z ax)) in *. set (pqz := f_sub (f_of_Z bz) (f_of_Z az)) in *.
  set (dx := f_sub (f_of_Z px) (f_of_Z ax)) in *. set (dz := f_sub (f_of_Z pz) (f_of_Z az)) in *.
  assert (∀ x y, fin x → fin y → Rabs (f_R x) <= 65536 → Rabs (f_R y) <= 65536 →
    fin (f_mul x y) ∧ f_R (f_mul x y) = rnd (f_R x * f_R y) ∧ Rabs (f_R (f_mul x y)) <= 4300000000) as Hm.
  { intros x y Fx Fy Bx By. assert (Rabs (f_R x * f_R y) <= 4294967296) as H.
    { rewrite Rabs_mult. replace 4294967296 with (65536 * 65536) by lra. apply Rmult_le_compat; try done; apply Rabs_pos. }
    destruct (mul_ok x y 4294967296) as (F & E & D); [done|done|done|lra|]. split; [done|]. split; [done|].
    apply Rabs_le_inv in H, D. apply Rabs_le. rewrite U in *. lra. }
  rewrite <-E1 in B1. rewrite <-E2 in B2. rewrite <-E3 in B3. rewrite <-E4 in B4.
  destruct (Hm pqx dx) as (G1 & _ & C1); [done..|]. destruct (Hm pqz dz) as (G2 & _ & C2); [done..|].
  destruct (Hm pqx pqx) as (G3 & X3 & C3); [done..|]. destruct (Hm pqz pqz) as (G4 & X4 & C4); [done..|]. clear Hm.
  assert (∀ x y, fin x → fin y → Rabs (f_R x) <= 4300000000 → Rabs (f_R y) <= 4300000000 →
    fin (f_add x y) ∧ f_R (f_add x y) = rnd (f_R x + f_R y) ∧ Rabs (f_R (f_add x y)) <= 9000000000) as Ha.
  { intros x y Fx Fy Bx By. apply Rabs_le_inv in Bx, By. assert (Rabs (f_R x + f_R y) <= 8600000000) as H by (apply Rabs_le; lra).
    destruct (add_ok x y 8600000000) as (F & E & D); [done|done|done|lra|]. split; [done|]. split; [done|].
    apply Rabs_le_inv in H, D. apply Rabs_le. rewrite U in *. lra. }
  destruct (Ha _ _ G1 G2 C1 C2) as (Ft & _ & Ct). destruct (Ha _ _ G3 G4 C3 C4) as (Fd & Ed & Cd). clear Ha.
  set (t := f_add (f_mul pqx dx) (f_mul pqz dz)) in *. set (d := f_add (f_mul pqx pqx) (f_mul pqz pqz)) in *.
  destruct (f_lt f_zero d) eqn:L; [|done]. apply lt_iff in L; [|exact (proj1 (int_fin 0 ltac:(lia)))|done]. change (f_R f_zero) with 0 in L.
  assert (1 <= f_R d) as D1.
  { rewrite Ed, X3, X4, E1, E2 in *. rewrite <-!mult_IZR in *. set (u := (bx - ax)%Z) in *. set (v := (bz - az)%Z) in *.
    destruct (decide (u = 0 ∧ v = 0)%Z) as [[-> ->]|Hne].
    { exfalso. change (0 * 0)%Z with 0%Z in L. rewrite !rnd_0, Rplus_0_r, rnd_0 in L. lra. }
    assert (0 <= rnd (IZR (u * u)) ∧ 0 <= rnd (IZR (v * v)) ∧ (1 <= rnd (IZR (u * u)) ∨ 1 <= rnd (IZR (v * v)))) as (H1 & H2 & H3).
    { split; [|split].
      - apply Rle_trans with (rnd 0); [rewrite rnd_0; lra|]. apply rnd_mono, IZR_le. nia.
      - apply Rle_trans with (rnd 0); [rewrite rnd_0; lra|]. apply rnd_mono, IZR_le. nia.
      - destruct (decide (u = 0)%Z); [right|left]; (apply Rle_trans with (rnd 1); [rewrite rnd_1; lra|]; apply rnd_mono, IZR_le; nia). }
    apply Rle_trans with (rnd 1); [rewrite rnd_1; lra|]. apply rnd_mono. lra. }
  assert (Rabs (f_R t / f_R d) <= 9000000000) as Q.
  { unfold Rdiv. rewrite Rabs_mult. rewrite (Rabs_pos_eq (/ f_R d)) by (apply Rlt_le, Rinv_0_lt_compat; lra).
    assert (/ f_R d <= 1) as I by (rewrite <-Rinv_1; apply Rinv_le_contravar; lra).
    apply Rle_trans with (9000000000 * 1); [|lra]. apply Rmult_le_compat; [apply Rabs_pos|apply Rlt_le, Rinv_0_lt_compat; lra|done|done]. }
  destruct (f_div_R t d) as [EQ FQ]; [apply Ft|apply Fd|apply Ft|lra|apply big_rnd; lra|]. split; [apply f_div_valid; [apply Ft|apply Fd]|done].
Qed.

(** The squared distance in [f32] is at least nearly that of some point of the
    segment. *)
Lemma dist_ok n (ax az bx bz px pz : Z) : (1 <= n <= 65535)%Z → (0 <= ax <= n)%Z → (0 <= az <= n)%Z → (0 <= bx <= n)%Z → (0 <= bz <= n)%Z → (0 <= px <= n)%Z → (0 <= pz <= n)%Z →
  let D := dist_sq_line px pz ax az bx bz in
  fin D ∧ ∃ s ex ez, 0 <= s <= 1 ∧ Rabs (ex - (IZR ax + s * (IZR bx - IZR ax) - IZR px)) <= 4 * f_u * IZR n ∧
    Rabs (ez - (IZR az + s * (IZR bz - IZR az) - IZR pz)) <= 4 * f_u * IZR n ∧
    ex * ex + ez * ez <= f_R D * (1 + 3 * f_u) + 4 * f_tiny.
Proof.
  intros Hn Hax Haz Hbx Hbz Hpx Hpz. pose proof (factor_ok n ax az bx bz px pz Hn Hax Haz Hbx Hbz Hpx Hpz) as Ft. cbv zeta in Ft.
  unfold dist_sq_line. cbv zeta. set (T := if f_lt f_zero _ then _ else _) in *. clearbody T. destruct (clamp_ok T Ft) as [Fc Hc]. set (t := f_clamp01 T) in *. clearbody t.
  destruct (coord_ok n t ax bx px) as (Fx & Bx & Dx); [done..|]. destruct (coord_ok n t az bz pz) as (Fz & Bz & Dz); [done..|].
  set (ex := f_sub _ (f_of_Z px)) in *. set (ez := f_sub _ (f_of_Z pz)) in *. clearbody ex ez.
  pose proof f_u_val as U. pose proof big_40 as B. pose proof tiny_pos as T0. pose proof tiny_le as T1.
  assert (1 <= IZR n <= 65535) as Rn by (split; apply IZR_le; lia).
  assert (∀ e, fin e → Rabs (f_R e) <= 2 * IZR n → fin (f_mul e e) ∧ 0 <= f_R e * f_R e <= 17179869184 ∧ Rabs (f_R (f_mul e e) - f_R e * f_R e) <= f_u * (f_R e * f_R e) + f_tiny) as Hm.
  { intros e Fe Be. assert (Rabs (f_R e * f_R e) <= 17179869184) as H.
    { rewrite Rabs_mult. replace 17179869184 with (131072 * 131072) by lra. apply Rmult_le_compat; try apply Rabs_pos; lra. }
    destruct (mul_ok e e 17179869184) as (F & E & _); [done|done|done|lra|]. split; [done|]. pose proof (sq_nonneg (f_R e)) as S0.
    rewrite (Rabs_pos_eq (f_R e * f_R e)) in H by done. split; [done|]. rewrite E. eapply Rle_trans; [apply rnd_err2|]. rewrite (Rabs_pos_eq (f_R e * f_R e)) by done. lra. }
  destruct (Hm ex Fx Bx) as (F1 & S1 & D1). destruct (Hm ez Fz Bz) as (F2 & S2 & D2). clear Hm. apply Rabs_le_inv in D1, D2.
  set (X := f_R ex * f_R ex) in *. set (Z := f_R ez * f_R ez) in *.
  destruct (add_ok (f_mul ex ex) (f_mul ez ez) 1099511627776) as (F3 & E3 & _); [done|done|apply Rabs_le; rewrite U in *; lra|lra|].
  split; [done|]. exists (f_R t), (f_R ex), (f_R ez). split; [done|]. split; [done|]. split; [done|]. fold X Z.
  assert (0 <= f_R (f_mul ex ex)) as P1. { destruct (mul_ok ex ex 17179869184) as (_ & E & _); [done|done|fold X; rewrite Rabs_pos_eq; lra|lra|]. rewrite E. apply Rle_trans with (rnd 0); [rewrite rnd_0; lra|]. apply rnd_mono. fold X. lra. }
  assert (0 <= f_R (f_mul ez ez)) as P2. { destruct (mul_ok ez ez 17179869184) as (_ & E & _); [done|done|fold Z; rewrite Rabs_pos_eq; lra|lra|]. rewrite E. apply Rle_trans with (rnd 0); [rewrite rnd_0; lra|]. apply rnd_mono. fold Z. lra. }
  pose proof (rnd_err2 (f_R (f_mul ex ex) + f_R (f_mul ez ez))) as D3. rewrite <-E3 in D3. rewrite (Rabs_pos_eq (f_R (f_mul ex ex) + f_R (f_mul ez ez))) in D3 by lra. apply Rabs_le_inv in D3.
  set (A := f_R (f_mul ex ex)) in *. set (C := f_R (f_mul ez ez)) in *. set (D := f_R (f_add (f_mul ex ex) (f_mul ez ez))) in *.
  rewrite U in *. clearbody A C D X Z. clear -D1 D2 D3 P1 P2 S1 S2 T0. lra.
Qed.

(** If the [f32] distance is not above the tolerance, the real one is not
    much above it. *)
Lemma deviation_off n err (p a b : vtx) : (1 <= n <= 65535)%Z → (0 <= vx a <= n)%Z → (0 <= vz a <= n)%Z → (0 <= vx b <= n)%Z → (0 <= vz b <= n)%Z → (0 <= vx p <= n)%Z → (0 <= vz p <= n)%Z →
  fin err → 0 <= f_R err <= 1048576 → f_lt (f_mul err err) (deviation p a b) = false →
  off_by p a b (f_R err * (1 + / 1048576) + IZR n / 1048576).
Proof.
  intros Hn H1 H2 H3 H4 H5 H6 Fe He HL. pose proof f_u_val as U. pose proof big_40 as B. pose proof tiny_pos as T0.
  assert (1 <= IZR n <= 65535) as Rn by (split; apply IZR_le; lia).
  assert (0 <= f_R err * f_R err <= 1099511627776) as S. { split; [apply sq_nonneg|]. replace 1099511627776 with (1048576 * 1048576) by lra. apply Rmult_le_compat; lra. }
  destruct (mul_ok err err 1099511627776) as (Fm & Em & _); [done|done|rewrite Rabs_pos_eq; lra|lra|].
  pose proof (rnd_err2 (f_R err * f_R err)) as Dm. rewrite <-Em, (Rabs_pos_eq (f_R err * f_R err)) in Dm by lra. apply Rabs_le_inv in Dm.
  assert (fin (deviation p a b) ∧ ∃ s ex ez, 0 <= s <= 1 ∧ Rabs (ex - (px a + s * (px b - px a) - px p)) <= 4 * f_u * IZR n ∧
    Rabs (ez - (pz a + s * (pz b - pz a) - pz p)) <= 4 * f_u * IZR n ∧ ex * ex + ez * ez <= f_R (deviation p a b) * (1 + 3 * f_u) + 4 * f_tiny) as (Fd & s & ex & ez & Hs & Dx & Dz & HD).
  { unfold deviation. destruct (xz_lt a b).
    - exact (dist_ok n (vx a) (vz a) (vx b) (vz b) (vx p) (vz p) Hn H1 H2 H3 H4 H5 H6).
    - destruct (dist_ok n (vx b) (vz b) (vx a) (vz a) (vx p) (vz p) Hn H3 H4 H1 H2 H5 H6) as (F & s & ex & ez & Hs & Dx & Dz & HD).
      split; [done|]. exists (1 - s), ex, ez. split; [lra|]. unfold px, pz. split; [|split; [|done]].
      + replace (IZR (vx a) + (1 - s) * (IZR (vx b) - IZR (vx a))) with (IZR (vx b) + s * (IZR (vx a) - IZR (vx b))) by ring. done.
      + replace (IZR (vz a) + (1 - s) * (IZR (vz b) - IZR (vz a))) with (IZR (vz b) + s * (IZR (vz a) - IZR (vz b))) by ring. done. }
  assert (f_R (deviation p a b) <= f_R (f_mul err err)) as HL'. { apply Rnot_lt_le. rewrite <-lt_iff by done. congruence. }
  exists s. split; [done|]. cbv zeta. set (gx := px a + s * (px b - px a) - px p) in *. set (gz := pz a + s * (pz b - pz a) - pz p) in *.
  set (E := f_R err) in *. set (N := IZR n) in *.
  (* the computed vector is no longer than [E (1 + 2^-20) + N / 2^22] *)
  assert (ex * ex + ez * ez <= (E * (1 + / 1048576) + N / 4194304) * (E * (1 + / 1048576) + N / 4194304)) as L1.
  { pose proof tiny_le as T1. 
    assert (f_tiny <= / 1099511627776 * / 1099511627776) as T2.
    { unfold f_tiny. replace (/ 1099511627776 * / 1099511627776) with (powerRZ 2 (-80)) by (unfold powerRZ; change (Pos.to_nat 80) with 80%nat; cbn [Rpow_def.pow]; lra). rewrite <-!bp. apply bpow_le. lia. }
    assert (ex * ex + ez * ez <= E * E * (1 + 5 * f_u) + 8 * f_tiny) as L0.
    { assert (f_R (deviation p a b) <= E * E * (1 + f_u) + f_tiny) as M by lra.
      pose proof (Rmult_le_compat_r (1 + 3 * f_u) _ _ ltac:(rewrite U; lra) M) as M'.
      assert ((E * E * (1 + f_u) + f_tiny) * (1 + 3 * f_u) <= E * E * (1 + 5 * f_u) + 2 * f_tiny) as M2. { rewrite U. lra. } lra. }
    assert (0 <= E * (N / 4194304)) as P1 by (apply Rmult_le_pos; lra).
    assert ((1 / 4194304) * (1 / 4194304) <= (N / 4194304) * (N / 4194304)) as P2 by (apply Rmult_le_compat; lra).
    rewrite U in L0. lra. }
  assert (0 <= E * (1 + / 1048576) + N / 4194304) as P by lra.
  (* triangle inequality *)
  set (L := E * (1 + / 1048576) + N / 4194304) in *. set (d := 4 * f_u * N) in *.
  assert (0 <= d) as Pd by (unfold d; rewrite U; lra).
  apply Rle_trans with (L + 3 / 2 * d); [|unfold L, d; rewrite U; lra].
  rewrite <-(sqrt_Rsqr (L + 3 / 2 * d)) by lra. apply sqrt_le_1_alt. unfold Rsqr.
  assert (∃ u, gx = ex + u ∧ - d <= u <= d) as (u & -> & Hu). { exists (gx - ex). split; [ring|]. apply Rabs_le_inv in Dx. lra. }
  assert (∃ w, gz = ez + w ∧ - d <= w <= d) as (w & -> & Hw). { exists (gz - ez). split; [ring|]. apply Rabs_le_inv in Dz. lra. }
  clear -L1 P Pd Hu Hw.
  (* |ex u + ez w| <= L * 3/2 d by Cauchy-Schwarz *)
  assert (u * u + w * w <= 2 * (d * d)) as HW. { assert (u * u <= d * d) by nra. assert (w * w <= d * d) by nra. lra. }
  assert (ex * u + ez * w <= L * (3 / 2 * d)) as CS.
  { apply Rsqr_incr_0_var; [|apply Rmult_le_pos; lra]. unfold Rsqr.
    assert ((ex * u + ez * w) * (ex * u + ez * w) <= (ex * ex + ez * ez) * (u * u + w * w)) as C1.
    { pose proof (sq_nonneg (ex * w - ez * u)). lra. }
    assert ((ex * ex + ez * ez) * (u * u + w * w) <= (L * L) * (2 * (d * d))) as C2.
    { apply Rmult_le_compat; [| |done|done]; [pose proof (sq_nonneg ex); pose proof (sq_nonneg ez); lra|pose proof (sq_nonneg u); pose proof (sq_nonneg w); lra]. }
    pose proof (sq_nonneg (L * d)) as C3. lra. }
  pose proof (sq_nonneg d). lra.
Qed.

(** ** The edges of a contour *)

Lemma off_by_ext p a b p' a' b' d : vpos p = vpos p' → vpos a = vpos a' → vpos b = vpos b' → off_by p a b d → off_by p' a' b' d.
Proof. unfold vpos, off_by, px, pz. intros [= -> ->] [= -> ->] [= -> ->]. done. Qed.
Lemma off_by_start p b d : 0 <= d → off_by p p b d.
Proof.
  intros Hd. exists 0. split; [lra|]. cbv zeta. replace (_ + _) with 0 by ring. by rewrite sqrt_0.
Qed.
Lemma off_by_point p a b c d : vpos a = vpos b → off_by p a b d → off_by p a c d.
Proof.
  unfold vpos. intros [= E1 E2] (s & Hs & H). exists 0. split; [lra|]. cbv zeta in *. unfold px, pz in *. rewrite E1, E2 in *.
  eapply Rle_trans; [|exact H]. apply Req_le. f_equal. ring.
Qed.
Lemma off_by_shift c p a b p' a' b' d :
  vpos p' = (vx p - c, vz p - c)%Z → vpos a' = (vx a - c, vz a - c)%Z → vpos b' = (vx b - c, vz b - c)%Z → off_by p a b d → off_by p' a' b' d.
Proof.
  unfold vpos. intros [= E1 E2] [= E3 E4] [= E5 E6] (s & Hs & H). exists s. split; [done|]. cbv zeta in *. unfold px, pz in *.
  rewrite E1, E2, E3, E4, E5, E6, !minus_IZR. eapply Rle_trans; [|exact H]. apply Req_le. f_equal. ring.
Qed.

(** Every offset is one of the chosen ones or strictly between two. *)
Lemma ordered_between raw os o : ordered raw os → (o < length raw)%nat →
  o ∈ os ∨ ∃ x e, successive (length raw) os x e ∧ (x < o < e)%nat.
Proof.
  intros (H0 & Hlt & Hs) Ho.
  assert (∀ m, (m <= length os)%nat → (∃ k x, os !! k = Some x ∧ (x <= o)%nat ∧ (os !! (k + 1)%nat = None ∨ ∃ y, os !! (k + 1)%nat = Some y ∧ (o < y)%nat)) ∨
    (∀ k x, (k < m)%nat → os !! k = Some x → (x <= o)%nat)) as H.
  { induction m as [|m IH]; intros Hm; [right; intros; lia|]. destruct IH as [IH|IH]; [lia|by left|].
    destruct (lookup_lt_is_Some_2 os m) as [y Hy]; [lia|]. destruct (decide (y <= o)%nat) as [Hle|Hgt].
    - right. intros k x Hk Hx. destruct (decide (k = m)) as [->|]; [congruence|]. apply (IH k); [lia|done].
    - left. destruct m as [|m]; [assert (y = 0)%nat by congruence; lia|].
      destruct (lookup_lt_is_Some_2 os m) as [x Hx]; [lia|]. exists m, x. split; [done|]. split; [apply (IH m); [lia|done]|].
      right. exists y. replace (m + 1)%nat with (S m) by lia. split; [done|lia]. }
  assert (∃ k x, os !! k = Some x ∧ (x <= o)%nat ∧ (os !! (k + 1)%nat = None ∨ ∃ y, os !! (k + 1)%nat = Some y ∧ (o < y)%nat)) as (k & x & Hx & Hle & Hn).
  { destruct (H (length os) ltac:(lia)) as [Hk|Hall]; [done|]. assert (0 < length os)%nat as Hl by (by eapply lookup_lt_Some).
    destruct (lookup_lt_is_Some_2 os (length os - 1)) as [x Hx]; [lia|]. exists (length os - 1)%nat, x. split; [done|].
    split; [apply (Hall (length os - 1)%nat); [lia|done]|]. left. apply lookup_ge_None_2. lia. }
  destruct (decide (x = o)) as [->|Hne]; [left; by eapply elem_of_list_lookup_2|]. right. destruct Hn as [Hn|(y & Hy & Hoy)].
  - exists x, (length raw + 0)%nat. split; [|lia]. exists k. split; [done|]. right. apply lookup_lt_Some in Hx. apply lookup_ge_None_1 in Hn.
    split; [lia|]. by exists 0%nat.
  - exists x, y. split; [|lia]. exists k. split; [done|]. by left.
Qed.

Section near.
  Context (raw : list rawv) (Hn : (0 < length raw)%nat) (j0 : nat) (os os' : list nat) (f : nat → vtx * Z) (d : R) (Hd : 0 <= d).
  Hypothesis Hord : ordered raw os.
  Hypothesis Ht : tolerates raw d j0 os.
  Hypothesis Hf : ∀ o, (f o).1 = vat raw (ix raw j0 o).
  Hypothesis Hne : os' ≠ [].
  Hypothesis Hpos : ∀ o, o ∈ os → ∃ o', o' ∈ os' ∧ vpos (f o').1 = vpos (f o).1.
  Hypothesis Hadj : ∀ p q, p ≠ q → SpecOutline.adjacent ((λ o, vpos (f o).1) <$> os) p q → SpecOutline.adjacent ((λ o, vpos (f o).1) <$> os') p q.

  (** An edge that starts at the place of a chosen vertex. *)
  Lemma edge_from o : o ∈ os → ∃ k u v, (f <$> os') !! k = Some u ∧ (f <$> os') !! ((k + 1) mod length (f <$> os'))%nat = Some v ∧ vpos u.1 = vpos (f o).1.
  Proof.
    intros Ho. destruct (Hpos o Ho) as (o' & Ho' & E). apply elem_of_list_lookup in Ho' as (k & Hk).
    assert (0 < length (f <$> os'))%nat as Hl. { rewrite fmap_length. by destruct os'; [|cbn; lia]. }
    destruct (lookup_lt_is_Some_2 (f <$> os') ((k + 1) mod length (f <$> os'))) as [v Hv]. { apply Nat.mod_upper_bound. lia. }
    exists k, (f o'), v. split; [by rewrite list_lookup_fmap, Hk|]. done.
  Qed.

  Lemma near_edge p : p ∈ raw → beyond_region p.2 = 0%Z ∨ area_border p.2 = true →
    ∃ k u v, (f <$> os') !! k = Some u ∧ (f <$> os') !! ((k + 1) mod length (f <$> os'))%nat = Some v ∧ off_by p.1 u.1 v.1 d.
  Proof.
    intros Hp Hw. apply elem_of_list_lookup in Hp as (j & Hj). pose proof (lookup_lt_Some _ _ _ Hj) as Hjl.
    assert (∃ o, (o < length raw)%nat ∧ ((j0 + o) mod length raw = j)%nat) as (o & Ho & Eo).
    { set (n := length raw) in *. exists ((j + (n - j0 mod n)) mod n)%nat. split; [apply Nat.mod_upper_bound; lia|].
      pose proof (Nat.mod_upper_bound j0 n ltac:(lia)) as Hm. rewrite Nat.add_mod_idemp_r by lia.
      pose proof (Nat.div_mod_eq j0 n) as E. replace (j0 + (j + (n - j0 mod n)))%nat with (j + (j0 / n + 1) * n)%nat by nia.
      rewrite Nat.mod_add by lia. by apply Nat.mod_small. }
    assert (at_loop raw (j0 + o) = Some p) as Hat by (unfold at_loop; by rewrite Eo).
    assert (∀ o q, at_loop raw (j0 + o) = Some q → (f o).1 = q.1) as Hfq.
    { intros o1 q Hq. rewrite (at_loop_pts raw Hn) in Hq. injection Hq as <-. rewrite Hf. done. }
    destruct (ordered_between raw os o Hord Ho) as [Hin|(x & e & Hsu & Hxe)].
    - destruct (edge_from o Hin) as (k & u & v & Hu & Hv & E). exists k, u, v. split; [done|]. split; [done|].
      apply (off_by_ext p.1 p.1 v.1); [done| |done|by apply off_by_start]. rewrite E. by rewrite (Hfq o p Hat).
    - assert (∃ a, at_loop raw (j0 + x) = Some a) as (a & Ha) by (rewrite (at_loop_pts raw Hn); eauto).
      assert (∃ b, at_loop raw (j0 + e) = Some b) as (b & Hb) by (rewrite (at_loop_pts raw Hn); eauto).
      pose proof (Ht x e o a b p Hsu Hxe Ha Hb Hat Hw) as Hoff.
      destruct Hsu as (k & Hk & He).
      assert (SpecOutline.adjacent ((λ o, vpos (f o).1) <$> os) (vpos a.1) (vpos b.1)) as Had.
      { exists k. rewrite fmap_length, !list_lookup_fmap, Hk. cbn [fmap option_fmap option_map]. rewrite (Hfq x a Ha). split; [done|].
        pose proof (lookup_lt_Some _ _ _ Hk) as Hkl. destruct He as [He|(El & g & Hg & ->)].
        - pose proof (lookup_lt_Some _ _ _ He). rewrite Nat.mod_small, He by lia. cbn. by rewrite (Hfq e b Hb).
        - rewrite El, Nat.mod_same, Hg by lia. cbn. rewrite Hf.
          replace (ix raw j0 g) with (ix raw j0 (length raw + g)) by (by apply ix_turn). rewrite <-Hf. by rewrite (Hfq _ b Hb). }
      destruct (decide (vpos a.1 = vpos b.1)) as [Eab|Hab].
      + assert (x ∈ os) as Hx by (by eapply elem_of_list_lookup_2).
        destruct (edge_from x Hx) as (k' & u & v & Hu & Hv & E). exists k', u, v. split; [done|]. split; [done|].
        apply (off_by_ext p.1 a.1 v.1); [done| |done|by apply (off_by_point _ _ b.1)]. rewrite E. by rewrite (Hfq x a Ha).
      + destruct (Hadj _ _ Hab Had) as (k' & Hu & Hv). rewrite fmap_length in Hv.
        rewrite list_lookup_fmap in Hu, Hv. apply fmap_Some in Hu as (ou & Hou & Eu). apply fmap_Some in Hv as (ov & Hov & Ev).
        exists k', (f ou), (f ov). rewrite fmap_length, !list_lookup_fmap, Hou, Hov. split; [done|]. split; [done|].
        by apply (off_by_ext p.1 a.1 b.1).
  Qed.
End near.

(** ** Contour sets *)

Lemma ends_and {A} B (m : outcome A) (P Q : A → Prop) : ends B m P → (∀ a, m = Done a → Q a) → ends B m (λ a, P a ∧ Q a).
Proof. destruct m; cbn; auto. Qed.

Section sets.
  Context (ch : chf) (Hc : contourable ch).
  Context (err : f32) (len : Z) (wall areas : bool) (Hlen : (0 <= len)%Z) (Hno : no_splitting len wall areas).
  Context (Fe : fin err) (He : 0 <= f_R err <= 1048576).
  Let size : Z := Z.max (Z.of_nat (ch_w ch)) (Z.of_nat (ch_h ch)).
  Let d : R := f_R err * (1 + / 1048576) + IZR size / 1048576.

  Lemma d_pos : 0 <= d.
  Proof.
    assert (0 <= IZR size) as H by (apply IZR_le; lia). unfold d. assert (0 <= f_R err * (1 + / 1048576)) by (apply Rmult_le_pos; lra). lra.
  Qed.

  Definition good_table (st : cstate) : Prop :=
    (st_count st <= length (st_table st))%nat ∧ ∀ k ct, (k < st_count st)%nat → st_table st !! k = Some ct → follows_walls ct d.

  Lemma walked_near r area tr raw l verts : closed_walk ch r tr → inner r → Forall2 (vertex_of ch area) tr raw →
    simplify_contour raw err len wall areas = Done l → remove_degenerate_segments l = Done verts → (3 <= length verts)%nat →
    ∀ area', follows_walls (Ct (unborder (ch_border ch) <$> verts) (unborder (ch_border ch) <$> raw) r area') d.
  Proof.
    intros Hcl Hi HF El Ev Hl3 area'. destruct Hc as [Hwf [Hw16 Hh16] Hsym Hr16 Hbc Hsm].
    pose proof (walk_loop ch r area tr raw Hcl HF) as Hloop. pose proof (loop_spread ch raw Hloop) as Hsp.
    assert (0 < length raw)%nat as Hn. { destruct raw; [by destruct Hloop|cbn; lia]. }
    pose proof (simplify_spec raw Hn False err len wall areas Hsp) as H.
    assert ((0 <? len)%Z && (wall || areas) = false) as Esp. { destruct Hno as [->|[-> ->]]; [done|]. by rewrite andb_false_r. }
    specialize (H ltac:(by right; right)). rewrite El in H. destruct H as (j0 & os & Hord & _ & (Hwi & _) & ->). specialize (Hwi Esp).
    set (fv := λ o : nat, _) in Ev.
    pose proof (remove_degenerate_spec fv (length (fv <$> os)) os 0 (proj2 (proj2 Hord)) ltac:(rewrite fmap_length; lia)) as H.
    unfold remove_degenerate_segments in Ev. rewrite Ev in H. destruct H as (os' & -> & _ & _ & Hpos & _ & Hadj).
    assert (os' ≠ []) as Hne. { intros ->. cbn in Hl3. lia. }
    assert (∀ v, v ∈ raw → (ch_border ch <= vx v.1 <= size)%Z ∧ (ch_border ch <= vz v.1 <= size)%Z ∧ (0 <= vx v.1)%Z ∧ (0 <= vz v.1)%Z) as Hb.
    { intros v (k & Hk)%elem_of_list_lookup. eapply Forall2_lookup_r in HF as (s & Hs & [Es _]); [|exact Hk].
      assert (valid ch r s) as Hvs. { apply Hcl. by eapply elem_of_list_lookup_2. }
      pose proof (c_end_clear ch Hwf Hbc r s Hvs Hi) as [H1 H2]. pose proof (c_end_bound ch Hwf r s Hvs) as [H3 H4].
      rewrite <-Es in H1, H2, H3, H4. unfold vpos in *. cbn [fst snd] in *. unfold size. lia. }
    assert (1 <= size <= 65535)%Z as Hsz.
    { split; [|unfold size; lia]. destruct tr as [|s tr]; [apply Forall2_length in HF; destruct raw; cbn in *; lia|].
      assert (valid ch r s) as (Hin & _). { apply Hcl. left. }
      pose proof (in_cell_lt ch Hwf _ _ Hin). unfold size. nia. }
    assert (tolerates raw d j0 os) as Htol.
    { intros x e o a b p Hsu Hxo Ha Hb' Hp Hb0. pose proof (Hwi x e o a b p Hsu Hxo Ha Hb' Hp Hb0) as HL.
      assert (∀ j (q : rawv), at_loop raw j = Some q → (0 <= vx q.1 <= size)%Z ∧ (0 <= vz q.1 <= size)%Z) as Hin.
      { intros j q Hq. destruct (Hb q) as (? & ? & ? & ?); [unfold at_loop in Hq; by eapply elem_of_list_lookup_2|lia]. }
      destruct (Hin _ _ Ha), (Hin _ _ Hb'), (Hin _ _ Hp). by apply (deviation_off size). }
    assert (∀ v : rawv, v ∈ raw → vpos (unborder (ch_border ch) v).1 = (vx v.1 - ch_border ch, vz v.1 - ch_border ch)%Z) as Hu.
    { intros v Hv. destruct (Hb v Hv) as (? & ? & _). apply unborder_pos; [apply Hbc|lia|lia]. }
    assert (∀ v : vtx * Z, v ∈ fv <$> os' → vpos (unborder (ch_border ch) v).1 = (vx v.1 - ch_border ch, vz v.1 - ch_border ch)%Z) as Hu'.
    { intros v (o & -> & _)%elem_of_list_fmap.
      assert (∃ q, at_loop raw (j0 + o) = Some q ∧ q.1 = (fv o).1) as (q & Hq & E) by (rewrite (at_loop_pts raw Hn); eexists; split; done).
      destruct (Hb q) as (? & ? & _); [unfold at_loop in Hq; by eapply elem_of_list_lookup_2|]. rewrite E in *. apply unborder_pos; [apply Hbc|lia|lia]. }
    intros p' Hp' Hw'. cbn [ct_raw ct_verts] in *. apply elem_of_list_fmap in Hp' as (p & -> & Hp). rewrite unborder_flag in Hw'.
    destruct (near_edge raw Hn j0 os os' fv d d_pos Hord Htol (λ o, eq_refl) Hne (Hpos Hne) Hadj p Hp Hw') as (k & u & v & Hku & Hkv & Hoff).
    exists k, (unborder (ch_border ch) u), (unborder (ch_border ch) v). rewrite fmap_length, !(list_lookup_fmap (unborder _)), Hku, Hkv.
    split; [done|]. split; [done|].
    apply (off_by_shift (ch_border ch) p.1 u.1 v.1); [by apply Hu|apply Hu'; by eapply elem_of_list_lookup_2|apply Hu'; by eapply elem_of_list_lookup_2|done].
  Qed.

  Lemma span_near c i SS st st' : in_cell ch c i → cinv ch SS st → good_table st →
    contour_span ch err len wall areas (c mod ch_w ch) (c / ch_w ch) i st = Done st' → good_table st'.
  Proof.
    intros Hin Hinv Hg E. pose proof Hc as [Hwf [Hw16 Hh16] Hsym Hr16 Hbc Hsm]. pose proof Hinv as (Hfl & _).
    unfold contour_span in E. apply obind_done in E as (f & Hf & E). apply get_done in Hf.
    destruct ((f =? 0)%Z || (f =? 15)%Z) eqn:Ef.
    { apply obind_done in E as (fl & _ & E). injection E as <-. exact Hg. }
    apply obind_done in E as (sp & Hsp & E). apply get_done in Hsp.
    destruct ((cs_reg sp =? REG_NONE)%Z || is_border (cs_reg sp)) eqn:Enb; [by injection E as <-|].
    assert (region_of ch i = Some (cs_reg sp)) as Hr by (unfold region_of; by rewrite Hsp).
    apply (inner_iff ch) in Enb; [|by eapply Hr16].
    apply obind_done in E as (area & Ha & E). apply get_done in Ha. apply obind_done in E as ([flags' raw] & Hwk & E).
    pose proof (walk_spec ch Hwf Hw16 Hh16 Hsym Hr16 c i (cs_reg sp) f area (st_flags st) Hin Hr Hfl Hf ltac:(lia) Ha ltac:(by apply Hsm)) as H.
    rewrite Hwk in H. destruct H as (_ & tr & Hwalk & _ & _ & _ & HF & _).
    apply obind_done in E as (l & El & E). apply obind_done in E as (verts & Ev & E).
    destruct (Nat.ltb_spec (length verts) 3) as [Hshort|Hlong]; [by injection E as <-|].
    pose proof (walked_near (cs_reg sp) area tr raw l verts Hwalk Enb HF El Ev Hlong area) as Hct.
    unfold store_contour in E. cbn [st_max st_count st_table st_flags] in E.
    apply obind_done in E as ([t m] & Et & E). apply obind_done in E as (t' & Hput & E). injection E as <-.
    assert (∃ k, t = take k (st_table st)) as (kt & ->).
    { destruct (_ <=? _)%Z; [apply obind_done in Et as (m' & _ & Et)|]; injection Et as <- <-; [by eexists|]. exists (length (st_table st)). by rewrite take_ge. }
    unfold put in Hput. destruct (take kt (st_table st) !! st_count st) as [old|] eqn:Eold; [|done]. injection Hput as <-.
    destruct Hg as [Hg1 Hg2]. pose proof (lookup_lt_Some _ _ _ Eold) as Hlt. split; cbn [st_count st_table]; [rewrite insert_length; lia|].
    intros k ct Hk Hl. destruct (decide (k = st_count st)) as [->|Hne].
    - rewrite list_lookup_insert in Hl by done. injection Hl as <-. exact Hct.
    - rewrite list_lookup_insert_ne in Hl by done. apply (Hg2 k); [lia|]. rewrite lookup_take in Hl; [done|]. rewrite take_length in Hlt. lia.
  Qed.

  Lemma build_near cs : build_contours ch err len wall areas = Done cs → ∀ ct, ct ∈ ks_contours cs → follows_walls ct d.
  Proof.
    intros E. pose proof Hc as [Hwf [Hw16 Hh16] Hsym Hr16 Hbc Hsm]. unfold build_contours in E.
    apply obind_done in E as (b2 & _ & E). apply obind_done in E as (bw & _ & E). apply obind_done in E as (bh & _ & E).
    apply obind_done in E as (flags & Hm & E). pose proof (mark_boundaries_spec ch Hwf Hw16 Hh16 Hsym Hr16) as Hok. rewrite Hm in Hok.
    destruct Hok as [Hok Hg]. cbv beta in Hok, Hg.
    apply obind_done in E as (st & Est & E). injection E as <-. cbn [ks_contours].
    set (mx := Z.max (ch_maxreg ch) 8) in *.
    assert (ends (bad ch len wall areas) (for_cells (ch_w ch) (ch_h ch) (λ x z st, let! cell := cell_at ch x z in
      foldM (contour_span ch err len wall areas x z) (index_range cell) st) (CStt flags (repeat ct_default (Z.to_nat mx)) 0 mx)) (λ st, (∃ SS, cinv ch SS st) ∧ good_table st)) as H.
    { apply (ends_cells _ (λ _ st, (∃ SS, cinv ch SS st) ∧ good_table st)).
      - split.
        + exists []. split; [by apply marked_inv|]. split; [done|]. cbn [st_table]. rewrite repeat_length. split; [fold mx; lia|]. split; [done|].
          split; [cbn; lia|]. split; [constructor|]. split; [by intros i ? ?%elem_of_nil|done].
        + split; cbn; lia.
      - intros c st0 Hc0 Hst. destruct (lookup_lt_is_Some_2 (ch_cells ch) c) as [cell Hcell]. { by rewrite (cells_len ch Hwf). }
        rewrite (cell_at_some ch c cell Hc0 Hcell). cbn [obind]. apply (ends_keep _ (λ st, (∃ SS, cinv ch SS st) ∧ good_table st)); [done|].
        intros i st' Hi ((SS & HSS) & Hgt). assert (in_cell ch c i) as Hin by (by exists cell). apply ends_and.
        + by apply (contour_span_spec ch Hwf Hw16 Hh16 Hsym Hr16 Hbc Hsm err len wall areas Hlen c i SS).
        + intros st'' E. by eapply (span_near c i SS). }
    rewrite Est in H. destruct H as (_ & Hg1 & Hg2). intros ct (k & Hk)%elem_of_list_lookup. apply lookup_take_Some in Hk as [Hk Hlt]. by apply (Hg2 k).
  Qed.
End sets.
