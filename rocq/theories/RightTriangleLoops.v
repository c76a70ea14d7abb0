(** The loops of rasterization around the clipping of a right triangle. *)
From Coq Require Import Reals Lra.
From Flocq Require Import Core.Core.
From Verif Require Import Base ModelMath ModelRasterize FloatReal FloatSpotProofs CameraProofs FlowProofs ClipProofs ClipStates FloatClipProofs RasterSafe RasterProofs RightTriangleProofs.
From Coq Require Import Floats.SpecFloat.
Local Open Scope R_scope.

(** ** Extents and heights *)

Lemma f32_min_valid a b : f_valid a → f_valid b → f_valid (f32_min a b).
Proof. unfold f32_min. intros Ha Hb. destruct (f_nan a); [done|]. destruct (f_nan b); [done|]. by destruct (f_lt b a). Qed.
Lemma extent_f32 c buf n : (0 < n)%nat → (n <= length buf)%nat →
  ∃ lo hi, extent f32_arith c buf n = Done (lo, hi) ∧ (Forall (λ p, f_valid (c p)) (take n buf) → f_valid lo).
Proof.
  intros H0 Hn. unfold extent. destruct (get_lt buf 0) as (v0 & Hg & Hv); [lia|]. rewrite Hg. cbn [obind].
  assert (∀ is lo hi, Forall (λ i, i < n)%nat is → ∃ lo' hi',
    foldM (λ i '(lo, hi), let! v := get buf i in Done (n_min f32_arith lo (c v), n_max f32_arith hi (c v))) is (lo, hi) = Done (lo', hi') ∧
    (Forall (λ p, f_valid (c p)) (take n buf) → f_valid lo → f_valid lo')) as H.
  { induction is as [|i is IH]; intros lo hi Hi; [by exists lo, hi|]. apply Forall_cons in Hi as [Hi His]. cbn [foldM].
    destruct (get_lt buf i) as (v & Hgv & Hvi); [lia|]. rewrite Hgv. cbn [obind].
    destruct (IH (n_min f32_arith lo (c v)) (n_max f32_arith hi (c v)) His) as (lo' & hi' & E & Hval). exists lo', hi'. split; [exact E|].
    intros Hall Hlo. apply Hval; [done|]. apply f32_min_valid; [done|]. rewrite Forall_lookup in Hall. apply (Hall i). by rewrite lookup_take. }
  destruct (H (seq 1 (n - 1)) (c v0) (c v0)) as (lo & hi & E & Hval).
  { apply Forall_lookup. intros j i Hj. apply lookup_seq in Hj. lia. }
  exists lo, hi. split; [exact E|]. intros Hall. apply Hval; [done|]. rewrite Forall_lookup in Hall. apply (Hall 0%nat). by rewrite lookup_take.
Qed.

Section Heights.
Context (Bd : R) (HB : 1 <= Bd) (HBb : 64 * Bd <= f_big).
Context (g : place f32) (Fy0 : fin (py (pl_min g))) (Fy1 : fin (py (pl_max g))) (By0 : Rabs (f_R (py (pl_min g))) <= Bd) (By1 : Rabs (f_R (py (pl_max g))) <= Bd).
Context (Fch : fin (pl_ch g)) (Hch : Bd / 16384 <= f_R (pl_ch g)).

Lemma heights_f32 buf n : (0 < n)%nat → (n <= length buf)%nat → Forall (λ p, f_valid (py p)) (take n buf) →
  ∃ r, span_heights f32_arith g buf n = Done r ∧ ∀ a b, r = Some (a, b) → (0 <= a < b)%Z ∧ (b <= 65535)%Z.
Proof.
  intros H0 Hn Hval. unfold span_heights. destruct (extent_f32 py buf n H0 Hn) as (lo & hi & -> & Hlo). specialize (Hlo Hval). cbn [obind].
  set (by_ := n_sub f32_arith (py (pl_max g)) (py (pl_min g))). set (inv := n_div f32_arith (n_of_Z f32_arith 1) (pl_ch g)).
  set (lo0 := n_sub f32_arith lo (py (pl_min g))). set (hi0 := n_sub f32_arith hi (py (pl_min g))).
  destruct (_ || _) eqn:E; [exists None; split; [done|]; by intros a b|]. apply orb_false_iff in E as [_ E].
  pose proof (Rabs_le_inv _ _ By0) as By0'. pose proof (Rabs_le_inv _ _ By1) as By1'.
  assert (fin by_ ∧ f_R by_ <= 2001 / 1000 * Bd) as [Fby Bby].
  { destruct (sub_ok (py (pl_max g)) (py (pl_min g)) (2 * Bd)) as (F & _ & D); [done|done|apply Rabs_le; lra|lra|]. split; [exact F|].
    change (f_sub (py (pl_max g)) (py (pl_min g))) with by_ in D. apply Rabs_le_inv in D. rewrite f_u_val in D. lra. }
  assert (fin inv ∧ 0 <= f_R inv ∧ f_R inv * Bd <= 16401) as (Finv & I0 & Iinv).
  { destruct (f_of_Z_R 1 ltac:(lia)) as [E1 F1].
    assert (0 < f_R (pl_ch g)) as C0 by lra. assert (0 < / f_R (pl_ch g)) as C1 by (by apply Rinv_0_lt_compat).
    assert (/ f_R (pl_ch g) * Bd <= 16384) as C2.
    { apply Rmult_le_reg_r with (f_R (pl_ch g)); [done|]. replace (/ f_R (pl_ch g) * Bd * f_R (pl_ch g)) with Bd by (field; lra). lra. }
    assert (Rabs (/ f_R (pl_ch g)) <= f_big) as C3. { rewrite Rabs_pos_eq by lra. assert (/ f_R (pl_ch g) <= 16384) by nra. assert (1048576 <= f_big); [|lra].
      unfold f_big. replace 1048576 with (powerRZ 2 20) by (unfold powerRZ; change (Pos.to_nat 20) with 20%nat; cbn [Rpow_def.pow]; lra). rewrite <-!bp. apply bpow_le. lia. }
    destruct (f_div_R (f_of_Z 1) (pl_ch g)) as [Ei Fi]; [apply f_of_Z_valid|apply Fch|done|lra| |].
    { rewrite E1. unfold Rdiv. rewrite Rmult_1_l. by apply big_rnd. }
    rewrite E1 in Ei. unfold Rdiv in Ei. rewrite Rmult_1_l in Ei. change (f_div (f_of_Z 1) (pl_ch g)) with inv in Ei, Fi.
    split; [split; [apply f_div_valid; [apply f_of_Z_valid|apply Fch]|done]|]. rewrite Ei. split; [rewrite <-rnd_0; apply rnd_mono; lra|].
    destruct (Rle_or_lt (powerRZ 2 (-126)) (Rabs (/ f_R (pl_ch g)))) as [Hb|Hb].
    - pose proof (rnd_rel _ Hb) as Hr. rewrite (Rabs_pos_eq (/ f_R (pl_ch g))) in Hr by lra.
      assert (f_eps <= / 1048576) as He.
      { unfold f_eps. replace (/ 1048576) with (powerRZ 2 (-20)) by (unfold powerRZ; change (Pos.to_nat 20) with 20%nat; f_equal; cbn [Rpow_def.pow]; lra). rewrite <-!bp. apply bpow_le. lia. }
      apply Rabs_le_inv in Hr. set (v := / f_R (pl_ch g)) in *. clearbody v.
      apply Rle_trans with ((v + f_eps * v) * Bd); [apply Rmult_le_compat_r; lra|]. replace ((v + f_eps * v) * Bd) with (v * Bd * (1 + f_eps)) by ring.
      assert (0 <= v * Bd) by (apply Rmult_le_pos; lra). assert (0 <= f_eps) by (unfold f_eps; apply Rlt_le, powerRZ_lt; lra).
      apply Rle_trans with (16384 * (1 + / 1048576)); [apply Rmult_le_compat; lra|lra].
    - assert (Rabs (rnd (/ f_R (pl_ch g))) <= powerRZ 2 (-126)) as Hr by (apply rnd_abs_le; [apply pow2_format; lia|lra]).
      apply Rabs_le_inv in Hr. assert (powerRZ 2 (-126) * Bd <= 1); [|nra].
      apply Rle_trans with (powerRZ 2 (-126) * powerRZ 2 110).
      + apply Rmult_le_compat_l; [apply Rlt_le, powerRZ_lt; lra|]. unfold f_big in HBb. lra.
      + rewrite <-powerRZ_add by lra. change (-126 + 110)%Z with (-16)%Z. replace 1 with (powerRZ 2 0) by (cbn; lra). rewrite <-!bp. apply bpow_le. lia. }
  set (lo1 := n_max f32_arith lo0 (n_of_Z f32_arith 0)).
  assert (fin lo1 ∧ 0 <= f_R lo1 <= 2001 / 1000 * Bd) as [Flo1 Blo1].
  { destruct fin_zero as [F0 E0]. assert (f_valid lo0) as V0 by (apply f_sub_valid; [done|apply Fy0]).
    change (n_lt f32_arith) with f_lt in E.
    assert (fin (f_of_Z 0) ∧ 0 <= f_R (f_of_Z 0) <= 2001 / 1000 * Bd) as Hz by (split; [done|rewrite E0; lra]).
    change lo1 with (f32_max lo0 (f_of_Z 0)). unfold f32_max.
    destruct (f_nan lo0) eqn:En; [done|]. change (f_nan (f_of_Z 0)) with false. cbn iota.
    destruct (f_lt lo0 (f_of_Z 0)) eqn:El; [done|].
    assert (FloatReal.f_finite lo0) as Ff.
    { destruct lo0 as [s|s| |s m e]; try done; exfalso. destruct s; [done|]. destruct Fby as [_ Fb]. destruct by_ as [s|s| |s m e]; try done. }
    assert (fin lo0) as F by done. split; [done|]. split.
    - destruct (Rle_or_lt 0 (f_R lo0)) as [G|G]; [done|]. rewrite <-E0 in G. apply (lt_iff _ _ F F0) in G. congruence.
    - destruct (Rle_or_lt (f_R lo0) (f_R by_)) as [G|G]; [lra|]. apply (lt_iff _ _ Fby F) in G. congruence. }
  assert (fin (f_mul lo1 inv) ∧ 0 <= f_R (f_mul lo1 inv) <= 40000) as [Fm Bm].
  { assert (0 <= f_R lo1 * f_R inv <= 33000) as Hp by (split; nra).
    destruct (mul_ok lo1 inv 33000) as (F & E2 & D); [done|done|rewrite Rabs_pos_eq; lra| |].
    { split; [lra|]. assert (1048576 <= f_big); [|lra].
      unfold f_big. replace 1048576 with (powerRZ 2 20) by (unfold powerRZ; change (Pos.to_nat 20) with 20%nat; cbn [Rpow_def.pow]; lra). rewrite <-!bp. apply bpow_le. lia. }
    split; [done|]. split; [rewrite E2, <-rnd_0; apply rnd_mono; lra|]. apply Rabs_le_inv in D. rewrite f_u_val in D. lra. }
  change (n_mul f32_arith lo1 inv) with (f_mul lo1 inv).
  assert (0 <= n_floor_i32 f32_arith (f_mul lo1 inv) <= 40000)%Z as Hfl.
  { change (n_floor_i32 f32_arith) with (f_cast f_floor_Z (-2147483648) 2147483647). rewrite cast_floor by apply Fm.
    assert (0 <= Zfloor (f_R (f_mul lo1 inv)) <= 40000)%Z as [G1 G2].
    { split; [apply Zfloor_lub; lra|]. apply le_IZR. eapply Rle_trans; [apply Zfloor_lb|lra]. }
    unfold sat. lia. }
  set (q := n_floor_i32 f32_arith (f_mul lo1 inv)) in *. unfold clamp_Z at 1. cbn [Z.ltb Z.compare]. cbn [obind].
  unfold clamp_Z. destruct (65535 <? sat 0 65535 q + 1)%Z eqn:Ec; [exfalso; unfold sat in Ec; lia|]. cbn [obind].
  eexists. split; [reflexivity|]. intros a b [= <- <-]. unfold sat. lia.
Qed.
End Heights.

(** ** The loops *)

Section Loops.
Context (Bd : R) (HB : 1 <= Bd) (HBb : 64 * Bd <= f_big).
Context (g : place f32) (Fy0 : fin (py (pl_min g))) (Fy1 : fin (py (pl_max g))) (By0 : Rabs (f_R (py (pl_min g))) <= Bd) (By1 : Rabs (f_R (py (pl_max g))) <= Bd).
Context (Fch : fin (pl_ch g)) (Hch : Bd / 16384 <= f_R (pl_ch g)).
Context (Fcs : fin (pl_cs g)) (Hcs : Bd / 8192 <= f_R (pl_cs g)).
Context (Fx0 : fin (px (pl_min g))) (Bx0 : Rabs (f_R (px (pl_min g))) <= Bd) (Fz0 : fin (pz (pl_min g))) (Bz0 : Rabs (f_R (pz (pl_min g))) <= Bd).
Context (w h : Z) (Hw : (1 <= w <= 32767)%Z) (Hh : (1 <= h <= 32767)%Z) (Hwc : IZR w * f_R (pl_cs g) <= 4 * Bd) (Hhc : IZR h * f_R (pl_cs g) <= 4 * Bd).
Context (xs xt zs zt : f32) (Fxs : fin xs) (Fxt : fin xt) (Fzs : fin zs) (Fzt : fin zt).
Context (Bxs : Rabs (f_R xs) <= Bd) (Bxt : Rabs (f_R xt) <= Bd) (Bzs : Rabs (f_R zs) <= Bd) (Bzt : Rabs (f_R zt) <= Bd).
Context {S : Type} (emit : Z → Z → Z → Z → S → outcome (option S)) (I : S → Prop).
Context (Hemit : ∀ x z a b s, (0 <= x < w)%Z → (0 <= z < h)%Z → (0 <= a < b)%Z → (b <= 65535)%Z → I s → ∃ s', emit x z a b s = Done (Some s') ∧ I s').
Local Notation poly := (list (pt f32)).
Local Notation x_is := (x_is Bd (pl_cs g) (px (pl_min g)) xs xt).
Local Notation z_is := (z_is Bd (pl_cs g) xs xt (pz (pl_min g)) zs zt).

Definition at_cell (n : Z) (st : poly * nat * (poly * nat) * poly * S) : Prop :=
  let '((row, nv2), (p1, nv), p2, s) := st in
  length row = 7%nat ∧ length p1 = 7%nat ∧ length p2 = 7%nat ∧ (nv <= 7)%nat ∧ Forall (λ p, f_valid (py p)) (take nv p1) ∧ I s ∧
  ∃ l', l' ∈ x_polys ∧ length l' = nv2 ∧ Forall2 (x_is n) l' (take nv2 row).

Lemma cell_ok z x st : (0 <= z < h)%Z → (-1 <= x < w)%Z → at_cell x st → ∃ st', cell_step f32_arith emit g z x st = Done (Some st') ∧ at_cell (x + 1) st'.
Proof.
  destruct st as [[[[row nv2] [p1 nv]] p2] s]. intros Hz Hx (L1 & L2 & L3 & Nv & Hy & Hs & l' & Hl' & El & Hl).
  assert (nv2 <= 7)%nat as N2. { apply Forall2_length in Hl. rewrite take_length in Hl. lia. }
  assert (∃ p1' nv' p2' nv2', divide_poly f32_arith row nv2 p1 nv p2 nv2 (grid_line (pl_cs g) (px (pl_min g)) x) AxX = Done (Some ((p1', nv'), (p2', nv2'))) ∧
    length p1' = 7%nat ∧ length p2' = 7%nat ∧ (nv' <= 7)%nat ∧ Forall (λ p, f_valid (py p)) (take nv' p1') ∧
    ∃ l2, l2 ∈ x_polys ∧ length l2 = nv2' ∧ Forall2 (x_is (x + 1)) l2 (take nv2' p2')) as (p1' & nv' & p2' & nv2' & Ed & M1 & M2 & Nv' & Hy' & Hl2).
  { destruct (decide (nv2 = 0%nat)) as [->|Hne].
    - exists p1, nv, p2, 0%nat. split; [done|]. split; [done|]. split; [done|]. split; [done|]. split; [done|].
      apply nil_length_inv in El as ->. exists []. split; [done|]. split; [done|]. constructor.
    - destruct (x_step Bd HB HBb (pl_cs g) Fcs Hcs (px (pl_min g)) Fx0 Bx0 w Hw Hwc xs xt Fxs Fxt Bxs Bxt x l' _ Hx Hl' Hl) as (P1 & P2 & P3 & l2 & P4 & P5).
      destruct (divide_done f32_arith (grid_line (pl_cs g) (px (pl_min g)) x) AxX row nv2 p1 nv p2 nv2) as (o1 & o2 & E & K1 & K2 & T1 & T2); [lia|lia|lia|lia|lia|].
      eexists _, _, _, _. split; [exact E|]. split; [lia|]. split; [lia|]. split; [exact P1|]. rewrite T1, T2. split; [exact P3|].
      exists l2. split; [done|]. split; [by apply Forall2_length in P5|done]. }
  unfold cell_step. change (n_add f32_arith (n_add f32_arith (px (pl_min g)) (n_mul f32_arith (n_of_Z f32_arith x) (pl_cs g))) (pl_cs g)) with (grid_line (pl_cs g) (px (pl_min g)) x).
  rewrite Ed. cbn [obind].
  assert (∀ s', I s' → ∃ st', Done (Some (p2', nv2', (p1', nv'), row, s')) = Done (Some st') ∧ at_cell (x + 1) st') as Hend.
  { intros s' Hs'. eexists. split; [done|]. split; [done|]. split; [done|]. split; [done|]. split; [done|]. split; [done|]. split; [done|exact Hl2]. }
  destruct ((nv' <? 3)%nat || (x <? 0)%Z) eqn:E; [by apply Hend|]. apply orb_false_iff in E as [E1%Nat.ltb_ge E2%Z.ltb_ge].
  destruct (heights_f32 Bd HB HBb g Fy0 Fy1 By0 By1 Fch Hch p1' nv') as (r & -> & Hr); [lia|lia|done|]. cbn [obind].
  destruct r as [[a b]|]; [|by apply Hend]. destruct (Hr a b eq_refl) as [R1 R2]. destruct (Hemit x z a b s) as (s' & -> & Hs'); [lia|done|done|done|done|].
  cbn [obind]. by apply Hend.
Qed.

Definition at_row (top : f32) (z1 n : Z) (st : poly * nat * (poly * nat) * (poly * poly) * S) : Prop :=
  let '((tri, nvt), (row, nvr), (p1, p2), s) := st in
  length tri = 7%nat ∧ length row = 7%nat ∧ length p1 = 7%nat ∧ length p2 = 7%nat ∧ I s ∧
  ((n <= z1)%Z → ∃ p, p ∈ take nvt tri ∧ f_R (pz p) = f_R top) ∧
  ∃ l', l' ∈ z_polys ∧ length l' = nvt ∧ Forall2 (z_is n) l' (take nvt tri).

Lemma row_ok top z1 z st : (-1 <= z < h)%Z → (z <= z1)%Z →
  ((z < z1)%Z → f_R (grid_line (pl_cs g) (pz (pl_min g)) z) + 16 * f_u * Bd < f_R top) →
  at_row top z1 z st → ∃ st', row_step f32_arith emit g w z st = Done (Some st') ∧ at_row top z1 (z + 1) st'.
Proof.
  destruct st as [[[[tri nvt] [row nvr]] [p1 p2]] s]. intros Hz Hz1 Htop (L1 & L2 & L3 & L4 & Hs & Hp & l' & Hl' & El & Hl).
  assert (nvt <= 7)%nat as N2. { apply Forall2_length in Hl. rewrite take_length in Hl. lia. }
  destruct (Hp Hz1) as (p & Hpin & Ep). assert (0 < nvt)%nat as N0. { destruct nvt; [by apply elem_of_nil in Hpin|lia]. }
  destruct (z_step Bd HB HBb (pl_cs g) Fcs Hcs (px (pl_min g)) xs xt
    (pz (pl_min g)) Fz0 Bz0 h Hh Hhc zs zt Fzs Fzt Bzs Bzt z l' _ Hz Hl' Hl) as (P1 & P2 & (lx & Hlx & Px) & (l2 & Hl2 & P5) & Pin).
  set (L := grid_line (pl_cs g) (pz (pl_min g)) z) in *.
  destruct (divide_done f32_arith L AxZ tri nvt row nvr p1 nvt) as (o1 & o2 & E & K1 & K2 & T1 & T2); [lia|lia|lia|lia|lia|].
  set (n1 := length (part1 f32_arith L AxZ (take nvt tri))) in *. set (n2 := length (part2 f32_arith L AxZ (take nvt tri))) in *.
  unfold row_step. change (n_add f32_arith (n_add f32_arith (pz (pl_min g)) (n_mul f32_arith (n_of_Z f32_arith z) (pl_cs g))) (pl_cs g)) with L.
  rewrite E. cbn [obind]. clear E.
  assert (∀ row' nr p1' p2' s', length row' = 7%nat → length p1' = 7%nat → length p2' = 7%nat → I s' →
    ∃ st', Done (Some (o2, n2, (row', nr), (p1', p2'), s')) = Done (Some st') ∧ at_row top z1 (z + 1) st') as Hend.
  { intros row' nr p1' p2' s' A1 A2 A3 Hs'. eexists. split; [done|]. split; [lia|]. split; [lia|]. split; [lia|]. split; [lia|]. split; [done|]. rewrite T2. split.
    - intros Hlt. exists p. split; [|done]. apply Pin; [done|]. rewrite Ep. apply Htop. lia.
    - exists l2. split; [done|]. split; [by apply Forall2_length in P5|done]. }
  destruct ((n1 <? 3)%nat || (z <? 0)%Z) eqn:E; [apply Hend; lia || done|]. apply orb_false_iff in E as [E1%Nat.ltb_ge E2%Z.ltb_ge].
  destruct (extent_f32 px o1 n1) as (mnx & mxx & -> & _); [lia|lia|]. cbn [obind]. destruct (_ || _); [apply Hend; lia || done|].
  rewrite chk_in by lia. cbn [obind]. unfold clamp_Z at 1. destruct (w - 1 <? -1)%Z eqn:C1; [exfalso; lia|]. cbn [obind].
  unfold clamp_Z at 1. destruct (w - 1 <? 0)%Z eqn:C2; [exfalso; lia|]. cbn [obind].
  match goal with |- context [z_range (sat (-1) (w - 1) ?a) (sat 0 (w - 1) ?b)] => set (x0 := sat (-1) (w - 1) a); set (x1 := sat 0 (w - 1) b);
    assert (-1 <= x0)%Z as X0 by (unfold x0, sat; lia); assert (x1 <= w - 1)%Z as X1 by (unfold x1, sat; lia) end.
  assert (at_cell x0 (o1, n1, (tri, 0%nat), p2, s)) as H0.
  { split; [lia|]. split; [lia|]. split; [lia|]. split; [lia|]. split; [constructor|]. split; [done|]. exists lx. split; [done|]. rewrite T1.
    split; [by pose proof (Forall2_length _ _ _ (Px 0%Z))|apply Px]. }
  destruct (decide (x0 <= x1 + 1)%Z) as [Hx01|Hx01].
  - destruct (foldE_range (cell_step f32_arith emit g z) at_cell x0 x1 _ H0 Hx01) as (st' & -> & Hst').
    { intros x st Hx Hst. apply cell_ok; [lia|lia|done]. }
    cbn [obind]. destruct st' as [[[[row' nv2'] [p1' nv']] p2'] s']. destruct Hst' as (A1 & A2 & A3 & _ & _ & A6 & _). by apply Hend.
  - assert (z_range x0 x1 = []) as ->. { unfold z_range. replace (Z.to_nat (x1 - x0 + 1)) with 0%nat by lia. done. }
    cbn [foldE obind]. apply Hend; lia || done.
Qed.

(** A whole triangle: [cs] in some order, and the line before its last row before
    its far end. *)
Lemma triangle_ok width height t s l' top z0 z1 :
  wrap_i16 width = w → wrap_i16 height = h → l' ∈ z_starts → Forall2 (z_is (-1)) l' [t.1.1; t.1.2; t.2] → I s →
  (∃ p, p ∈ [t.1.1; t.1.2; t.2] ∧ f_R (pz p) = f_R top) →
  (let inv_cs := n_div f32_arith (n_of_Z f32_arith 1) (pl_cs g) in
    z0 = sat (-1) (h - 1) (n_to_i16 f32_arith (n_mul f32_arith (n_sub f32_arith (pz (tri_min f32_arith t)) (pz (pl_min g))) inv_cs)) ∧
    z1 = sat 0 (h - 1) (n_to_i16 f32_arith (n_mul f32_arith (n_sub f32_arith (pz (tri_max f32_arith t)) (pz (pl_min g))) inv_cs))) →
  (intersects f32_arith g (tri_min f32_arith t) (tri_max f32_arith t) = true →
    ∀ z, (-1 <= z < z1)%Z → f_R (grid_line (pl_cs g) (pz (pl_min g)) z) + 16 * f_u * Bd < f_R top) →
  ∃ s', rasterize_tri f32_arith emit width height g t s = Done (Some s') ∧ I s'.
Proof.
  intros Ew Eh Hl' Hl Hs Htop (Ez0 & Ez1) Hclear. unfold rasterize_tri. destruct (intersects _ _ _ _) eqn:Ei; [|by exists s]. cbn [negb]. specialize (Hclear eq_refl).
  rewrite Ew, Eh. rewrite chk_in by lia. cbn [obind]. unfold clamp_Z at 1. destruct (h - 1 <? -1)%Z eqn:C1; [exfalso; lia|]. cbn [obind].
  unfold clamp_Z at 1. destruct (h - 1 <? 0)%Z eqn:C2; [exfalso; lia|]. cbn [obind]. rewrite <-Ez0, <-Ez1.
  assert (-1 <= z0)%Z as Z0 by (rewrite Ez0; unfold sat; lia). assert (0 <= z1 <= h - 1)%Z as Z1 by (rewrite Ez1; unfold sat; lia).
  assert (∀ n, (-1 <= n <= 32767)%Z → Forall2 (z_is n) l' [t.1.1; t.1.2; t.2]) as Hn.
  { intros n Hn. apply Forall2_same_length_lookup_2; [by apply Forall2_length in Hl|]. intros i k p Hi Hpi.
    pose proof (Forall2_lookup_lr _ _ _ _ _ _ Hl Hi Hpi) as (A1 & A2 & A3 & A4 & A5 & A6 & A7). apply elem_of_list_lookup_2 in Hi as Hk.
    destruct (x_bound_ok Bd HB n Hn) as [X _]. assert (x_bound Bd (-1) = Bd) as E by (unfold x_bound; lra). rewrite E in A2.
    split; [done|]. split; [lra|]. split; [done|]. split; [done|]. split; [done|]. split; [done|].
    assert (k.1 ≠ ZNear) as Hne. { intros Ek. clear -Hk Hl' Ek. cbn in Hl'. unfold z_starts in Hl'.
      repeat (apply elem_of_cons in Hl' as [->|Hl']; [repeat (apply elem_of_cons in Hk as [->|Hk]; [done|]); by apply elem_of_nil in Hk|]). by apply elem_of_nil in Hl'. }
    by destruct k as [[| |] kx]. }
  assert (length l' = 3%nat) as E3 by (by apply Forall2_length in Hl).
  destruct (decide (z0 <= z1 + 1)%Z) as [Hz|Hz].
  - edestruct (foldE_range (row_step f32_arith emit g w) (at_row top z1) z0 z1) as (st' & E & Hst'); [|exact Hz| |].
    3:{ rewrite E. cbn [obind]. destruct st' as [[[[? ?] [? ?]] [? ?]] s']. destruct Hst' as (_ & _ & _ & _ & A & _). by exists s'. }
    + split; [done|]. split; [done|]. split; [done|]. split; [done|]. split; [done|]. split; [intros _; exact Htop|].
      exists l'. split; [by apply z_start|]. split; [done|]. apply Hn. lia.
    + intros z st Hzr Hst. apply row_ok; [lia|lia| |done]. intros Hlt. apply Hclear. lia.
  - assert (z_range z0 z1 = []) as ->. { unfold z_range. replace (Z.to_nat (z1 - z0 + 1)) with 0%nat by lia. done. }
    cbn [foldE obind]. by exists s.
Qed.
End Loops.
