(** Which scenes are rasterized without a panic: C89. *)
From Coq Require Import Reals Lra.
From Flocq Require Import Core.Core.
From Verif Require Import Base ModelMath FloatReal FloatSpotProofs CameraProofs ModelHeightfield ModelHistory ModelTriMesh ModelRasterize SpecHeightfield SpecTriMesh SpecClipping
  HistoryProofs FlowProofs ClipProofs ClipStates FloatClipProofs RasterSafe RightTriangleProofs RightTriangleLoops PropertiesHeightfield PropertiesRasterize
  ModelConfig ModelDetail ModelExport ModelPipeline PropertiesTriMesh PropertiesConfig PropertiesPipeline PropertiesReturn.
From Coq Require Import Floats.SpecFloat.
Local Open Scope R_scope.

Ltac pow2 := unfold powerRZ; match goal with |- context [Pos.to_nat ?n] => let v := eval compute in (Pos.to_nat n) in change (Pos.to_nat n) with v end;
  cbn [Rpow_def.pow]; lra.
Lemma big_100 : 64 * 2 ^ 100 <= f_big.
Proof.
  unfold f_big. change (2 ^ 100) with (powerRZ 2 100). apply Rle_trans with (powerRZ 2 6 * powerRZ 2 100).
  { apply Rmult_le_compat_r; [apply Rlt_le, powerRZ_lt; lra|]. apply Req_le. pow2. }
  rewrite <-powerRZ_add by lra. rewrite <-!bp. apply bpow_le. lia.
Qed.

(** ** The last row *)

Lemma f_max_R a b : fin a → fin b → fin (f_max a b) ∧ f_R (f_max a b) = Rmax (f_R a) (f_R b).
Proof.
  intros Fa Fb. unfold f_max. destruct (f_lt b a) eqn:E.
  - apply (lt_iff _ _ Fb Fa) in E. split; [done|]. rewrite Rmax_left; lra.
  - split; [done|]. rewrite Rmax_right; [done|]. apply Rnot_lt_le. intros H. apply (lt_iff _ _ Fb Fa) in H. congruence.
Qed.

Lemma last_row Bd (g : place f32) top h z1 :
  1 <= Bd → 64 * Bd <= f_big → fin (pl_cs g) → Bd / 8192 <= f_R (pl_cs g) <= Bd → fin (pz (pl_min g)) → Rabs (f_R (pz (pl_min g))) <= Bd →
  (1 <= h <= 32767)%Z → IZR h * f_R (pl_cs g) <= 4 * Bd → fin top → Rabs (f_R top) <= Bd → f_R (pz (pl_min g)) <= f_R top →
  (∀ k, (0 <= k < h)%Z → f_R (pl_cs g) / 16 <= Rabs (f_R top - (f_R (pz (pl_min g)) + IZR k * f_R (pl_cs g)))) →
  z1 = sat 0 (h - 1) (f_to_i16 (f_mul (f_sub top (pz (pl_min g))) (f_div (f_of_Z 1) (pl_cs g)))) →
  ∀ z, (-1 <= z < z1)%Z → f_R (grid_line (pl_cs g) (pz (pl_min g)) z) + 16 * f_u * Bd < f_R top.
Proof.
  intros HB HBb Fcs Hcs Flo Blo Hh Hhc Ft Bt Hle Hclear Ez1 z Hz.
  set (lo := pz (pl_min g)) in *. set (cs := pl_cs g) in *. pose proof f_u_val as U.
  assert (0 <= z1 <= h - 1)%Z as Hz1 by (rewrite Ez1; unfold sat; lia).
  destruct (grid_line_ok Bd HB HBb cs Fcs ltac:(lra) lo z h Flo Blo ltac:(lia) Hh Hhc) as (_ & DL & _).
  apply Rabs_le_inv in DL. pose proof (Rabs_le_inv _ _ Blo) as Blo'. pose proof (Rabs_le_inv _ _ Bt) as Bt'.
  assert (grid_at cs lo (z + 1) - f_R cs / 32 <= f_R top) as Hnear.
  { unfold grid_at. destruct (decide (z = -1)%Z) as [->|Hne]; [change (-1 + 1)%Z with 0%Z; lra|].
    set (inv := f_div (f_of_Z 1) cs) in *.
    assert (fin inv ∧ 0 < f_R inv ∧ f_R inv * f_R cs <= 1 + f_u) as (Fi & I0 & Hi).
    { destruct (f_of_Z_R 1 ltac:(lia)) as [E1 F1]. assert (0 < f_R cs) as C0 by lra. assert (0 < / f_R cs) as C1 by (by apply Rinv_0_lt_compat).
      assert (f_R cs <= powerRZ 2 110) as C2 by (unfold f_big in HBb; lra).
      assert (powerRZ 2 (-126) <= / f_R cs) as C3.
      { apply Rle_trans with (/ powerRZ 2 110); [|apply Rinv_le; done]. rewrite <-!bp. rewrite <-bpow_opp. apply bpow_le. lia. }
      assert (/ f_R cs <= 8192) as C4. { apply Rmult_le_reg_r with (f_R cs); [done|]. rewrite Rinv_l by lra. nra. }
      assert (8192 <= f_big) as C5. { unfold f_big. replace 8192 with (powerRZ 2 13) by pow2. rewrite <-!bp. apply bpow_le. lia. }
      destruct (f_div_R (f_of_Z 1) cs) as [Ei Fi]; [apply f_of_Z_valid|apply Fcs|done|lra| |].
      { rewrite E1. unfold Rdiv. rewrite Rmult_1_l. apply big_rnd. rewrite Rabs_pos_eq; lra. }
      rewrite E1 in Ei. unfold Rdiv in Ei. rewrite Rmult_1_l in Ei. fold inv in Ei, Fi.
      split; [split; [apply f_div_valid; [apply f_of_Z_valid|apply Fcs]|done]|].
      pose proof (rnd_rel (/ f_R cs)) as Hr. rewrite <-Ei, (Rabs_pos_eq (/ f_R cs)) in Hr by lra. specialize (Hr C3).
      assert (f_eps = f_u / 2) as Ee.
      { rewrite U. unfold f_eps, powerRZ. change (Pos.to_nat 24) with 24%nat. cbn [Rpow_def.pow]. lra. }
      apply Rabs_le_inv in Hr. rewrite Ee, U in Hr. split; [nra|].
      apply Rle_trans with ((/ f_R cs + / f_R cs * f_u) * f_R cs); [apply Rmult_le_compat_r; [lra|]; rewrite U; lra|].
      replace ((/ f_R cs + / f_R cs * f_u) * f_R cs) with (1 + f_u) by (field; lra). lra. }
    destruct (sub_ok top lo (2 * Bd)) as (FD & ED & DD); [done|done|apply Rabs_le; lra|lra|].
    set (D := f_sub top lo) in *. apply Rabs_le_inv in DD.
    assert (0 <= f_R D) as D0. { rewrite ED, <-rnd_0. apply rnd_mono. lra. }
    assert (f_R D <= 2001 / 1000 * Bd) as D1. { rewrite U in DD. lra. }
    assert (f_R inv <= 8193 / Bd) as I1.
    { apply Rmult_le_reg_r with (f_R cs); [lra|]. eapply Rle_trans; [exact Hi|]. apply Rle_trans with (8193 / Bd * (Bd / 8192)); [rewrite U; replace (8193 / Bd * (Bd / 8192)) with (8193 / 8192) by (field; lra); lra|].
      apply Rmult_le_compat_l; [|lra]. apply Rlt_le, Rdiv_lt_0_compat; lra. }
    assert (0 <= f_R D * f_R inv <= 16401) as Hp.
    { split; [apply Rmult_le_pos; lra|]. apply Rle_trans with (2001 / 1000 * Bd * (8193 / Bd)); [apply Rmult_le_compat; lra|].
      replace (2001 / 1000 * Bd * (8193 / Bd)) with (2001 / 1000 * 8193) by (field; lra). lra. }
    assert (1048576 <= f_big) as C5. { unfold f_big. replace 1048576 with (powerRZ 2 20) by (unfold powerRZ; change (Pos.to_nat 20) with 20%nat; cbn [Rpow_def.pow]; lra). rewrite <-!bp. apply bpow_le. lia. }
    destruct (mul_ok D inv 16401) as (FP & EP & DP); [done|done|rewrite Rabs_pos_eq; lra|lra|].
    set (P := f_mul D inv) in *. apply Rabs_le_inv in DP.
    assert (0 <= f_R P) as P0. { rewrite EP, <-rnd_0. apply rnd_mono. lra. }
    assert (IZR (z + 1) <= f_R P) as HP.
    { unfold f_to_i16 in Ez1. rewrite cast_trunc in Ez1 by apply FP. rewrite Ztrunc_floor in Ez1 by done. apply Rle_trans with (IZR (Zfloor (f_R P))); [|apply Zfloor_lb].
      apply IZR_le. revert Ez1. generalize (Zfloor (f_R P)). intros v Ev. unfold sat in Ev. lia. }
    assert (f_R D * f_R inv * f_R cs <= f_R D * (1 + f_u)) as HD.
    { rewrite Rmult_assoc. apply Rmult_le_compat_l; done. }
    assert ((IZR (z + 1) - f_u * 16401) * f_R cs <= f_R D * f_R inv * f_R cs) as HE. { apply Rmult_le_compat_r; lra. }
    rewrite U in *. lra. }
  assert (0 <= z + 1 < h)%Z as Hk by lia. specialize (Hclear (z + 1)%Z Hk). unfold grid_at in *.
  revert Hclear. unfold Rabs. destruct (Rcase_abs _); rewrite U in *; lra.
Qed.

(** ** C89 *)

Lemma Rmax_one a b : Rmax a b = a ∨ Rmax a b = b.
Proof. unfold Rmax. destruct (Rle_dec a b); tauto. Qed.
Lemma perm3 {A} (a b c p q r : A) : Permutation [a; b; c] [p; q; r] →
  [p; q; r] = [a; b; c] ∨ [p; q; r] = [a; c; b] ∨ [p; q; r] = [b; a; c] ∨ [p; q; r] = [b; c; a] ∨ [p; q; r] = [c; a; b] ∨ [p; q; r] = [c; b; a].
Proof.
  intros H. assert (a ∈ [p; q; r]) as Ha by (rewrite <-H; left).
  apply elem_of_cons in Ha as [<-|Ha]; [|apply elem_of_cons in Ha as [<-|Ha]; [|apply elem_of_list_singleton in Ha as <-]].
  - apply Permutation_cons_inv, Permutation_length_2 in H as [[<- <-]|[<- <-]]; tauto.
  - rewrite (perm_swap a p) in H. apply Permutation_cons_inv, Permutation_length_2 in H as [[<- <-]|[<- <-]]; tauto.
  - assert ([p; q; a] ≡ₚ [a; p; q]) as E by (rewrite (Permutation_cons_append [p; q] a); done). rewrite E in H. apply Permutation_cons_inv, Permutation_length_2 in H as [[<- <-]|[<- <-]]; tauto.
Qed.

Definition f_fits B x : fits B x → fin x ∧ Rabs (f_R x) <= B.
Proof. intros (A & C & D). done. Qed.

(** A right-angled triangle along the axes, in a field that fits, whose far end is
    clear of the lines between rows, is rasterized: no clipped polygon has more than
    the seven corners there is room for. *)
Theorem C89_right_angled B hf t area thr : reachable hf → field_fits B hf → triangle_fits B t → right_angled t →
  ends_clear (hf_geo hf) (hf_h hf) (far_end t) → (0 <= area <= 255)%Z → (0 <= thr <= 65535)%Z →
  ∃ hf', rasterize_triangle hf (tri_pts t) area thr = Done (Some hf') ∧ by_insertions hf hf'.
Proof.
  intros Hr [[Hlarge Hmin Hmax [Hcs Hcs1] [Hch Hch1]] Hw Hh Hwc Hhc] Htri (a & b & c & Hperm & Eab & Ebc) Hclear Ha Ht. unfold has_corners in Hperm.
  assert (64 * B <= f_big) as HBb. { pose proof big_100. lra. }
  destruct Hmin as (Hx0 & Hy0 & Hz0). destruct Hmax as (Hx1 & Hy1 & Hz1).
  apply f_fits in Hcs as [Fcs Bcs]. apply f_fits in Hch as [Fch Bch]. apply f_fits in Hx0 as [Fx0 Bx0]. apply f_fits in Hy0 as [Fy0 By0]. apply f_fits in Hz0 as [Fz0 Bz0].
  apply f_fits in Hy1 as [Fy1 By1]. assert (∀ p, p ∈ [t.1.1; t.1.2; t.2] → fits3 B p) as Hall.
  { intros p Hp. destruct Htri as (T1 & T2 & T3). repeat (apply elem_of_cons in Hp as [->|Hp]; [done|]). by apply elem_of_nil in Hp. }
  assert (∀ p, p ∈ [a; b; c] → fits3 B p) as Habc. { intros p Hp. apply Hall. by rewrite <-Hperm. }
  destruct (Habc a) as (Ax & Ay & Az); [left|]. destruct (Habc b) as (Bx & By & Bz); [right; left|]. destruct (Habc c) as (Cx & Cy & Cz); [right; right; left|].
  apply f_fits in Ax as [FAx BAx]. apply f_fits in Az as [FAz BAz]. apply f_fits in Bx as [FBx BBx]. apply f_fits in Bz as [FBz BBz]. apply f_fits in Cx as [FCx BCx]. apply f_fits in Cz as [FCz BCz].
  set (g := place_of (hf_geo hf)). set (w := Z.of_nat (hf_w hf)). set (h := Z.of_nat (hf_h hf)).
  assert (∀ n, (1 <= n <= 32767)%Z → wrap_i16 n = n) as Hwrap. { intros n Hn. unfold wrap_i16. rewrite Z.mod_small; lia. }
  assert (∀ n, INR n = IZR (Z.of_nat n)) as HI by apply INR_IZR_INZ. rewrite HI in Hwc, Hhc.
  (* the far end *)
  destruct Htri as ((_ & _ & T1) & (_ & _ & T2) & (_ & _ & T3)). apply f_fits in T1 as [T1 T1b]. apply f_fits in T2 as [T2 T2b]. apply f_fits in T3 as [T3 T3b].
  set (top := f_max (f_max (v_z t.1.1) (v_z t.1.2)) (v_z t.2)).
  destruct (f_max_R _ _ T1 T2) as [M1 M1e]. destruct (f_max_R _ _ M1 T3) as [M2 M2e]. fold top in M2, M2e. rewrite M1e in M2e. change (f_R top = far_end t) in M2e.
  assert (∃ v, v ∈ [t.1.1; t.1.2; t.2] ∧ f_R (v_z v) = f_R top) as (v & Hv & Ev).
  { rewrite M2e. unfold far_end. destruct (Rmax_one (Rmax (f_R (v_z t.1.1)) (f_R (v_z t.1.2))) (f_R (v_z t.2))) as [->| ->].
    - destruct (Rmax_one (f_R (v_z t.1.1)) (f_R (v_z t.1.2))) as [->| ->]; eexists; (split; [|reflexivity]); [left|right; left].
    - eexists. split; [|reflexivity]. right; right; left. }
  assert (Rabs (f_R top) <= B) as Btop. { rewrite <-Ev. apply Hall in Hv as (_ & _ & (_ & _ & G)). exact G. }
  (* the order of the corners *)
  assert (∃ l', l' ∈ z_starts ∧ Forall2 (z_is B (pl_cs g) (v_x b) (v_x c) (pz (pl_min g)) (v_z b) (v_z a) (-1)) l' [pt_of t.1.1; pt_of t.1.2; pt_of t.2]) as (l' & Hl' & Hl).
  { assert (x_bound B (-1) = B) as EB by (unfold x_bound; lra).
    assert (∀ v kz kx, v ∈ [t.1.1; t.1.2; t.2] → match kx with XSide => f_R (v_x v) = f_R (v_x b) | XTip => f_R (v_x v) = f_R (v_x c) | _ => False end →
      match kz with ZTip => f_R (v_z v) = f_R (v_z a) | ZSide => f_R (v_z v) = f_R (v_z b) | ZNear => False end →
      z_is B (pl_cs g) (v_x b) (v_x c) (pz (pl_min g)) (v_z b) (v_z a) (-1) (kz, kx) (pt_of v)) as Hone.
    { intros u kz kx Hu Ekx Ekz. destruct (Hall u Hu) as ((X1 & X2 & X3) & (Y1 & Y2 & Y3) & (Z1 & Z2 & Z3)). split; [done|]. split; [by rewrite EB|]. split; [done|]. split; [cbn; lra|]. split; [done|].
      split; [by destruct kx|by destruct kz]. }
    assert (a ∈ [t.1.1; t.1.2; t.2] ∧ b ∈ [t.1.1; t.1.2; t.2] ∧ c ∈ [t.1.1; t.1.2; t.2]) as (Ia & Ib & Ic).
    { rewrite <-Hperm. split; [left|]. split; [right; left|right; right; left]. }
    pose proof (Hone a ZTip XSide Ia Eab eq_refl) as Ka. pose proof (Hone b ZSide XSide Ib eq_refl eq_refl) as Kb. pose proof (Hone c ZSide XTip Ic eq_refl (eq_sym Ebc)) as Kc.
    clear -Hperm Ka Kb Kc. set (ka := (ZTip, XSide)) in *. set (kb := (ZSide, XSide)) in *. set (kc := (ZSide, XTip)) in *.
    destruct (perm3 _ _ _ _ _ _ Hperm) as [E|[E|[E|[E|[E|E]]]]]; injection E as -> -> ->.
    - exists [ka; kb; kc]. split; [unfold z_starts; set_solver|]. do 3 (constructor; [done|]). constructor.
    - exists [ka; kc; kb]. split; [unfold z_starts; set_solver|]. do 3 (constructor; [done|]). constructor.
    - exists [kb; ka; kc]. split; [unfold z_starts; set_solver|]. do 3 (constructor; [done|]). constructor.
    - exists [kb; kc; ka]. split; [unfold z_starts; set_solver|]. do 3 (constructor; [done|]). constructor.
    - exists [kc; ka; kb]. split; [unfold z_starts; set_solver|]. do 3 (constructor; [done|]). constructor.
    - exists [kc; kb; ka]. split; [unfold z_starts; set_solver|]. do 3 (constructor; [done|]). constructor. }
  unfold rasterize_triangle. fold g w h.
  apply (triangle_ok B (proj1 Hlarge) HBb g Fy0 Fy1 By0 By1 Fch Hch1 Fcs Hcs1 Fx0 Bx0 Fz0 Bz0 w h Hw Hh Hwc Hhc (v_x b) (v_x c) (v_z b) (v_z a)
    FBx FCx FBz FAz BBx BCx BBz BAz (emit_span area thr) (by_insertions hf)) with (l' := l') (top := top)
    (z0 := sat (-1) (h - 1) (n_to_i16 f32_arith (n_mul f32_arith (n_sub f32_arith (pz (tri_min f32_arith (tri_pts t))) (pz (pl_min g))) (n_div f32_arith (n_of_Z f32_arith 1) (pl_cs g)))))
    (z1 := sat 0 (h - 1) (f_to_i16 (f_mul (f_sub top (pz (pl_min g))) (f_div (f_of_Z 1) (pl_cs g))))).
  - intros x z lo hi s Hx Hz Hlo Hhi Hs. apply emit_done; try done; [lia|lia|by rewrite Hwrap|by rewrite Hwrap].
  - by apply Hwrap.
  - by apply Hwrap.
  - done.
  - exact Hl.
  - by exists [].
  - exists (pt_of v). split; [|exact Ev]. change [(tri_pts t).1.1; (tri_pts t).1.2; (tri_pts t).2] with (pt_of <$> [t.1.1; t.1.2; t.2]). by apply elem_of_list_fmap_1.
  - split; [done|reflexivity].
  - intros Hint. eapply (last_row B g top h); [apply Hlarge|exact HBb|exact Fcs|split; [exact Hcs1|]|exact Fz0|exact Bz0|exact Hh|exact Hhc|exact M2|exact Btop| | |reflexivity].
    + apply Rabs_le_inv in Bcs. apply Bcs.
    + unfold intersects, p_le in Hint. apply andb_true_iff in Hint as [Hint _]. apply andb_true_iff in Hint as [_ Hint]. apply (le_iff _ _ Fz0 M2). exact Hint.
    + intros k Hk. rewrite M2e. specialize (Hclear (Z.to_nat k) ltac:(lia)). rewrite INR_IZR_INZ, Z2Nat.id in Hclear by lia. exact Hclear.
Qed.

(** All triangles of a mesh. *)
Definition each_triangle (m : trimesh) (P : vec3 * vec3 * vec3 → Prop) : Prop :=
  ∀ t a b c, t ∈ tm_idx m → tm_verts m !! Z.to_nat t.1.1 = Some a → tm_verts m !! Z.to_nat t.1.2 = Some b → tm_verts m !! Z.to_nat t.2 = Some c → P (a, b, c).

Theorem C89_mesh B hf m thr : reachable hf → field_fits B hf → valid m → Forall (fits3 B) (tm_verts m) →
  each_triangle m right_angled → each_triangle m (λ t, ends_clear (hf_geo hf) (hf_h hf) (far_end t)) →
  Forall (λ a, 0 <= a <= 255)%Z (tm_areas m) → (0 <= thr <= 65535)%Z →
  ∃ hf', rasterize_triangles hf m thr = Done (Some hf') ∧ by_insertions hf hf'.
Proof.
  intros Hr Hf [Hv Hlen] Hfit Hright Hends Hareas Hthr. unfold rasterize_triangles.
  assert (∀ l s, (∀ i t, (i, t) ∈ l → tm_idx m !! i = Some t) → by_insertions hf s → ∃ hf', foldE (λ '(i, t) hf,
    let! a := vert (tm_verts m) t.1.1 in let! b := vert (tm_verts m) t.1.2 in let! c := vert (tm_verts m) t.2 in
    let! area := get (tm_areas m) i in rasterize_triangle hf (pt_of a, pt_of b, pt_of c) area thr) l s = Done (Some hf') ∧ by_insertions hf hf') as H.
  { induction l as [|[i t] l IH]; intros s Hl Hs; [by exists s|]. cbn [foldE]. assert (tm_idx m !! i = Some t) as Hi by (apply Hl; left).
    destruct (by_insertions_shape hf s Hr Hs) as (Rs & Ew & Eh & Eg).
    assert (field_fits B s) as Hfs. { destruct Hf as [F1 F2 F3 F4 F5]. split; rewrite ?Ew, ?Eh, ?Eg; done. }
    destruct (Forall_lookup_1 _ _ _ _ Hv Hi) as (R1 & R2 & R3).
    destruct (lookup_lt_is_Some_2 (tm_verts m) (Z.to_nat t.1.1)) as [a Ea]; [lia|]. destruct (lookup_lt_is_Some_2 (tm_verts m) (Z.to_nat t.1.2)) as [b Eb]; [lia|].
    destruct (lookup_lt_is_Some_2 (tm_verts m) (Z.to_nat t.2)) as [c Ec]; [lia|]. destruct (lookup_lt_is_Some_2 (tm_areas m) i) as [area Er]; [rewrite Hlen; by apply lookup_lt_Some in Hi|].
    unfold vert at 1 2 3. rewrite (get_some _ _ _ Ea). cbn [obind]. rewrite (get_some _ _ _ Eb). cbn [obind]. rewrite (get_some _ _ _ Ec). cbn [obind]. rewrite (get_some _ _ _ Er). cbn [obind].
    assert (t ∈ tm_idx m) as Hin by (by eapply elem_of_list_lookup_2). pose proof (Hright t a b c Hin Ea Eb Ec) as Hra. pose proof (Hends t a b c Hin Ea Eb Ec) as Hcl.
    destruct (C89_right_angled B s (a, b, c) area thr) as (s' & Es' & Hs'); [done|done| |done|by rewrite Eg, Eh|by apply (Forall_lookup_1 _ _ _ _ Hareas Er)|done|].
    { rewrite Forall_lookup in Hfit. split; [by eapply Hfit|]. split; by eapply Hfit. }
    change (pt_of a, pt_of b, pt_of c) with (tri_pts (a, b, c)). rewrite Es'. cbn [obind]. apply IH; [intros j u Hj; apply Hl; by right|].
    eapply by_insertions_trans; [exact Ew|exact Eh|exact Hs|exact Hs']. }
  apply H; [|by exists []]. intros i t Hin. apply elem_of_lookup_imap in Hin as (j & u & [= -> ->] & Hj). done.
Qed.

(** ** The field of a scene *)

Lemma cells_ok B lo hi cs : 1 <= B <= 2 ^ 100 → fits B lo → fits B hi → fits B cs → B / 8192 <= f_R cs → f_R cs <= f_R hi - f_R lo →
  let n := f_to_u128 (cell_count lo hi cs) in
  (1 <= n <= 20000)%Z ∧ (f_R hi - f_R lo) - 51 / 100 * f_R cs <= IZR n * f_R cs <= (f_R hi - f_R lo) + 51 / 100 * f_R cs.
Proof.
  intros HB [Flo Blo]%f_fits [Fhi Bhi]%f_fits [Fcs Bcs]%f_fits Hcs Hone. assert (64 * B <= f_big) as HBb by (pose proof big_100; lra).
  apply Rabs_le_inv in Blo, Bhi, Bcs. pose proof f_u_val as U. assert (0 < f_R cs) as C0 by lra.
  assert (1048576 <= f_big) as C5. { unfold f_big. replace 1048576 with (powerRZ 2 20) by pow2. rewrite <-!bp. apply bpow_le. lia. }
  destruct (sub_ok hi lo (2 * B)) as (FD & _ & DD); [done|done|apply Rabs_le; lra|lra|]. set (D := f_sub hi lo) in *. apply Rabs_le_inv in DD.
  set (X := (f_R hi - f_R lo) / f_R cs).
  assert (X * f_R cs = f_R hi - f_R lo) as EX by (unfold X; field; lra).
  assert (1 <= X <= 16384) as BX. { split; apply Rmult_le_reg_r with (f_R cs); rewrite ?EX; try done; try lra. }
  assert (Rabs (f_R D / f_R cs - X) <= 16384 * f_u) as DX.
  { replace (f_R D / f_R cs - X) with ((f_R D - (f_R hi - f_R lo)) / f_R cs) by (unfold X; field; lra). unfold Rdiv. rewrite Rabs_mult, (Rabs_pos_eq (/ f_R cs)) by (apply Rlt_le; by apply Rinv_0_lt_compat).
    apply Rmult_le_reg_r with (f_R cs); [done|]. rewrite Rmult_assoc, Rinv_l, Rmult_1_r by lra. apply Rle_trans with (f_u * (2 * B)); [apply Rabs_le; lra|]. rewrite U. lra. }
  apply Rabs_le_inv in DX.
  destruct (f_div_R D cs) as [EQ FQ]; [apply FD|apply Fcs|apply FD|lra|apply big_rnd; apply Rabs_le; rewrite U in *; lra|].
  assert (fin (f_div D cs)) as FQ' by (split; [apply f_div_valid; [apply FD|apply Fcs]|done]).
  pose proof (rnd_err (f_R D / f_R cs) 16401) as DQ. rewrite <-EQ in DQ. specialize (DQ ltac:(apply Rabs_le; rewrite U in *; lra) ltac:(lra)). apply Rabs_le_inv in DQ.
  set (Q := f_div D cs) in *. assert (f_of_me 1 (-1) = S754_finite false 8388608 (-24)) as Eh by (vm_compute; reflexivity).
  assert (fin (f_of_me 1 (-1)) ∧ f_R (f_of_me 1 (-1)) = 1 / 2) as [Fh Vh].
  { rewrite Eh. split; [split; [vm_compute; reflexivity|done]|]. unfold f_R. pow2. }
  destruct (add_ok Q (f_of_me 1 (-1)) 16403) as (FS & _ & DS); [done|done|rewrite Vh; apply Rabs_le; rewrite U in *; lra|lra|].
  rewrite Vh in DS. apply Rabs_le_inv in DS. change (f_add Q (f_of_me 1 (-1))) with (cell_count lo hi cs) in *. set (N := cell_count lo hi cs) in *.
  assert (X + 491 / 1000 <= f_R N <= X + 509 / 1000) as HN by (rewrite U in *; lra).
  unfold f_to_u128. rewrite cast_trunc by apply FS. rewrite Ztrunc_floor by lra.
  pose proof (Zfloor_lb (f_R N)) as Z1. pose proof (Zfloor_ub (f_R N)) as Z2. set (v := Zfloor (f_R N)) in *.
  assert (1 <= v <= 20000)%Z as Hv. { split; [apply Zfloor_lub; lra|]. apply le_IZR. lra. }
  assert (sat 0 (2 ^ 128 - 1) v = v) as Es. { unfold sat. change (2 ^ 128 - 1)%Z with 340282366920938463463374607431768211455%Z. lia. }
  rewrite Es. split; [done|]. rewrite <-EX. split; nra.
Qed.

(** The box of a scene that fits and is at least a cell wide and deep gives a field
    that fits, and the far side of the box is clear. *)
Theorem C89_field B g : box_fits B g → f_R (g_cs g) <= f_R (v_x (g_max g)) - f_R (v_x (g_min g)) → f_R (g_cs g) <= f_R (v_z (g_max g)) - f_R (v_z (g_min g)) →
  ∃ hf, build_heightfield g = Done (Some hf) ∧ reachable hf ∧ hf_geo hf = g ∧ field_fits B hf ∧ ends_clear g (hf_h hf) (f_R (v_z (g_max g))).
Proof.
  intros Hb Hx Hz. pose proof Hb as [HB (Fx0 & Fy0 & Fz0) (Fx1 & Fy1 & Fz1) [Fcs Hcs] _].
  destruct (cells_ok B _ _ _ HB Fx0 Fx1 Fcs Hcs Hx) as (W1 & W2 & W3). destruct (cells_ok B _ _ _ HB Fz0 Fz1 Fcs Hcs Hz) as (H1 & H2 & H3).
  destruct (C46_dimensions g _ _ eq_refl eq_refl) as (hf & E & Hr & Ew & Eh & Eg & _); [unfold cell_count in *; lia|unfold cell_count in *; lia|].
  change (Z.of_nat (hf_w hf) = f_to_u128 (cell_count (v_x (g_min g)) (v_x (g_max g)) (g_cs g))) in Ew.
  change (Z.of_nat (hf_h hf) = f_to_u128 (cell_count (v_z (g_min g)) (v_z (g_max g)) (g_cs g))) in Eh.
  rewrite <-Ew in W1, W2, W3. rewrite <-Eh in H1, H2, H3.
  exists hf. split; [done|]. split; [done|]. split; [done|].
  apply f_fits in Fcs as [_ Bcs]. destruct Fx0 as (_ & _ & Bx0). destruct Fx1 as (_ & _ & Bx1). destruct Fz0 as (_ & _ & Bz0). destruct Fz1 as (_ & _ & Bz1).
  apply Rabs_le_inv in Bcs, Bx0, Bx1, Bz0, Bz1. split.
  - split; rewrite ?Eg, ?INR_IZR_INZ; try done; lia || lra.
  - intros k Hk. rewrite INR_IZR_INZ. assert (IZR (Z.of_nat k) + 1 <= IZR (Z.of_nat (hf_h hf))) as Hkh. { rewrite <-plus_IZR. apply IZR_le. lia. }
    assert (0 < f_R (g_cs g)) by lra. assert ((IZR (Z.of_nat k) + 1) * f_R (g_cs g) <= IZR (Z.of_nat (hf_h hf)) * f_R (g_cs g)) as Hm by (apply Rmult_le_compat_r; lra).
    rewrite Rabs_pos_eq; lra.
Qed.

(** ** Scenes *)

Lemma fold_fits {A} B (op : f32 → f32 → f32) (c : A → f32) l : ∀ u, (∀ a b, op a b = a ∨ op a b = b) →
  Forall (λ a, fits B (c a)) l → fits B u → fits B (foldl (λ u a, op u (c a)) u l).
Proof.
  induction l as [|a l IH]; intros u Hop Hl Hu; [done|]. apply Forall_cons in Hl as [Ha Hl]. cbn. apply IH; [done|done|]. by destruct (Hop u (c a)) as [->| ->].
Qed.
Lemma fold_coord (f : vec3 → vec3 → vec3) op (c : vec3 → f32) l : ∀ u, (∀ a b, c (f a b) = op (c a) (c b)) → c (foldl f u l) = foldl (λ u a, op u (c a)) (c u) l.
Proof. induction l as [|a l IH]; intros u Hc; [done|]. cbn. rewrite IH by done. by rewrite Hc. Qed.
Lemma aabb_fits B vs lo hi : 1 <= B <= 2 ^ 100 → Forall (fits3 B) vs → aabb_of vs = Some (lo, hi) → fits3 B lo ∧ fits3 B hi.
Proof.
  intros HB Hvs. destruct vs as [|v vs]; [done|]. apply Forall_cons in Hvs as [Hv Hvs]. cbn [aabb_of foldl]. intros [= <- <-].
  assert (fin F32_MAX ∧ fin F32_MIN ∧ B < f_R F32_MAX ∧ f_R F32_MIN < - B) as (F1 & F2 & H1 & H2).
  { assert (2 ^ 100 < 16777215 * powerRZ 2 104) as Hp.
    { change (2 ^ 100) with (powerRZ 2 100). assert (powerRZ 2 100 < powerRZ 2 104) by (rewrite <-!bp; apply bpow_lt; lia). pose proof (powerRZ_lt 2 104 ltac:(lra)). lra. }
    split; [split; [vm_compute; reflexivity|done]|]. split; [split; [vm_compute; reflexivity|done]|].
    change (f_R F32_MAX) with (16777215 * powerRZ 2 104). change (f_R F32_MIN) with (-16777215 * powerRZ 2 104). lra. }
  assert (∀ x, fits B x → f_min F32_MAX x = x ∧ f_max F32_MIN x = x) as Hfirst.
  { intros x [Fx Bx]%f_fits. apply Rabs_le_inv in Bx. unfold f_min, f_max. destruct (f_lt F32_MAX x) eqn:E1; [apply (lt_iff _ _ F1 Fx) in E1; lra|].
    destruct (f_lt x F32_MIN) eqn:E2; [apply (lt_iff _ _ Fx F2) in E2; lra|]. done. }
  destruct Hv as (Vx & Vy & Vz). destruct (Hfirst _ Vx) as [X1 X2]. destruct (Hfirst _ Vy) as [Y1 Y2]. destruct (Hfirst _ Vz) as [Z1 Z2].
  assert (∀ a b, f_min a b = a ∨ f_min a b = b) as Om by (intros a b; unfold f_min; destruct (f_lt _ _); tauto).
  assert (∀ a b, f_max a b = a ∨ f_max a b = b) as OM by (intros a b; unfold f_max; destruct (f_lt _ _); tauto).
  assert (Forall (λ v, fits B (v_x v)) vs ∧ Forall (λ v, fits B (v_y v)) vs ∧ Forall (λ v, fits B (v_z v)) vs) as (Lx & Ly & Lz).
  { split; [|split]; (eapply Forall_impl; [exact Hvs|]); intros u (? & ? & ?); done. }
  split; (split; [|split]).
  - rewrite (fold_coord _ f_min v_x) by done. apply fold_fits; [done|done|]. cbn. by rewrite X1.
  - rewrite (fold_coord _ f_min v_y) by done. apply fold_fits; [done|done|]. cbn. by rewrite Y1.
  - rewrite (fold_coord _ f_min v_z) by done. apply fold_fits; [done|done|]. cbn. by rewrite Z1.
  - rewrite (fold_coord _ f_max v_x) by done. apply fold_fits; [done|done|]. cbn. by rewrite X2.
  - rewrite (fold_coord _ f_max v_y) by done. apply fold_fits; [done|done|]. cbn. by rewrite Y2.
  - rewrite (fold_coord _ f_max v_z) by done. apply fold_fits; [done|done|]. cbn. by rewrite Z2.
Qed.

(** A scene of right-angled triangles along the axes, at least a cell wide and deep,
    whose far ends are clear, gets through rasterization. *)
Theorem C89_scene B cosf c affs m lo hi : let g := Geo lo hi (cf_cs c) (cf_ch c) in
  gather affs = Done m → aabb_of (tm_verts m) = Some (lo, hi) → measures c → valid m → Forall (fits3 B) (tm_verts m) → 1 <= B <= 2 ^ 100 →
  (fits B (cf_cs c) ∧ B / 8192 <= f_R (cf_cs c)) → (fits B (cf_ch c) ∧ B / 16384 <= f_R (cf_ch c)) →
  f_R (cf_cs c) <= f_R (v_x hi) - f_R (v_x lo) → f_R (cf_cs c) <= f_R (v_z hi) - f_R (v_z lo) →
  each_triangle m right_angled → (∀ hf0, build_heightfield g = Done (Some hf0) → each_triangle m (λ t, ends_clear g (hf_h hf0) (far_end t))) →
  ∃ tris hf0 hf1, rasterized cosf c affs tris hf0 hf1 ∧ (Z.of_nat (hf_w hf0) <= 32767)%Z ∧ (Z.of_nat (hf_h hf0) <= 32767)%Z.
Proof.
  intros g Hg Ha Hm Hval Hv HB Hcs Hch Hx Hz Hright Hends.
  assert (box_fits B g) as Hbox. { destruct (aabb_fits _ _ _ _ HB Hv Ha) as [L1 L2]. by split. }
  destruct (C89_field B g Hbox Hx Hz) as (hf0 & E0 & Hr & Eg & Hf & _).
  destruct (C44_marks_exactly m (cosf (cf_slope c)) Hval) as (m' & Em & Ev & Ei & El & _).
  destruct (C89_mesh B hf0 m' (cf_climb c)) as (hf1 & E1 & _).
  - done.
  - done.
  - destruct Hval as [V1 V2]. split; [by rewrite Ev, Ei|by rewrite El, Ei].
  - by rewrite Ev.
  - unfold each_triangle. by rewrite Ev, Ei.
  - unfold each_triangle. rewrite Ev, Ei, Eg. by apply Hends.
  - eapply Forall_impl; [exact (mark_areas _ _ _ Em (gather_areas _ _ Hg))|]. cbn. intros a [->| ->]; lia.
  - destruct Hm. lia.
  - exists m', hf0, hf1. split; [exists m, lo, hi; done|]. pose proof (ff_w _ _ Hf). pose proof (ff_h _ _ Hf). lia.
Qed.

(** ** Cases *)

Local Close Scope R_scope.
Local Open Scope Z_scope.
Definition tenth (n : Z) : f32 := f_div (f_of_Z n) (f_of_Z 10).
Definition at_tenths (x y z : Z) : vec3 := V3 (tenth x) (tenth y) (tenth z).
(** A level rectangle, in tenths, in two triangles with the corners in the given order. *)
Definition rectangle (x0 z0 x1 z1 y : Z) (ix : list Z) : affector :=
  (Some (BM TriangleList {[0 := VFloat32x3 [at_tenths x0 y z0; at_tenths x0 y z1; at_tenths x1 y z1; at_tenths x1 y z0]]} (Some (IU16 ix)) 3), λ v, v).
Definition two := [0; 1; 2; 0; 2; 3].
Definition default_cfg : cfg :=
  Cfg 0 0 32 5 (S754_finite false 10066330 (-25)) (S754_finite false 13421773 (-26)) v_zero v_zero (S754_finite false 13176795 (-24)) 10 4 2 40
    (S754_finite false 10905190 (-23)) 64 400 6 (S754_finite false 15099495 (-23)) (S754_finite false 13421773 (-26)) true false.
Lemma default_cfg_ok : build_config cb_default = Done default_cfg.
Proof. vm_compute. reflexivity. Qed.
(** The cosine of the default slope. *)
Definition cos45 (_ : f32) : f32 := S754_finite false 11863283 (-24).
(** A floor of 10 by 10 and a slab above it. *)
Definition floor10 : affector := rectangle 0 (-20) 100 80 0 two.
Definition slab_to (z : Z) (ix : list Z) : affector := rectangle 4 (-11) 18 z 5 ix.

Definition raster_of (l : list affector) : outcome bool :=
  let! m := gather l in
  match aabb_of (tm_verts m) with
  | None => Done false
  | Some (lo, hi) =>
      let! o := build_heightfield (Geo lo hi (cf_cs default_cfg) (cf_ch default_cfg)) in
      match o with
      | None => Done false
      | Some hf => let! tris := mark_walkable m (cos45 (cf_slope default_cfg)) in let! r := rasterize_triangles hf tris (cf_climb default_cfg) in
          match r with None => Done false | Some _ => Done true end
      end
  end.
Definition builds (o : outcome (bresult run)) : bool := match o with Done (BOk _) => true | _ => false end.

(** With the default configuration, a floor gives a navmesh and the same floor with a
    rectangle above it panics, as does rasterizing them; with the corners of the
    rectangle in another order it does not. *)
Theorem C89_rectangles_refuted : ∃ c a b b', build_config cb_default = Done c ∧
  builds (build_navmesh cos45 1000 1000 c [a]) = true ∧
  build_navmesh cos45 1000 1000 c [a; b] = Panicked ∧
  (∃ tris hf0 hf1, rasterized cos45 c [a; b'] tris hf0 hf1) ∧
  a.2 = (λ v, v) ∧ b.2 = (λ v, v) ∧ b'.2 = (λ v, v) ∧ (bm_attrs <$> b.1) = (bm_attrs <$> b'.1).
Proof.
  exists default_cfg, floor10, (slab_to (-8) two), (slab_to (-8) [1; 2; 0; 0; 2; 3]).
  split; [exact default_cfg_ok|]. split; [vm_compute; reflexivity|]. split; [vm_compute; reflexivity|]. split; [|done].
  assert (raster_of [floor10; slab_to (-8) [1; 2; 0; 0; 2; 3]] = Done true) as H by (vm_compute; reflexivity).
  unfold raster_of in H. unfold rasterized.
  destruct (gather _) as [m| |]; [|discriminate H|discriminate H]. cbn [obind] in H.
  destruct (aabb_of _) as [[lo hi]|] eqn:E1; [|discriminate H]. 
  destruct (build_heightfield _) as [[hf0|]| |] eqn:E2; [|discriminate H|discriminate H|discriminate H]. cbn [obind] in H.
  destruct (mark_walkable _ _) as [tris| |] eqn:E3; [|discriminate H|discriminate H]. cbn [obind] in H.
  destruct (rasterize_triangles _ _ _) as [[hf1|]| |] eqn:E4; [|discriminate H|discriminate H|discriminate H].
  exists tris, hf0, hf1, m, lo, hi. split; [reflexivity|]. split; [exact E1|]. split; [exact E3|]. split; [exact E2|exact E4].
Qed.

(** A single triangle well inside a field of ordinary size, with sides across the
    axes, can panic as well. *)
Theorem C89_any_triangle_refuted : ∃ g hf t, g_cs g = c_0_3 ∧ g_min g = at_tenths (-10) 0 (-10) ∧ g_max g = at_tenths 30 10 30 ∧
  build_heightfield g = Done (Some hf) ∧ t = (at_tenths 18 0 (-2), at_tenths 6 0 5, at_tenths 5 0 3) ∧
  rasterize_triangle hf (tri_pts t) 255 1 = Panicked.
Proof.
  set (g := Geo (at_tenths (-10) 0 (-10)) (at_tenths 30 10 30) c_0_3 c_0_2).
  set (t := (at_tenths 18 0 (-2), at_tenths 6 0 5, at_tenths 5 0 3)).
  assert (match build_heightfield g with Done (Some hf) => match rasterize_triangle hf (tri_pts t) 255 1 with Panicked => true | _ => false end | _ => false end = true) as H
    by (vm_compute; reflexivity).
  destruct (build_heightfield g) as [[hf|]| |] eqn:E; [|discriminate H|discriminate H|discriminate H].
  destruct (rasterize_triangle hf (tri_pts t) 255 1) eqn:E2; [discriminate H| |discriminate H].
  exists g, hf, t. split; [reflexivity|]. split; [reflexivity|]. split; [reflexivity|]. split; [exact E|]. split; [reflexivity|exact E2].
Qed.

(** The floor with a slab that ends inside a row meets the hypotheses of [C89_scene]. *)
Local Close Scope Z_scope.
Local Open Scope R_scope.
Lemma fits_b B x : f_valid x → match x with S754_infinity _ | S754_nan => False | _ => True end → Rabs (f_R x) <= B → fits B x.
Proof. intros H1 H2 H3. split; [done|]. split; [|done]. destruct x; done. Qed.
Ltac mem := apply (bool_decide_unpack _); vm_compute; exact I.
Definition scene_mesh : trimesh := match gather [floor10; slab_to (-7) two] with Done m => m | _ => TM [] [] [] end.
Example C89_scene_ex : ∃ m lo hi, let c := default_cfg in let g := Geo lo hi (cf_cs c) (cf_ch c) in
  gather [floor10; slab_to (-7) two] = Done m ∧ length (tm_idx m) = 4%nat ∧ aabb_of (tm_verts m) = Some (lo, hi) ∧ measures c ∧ valid m ∧
  Forall (fits3 16) (tm_verts m) ∧
  (fits 16 (cf_cs c) ∧ 16 / 8192 <= f_R (cf_cs c)) ∧ (fits 16 (cf_ch c) ∧ 16 / 16384 <= f_R (cf_ch c)) ∧
  f_R (cf_cs c) <= f_R (v_x hi) - f_R (v_x lo) ∧ f_R (cf_cs c) <= f_R (v_z hi) - f_R (v_z lo) ∧
  each_triangle m right_angled ∧ (∀ hf0, build_heightfield g = Done (Some hf0) → each_triangle m (λ t, ends_clear g (hf_h hf0) (far_end t))).
Proof.
  exists scene_mesh, (at_tenths 0 0 (-20)), (at_tenths 100 5 80). cbv zeta.
  assert (gather [floor10; slab_to (-7) two] = Done scene_mesh) as Eg by (vm_compute; reflexivity).
  assert (∀ n, n ∈ [5; 4; 18; 100; 80; -20; -11; -7]%Z → fits 16 (tenth n) ∧ IZR n / 10 - 1 / 1000000 <= f_R (tenth n) <= IZR n / 10 + 1 / 1000000) as Hn'.
  { intros n Hn. rewrite !elem_of_cons, elem_of_nil in Hn.
    destruct Hn as [->|[->|[->|[->|[->|[->|[->|[->|Hn]]]]]]]]; [..|destruct Hn];
      (split; [apply fits_b; [vm_compute; reflexivity|vm_compute; exact I|apply Rabs_le; f_lra]|f_lra]). }
  assert (∀ n, n ∈ [0; 5; 4; 18; 100; 80; -20; -11; -7]%Z → fits 16 (tenth n) ∧ IZR n / 10 - 1 / 1000000 <= f_R (tenth n) <= IZR n / 10 + 1 / 1000000) as Hn.
  { intros n Hn. apply elem_of_cons in Hn as [->|Hn]; [|by apply Hn'].
    assert (f_R (tenth 0) = 0) as E0 by (change (tenth 0) with (S754_zero false); reflexivity).
    rewrite E0. split; [apply fits_b; [vm_compute; reflexivity|vm_compute; exact I|rewrite E0; apply Rabs_le; lra]|lra]. }
  assert (tm_verts scene_mesh = [at_tenths 0 0 (-20); at_tenths 0 0 80; at_tenths 100 0 80; at_tenths 100 0 (-20);
      at_tenths 4 5 (-11); at_tenths 4 5 (-7); at_tenths 18 5 (-7); at_tenths 18 5 (-11)] ∧ tm_idx scene_mesh = [(0, 1, 2); (0, 2, 3); (4, 5, 6); (4, 6, 7)]%Z) as [Ev Ei]
    by (vm_compute; split; reflexivity).
  assert (fits 16 (cf_cs default_cfg) ∧ 16 / 8192 <= f_R (cf_cs default_cfg)) as Hcs.
  { split; [apply fits_b; [vm_compute; reflexivity|vm_compute; exact I|apply Rabs_le; f_lra]|f_lra]. }
  assert (fits 16 (cf_ch default_cfg) ∧ 16 / 16384 <= f_R (cf_ch default_cfg)) as Hch.
  { split; [apply fits_b; [vm_compute; reflexivity|vm_compute; exact I|apply Rabs_le; f_lra]|f_lra]. }
  assert (299999 / 1000000 <= f_R (cf_cs default_cfg) <= 300001 / 1000000) as Hc by f_lra.
  assert (∀ n, n ∈ [0; 5; 4; 18; 100; 80; -20; -11; -7]%Z → fits 16 (tenth n)) as Hfit by (intros n Hin; exact (proj1 (Hn n Hin))).
  assert (Forall (fits3 16) (tm_verts scene_mesh)) as Hv.
  { rewrite Ev. repeat (apply Forall_cons; split; [split; [|split]; apply Hfit; mem|]). apply Forall_nil. exact I. }
  assert (aabb_of (tm_verts scene_mesh) = Some (at_tenths 0 0 (-20), at_tenths 100 5 80)) as Ea by (vm_compute; reflexivity).
  pose proof (proj2 (Hn 0%Z ltac:(mem))) as N0. pose proof (proj2 (Hn 100%Z ltac:(mem))) as N100.
  pose proof (proj2 (Hn 80%Z ltac:(mem))) as N80. pose proof (proj2 (Hn (-20)%Z ltac:(mem))) as N20.
  pose proof (proj2 (Hn (-7)%Z ltac:(mem))) as N7. pose proof (proj2 (Hn (-11)%Z ltac:(mem))) as N11.
  assert (f_R (cf_cs default_cfg) <= f_R (tenth 100) - f_R (tenth 0)) as Hx by lra.
  assert (f_R (cf_cs default_cfg) <= f_R (tenth 80) - f_R (tenth (-20))) as Hz by lra.
  split; [exact Eg|]. split; [vm_compute; reflexivity|]. split; [exact Ea|].
  split; [split; cbn [default_cfg cf_wh cf_climb cf_radius cf_border cf_edge_len cf_nvp]; lia|].
  split. { split; [rewrite Ev, Ei; do 4 (apply Forall_cons; split; [unfold in_range; cbn [fst snd length]; clear; lia|]); apply Forall_nil; exact I|rewrite Ei; vm_compute; reflexivity]. }
  split; [exact Hv|]. split; [exact Hcs|]. split; [exact Hch|]. split; [exact Hx|]. split; [exact Hz|].
  assert (∀ P, (P (at_tenths 0 0 (-20), at_tenths 0 0 80, at_tenths 100 0 80) : Prop) → P (at_tenths 0 0 (-20), at_tenths 100 0 80, at_tenths 100 0 (-20)) →
    P (at_tenths 4 5 (-11), at_tenths 4 5 (-7), at_tenths 18 5 (-7)) → P (at_tenths 4 5 (-11), at_tenths 18 5 (-7), at_tenths 18 5 (-11)) → each_triangle scene_mesh P) as Hall.
  { intros P P1 P2 P3 P4 t a b c Ht. rewrite Ei in Ht. rewrite Ev. rewrite !elem_of_cons, elem_of_nil in Ht.
    destruct Ht as [->|[->|[->|[->|[]]]]]; intros [= <-] [= <-] [= <-]; assumption. }
  split.
  - apply Hall.
    + eexists _, _, _. split; [apply Permutation_refl|]. split; reflexivity.
    + exists (at_tenths 100 0 80), (at_tenths 100 0 (-20)), (at_tenths 0 0 (-20)). split; [unfold has_corners; cbn [fst snd]; apply Permutation_sym, (Permutation_cons_append [_; _])|]. split; reflexivity.
    + eexists _, _, _. split; [apply Permutation_refl|]. split; reflexivity.
    + exists (at_tenths 18 5 (-7)), (at_tenths 18 5 (-11)), (at_tenths 4 5 (-11)). split; [unfold has_corners; cbn [fst snd]; apply Permutation_sym, (Permutation_cons_append [_; _])|]. split; reflexivity.
  - intros hf0 E0.
    destruct (C89_field 16 (Geo (at_tenths 0 0 (-20)) (at_tenths 100 5 80) (cf_cs default_cfg) (cf_ch default_cfg))) as (hf & E & _ & _ & _ & Hclear).
    { destruct (aabb_fits 16 _ _ _ ltac:(cbn; lra) Hv Ea). split; [cbn; lra|assumption|assumption|exact Hcs|exact Hch]. }
    { exact Hx. } { exact Hz. }
    assert (hf = hf0) as -> by (rewrite E in E0; injection E0; trivial).
    assert (ends_clear (Geo (at_tenths 0 0 (-20)) (at_tenths 100 5 80) (cf_cs default_cfg) (cf_ch default_cfg)) (hf_h hf0) (f_R (tenth (-7)))) as Hin.
    { intros k _. cbn [g_cs g_min at_tenths v_z]. set (cs := f_R (cf_cs default_cfg)) in *. destruct (le_lt_dec k 4) as [Hk|Hk].
      - assert (INR k <= 4) as Hk' by (change 4 with (IZR 4); rewrite INR_IZR_INZ; apply IZR_le; lia). pose proof (pos_INR k) as Hp.
        assert (INR k * cs <= 4 * cs) by (apply Rmult_le_compat_r; lra). rewrite Rabs_pos_eq; lra.
      - assert (5 <= INR k) as Hk' by (rewrite INR_IZR_INZ; apply (IZR_le 5); lia).
        assert (5 * cs <= INR k * cs) by (apply Rmult_le_compat_r; lra). rewrite Rabs_left; lra. }
    apply Hall; unfold far_end; cbn [at_tenths fst snd v_z].
    + rewrite (Rmax_right (f_R (tenth (-20)))) by lra. rewrite Rmax_left by lra. exact Hclear.
    + rewrite (Rmax_right (f_R (tenth (-20)))) by lra. rewrite Rmax_left by lra. exact Hclear.
    + rewrite (Rmax_right (f_R (tenth (-11)))) by lra. rewrite Rmax_left by lra. exact Hin.
    + rewrite (Rmax_right (f_R (tenth (-11)))) by lra. rewrite Rmax_left by lra. exact Hin.
Qed.
Print Assumptions C89_right_angled.
Print Assumptions C89_mesh.
Print Assumptions C89_field.
Print Assumptions C89_scene.
Print Assumptions C89_rectangles_refuted.
Print Assumptions C89_any_triangle_refuted.
