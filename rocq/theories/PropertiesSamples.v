(** Where the detail mesh has vertices inside a polygon: C91. *)
From Coq Require Import Reals Lra.
From Flocq Require Import Core.Core.
From Verif Require Import Base ModelMath ModelTriMesh ModelHeightfield ModelCompact ModelContours ModelPoly ModelDetail FloatOrder FloatSignProofs FloatReal FloatSpotProofs CameraProofs FlowProofs FloatClipProofs
  SpecDetail SpecClipping SpecSamples DetailPolyProofs DetailMeshProofs SampleProofs PropertiesDetail.
From Coq Require Import Floats.SpecFloat.
Local Open Scope R_scope.

(** The coordinates of a mesh, in the world and relative to its origin, are at most [B]. *)
Definition mesh_fits (B : R) (m : pmesh) : Prop :=
  ∀ v, v ∈ pm_verts m → (0 <= vx v <= 65535 ∧ 0 <= vz v <= 65535)%Z ∧ IZR (vx v) * f_R (g_cs (pm_geo m)) <= B ∧ IZR (vz v) * f_R (g_cs (pm_geo m)) <= B.

(** Every vertex that the detail of a polygon has inside is at most a ninth of a cell
    from a position of the sampling grid, and that position is inside the polygon, or a
    side of the polygon is within a 32nd of a cell of it. *)
Theorem C91_inside B fuel m ch dist err o :
  pm_verts m ≠ [] → (Z.of_nat (length (pm_polys m)) * 255 < 4294967296)%Z →
  (∀ row, row ∈ pm_polys m → ∃ l, live row l ∧ (3 ≤ length l)%nat) → detail_new fuel m ch dist err = Done o →
  1 <= B <= 2 ^ 40 → mesh_fits B m → g_cs (ch_geo ch) = g_cs (pm_geo m) →
  fits B (g_cs (pm_geo m)) → B / 8192 <= f_R (g_cs (pm_geo m)) → fits B dist → B / 16384 <= f_R dist →
  ∀ k row l sm, pm_polys m !! k = Some row → live row l → dm_meshes o !! k = Some sm →
  let cs := f_R (g_cs (pm_geo m)) in
  ∃ inp (E : list (list vec3)) extra, corners_at m l inp ∧ length E = length inp ∧
    segment (dm_verts o) (sm_vbase sm) (sm_vcount sm) = shifted (g_min (pm_geo m)) (g_ch (ch_geo ch)) <$> inp ++ concat E ++ extra ∧
    ∀ v, v ∈ extra → ∃ q, close (cs / 9) (plan v) q ∧ on_grid (f_R dist) (cs / 512) q ∧ (inside q (plan <$> inp) ∨ beside (cs / 32) q (plan <$> inp)).
Proof.
  intros Hv Hbig H3 Hd HB Hfit Ecs Hcs Hcs1 Hdist Hdist1 k row l sm Hrow Hl Hsm. cbv zeta.
  destruct (C60_detail_error fuel m ch dist err o Hv Hbig H3 Hd k row l sm Hrow Hl Hsm) as (reg & b & verts & data & hp & inp & E & extra & _ & _ & _ & Hc & HE & Hseg & _ & Hint & _).
  exists inp, E, extra. split; [done|]. split; [done|]. split; [done|]. intros v Hvx. destruct Hint as [->|Hint]; [by apply elem_of_nil in Hvx|].
  set (cs := g_cs (pm_geo m)) in *. destruct Hcs as (V1 & V2 & Bcs). destruct Hdist as (W1 & W2 & W3). assert (fin cs) as Fcs by done. assert (fin dist) as Fd by done. clear V1 V2 W1 W2.
  apply Rabs_le_inv in Bcs, W3. pose proof f_u_val as U.
  assert (2 ^ 40 = 1099511627776) as P40 by lra.
  assert (1099511627776 * 1099511627776 * 1024 <= f_big) as Hfb.
  { unfold f_big. apply Rle_trans with (powerRZ 2 100); [|rewrite <-!bp; apply bpow_le; lia]. change (powerRZ 2 100) with (2 ^ 100). lra. }
  rewrite P40 in HB.
  assert (B * B <= 1099511627776 * 1099511627776) as HBB by (apply Rmult_le_compat; lra).
  (* corners *)
  assert (∀ a, a ∈ inp → ∃ w, w ∈ pm_verts m ∧ v_x a = f_mul (f_of_Z (vx w)) cs ∧ v_z a = f_mul (f_of_Z (vz w)) cs) as Hcorner.
  { intros a Ha. apply elem_of_list_lookup in Ha as [i Hi]. destruct (Forall2_lookup_r _ _ _ _ _ Hc Hi) as (j & _ & w & Hw & ->). exists w. split; [by eapply elem_of_list_lookup_2|]. done. }
  assert (∀ z, (0 <= z <= 65535)%Z → IZR z * f_R cs <= B → fin (f_mul (f_of_Z z) cs) ∧ 0 <= f_R (f_mul (f_of_Z z) cs) <= 101 / 100 * B ∧ Rabs (f_R (f_mul (f_of_Z z) cs) - IZR z * f_R cs) <= f_u * B) as Hco.
  { intros z Hz Hzb. destruct (int_fin z) as [Fz Ez]; [lia|]. assert (0 <= IZR z) by (apply IZR_le; lia). assert (0 <= IZR z * f_R cs) by (apply Rmult_le_pos; lra).
    destruct (mul_ok (f_of_Z z) cs B) as (F1 & E1 & D1); [done|done|rewrite Ez, Rabs_pos_eq; lra|nra|]. rewrite Ez in E1, D1. split; [done|]. split; [|done].
    split; [rewrite E1, <-rnd_0; apply rnd_mono; lra|]. apply Rabs_le_inv in D1. rewrite U in D1. lra. }
  assert (∀ a, a ∈ inp → (fin (v_x a) ∧ 0 <= f_R (v_x a) <= 101 / 100 * B) ∧ (fin (v_z a) ∧ 0 <= f_R (v_z a) <= 101 / 100 * B)) as Hb.
  { intros a Ha. destruct (Hcorner a Ha) as (w & Hw & -> & ->). destruct (Hfit w Hw) as ((R1 & R2) & R3 & R4).
    destruct (Hco _ R1 R3) as (? & ? & _). destruct (Hco _ R2 R4) as (? & ? & _). done. }
  assert (∀ a b, a ∈ inp → b ∈ inp → f_R (v_z a) = f_R (v_z b) ∨ 2 * B / 65536 <= Rabs (f_R (v_z b) - f_R (v_z a))) as Hgap.
  { intros a c Ha Hc'. destruct (Hcorner a Ha) as (w & Hw & _ & ->). destruct (Hcorner c Hc') as (w' & Hw' & _ & ->).
    destruct (Hfit w Hw) as ((_ & R2) & _ & R4). destruct (Hfit w' Hw') as ((_ & R2') & _ & R4').
    destruct (Hco _ R2 R4) as (_ & _ & D1). destruct (Hco _ R2' R4') as (_ & _ & D2). apply Rabs_le_inv in D1, D2.
    destruct (Z.lt_trichotomy (vz w) (vz w')) as [Hlt|[->|Hlt]]; [right|by left|right].
    - assert (IZR (vz w) + 1 <= IZR (vz w')) as H1 by (rewrite <-plus_IZR; apply IZR_le; lia). assert ((IZR (vz w) + 1) * f_R cs <= IZR (vz w') * f_R cs) as H2 by (apply Rmult_le_compat_r; lra).
      eapply Rle_trans; [|apply Rle_abs]. rewrite U in *. lra.
    - assert (IZR (vz w') + 1 <= IZR (vz w)) as H1 by (rewrite <-plus_IZR; apply IZR_le; lia). assert ((IZR (vz w') + 1) * f_R cs <= IZR (vz w) * f_R cs) as H2 by (apply Rmult_le_compat_r; lra).
      rewrite Rabs_minus_sym. eapply Rle_trans; [|apply Rle_abs]. rewrite U in *. lra. }
  (* the sample *)
  destruct Hint as (lo & hi & samples & Haabb & Hsam & _ & Hex & _). cbv zeta in Hsam.
  destruct (Hex v Hvx) as (i & s & bo & Hs & ->). destruct (Hsam _ (elem_of_list_lookup_2 _ _ _ Hs)) as (x & z & Hx & Hz & (d & y & G1 & G2 & _ & G4)).
  injection G4 as -> ->. unfold query, sample_pos in *. cbn [fst snd dp_dist dp_cs] in *. rewrite Ecs.
  destruct (aabb_xyz_coords _ _ _ _ Haabb) as [(a1 & b1 & I1 & I2 & L1 & L2) (a2 & b2 & I3 & I4 & L3 & L4)].
  assert (f_lt f_zero dist = true) as Hpos. { apply lt_iff; [split; done|done|]. change (f_R f_zero) with 0. lra. }
  assert (∀ c, fin c → 0 <= f_R c → (0 <= f_cast f_floor_Z I32_MIN I32_MAX (f_div c dist))%Z) as Hfl.
  { intros c Fc Hc0. apply cast_floor_nonneg; [unfold I32_MIN, I32_MAX; lia|]. apply nonneg_div; [|done]. apply nonneg_R; [apply Fc|done]. }
  destruct (Hb a1 I1) as [(A1 & A2 & _) _]. destruct (Hb b1 I2) as [_ (A3 & A4 & _)]. destruct (Hb a2 I3) as [(A5 & A6) _]. destruct (Hb b2 I4) as [_ (A7 & A8)].
  assert (0 <= x)%Z as X0. { etransitivity; [|apply Hx]. rewrite L1. by apply Hfl. }
  assert (0 <= z)%Z as Z0. { etransitivity; [|apply Hz]. rewrite L2. by apply Hfl. }
  assert (8 * B <= f_big) as HB8 by nra.
  destruct (last_ok B (proj1 HB) dist Fd ltac:(lra) (v_x hi) x) as [X1 X2]; [by rewrite L3|by rewrite L3|exact (conj X0 (proj2 Hx))|].
  destruct (last_ok B (proj1 HB) dist Fd ltac:(lra) (v_z hi) z) as [Z1 Z2]; [by rewrite L4|by rewrite L4|exact (conj Z0 (proj2 Hz))|].
  assert (wrap_u16 x = x ∧ wrap_u16 z = z) as [-> ->] by (unfold wrap_u16; split; apply Z.mod_small; lia).
  destruct (grid_ok B (proj1 HB) HB8 cs dist Fd ltac:(lra) ltac:(lra) x X1 X2) as (GX1 & GX2 & GX3). destruct (grid_ok B (proj1 HB) HB8 cs dist Fd ltac:(lra) ltac:(lra) z Z1 Z2) as (GZ1 & GZ2 & GZ3).
  set (gx := f_mul (f_of_Z x) dist) in *. set (gz := f_mul (f_of_Z z) dist) in *. exists (f_R gx, f_R gz). split; [|split].
  - split; cbn [fst snd plan v_x v_z]; (eapply sample_ok; [exact (proj1 HB)|exact HB8|exact Fcs|lra|done|done]).
  - exists (Z.to_nat x), (Z.to_nat z). cbn [fst snd]. rewrite !INR_IZR_INZ, !Z2Nat.id by lia. done.
  - set (pt := V3 gx _ gz) in G1. change (f_R gx, f_R gz) with (plan pt).
    assert (fin (f_div (f_neg dist) f_two) ∧ f_R (f_div (f_neg dist) f_two) < 0) as [Fh Hh].
    { assert (fin (f_neg dist) ∧ f_R (f_neg dist) = - f_R dist) as [Fn En].
      { destruct Fd as [Vd Fd]. clear -Vd Fd. destruct dist as [[]|[]| |[] md ed]; try done; (split; [split; [exact Vd|done]|]); unfold f_R, f_neg, SFopp; cbn [negb]; try lra.
        - change (IZR (Z.neg md)) with (- IZR (Z.pos md)). lra.
        - change (IZR (Z.neg md)) with (- IZR (Z.pos md)). lra. }
      destruct (int_fin 2) as [F2 E2]; [lia|]. change f_two with (f_of_Z 2).
      destruct (f_div_R (f_neg dist) (f_of_Z 2)) as [EQ FQ]; [apply Fn|apply F2|apply Fn|rewrite E2; lra|rewrite En, E2; apply big_rnd; apply Rabs_le; lra|].
      split; [split; [apply f_div_valid; [apply Fn|apply F2]|done]|]. rewrite En, E2 in EQ.
      pose proof (rnd_err (- f_R dist / 2) B ltac:(apply Rabs_le; lra) ltac:(lra)) as D. rewrite <-EQ in D. apply Rabs_le_inv in D. rewrite U in D. lra. }
    destruct (dist_to_poly_inside (2 * B) ltac:(lra) ltac:(nra) pt inp) with (d := d) (half := f_div (f_neg dist) f_two) as [Hin|Hbe].
    + split; cbn [pt v_x v_z]; done.
    + intros a Ha. destruct (Hb a Ha) as [(Q1 & Q2) (Q3 & Q4)]. split; (split; [done|]); rewrite Rabs_pos_eq; lra.
    + exact Hgap.
    + exact G1.
    + exact Fh.
    + exact Hh.
    + exact G2.
    + by left.
    + right. destruct Hbe as (a & c & Hac & Hm & Hle). exists a, c. split; [done|]. split; [done|]. eapply Rle_trans; [exact Hle|]. rewrite U. lra.
Qed.
Print Assumptions C91_inside.

Example C91_ex : mesh_fits 8 hill_mesh ∧ g_cs (ch_geo hill) = g_cs (pm_geo hill_mesh) ∧ fits 8 (g_cs (pm_geo hill_mesh)) ∧ 8 / 8192 <= f_R (g_cs (pm_geo hill_mesh)) ∧
  fits 8 f_two ∧ 8 / 16384 <= f_R f_two ∧ inside (3, 5) ((λ p, (IZR p.1, IZR p.2)) <$> [(0, 0); (0, 8); (8, 8)]%Z).
Proof.
  assert (f_R (g_cs (pm_geo hill_mesh)) = 1) as E1 by (apply (f_of_Z_R 1); lia). assert (f_R f_two = 2) as E2 by (apply (f_of_Z_R 2); lia).
  split_and!.
  - intros v Hv. rewrite E1. cbn in Hv. rewrite !elem_of_cons, elem_of_nil in Hv. destruct Hv as [->|[->|[->|[->|[]]]]]; cbn [vx vz]; (split; [lia|lra]).
  - reflexivity.
  - split; [vm_compute; reflexivity|]. split; [exact I|]. rewrite E1, Rabs_pos_eq; lra.
  - rewrite E1. lra.
  - split; [vm_compute; reflexivity|]. split; [exact I|]. rewrite E2, Rabs_pos_eq; lra.
  - rewrite E2. lra.
  - unfold inside. cbn [fmap list_fmap fst snd sides last zip zip_with]. change true with (negb false).
    apply parity_hit; [unfold hit, met, meets_at; cbn [fst snd]; split; [right|]; lra|].
    do 2 (apply parity_miss; [unfold hit, met, meets_at; cbn [fst snd]; lra|]). constructor.
Qed.
Local Close Scope R_scope.
Local Open Scope Z_scope.

(** A floor with a bump near its corner. *)
Definition bump_y (x z : nat) : Z := if (7 <=? x)%nat && (x <=? 9)%nat && (7 <=? z)%nat && (z <=? 9)%nat then 4 else 0.
Definition bump : chf :=
  mkChf 23 23 2 1 0 0 1 geo0 ((λ i, CC i 1) <$> seq 0 529) ((λ i, CS (bump_y (i mod 23) (i / 23)) 1 16777215) <$> seq 0 529) [] (repeat 63 529).
Definition bump_mesh : pmesh := PMesh [V 6 0 6; V 6 0 22; V 22 0 22; V 22 0 6] [[0; 1; 2; 3]] [] [1] [1] [63] 4 geo0 0 f_one.
(** "Make sure the samples are not too close to the edges": the test compares half the
    sampling distance with the square of the distance to the sides. Here the polygon is
    the square from 6 to 22, the sampling distance is 8, and there is a vertex inside at
    most 3 from two of the sides, not 4. *)
Theorem C91_half_distance_refuted : ∃ o v, detail_new 2000 bump_mesh bump (f_of_Z 8) f_one = Done o ∧ v ∈ dm_verts o ∧
  f_lt (f_of_Z 7) (v_x v) = true ∧ f_lt (v_x v) (f_of_Z 9) = true ∧ f_lt (f_of_Z 7) (v_z v) = true ∧ f_lt (v_z v) (f_of_Z 9) = true.
Proof.
  assert (∃ o, detail_new 2000 bump_mesh bump (f_of_Z 8) f_one = Done o ∧ ∃ v, dm_verts o !! 4%nat = Some v ∧
    (f_lt (f_of_Z 7) (v_x v) && f_lt (v_x v) (f_of_Z 9) && f_lt (f_of_Z 7) (v_z v) && f_lt (v_z v) (f_of_Z 9)) = true) as (o & E & v & Hv & H).
  { eexists. split; [vm_compute; reflexivity|]. eexists. split; [vm_compute; reflexivity|]. vm_compute. reflexivity. }
  exists o, v. split; [exact E|]. split; [by eapply elem_of_list_lookup_2|]. clear -H. rewrite !andb_true_iff in H. tauto.
Qed.
Print Assumptions C91_half_distance_refuted.
