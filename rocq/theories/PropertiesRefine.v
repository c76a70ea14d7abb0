(** How closely the edges of the detail mesh follow the heights, in real numbers: C60. *)
From Coq Require Import Reals Lra.
From Flocq Require Import Core.Core.
From Verif Require Import Base ModelMath ModelTriMesh ModelHeightfield ModelCompact ModelContours ModelPoly ModelDetail FloatOrder FloatReal FloatSpotProofs FloatClipProofs
  SpecDetail SpecClipping SpecRefine DetailTessProofs DetailPolyProofs DetailMeshProofs SampleProofs RefineProofs EdgeStepProofs FatProofs PropertiesDetail PropertiesSamples.
From Coq Require Import Floats.SpecFloat.
Local Open Scope R_scope.

(** Every side of a polygon is sampled at up to 32 evenly spaced positions, at most the
    sampling distance apart unless there are 32 of them or the 126 vertices of an outline
    run out. There the height is that of the patch, and every sample whose neighbours are in the bounds is
    at most the maximum error, and a 524288th of the bound of the coordinates, from
    the line through the vertices that the detail mesh has along the side. *)
Theorem C60_edges_in_space B fuel m ch dist err o :
  pm_verts m ≠ [] → (Z.of_nat (length (pm_polys m)) * 255 < 4294967296)%Z →
  (∀ row, row ∈ pm_polys m → ∃ l, live row l ∧ (3 ≤ length l)%nat) → detail_new fuel m ch dist err = Done o →
  1 <= B <= 2 ^ 39 → mesh_fits B m → fits B (g_cs (pm_geo m)) → 0 <= f_R (g_cs (pm_geo m)) → fits B err → 0 <= f_R err →
  ∀ k row l sm, pm_polys m !! k = Some row → live row l → dm_meshes o !! k = Some sm →
  let p := query m ch dist err in
  ∃ reg b verts data hp inp (E : list (list vec3)) extra,
    pm_regs m !! k = Some reg ∧ poly_bounds (Z.of_nat (ch_w ch)) (Z.of_nat (ch_h ch)) (pm_verts m) row = Done b ∧
    get_height_data fuel ch l verts (pm_border m) reg
      (HP data (b_xmin b) (b_zmin b) (b_xmax b - b_xmin b) (b_zmax b - b_zmin b)) = Done hp ∧
    corners_at m l inp ∧ length E = length inp ∧
    segment (dm_verts o) (sm_vbase sm) (sm_vcount sm) = shifted (g_min (pm_geo m)) (g_ch (ch_geo ch)) <$> inp ++ concat E ++ extra ∧
    ∀ i e v w, E !! i = Some e → inp !! before (length inp) i = Some v → inp !! i = Some w →
      ∃ v' w' e' n samples, ((v', w', e') = (v, w, e) ∨ (v', w', e') = (w, v, reverse e)) ∧ length samples = S n ∧ (n ≤ 31)%nat ∧
        (fits B dist → B / 16384 <= f_R dist →
          n = 31%nat ∨ (length inp + length (concat (take i E)) + n = 126)%nat ∨ plan_len v' w' <= INR n * (f_R dist * (1 + / 524288)) + B / 524288) ∧
        (∀ j s, samples !! j = Some s → (n = 0%nat ∨ spaced v' w' n j (B / 524288) s) ∧
          ∃ h, height_at p hp (edge_pos v' w' n j) h ∧ v_x s = v_x (edge_pos v' w' n j) ∧ v_z s = v_z (edge_pos v' w' n j) ∧ v_y s = f_mul (f_of_Z h) (g_ch (ch_geo ch))) ∧
        (Forall (λ s, fits B (v_y s)) samples → line_follows samples e' (f_R err * (1 + / 1048576) + B / 524288)).
Proof.
  intros Hv Hbig H3 Hd HB Hfit Hcs Hcs0 Herr Herr0 k row l sm Hrow Hl Hsm. cbv zeta.
  destruct (C60_detail_error fuel m ch dist err o Hv Hbig H3 Hd k row l sm Hrow Hl Hsm) as (reg & b & verts & data & hp & inp & E & extra & Q1 & Q2 & Q3 & Hc & HE & Hseg & Hedge & _ & _).
  exists reg, b, verts, data, hp, inp, E, extra. split; [done|]. split; [done|]. split; [done|]. split; [done|]. split; [done|]. split; [done|].
  intros i e v w He Hbv Hw. specialize (Hedge i e v w He Hbv Hw).
  set (cs := g_cs (pm_geo m)) in *. destruct Hcs as (V1 & V2 & Bcs). assert (fin cs) as Fcs by done. destruct Herr as (W1 & W2 & Berr). assert (fin err) as Ferr by done. clear V1 V2 W1 W2.
  apply Rabs_le_inv in Bcs, Berr. pose proof f_u_val as U. pose proof big_105 as BB.
  assert (2 ^ 39 = 549755813888) as P39 by lra. rewrite P39 in HB.
  assert (∀ z, (0 <= z <= 65535)%Z → IZR z * f_R cs <= B → fin (f_mul (f_of_Z z) cs) ∧ Rabs (f_R (f_mul (f_of_Z z) cs)) <= 101 / 100 * B) as Hco.
  { intros z Hz Hzb. destruct (int_fin z) as [Fz Ez]; [lia|]. assert (0 <= IZR z) by (apply IZR_le; lia). assert (0 <= IZR z * f_R cs) by (apply Rmult_le_pos; lra).
    destruct (mul_ok (f_of_Z z) cs B) as (F1 & E1 & D1); [done|done|rewrite Ez, Rabs_pos_eq; lra|lra|]. rewrite Ez in D1. split; [done|].
    apply Rabs_le_inv in D1. rewrite U in D1. apply Rabs_le. lra. }
  assert (∀ a, a ∈ inp → (fin (v_x a) ∧ Rabs (f_R (v_x a)) <= 101 / 100 * B) ∧ (fin (v_z a) ∧ Rabs (f_R (v_z a)) <= 101 / 100 * B)) as Hb.
  { intros a Ha. apply elem_of_list_lookup in Ha as [ia Hi]. destruct (Forall2_lookup_r _ _ _ _ _ Hc Hi) as (j & _ & u & Hu & ->).
    apply elem_of_list_lookup_2 in Hu. destruct (Hfit u Hu) as ((R1 & R2) & R3 & R4). split; [exact (Hco _ R1 R3)|exact (Hco _ R2 R4)]. }
  pose proof (Hb v (elem_of_list_lookup_2 _ _ _ Hbv)) as Hbv'. pose proof (Hb w (elem_of_list_lookup_2 _ _ _ Hw)) as Hbw'. clear Hb Hco.
  assert (∃ v' w' (sw : bool), edge_order v w = (v', w', sw) ∧ ((v', w', if sw then reverse e else e) = (v, w, e) ∨ (v', w', if sw then reverse e else e) = (w, v, reverse e))) as (v' & w' & sw & Eo & Hor).
  { unfold edge_order. repeat case_match; eexists _, _, _; (split; [reflexivity|]); cbn; solve [by left|by right]. }
  unfold edge_out in Hedge. rewrite Eo in Hedge. set (e' := if sw then reverse e else e) in *.
  assert ((fin (v_x v') ∧ Rabs (f_R (v_x v')) <= 101 / 100 * B) ∧ (fin (v_z v') ∧ Rabs (f_R (v_z v')) <= 101 / 100 * B)) as [[Fx1 Bx1] [Fz1 Bz1]].
  { destruct Hor as [Hor|Hor]; injection Hor as -> -> _; done. }
  assert ((fin (v_x w') ∧ Rabs (f_R (v_x w')) <= 101 / 100 * B) ∧ (fin (v_z w') ∧ Rabs (f_R (v_z w')) <= 101 / 100 * B)) as [[Fx2 Bx2] [Fz2 Bz2]].
  { destruct Hor as [Hor|Hor]; injection Hor as -> -> _; done. }
  destruct Hedge as (n & samples & keep & Hn & Hcount & Hlen & Hpos & Hsimp & HF). exists v', w', e', n, samples. split; [done|]. split; [done|]. split; [done|]. split.
  { intros (W1 & W2 & Bd) Hd0. apply Rabs_le_inv in Bd.
    destruct (count_ok (101 / 100 * B) ltac:(lra) (query m ch dist err) (length inp + length (concat (take i E))) v' w' n) as [?|[?|Hlen']]; try done.
    - cbn [query dp_dist]. lra.
    - by left.
    - right. by left.
    - right. right. cbn [query dp_dist] in Hlen'. eapply Rle_trans; [exact Hlen'|]. rewrite U. lra. }
  assert (∀ j s, samples !! j = Some s → (1 ≤ n)%nat →
    (fin (v_x s) ∧ Rabs (f_R (v_x s)) <= 10201 / 10000 * B) ∧ (fin (v_z s) ∧ Rabs (f_R (v_z s)) <= 10201 / 10000 * B) ∧ spaced v' w' n j (B / 524288) s) as Hxz.
  { intros j s Hj Hn1. pose proof (lookup_lt_Some _ _ _ Hj) as Hjl. destruct (Hpos j s Hj) as (h & _ & ->). cbn [v_x v_z].
    destruct (part_ok n j) as (Ft & Ht & Dt); [lia|lia|]. unfold edge_pos. cbn [v_x v_z v_add v_scale v_sub]. set (t := f_div _ _) in *.
    destruct (pos_ok (101 / 100 * B) t (v_x v') (v_x w') (INR j / INR n)) as (F1 & B1 & D1); [lra|done|done|done|done|done|done|done|].
    destruct (pos_ok (101 / 100 * B) t (v_z v') (v_z w') (INR j / INR n)) as (F2 & B2 & D2); [lra|done|done|done|done|done|done|done|].
    split; [split; [exact F1|lra]|]. split; [split; [exact F2|lra]|].
    assert (8 * f_u * (101 / 100 * B) <= B / 524288) by (rewrite U; lra). split; cbn [v_x v_z]; lra. }
  split.
  { intros j s Hj. split.
    - destruct (decide (n = 0%nat)) as [|Hn0]; [by left|right]. apply (Hxz j s Hj). lia.
    - destruct (Hpos j s Hj) as (h & Hh & ->). exists h. split; [done|]. split; [done|]. split; [done|]. reflexivity. }
  intros Hy. rewrite Forall_forall in Hy.
  assert (0 <= f_R err * (1 + / 1048576)) as Hpe by (apply Rmult_le_pos; lra).
  eapply kept_follow; [exact Hlen|exact Hsimp|exact HF|lra|].
  intros s a c Hs Ha Hc' Hn1 Hfar.
  assert (∀ s, s ∈ samples → fits3 (10201 / 10000 * B) s) as Hs3.
  { intros s' Hs'. pose proof (Hy s' Hs') as (Y1 & Y2 & Y3). apply elem_of_list_lookup in Hs' as [j Hj]. destruct (Hxz j s' Hj Hn1) as ([[X1 X2] X3] & [[Z1 Z2] Z3] & _).
    split; [split; [exact X1|split; [exact X2|exact X3]]|]. split; [split; [exact Y1|split; [exact Y2|lra]]|]. split; [exact Z1|split; [exact Z2|exact Z3]]. }
  unfold far3 in Hfar. cbn [dp_err query] in Hfar. apply not_true_is_false in Hfar.
  destruct (seg3_off (10201 / 10000 * B) ltac:(lra) err s a c) as (t & Ht & Hd'); [by apply Hs3..|done|lra|done|].
  exists t. split; [done|]. eapply Rle_trans; [exact Hd'|]. rewrite U. lra.
Qed.
Print Assumptions C60_edges_in_space.

(** The hill with an error of one: its bounds are met, and in its diagonal the sample (3, 3, 3)
    of the line from (2, 1, 2) to (4, 5, 4) is on the line. *)
Example C60_space_ex : (∃ o, detail_new 100 hill_mesh hill f_two f_one = Done o) ∧ mesh_fits 8 hill_mesh ∧ fits 8 (g_cs (pm_geo hill_mesh)) ∧ 0 <= f_R (g_cs (pm_geo hill_mesh)) ∧
  fits 8 f_one ∧ 0 <= f_R f_one ∧ fits 8 f_two ∧ 8 / 16384 <= f_R f_two ∧
  off_seg (V3 (f_of_Z 3) (f_of_Z 3) (f_of_Z 3)) (V3 (f_of_Z 2) (f_of_Z 1) (f_of_Z 2)) (V3 (f_of_Z 4) (f_of_Z 5) (f_of_Z 4)) 0.
Proof.
  assert (f_R f_one = 1) as E1 by (apply (f_of_Z_R 1); lia). pose proof C91_ex as (H1 & _ & H2 & H3 & H4 & H5 & _).
  split; [destruct hill_detail as (o & Ho & _); by exists o|]. split; [exact H1|]. split; [exact H2|]. split; [lra|]. split.
  { split; [vm_compute; reflexivity|]. split; [exact I|]. rewrite E1, Rabs_pos_eq; lra. }
  split; [rewrite E1; lra|]. split; [exact H4|]. split; [exact H5|]. exists (1 / 2). split; [lra|]. cbv zeta. cbn [v_x v_y v_z].
  rewrite (proj2 (int_fin 1 ltac:(lia))), (proj2 (int_fin 2 ltac:(lia))), (proj2 (int_fin 3 ltac:(lia))), (proj2 (int_fin 4 ltac:(lia))), (proj2 (int_fin 5 ltac:(lia))).
  match goal with |- R_sqrt.sqrt ?e <= 0 => replace e with 0 by lra end. rewrite sqrt_0. lra.
Qed.

Definition at_Z (x y z : Z) : vec3 := V3 (f_of_Z x) (f_of_Z y) (f_of_Z z).
Lemma over_tri_Z px py pz ax ay az bx by' bz cx cy cz s t h :
  (∀ i, i ∈ [px; py; pz; ax; ay; az; bx; by'; bz; cx; cy; cz] → 0 <= i <= 65535)%Z → 0 <= s → 0 <= t → s + t <= 1 →
  IZR px = IZR ax + s * (IZR bx - IZR ax) + t * (IZR cx - IZR ax) → IZR pz = IZR az + s * (IZR bz - IZR az) + t * (IZR cz - IZR az) →
  IZR py = IZR ay + s * (IZR by' - IZR ay) + t * (IZR cy - IZR ay) + h → over_tri (at_Z px py pz) (at_Z ax ay az) (at_Z bx by' bz) (at_Z cx cy cz) h.
Proof.
  intros Hi Hs Ht Hst Ex Ez Ey.
  assert (∀ i, i ∈ [px; py; pz; ax; ay; az; bx; by'; bz; cx; cy; cz] → f_R (f_of_Z i) = IZR i) as E. { intros i Hx. apply int_fin. specialize (Hi i Hx). lia. }
  exists s, t. unfold at_Z. cbn [v_x v_y v_z]. rewrite !E by (rewrite !elem_of_cons; tauto). done.
Qed.

(** Over a thin triangle the distance is not what it should be: here the triangle is 788
    cells long and the point is more than 10 below it, but the distance in [f32] is
    less than 1, so that no vertex is added at an error of 1. *)
Theorem C60_thin_triangle_refuted : ∃ p a b c d h,
  over_tri p a b c h ∧ h < - 10 ∧ dist_pt_tri p a b c = Some d ∧ f_lt d f_one = true.
Proof.
  assert (∃ d, dist_pt_tri (at_Z 434 22 1) (at_Z 0 0 0) (at_Z 497 40 1) (at_Z 788 57 2) = Some d ∧ f_lt d f_one = true) as (d & H).
  { eexists. split; [vm_compute; reflexivity|]. vm_compute. reflexivity. }
  exists (at_Z 434 22 1), (at_Z 0 0 0), (at_Z 497 40 1), (at_Z 788 57 2), d, (22 - (40 * (80 / 206) + 57 * (63 / 206))).
  split; [|split; [clear H; lra|exact H]]. clear H.
  apply over_tri_Z with (s := 80 / 206) (t := 63 / 206); [|lra..].
  intros i Hi. rewrite !elem_of_cons, elem_of_nil in Hi. lia.
Qed.
Print Assumptions C60_thin_triangle_refuted.

(** The coordinates are numbers, and the heights at most [H]. *)
Definition sound (H : R) (v : vec3) : Prop := fin (v_x v) ∧ fin (v_z v) ∧ fin (v_y v) ∧ Rabs (f_R (v_y v)) <= H.

(** The points are of the sizes for which distances are computed well, and the triangle
    [a], [b], [c] is not thin. *)
Definition plain (K S H : R) (q a b c : vec3) : Prop :=
  1 <= K <= 128 ∧ 1 <= S <= 2 ^ 20 ∧ 1 <= H <= 2 ^ 39 ∧ (∀ v, v ∈ [q; a; b; c] → sound H v) ∧
  spread S a q ∧ spread S a b ∧ spread S a c ∧ fat K S a b c.
(** [a], [b], [c] are the corners of one of the triangles. *)
Definition one_of (ts : list dtri) (vs : list vec3) (a b c : vec3) : Prop :=
  ∃ ia ib ic, (ia, ib, ic) ∈ ts ∧ vs !! ia = Some a ∧ vs !! ib = Some b ∧ vs !! ic = Some c.

(** Every sample inside a polygon is a vertex, or the sub-mesh is full, or the sample is
    over none of the triangles that are not thin (for the fattest, nor on their sides), or
    it is over one within the maximum error: unless that triangle is thin, in real
    numbers. *)
Theorem C60_interior_in_space fuel m ch dist err o :
  pm_verts m ≠ [] → (Z.of_nat (length (pm_polys m)) * 255 < 4294967296)%Z →
  (∀ row, row ∈ pm_polys m → ∃ l, live row l ∧ (3 ≤ length l)%nat) → detail_new fuel m ch dist err = Done o → fin err → 0 <= f_R err →
  ∀ k row l sm, pm_polys m !! k = Some row → live row l → dm_meshes o !! k = Some sm →
  let p := query m ch dist err in
  let ts := segment (dm_tris o) (sm_tbase sm) (sm_tcount sm) in
  ∃ inp (E : list (list vec3)) extra hp, let vs := inp ++ concat E ++ extra in
    corners_at m l inp ∧ length E = length inp ∧
    segment (dm_verts o) (sm_vbase sm) (sm_vcount sm) = shifted (g_min (pm_geo m)) (g_ch (ch_geo ch)) <$> vs ∧
    (extra = [] ∨ ∃ lo hi (samples : list sample), aabb_xyz inp (length inp) = Done (lo, hi) ∧
      (∀ x z, (f_cast f_floor_Z I32_MIN I32_MAX (f_div (v_x lo) dist) <= x < f_cast f_ceil_Z I32_MIN I32_MAX (f_div (v_x hi) dist))%Z →
        (f_cast f_floor_Z I32_MIN I32_MAX (f_div (v_z lo) dist) <= z < f_cast f_ceil_Z I32_MIN I32_MAX (f_div (v_z hi) dist))%Z →
        inside_poly p inp (length inp) (f_mul (f_add (v_y hi) (v_y lo)) c_0_5) x z →
        ∃ s, s ∈ samples ∧ grid_sample p hp inp (length inp) (f_mul (f_add (v_y hi) (v_y lo)) c_0_5) x z s) ∧
      ∀ i s b, samples !! i = Some (s, b) → let q := sample_pos p i s in
        q ∈ extra ∨ length vs = 127%nat ∨ length ts = 255%nat ∨
        (∀ a b c K S H, one_of ts vs a b c → plain K S H q a b c → ¬ well_over q a b c (K / 12000 - / 11000)) ∨
        ∃ a b c, one_of ts vs a b c ∧
          ∀ K S H, plain K S H q a b c → near_tri q a b c (/ 5000 + K / 8192) (S / 1048576) (f_R err + K * H / 4096)).
Proof.
  intros Hv Hbig H3 Hd Ferr Herr k row l sm Hrow Hl Hsm. cbv zeta.
  destruct (C60_detail_error fuel m ch dist err o Hv Hbig H3 Hd k row l sm Hrow Hl Hsm) as (reg & b & verts & data & hp & inp & E & extra & _ & _ & _ & Hc & HE & Hseg & _ & Hint & _).
  exists inp, E, extra, hp. split; [done|]. split; [done|]. split; [done|]. destruct Hint as [->|Hint]; [by left|right].
  destruct Hint as (lo & hi & samples & Haabb & _ & Hall & _ & Hnear). cbv zeta in Hall. exists lo, hi, samples. split; [done|]. split; [exact Hall|].
  intros i s bo Hs. destruct (Hnear i s bo Hs) as [?|[?|[?|[(t & d & Ht & Htd & Hlt)|Hno]]]]; [|by left|by right; left|by do 2 right; left| |].
  - cbn [query dp_err]. apply nonneg_R; [apply Ferr|done].
  - do 4 right. destruct t as [[ia ib] ic]. unfold tri_dist in Htd. cbn [query dp_err] in Hlt.
    destruct (_ !! ia) as [a|] eqn:Ea; [|discriminate Htd]. destruct (_ !! ib) as [b'|] eqn:Eb; [|discriminate Htd]. destruct (_ !! ic) as [c|] eqn:Ec; [|discriminate Htd].
    exists a, b', c. split; [by exists ia, ib, ic|].
    intros K S H (HK & HS & HH & Hfin & Sp & Sb & Sc & Hfat). assert (2 ^ 20 = 1048576) as P20 by lra. assert (2 ^ 39 = 549755813888) as P39 by lra. rewrite P20 in HS. rewrite P39 in HH.
    eapply tri_near; [exact HK|exact HS|exact HH|exact Hfin|exact Sp|exact Sb|exact Sc|exact Hfat|exact Ferr|exact Htd|exact Hlt].
  - do 3 right. left. intros a b' c K S H (ia & ib & ic & Ht & Ea & Eb & Ec) (HK & HS & HH & Hfin & Sp & Sb & Sc & Hfat) Hover.
    assert (2 ^ 20 = 1048576) as P20 by lra. assert (2 ^ 39 = 549755813888) as P39 by lra. rewrite P20 in HS. rewrite P39 in HH.
    destruct (tri_found K S H _ a b' c HK HS HH Hfin Sp Sb Sc Hfat Hover) as (d & Hd' & Hlt).
    assert (f_lt d F32_MAX = false) as Hf; [|rewrite Hlt in Hf; discriminate Hf].
    apply (Hno (ia, ib, ic)); [exact Ht|]. unfold tri_dist. rewrite Ea, Eb, Ec. exact Hd'.
Qed.
Print Assumptions C60_interior_in_space.

(** The lower half of the hill with its peak. *)
Example C60_fat_ex : let q := at_Z 5 3 4 in let a := at_Z 0 1 0 in let b := at_Z 8 1 0 in let c := at_Z 4 5 8 in
  plain 4 8 8 q a b c ∧ well_over q a b c (4 / 12000 - / 11000) ∧ ∃ d, dist_pt_tri q a b c = Some d ∧ f_lt f_one d = false.
Proof.
  assert (∀ i, (0 <= i <= 8)%Z → fin (f_of_Z i) ∧ f_R (f_of_Z i) = IZR i ∧ 0 <= IZR i <= 8) as E.
  { intros i Hi. destruct (int_fin i) as [F Ei]; [lia|]. split; [exact F|]. split; [exact Ei|]. split; apply IZR_le; lia. }
  assert (∀ x y z, (0 <= x <= 8)%Z → (0 <= y <= 8)%Z → (0 <= z <= 8)%Z → sound 8 (at_Z x y z)) as Hs.
  { intros x y z Hx Hy Hz. destruct (E x Hx) as (? & _). destruct (E y Hy) as (? & Ey & ?). destruct (E z Hz) as (? & _). unfold sound, at_Z. cbn [v_x v_y v_z]. rewrite Ey.
    split; [assumption|]. split; [assumption|]. split; [assumption|]. rewrite Rabs_pos_eq; lra. }
  assert (∀ x y z x' y' z', (0 <= x <= 8)%Z → (0 <= z <= 8)%Z → (0 <= x' <= 8)%Z → (0 <= z' <= 8)%Z → spread 8 (at_Z x y z) (at_Z x' y' z')) as Hp.
  { intros x y z x' y' z' Hx Hz Hx' Hz'. destruct (E x Hx) as (_ & E1 & ?). destruct (E z Hz) as (_ & E2 & ?). destruct (E x' Hx') as (_ & E3 & ?). destruct (E z' Hz') as (_ & E4 & ?).
    unfold spread, at_Z. cbn [v_x v_z]. rewrite E1, E2, E3, E4. split; apply Rabs_le; lra. }
  assert (∀ ax ay az bx by' bz cx cy cz, (∀ i, i ∈ [ax; az; bx; bz; cx; cz] → 0 <= i <= 8)%Z →
    8 * 8 * (8 * 8) <= 4 * (((IZR cx - IZR ax) * (IZR bz - IZR az) - (IZR bx - IZR ax) * (IZR cz - IZR az)) * ((IZR cx - IZR ax) * (IZR bz - IZR az) - (IZR bx - IZR ax) * (IZR cz - IZR az))) →
    fat 4 8 (at_Z ax ay az) (at_Z bx by' bz) (at_Z cx cy cz)) as Hf.
  { intros ax ay az bx by' bz cx cy cz Hi Hle. assert (∀ i, i ∈ [ax; az; bx; bz; cx; cz] → f_R (f_of_Z i) = IZR i) as E'. { intros i Hin. destruct (E i (Hi i Hin)) as (_ & Ei & _). exact Ei. }
    unfold fat, at_Z. cbn [v_x v_z]. rewrite !E' by (rewrite !elem_of_cons; tauto). exact Hle. }
  assert (∀ qx qy qz ax ay az bx by' bz cx cy cz w s t, (∀ i, i ∈ [qx; qz; ax; az; bx; bz; cx; cz] → 0 <= i <= 8)%Z → w <= s → w <= t → s + t <= 1 - w →
    IZR qx = IZR ax + s * (IZR bx - IZR ax) + t * (IZR cx - IZR ax) → IZR qz = IZR az + s * (IZR bz - IZR az) + t * (IZR cz - IZR az) →
    well_over (at_Z qx qy qz) (at_Z ax ay az) (at_Z bx by' bz) (at_Z cx cy cz) w) as Hw.
  { intros qx qy qz ax ay az bx by' bz cx cy cz w s t Hi H1 H2 H3 H4 H5. assert (∀ i, i ∈ [qx; qz; ax; az; bx; bz; cx; cz] → f_R (f_of_Z i) = IZR i) as E'. { intros i Hin. destruct (E i (Hi i Hin)) as (_ & Ei & _). exact Ei. }
    exists s, t. unfold at_Z. cbn [v_x v_z]. rewrite !E' by (rewrite !elem_of_cons; tauto). split; [exact H1|]. split; [exact H2|]. split; [exact H3|]. split; [exact H4|exact H5]. }
  cbv zeta. split; [split; [lra|]; split; [lra|]; split; [lra|]; split|split].
  { intros v Hv. rewrite !elem_of_cons, elem_of_nil in Hv. destruct Hv as [->|[->|[->|[->|[]]]]]; apply Hs; lia. }
  - split; [apply Hp; lia|]. split; [apply Hp; lia|]. split; [apply Hp; lia|]. apply Hf; [intros i Hi; rewrite !elem_of_cons, elem_of_nil in Hi; lia|lra].
  - apply Hw with (s := 3 / 8) (t := 1 / 2); [intros i Hi; rewrite !elem_of_cons, elem_of_nil in Hi; lia|lra..].
  - eexists. split; [vm_compute; reflexivity|]. vm_compute. reflexivity.
Qed.
