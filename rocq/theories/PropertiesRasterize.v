(** Theorems for properties C46-C48, C54 and C55: building a heightfield and
    rasterizing triangles into it. *)
From Coq Require Import QArith Qround Lqa.
From Verif Require Import Base ModelMath ModelHeightfield ModelFilters ModelHistory ModelTriMesh ModelRasterize
  SpecHeightfield SpecRasterize FlowProofs HistoryProofs PropertiesHeightfield
  ClipProofs ClipExact ClipCount RasterProofs RasterLoops RasterSafe.
Local Open Scope Z_scope.

(** ** C46 *)

(** The dimensions are the whole parts of (max - min) / cell_size + 0.5, rounded to
    f32 after each operation. *)
Theorem C46_dimensions g W H :
  f_to_u128 (f_add (f_div (f_sub (v_x (g_max g)) (v_x (g_min g))) (g_cs g)) (f_of_me 1 (-1))) = W →
  f_to_u128 (f_add (f_div (f_sub (v_z (g_max g)) (v_z (g_min g))) (g_cs g)) (f_of_me 1 (-1))) = H →
  W < 65536 → H < 65536 →
  ∃ hf, build_heightfield g = Done (Some hf) ∧ reachable hf ∧
    Z.of_nat (hf_w hf) = W ∧ Z.of_nat (hf_h hf) = H ∧ hf_geo hf = g ∧ Z.of_nat (length (hf_cols hf)) = W * H ∧
    ∀ x z, (x < hf_w hf)%nat → (z < hf_h hf)%nat → is_column hf (x + z * hf_w hf) [].
Proof.
  intros EW EH LW LH. unfold build_heightfield, cell_count. rewrite EW, EH.
  assert (∀ x V, f_to_u128 x = V → V < 65536 → f_to_u16 x = V ∧ 0 <= V) as Hc.
  { intros x V <- HV. unfold f_to_u128, f_to_u16, f_cast, sat in *. destruct x as [s|s| |s m e]; [lia|destruct s; lia|lia|lia]. }
  destruct (Hc _ _ EW LW) as [-> W0]. destruct (Hc _ _ EH LH) as [-> H0].
  rewrite chk_in by nia. cbn [obind]. destruct (USIZE_MAX <? W * H) eqn:E; [unfold USIZE_MAX in E; nia|].
  assert (mkHf (Z.to_nat W) (Z.to_nat H) g (repeat None (Z.to_nat (W * H))) ∅ 1%positive = new_hf (Z.to_nat W) (Z.to_nat H) g) as ->.
  { unfold new_hf. by rewrite Z2Nat.inj_mul by lia. }
  eexists. split; [done|]. split; [|split; [cbn; lia|split; [cbn; lia|split; [done|split]]]].
  - exists (Z.to_nat W), (Z.to_nat H), g, []. split; [constructor|done].
  - cbn. rewrite repeat_length. lia.
  - intros x z Hx Hz. cbn in *. exists []. split; [|done]. exists None. split; [|done]. apply repeat_lookup. nia.
Qed.

(** Larger counts: the stored width stops at 65535, the table does not. *)
Definition wide_geo : geo := Geo v_zero (V3 (f_of_Z 65536) (f_of_Z 1) (f_of_Z 1)) (f_of_Z 1) (f_of_Z 1).
Theorem C46_saturation_refuted : ∃ g hf, build_heightfield g = Done (Some hf) ∧
  Z.of_nat (length (hf_cols hf)) ≠ Z.of_nat (hf_w hf) * Z.of_nat (hf_h hf).
Proof.
  assert (match build_heightfield wide_geo with Done (Some hf) => negb (Z.of_nat (length (hf_cols hf)) =? Z.of_nat (hf_w hf) * Z.of_nat (hf_h hf)) | _ => false end = true) as Hb
    by (vm_compute; reflexivity).
  destruct (build_heightfield wide_geo) as [[hf|]| |] eqn:E; [|done..].
  exists wide_geo, hf. split; [done|]. by apply negb_true_iff, Z.eqb_neq in Hb.
Qed.
(** The count itself can overflow before it is compared with the largest size. *)
Theorem C46_too_large_is_error_refuted : ∃ g, build_heightfield g = Panicked.
Proof. exists (Geo v_zero (V3 (f_of_me 1 127) (f_of_Z 1) (f_of_me 1 127)) (f_of_me 1 (-20)) (f_of_Z 1)). vm_compute. done. Qed.

Example C46_witness : ∃ hf, build_heightfield (Geo v_zero (V3 (f_of_Z 10) (f_of_Z 1) (f_of_Z 3)) (f_of_me 3 (-2)) (f_of_Z 1)) = Done (Some hf) ∧ hf_w hf = 13%nat ∧ hf_h hf = 4%nat.
Proof. eexists. split; [vm_compute; reflexivity|done]. Qed.

(** ** C47 *)

(** Dividing a convex polygon by a line gives the parts of it on either side, each
    convex, with at most one vertex more. *)
Theorem C47_division inv n o1 n1 o2 n2 c ax :
  (0 < n <= 12)%nat → (n <= length inv)%nat → convex (take n inv) → (n + 1 <= length o1)%nat → (n + 1 <= length o2)%nat →
  ∃ o1' m1 o2' m2, divide_poly exact_arith inv n o1 n1 o2 n2 c ax = Done (Some ((o1', m1), (o2', m2))) ∧
    (m1 <= n + 1)%nat ∧ (m2 <= n + 1)%nat ∧ length o1' = length o1 ∧ length o2' = length o2 ∧
    convex (take m1 o1') ∧ convex (take m2 o2') ∧
    (∀ p, in_hull (take m1 o1') p ↔ in_hull (take n inv) p ∧ (on ax p <= c)%Q) ∧
    (∀ p, in_hull (take m2 o2') p ↔ in_hull (take n inv) p ∧ (c <= on ax p)%Q).
Proof.
  intros Hn Hl Hcv L1 L2. pose proof (part1_length c ax _ Hcv) as P1. pose proof (part2_length c ax _ Hcv) as P2.
  rewrite take_length_le in P1, P2 by done. destruct (divide_done exact_arith c ax inv n o1 n1 o2 n2) as (o1' & o2' & E & A & B & C & D); [lia|lia|done| | |].
  { change (part1 exact_arith c ax (take n inv)) with (part1e c ax (take n inv)). lia. }
  { change (part2 exact_arith c ax (take n inv)) with (part2e c ax (take n inv)). lia. }
  change (part1 exact_arith c ax (take n inv)) with (part1e c ax (take n inv)) in *. change (part2 exact_arith c ax (take n inv)) with (part2e c ax (take n inv)) in *.
  destruct (part_convex c ax _ Hcv) as [V1 V2].
  exists o1', (length (part1e c ax (take n inv))), o2', (length (part2e c ax (take n inv))). rewrite C, D.
  split; [done|]. split; [done|]. split; [done|]. split; [done|]. split; [done|]. split; [done|]. split; [done|]. split; intros p.
  - split; [intros Hp; by apply cut_hull_sound|]. intros [Hp Hc]. by apply cut_hull.
  - split; [intros Hp; by apply cut_hull_sound|]. intros [Hp Hc]. by apply cut_hull.
Qed.

(** Triangles are convex, so every polygon obtained by cutting one is. *)
Theorem C47_triangle_convex (a b c : pt Q) : convex [a; b; c].
Proof. apply triangle_convex. Qed.

(** With exact numbers the seven slots of the buffers suffice: rasterization neither
    panics nor fails, for every triangle. *)
Theorem C47_buffers_suffice g t w h :
  (0 < pl_cs g)%Q → (0 < pl_ch g)%Q → (py (pl_max g) - py (pl_min g) < 65535 * pl_ch g)%Q → 1 <= w <= 32767 → 1 <= h <= 32767 →
  ∃ s, rasterize_exact w h g t = Done (Some s).
Proof. intros A B C D E. destruct (rasterize_ok g t w h A B C D E) as (s & Es & _). by exists s. Qed.

(** With f32 they do not: here a triangle inside the field, two units wide and about
    a million units from the origin, with a cell size of 0.02. *)
Definition far_coord (m : Z) : f32 := f_of_me m (-5).
Definition far_geo : geo :=
  Geo (V3 (far_coord 0x1e84800) (far_coord 0x1e84800) (far_coord 0x1e84800)) (V3 (far_coord 0x1e84840) (far_coord 0x1e84840) (far_coord 0x1e84840))
    (f_of_me 0x147ae14 (-30)) (f_of_Z 1).
Definition far_tri : pt f32 * pt f32 * pt f32 :=
  (Pt (far_coord 0x1e84836) (far_coord 0x1e8481a) (far_coord 0x1e84832), Pt (far_coord 0x1e84834) (far_coord 0x1e8483a) (far_coord 0x1e8480c),
   Pt (far_coord 0x1e84816) (far_coord 0x1e84832) (far_coord 0x1e84812)).
Theorem C47_buffers_f32_refuted : ∃ g hf t, build_heightfield g = Done (Some hf) ∧ hf_w hf = 100%nat ∧ hf_h hf = 100%nat ∧ rasterize_triangle hf t 63 1 = Panicked.
Proof.
  exists far_geo, (new_hf 100 100 far_geo), far_tri. split; [vm_compute; reflexivity|]. split; [done|]. split; [done|]. vm_compute. done.
Qed.

Definition unit_place : place Q := (Place (Pt 0 0 0) (Pt 10 10 10) 1 1)%Q.
Definition slope : tri3 := (Pt 1 1 1, Pt 4 1 2, Pt 2 5 4)%Q.
Example C47_witness : ∃ o1 o2, divide_poly exact_arith ([slope.1.1; slope.1.2; slope.2] ++ repeat (Pt 0 0 0)%Q 4) 3 (repeat (Pt 0 0 0)%Q 7) 0 (repeat (Pt 0 0 0)%Q 7) 0 3%Q AxX
  = Done (Some ((o1, 4%nat), (o2, 3%nat))).
Proof. eexists _, _. vm_compute. reflexivity. Qed.

(** ** C48 *)

(** Exact arithmetic. Every span added lies over a cell of the field and has valid
    heights. Away from the first row and column, or if no part of the triangle hangs
    over the low sides of the field, its heights are the extremes of the triangle
    over that cell, rounded outward to the grid; so no cell untouched by the triangle
    gets a span. Every cell with the triangle over its inside gets one, and none gets
    two. *)
Theorem C48_exact g t w h :
  (0 < pl_cs g)%Q → (0 < pl_ch g)%Q → (py (pl_max g) - py (pl_min g) < 65535 * pl_ch g)%Q → 1 <= w <= 32767 → 1 <= h <= 32767 →
  ∃ s, rasterize_exact w h g t = Done (Some s) ∧
  (∀ x z a b, (x, z, a, b) ∈ s → 0 <= x < w ∧ 0 <= z < h ∧ 0 <= a < b ∧ b <= 65535) ∧
  (∀ x z a b, (x, z, a, b) ∈ s →
    (1 <= x ∨ ∀ p, in_tri t p → (px (pl_min g) <= px p)%Q) → (1 <= z ∨ ∀ p, in_tri t p → (pz (pl_min g) <= pz p)%Q) →
    ∃ lo hi, heights_over g t x z lo hi ∧ grid_heights g lo hi a b) ∧
  (∀ x z, 0 <= x < w → 0 <= z < h → meets_cell g t x z → ∃ a b, (x, z, a, b) ∈ s) ∧
  NoDup ((λ '(x, z, _, _), (x, z)) <$> s).
Proof.
  intros A B C D E. destruct (rasterize_ok g t w h A B C D E) as (s & Es & H1 & H2 & H3). exists s. split; [done|].
  split; [intros x z a b Hin; destruct (H1 _ Hin) as (? & ? & ? & ? & _); done|].
  split; [intros x z a b Hin Ox Oz; destruct (H1 _ Hin) as (_ & _ & _ & _ & Hr); by apply Hr|]. split; [done|].
  erewrite list_fmap_ext; [exact H3|]. by intros i [[[? ?] ?] ?] _.
Qed.

(** The same as one equivalence on which cells get a span, for triangles that do not
    hang over the low sides of the field and stay inside its box. *)
Theorem C48_cells g t w h :
  (0 < pl_cs g)%Q → (0 < pl_ch g)%Q → (py (pl_max g) - py (pl_min g) < 65535 * pl_ch g)%Q → 1 <= w <= 32767 → 1 <= h <= 32767 →
  (∀ p, in_tri t p → (px (pl_min g) <= px p <= px (pl_max g))%Q ∧ (py (pl_min g) <= py p <= py (pl_max g))%Q ∧ (pz (pl_min g) <= pz p <= pz (pl_max g))%Q) →
  ∃ s, rasterize_exact w h g t = Done (Some s) ∧ ∀ x z, 0 <= x < w → 0 <= z < h →
    ((∃ a b, (x, z, a, b) ∈ s) → ∃ p, in_tri t p ∧ in_cell g x z p) ∧
    ((∃ p, in_tri t p ∧ inside_cell g x z p) → ∃ a b, (x, z, a, b) ∈ s).
Proof.
  intros A B C D E Hin. destruct (C48_exact g t w h A B C D E) as (s & Es & _ & H2 & H3 & _). exists s. split; [done|]. intros x z Hx Hz. split.
  - intros (a & b & Hs). destruct (H2 x z a b Hs) as (lo & hi & (_ & (p & Tp & Cp & _) & _) & _).
    + right. intros p Tp. by apply Hin.
    + right. intros p Tp. by apply Hin.
    + by exists p.
  - intros (p & Tp & Ip). apply H3; [done|done|]. destruct (Hin p Tp) as (X & Y & Z). pose proof Ip as [[I1 I2] [I3 I4]].
    assert (in_cell g x z p) as Cp by (split; split; lra). split; [exists p; split; [done|split; [done|split; [apply X|apply Z]]]|]. split; exists p; (split; [done|]); (split; [done|]).
    + apply Y.
    + apply Y.
Qed.

Example C48_witness : rasterize_exact 10 10 unit_place slope
    = Done (Some [(1, 1, 1, 3); (2, 1, 1, 2); (3, 1, 1, 2); (1, 2, 2, 4); (2, 2, 1, 4); (3, 2, 1, 3); (1, 3, 3, 5); (2, 3, 3, 5)]) ∧
  (∀ p, in_tri slope p → (0 <= px p <= 10)%Q ∧ (0 <= py p <= 10)%Q ∧ (0 <= pz p <= 10)%Q).
Proof.
  split; [vm_compute; reflexivity|]. intros p (u & v & w & Hu & Hv & Hw & H1 & Hx & Hy & Hz). cbn in Hx, Hy, Hz. lra.
Qed.

(** Over the low sides of the field it fails. A row that lies wholly past the side
    is cut down to nothing, the counts of the previous cell are kept and its polygon
    is inserted again at x = 0. *)
Definition spill : tri3 := (Pt (-3) 1 0, Pt (-(9#10)) 1 0, Pt 1 1 3)%Q.
Theorem C48_untouched_cells_refuted : ∃ s a b, rasterize_exact 10 10 unit_place spill = Done (Some s) ∧ (0, 0, a, b) ∈ s ∧
  ¬ ∃ p, in_tri spill p ∧ in_cell unit_place 0 0 p.
Proof.
  eexists _, _, _. split; [vm_compute; reflexivity|]. split; [left|].
  intros (p & (u & v & w & Hu & Hv & Hw & H1 & Hx & Hy & Hz) & [[Cx _] [_ Cz]]). cbn in *. unfold line in *. cbn in *. change (inject_Z 0) with 0%Q in Cx. change (inject_Z (0 + 1)) with 1%Q in Cz. lra.
Qed.

(** The same on the code's own numbers, through the heightfield. *)
Definition ten : geo := Geo v_zero (V3 (f_of_Z 10) (f_of_Z 10) (f_of_Z 10)) (f_of_Z 1) (f_of_Z 1).
Definition spill_f32 : pt f32 * pt f32 * pt f32 :=
  (Pt (f_of_Z (-3)) (f_of_Z 1) f_zero, Pt (f_of_me (-7) (-3)) (f_of_Z 1) f_zero, Pt (f_of_Z 1) (f_of_Z 1) (f_of_Z 3)).
Theorem C48_untouched_cells_f32_refuted : ∃ hf hf', build_heightfield ten = Done (Some hf) ∧
  rasterize_triangle hf spill_f32 63 1 = Done (Some hf') ∧ span_at hf' 0 0 = Done (Some (mkSpan 1 2 63 None)).
Proof. eexists _, _. split; [vm_compute; reflexivity|]. split; vm_compute; reflexivity. Qed.

(** A triangle less than a cell past the side counts as over the first column. *)
Definition brim : tri3 := (Pt (-(1#2)) 9 1, Pt 2 1 1, Pt 2 1 3)%Q.
Theorem C48_heights_refuted : ∃ s a b, rasterize_exact 10 10 unit_place brim = Done (Some s) ∧ (0, 1, a, b) ∈ s ∧
  ∀ lo hi, heights_over unit_place brim 0 1 lo hi → ¬ grid_heights unit_place lo hi a b.
Proof.
  eexists _, _, _. split; [vm_compute; reflexivity|]. split; [left|]. intros lo hi (_ & _ & (p & (u & v & w & Hu & Hv & Hw & H1 & Hx & Hy & Hz) & [[Cx _] _] & Ehi)) (_ & _ & _ & Hb).
  cbn in *. unfold line in Cx. cbn in Cx. change (inject_Z 0) with 0%Q in Cx. assert (hi <= 8)%Q as H8 by lra.
  assert (Qceiling ((hi - 0) / 1) <= 8) as Hc.
  { apply ceil_le. change (inject_Z 8) with 8%Q. assert ((hi - 0) / 1 == hi)%Q as -> by field. done. }
  pose proof (Z.le_min_l (Qceiling ((hi - 0) / 1)) (Qceiling ((10 - 0) / 1))). lia.
Qed.

(** ** C54: field sizes the casts to i16 cannot hold *)

(** In a field more than 32767 cells wide no triangle ever leaves a span. *)
Theorem C54_wide_field_stays_empty hf t area thr hf' :
  32768 <= Z.of_nat (hf_w hf) < 65536 → rasterize_triangle hf t area thr = Done (Some hf') → hf' = hf.
Proof.
  intros Hw E. pose proof (rasterize_safe f32_arith (emit_span area thr) (λ h, h = hf) (Z.of_nat (hf_w hf)) (Z.of_nat (hf_h hf)) (place_of (hf_geo hf)) t hf) as H.
  unfold rasterize_triangle in E. rewrite E in H. cbn in H. destruct H as (s & [= <-] & ->); [|done|done].
  intros x z a b s Hx. exfalso. unfold wrap_i16 in Hx. assert (32768 <= Z.of_nat (hf_w hf) < 65536) as Hw' by lia.
  assert ((Z.of_nat (hf_w hf) + 32768) mod 65536 = Z.of_nat (hf_w hf) - 32768) as Em.
  { symmetry. apply (Z.mod_unique _ _ 1); lia. }
  lia.
Qed.

(** In a field with no rows or more than 32767, every triangle that touches the box
    panics. *)
Theorem C54_tall_field_panics hf t area thr :
  hf_h hf = 0%nat ∨ 32768 <= Z.of_nat (hf_h hf) < 65536 →
  intersects f32_arith (place_of (hf_geo hf)) (tri_min f32_arith t) (tri_max f32_arith t) = true →
  rasterize_triangle hf t area thr = Panicked.
Proof.
  intros Hh Hi. unfold rasterize_triangle, rasterize_tri. rewrite Hi. cbn [negb].
  assert (wrap_i16 (Z.of_nat (hf_h hf)) - 1 < 0) as Hn.
  { unfold wrap_i16. destruct Hh as [->|Hh]; [done|]. assert (32768 <= Z.of_nat (hf_h hf) < 65536) as Hw' by lia.
    assert ((Z.of_nat (hf_h hf) + 32768) mod 65536 = Z.of_nat (hf_h hf) - 32768) as Em by (symmetry; apply (Z.mod_unique _ _ 1); lia). lia. }
  set (hm := wrap_i16 (Z.of_nat (hf_h hf)) - 1) in *. unfold chk. destruct ((-32768 <=? hm) && (hm <=? 32767)); [|done]. cbn [obind].
  unfold clamp_Z. destruct (hm <? -1); [done|]. cbn [obind]. destruct (hm <? 0) eqn:E; [done|lia].
Qed.

(** Both happen: a floor in a field of 32768 x 1 cells and of 1 x 32768 cells. *)
Definition floor_tri : pt f32 * pt f32 * pt f32 :=
  (Pt f_zero (f_of_Z 1) f_zero, Pt (f_of_Z 5) (f_of_Z 1) f_zero, Pt f_zero (f_of_Z 1) (f_of_Z 5)).
Definition strip (w h : Z) : geo := Geo v_zero (V3 (f_of_Z w) (f_of_Z 10) (f_of_Z h)) (f_of_Z 1) (f_of_Z 1).
Example C54_witness :
  (match build_heightfield (strip 32768 1) with
   | Done (Some hf) => match rasterize_triangle hf floor_tri 63 1 with Done (Some hf') => Z.of_nat (size (hf_alloc hf')) | _ => -1 end
   | _ => -1 end = 0) ∧
  (match build_heightfield (strip 32767 1) with
   | Done (Some hf) => match rasterize_triangle hf floor_tri 63 1 with Done (Some hf') => Z.of_nat (size (hf_alloc hf')) | _ => -1 end
   | _ => -1 end = 5) ∧
  match build_heightfield (strip 1 32768) with Done (Some hf) => rasterize_triangle hf floor_tri 63 1 | _ => Done None end = Panicked.
Proof. vm_compute. done. Qed.

(** ** C55: rasterized fields are well formed *)

(** Rasterizing into a well-formed field never returns an error; if it does not panic
    the field is the result of a sequence of valid insertions inside its bounds. So
    all theorems on reachable fields (C01-C10) apply to rasterized ones. *)
Definition by_insertions (hf hf' : hfield) : Prop :=
  ∃ ins, Forall (λ i, valid_insertion i ∧ (in_x i < hf_w hf)%nat ∧ (in_z i < hf_h hf)%nat) ins ∧ run_ops (OpInsert <$> ins) hf = Done hf'.
Lemma by_insertions_shape hf hf' : reachable hf → by_insertions hf hf' → reachable hf' ∧ hf_w hf' = hf_w hf ∧ hf_h hf' = hf_h hf ∧ hf_geo hf' = hf_geo hf.
Proof.
  intros (w & h & g & ops & Hv & Hrun) (ins & Hins & E). split.
  - exists w, h, g, (ops ++ (OpInsert <$> ins)). split.
    + apply Forall_app_2; [done|]. apply Forall_fmap. eapply Forall_impl; [exact Hins|]. by intros i (? & _).
    + unfold run_ops in *. rewrite foldM_app, Hrun. cbn. done.
  - destruct (reachable_ok hf) as [cols Hok]; [by exists w, h, g, ops|].
    pose proof (run_ops_ok (OpInsert <$> ins) hf cols) as H. rewrite E in H. destruct H as ((A & B & C & _) & _); [|done|done].
    apply Forall_fmap. eapply Forall_impl; [exact Hins|]. by intros i (? & _).
Qed.

Lemma emit_done hf area thr x z a b s : reachable hf → Z.of_nat (hf_w hf) < 65536 → Z.of_nat (hf_h hf) < 65536 → 0 <= area <= 255 → 0 <= thr <= 65535 →
  0 <= x < wrap_i16 (Z.of_nat (hf_w hf)) → 0 <= z < wrap_i16 (Z.of_nat (hf_h hf)) → 0 <= a < b → b <= 65535 → by_insertions hf s →
  ∃ s', emit_span area thr x z a b s = Done (Some s') ∧ by_insertions hf s'.
Proof.
  intros Hr Hw Hh Ha Ht Hx Hz Hab Hb Hs. destruct (by_insertions_shape hf s Hr Hs) as (Rs & Sw & Sh & _).
  assert (∀ n, 0 <= n < 65536 → wrap_i16 n <= n) as Hwrap.
  { intros n Hn. unfold wrap_i16. pose proof (Z.mod_le (n + 32768) 65536). lia. }
  assert (x < Z.of_nat (hf_w hf)) as Hx' by (specialize (Hwrap (Z.of_nat (hf_w hf)) ltac:(lia)); lia).
  assert (z < Z.of_nat (hf_h hf)) as Hz' by (specialize (Hwrap (Z.of_nat (hf_h hf)) ltac:(lia)); lia).
  set (i := mkIns (Z.to_nat x) (Z.to_nat z) thr (mkSpan a b area None)).
  destruct (C06_insertion_total s i Rs) as [Hin _]. destruct Hin as (s' & Es'); [cbn; rewrite Sw, Sh; nia|].
  unfold emit_span. fold i. exists s'. split; [done|]. destruct Hs as (ins & Hins & Erun).
  exists (ins ++ [i]). split.
  - apply Forall_app_2; [done|]. constructor; [|constructor]. unfold valid_insertion. cbn. split; [lia|]. lia.
  - rewrite fmap_app. unfold run_ops in *. rewrite foldM_app, Erun. cbn. by rewrite Es'.
Qed.
Lemma emit_keeps hf area thr x z a b s : reachable hf → Z.of_nat (hf_w hf) < 65536 → Z.of_nat (hf_h hf) < 65536 → 0 <= area <= 255 → 0 <= thr <= 65535 →
  0 <= x < wrap_i16 (Z.of_nat (hf_w hf)) → 0 <= z < wrap_i16 (Z.of_nat (hf_h hf)) → 0 <= a < b → b <= 65535 → by_insertions hf s →
  ends True (emit_span area thr x z a b s) (λ r, ∃ s', r = Some s' ∧ by_insertions hf s').
Proof. intros. destruct (emit_done hf area thr x z a b s) as (s' & -> & Hs'); try done. by exists s'. Qed.
Theorem C55_rasterize_triangle hf t area thr : reachable hf → Z.of_nat (hf_w hf) < 65536 → Z.of_nat (hf_h hf) < 65536 → 0 <= area <= 255 → 0 <= thr <= 65535 →
  ends True (rasterize_triangle hf t area thr) (λ r, ∃ hf', r = Some hf' ∧ by_insertions hf hf').
Proof.
  intros Hr Hw Hh Ha Ht. apply rasterize_safe; [|by exists []]. intros x z a b s Hx Hz Hab Hb Hs. by apply emit_keeps.
Qed.
Lemma by_insertions_trans hf1 hf2 hf3 : hf_w hf2 = hf_w hf1 → hf_h hf2 = hf_h hf1 → by_insertions hf1 hf2 → by_insertions hf2 hf3 → by_insertions hf1 hf3.
Proof.
  intros Ew Eh (l & Hl & El) (l' & Hl' & El'). exists (l ++ l'). split.
  - apply Forall_app_2; [done|]. by rewrite Ew, Eh in Hl'.
  - rewrite fmap_app. unfold run_ops in *. rewrite foldM_app, El. done.
Qed.
(** The same for a whole mesh. *)
Theorem C55_rasterize_triangles hf m thr : reachable hf → Z.of_nat (hf_w hf) < 65536 → Z.of_nat (hf_h hf) < 65536 → Forall (λ a, 0 <= a <= 255) (tm_areas m) → 0 <= thr <= 65535 →
  ends True (rasterize_triangles hf m thr) (λ r, ∃ hf', r = Some hf' ∧ by_insertions hf hf').
Proof.
  intros Hr Hw Hh Ha Ht. apply foldE_safe; [by exists []|]. intros [i t] s _ Hs. destruct (by_insertions_shape hf s Hr Hs) as (Rs & Sw & Sh & _).
  eapply (ends_bind True _ _ (λ _, True)); [unfold vert, get; by destruct (_ !! _)|]. intros a _.
  eapply (ends_bind True _ _ (λ _, True)); [unfold vert, get; by destruct (_ !! _)|]. intros b _.
  eapply (ends_bind True _ _ (λ _, True)); [unfold vert, get; by destruct (_ !! _)|]. intros c _.
  apply safe_get. intros area Harea. eapply ends_mono.
  - apply C55_rasterize_triangle; [done|lia|lia| |done]. by eapply (Forall_lookup_1 _ _ i area Ha).
  - intros r (hf' & -> & Hby). exists hf'. split; [done|]. by eapply by_insertions_trans.
Qed.

(** And for a mesh followed by the filters: the result is reachable, so sorted, tight
    and total to read. *)
Theorem C55_populate hf m wh climb : reachable hf → Z.of_nat (hf_w hf) < 65536 → Z.of_nat (hf_h hf) < 65536 → Forall (λ a, 0 <= a <= 255) (tm_areas m) →
  0 <= wh <= 65535 → 0 <= climb <= 65535 →
  ends True (populate_from_trimesh hf m wh climb) (λ r, ∃ hf', r = Some hf' ∧ reachable hf' ∧ hf_w hf' = hf_w hf ∧ hf_h hf' = hf_h hf ∧ hf_geo hf' = hf_geo hf).
Proof.
  intros Hr Hw Hh Ha Hwh Hc. unfold populate_from_trimesh. eapply ends_bind; [by apply C55_rasterize_triangles|].
  intros r (hf1 & -> & Hby). destruct (by_insertions_shape _ _ Hr Hby) as (R1 & E1 & E2 & E3).
  assert (∀ op h, valid_op op → reachable h → ends True (run_op op h) (λ h', reachable h' ∧ hf_w h' = hf_w h ∧ hf_h h' = hf_h h ∧ hf_geo h' = hf_geo h)) as Hop.
  { intros op h Hv Rh. destruct (reachable_ok h Rh) as [cols Hok]. pose proof (run_op_ok op h cols Hv Hok) as H.
    destruct (run_op op h) as [h'| |] eqn:E; [|done|done]. destruct H as ((A & B & C & _) & _). split; [by eapply reachable_step|]. done. }
  eapply ends_bind; [by apply (Hop (OpLowHanging climb))|]. intros hf2 (R2 & A2 & B2 & C2).
  eapply ends_bind; [by apply (Hop (OpLedge wh climb))|]. intros hf3 (R3 & A3 & B3 & C3).
  eapply ends_bind; [by apply (Hop (OpLowHeight wh))|]. intros hf4 (R4 & A4 & B4 & C4).
  cbn. exists hf4. split; [done|]. split; [done|]. split; [congruence|]. split; congruence.
Qed.

Example C55_witness : ∃ hf hf', build_heightfield ten = Done (Some hf) ∧ rasterize_triangle hf floor_tri 63 1 = Done (Some hf') ∧ size (hf_alloc hf') = 15%nat.
Proof. eexists _, _. split; [vm_compute; reflexivity|]. split; vm_compute; reflexivity. Qed.

Print Assumptions C46_dimensions.
Print Assumptions C46_saturation_refuted.
Print Assumptions C46_too_large_is_error_refuted.
Print Assumptions C47_division.
Print Assumptions C47_triangle_convex.
Print Assumptions C47_buffers_suffice.
Print Assumptions C47_buffers_f32_refuted.
Print Assumptions C48_exact.
Print Assumptions C48_cells.
Print Assumptions C48_untouched_cells_refuted.
Print Assumptions C48_untouched_cells_f32_refuted.
Print Assumptions C48_heights_refuted.
Print Assumptions C54_wide_field_stays_empty.
Print Assumptions C54_tall_field_panics.
Print Assumptions C55_rasterize_triangle.
Print Assumptions C55_rasterize_triangles.
Print Assumptions C55_populate.
