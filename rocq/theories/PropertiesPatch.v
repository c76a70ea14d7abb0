(** Properties of the heights under a polygon and of when detail meshes can be built: C83, C84. *)
From Verif Require Import Base FlowProofs ModelMath FloatReal ModelHeightfield ModelCompact SpecCompact ModelContours ModelPoly ModelTriMesh ModelMarkArea ModelDetail SpecDetail
  SpecDistance SpecRegions SpecContours GraphProofs SpecPatch DetailHullProofs DetailEdgeProofs DetailTessProofs DetailDelaunayProofs DetailPolyProofs DetailMeshProofs DetailHeightProofs DetailLimitProofs
  DetailPatchProofs DetailReturnProofs PropertiesDetail ExampleFields.
Local Open Scope Z_scope.

(** ** C83: the heights under a polygon *)
Theorem C83_height_patch :
  ∀ fuel ch f r row verts border data x0 z0, wf_chf ch → Z.of_nat (ch_w ch) ≤ 32767 → Z.of_nat (ch_h ch) ≤ 32767 →
  (∀ i y, floor_of ch i = Some y → y < 65535) → frame_fits ch f → (0 < fr_w f)%nat → r ≠ 0 →
  (* the patch is the frame, in the coordinates of the mesh, which has no border *)
  0 ≤ border → 0 ≤ x0 → 0 ≤ z0 → x0 + border = Z.of_nat (fr_x f) → z0 + border = Z.of_nat (fr_z f) →
  (fr_w f * fr_h f ≤ length data)%nat → (2 * (fr_w f * fr_h f) < fuel)%nat →
  (* the region has a span in it *)
  (∃ x z i, (x < fr_w f)%nat ∧ (z < fr_h f)%nat ∧ in_cell ch (frame_column ch f x z) i ∧ region_of ch i = Some r) →
  ∃ hp own, get_height_data fuel ch row verts border r (HP data x0 z0 (Z.of_nat (fr_w f)) (Z.of_nat (fr_h f))) = Done hp ∧
    hp_xmin hp = x0 ∧ hp_zmin hp = z0 ∧ hp_w hp = Z.of_nat (fr_w f) ∧ hp_h hp = Z.of_nat (fr_h f) ∧
    shows_region ch f r own ∧ shows ch f own (hp_data hp).
Proof.
  intros fuel ch f r row verts border data x0 z0 Hwf Hw Hh Hfl Hff Hpos Hr Hb Hx0 Hz0 Ex Ez Hlen Hfu Hex.
  destruct (height_data_spec ch Hwf Hw Hh f Hff Hpos r Hfl (length data) Hlen fuel row verts border data x0 z0) as (hp & own & E & (D1 & D2 & D3 & D4 & _) & _ & Hsr & Hsh); try done.
  exists hp, own. done.
Qed.
Print Assumptions C83_height_patch.

(** Three columns: region 1, then region 2 with a link to it, then region 2 without. *)
Definition three : chf :=
  mkChf 3 1 2 1 0 0 2 geo0 [CC 0 1; CC 1 1; CC 2 1] [CS 5 1 16519167; CS 6 2 16777152; CS 7 2 16777215] [] [63; 63; 63].
Example C83_ex :
  wf_chf three ∧ (∀ i y, floor_of three i = Some y → y < 65535) ∧ frame_fits three (Frame 0 0 3 1) ∧
  (∃ x z i, (x < 3)%nat ∧ (z < 1)%nat ∧ in_cell three (frame_column three (Frame 0 0 3 1) x z) i ∧ region_of three i = Some 1) ∧
  ∃ hp, get_height_data 10 three [] [] 0 1 (HP [0; 0; 0] 0 0 3 1) = Done hp ∧ hp_data hp = [5; 6; 65535].
Proof.
  split; [apply wf_chf_b_ok; by vm_compute|]. split.
  { intros [|[|[|i]]] y H; cbn in H; try injection H as <-; lia || by destruct i. }
  split; [split; cbn; lia|]. split.
  - exists 0%nat, 0%nat, 0%nat. split; [lia|]. split; [lia|]. split; [|done]. exists (CC 0 1). split; [done|]. vm_compute. by left.
  - eexists. split; [vm_compute; reflexivity|done].
Qed.

(** ** C84: the detail mesh is always built, except that it may outgrow its bookkeeping *)

(** A polygon mesh and the field it was made from. *)
Record detailable (m : pmesh) (ch : chf) (dist err : f32) : Prop := {
  db_field : wf_chf ch;
  db_width : Z.of_nat (ch_w ch) ≤ 32767;
  db_height : Z.of_nat (ch_h ch) ≤ 32767;
  db_floor : ∀ i y, floor_of ch i = Some y → y < 65535;
  (* the vertices are in the field, without its border *)
  db_border : 0 ≤ pm_border m;
  db_verts : ∀ v, v ∈ pm_verts m → 0 ≤ vx v ≤ Z.of_nat (ch_w ch) - 2 * pm_border m ∧ 0 ≤ vz v ≤ Z.of_nat (ch_h ch) - 2 * pm_border m;
  (* parameters *)
  db_cell : f_valid (g_cs (pm_geo m)) ∧ f_lt f_zero (g_cs (pm_geo m)) = true ∧ f_lt f_zero (g_cs (ch_geo ch)) = true;
  db_dist : f_lt f_zero dist = true;
  db_error : f_cast f_ceil_Z 0 U32_MAX (pm_maxerr m) ≤ 32767;
  (* polygons *)
  db_corners : ∀ k row l, pm_polys m !! k = Some row → live row l → (3 ≤ length l ≤ 126)%nat ∧ ∀ p, p ∈ l → (Z.to_nat p < length (pm_verts m))%nat;
  db_sides : ∀ k row l inp a b, pm_polys m !! k = Some row → live row l → corners_at m l inp → a ∈ inp → b ∈ inp →
    f_cast f_floor_Z 0 U64_MAX (f_div (dist2 (xz b) (xz a)) dist) < U64_MAX;
  db_region : ∀ k row l, pm_polys m !! k = Some row → live row l → ∃ r p v x z i,
    pm_regs m !! k = Some r ∧ r ≠ 0 ∧ p ∈ l ∧ pm_verts m !! Z.to_nat p = Some v ∧
    (x < ch_w ch)%nat ∧ in_cell ch (x + z * ch_w ch) i ∧ region_of ch i = Some r ∧
    pm_border m ≤ Z.of_nat x ∧ vx v - 1 ≤ Z.of_nat x - pm_border m ≤ vx v ∧
    pm_border m ≤ Z.of_nat z ∧ vz v - 1 ≤ Z.of_nat z - pm_border m ≤ vz v;
}.

(** Polygon [k] is refined to [sz.1] vertices and [sz.2] triangles: its corners,
    the extra vertices of its sides and of its interior. *)
Definition refined (m : pmesh) (ch : chf) (dist err : f32) (k : nat) (sz : nat * nat) : Prop :=
  ∃ row l r inp f own hp ts (E : list (list vec3)) extra,
    pm_polys m !! k = Some row ∧ live row l ∧ pm_regs m !! k = Some r ∧ corners_at m l inp ∧
    shows_region ch f r own ∧ shows ch f own (hp_data hp) ∧
    hp_xmin hp + pm_border m = Z.of_nat (fr_x f) ∧ hp_zmin hp + pm_border m = Z.of_nat (fr_z f) ∧
    hp_w hp = Z.of_nat (fr_w f) ∧ hp_h hp = Z.of_nat (fr_h f) ∧
    length E = length inp ∧
    (∀ i e v w, E !! i = Some e → inp !! before (length inp) i = Some v → inp !! i = Some w → edge_out (query m ch dist err) hp (length inp + length (concat (take i E))) v w e) ∧
    Forall (tri_lt (length (inp ++ concat E ++ extra))) ts ∧
    ((extra = [] ∧ covers (outline E) ts ∧ length ts = (length (outline E) - 2)%nat) ∨
     Forall (oriented (inp ++ concat E ++ extra) (length (inp ++ concat E ++ extra))) ts) ∧
    (sz.1 ≤ 127)%nat ∧ (sz.2 ≤ 255)%nat ∧ sz = (length (inp ++ concat E ++ extra), length ts).

Theorem C84_detail_returns :
  ∀ fuel m ch dist err lives, detailable m ch dist err → (2 * (ch_w ch * ch_h ch) < fuel)%nat →
  Forall2 live (pm_polys m) lives →
  let n := sum_list (length <$> lives) in
  (∃ o sizes, detail_new fuel m ch dist err = Done o ∧ length sizes = length (pm_polys m) ∧
     (∀ k sz, sizes !! k = Some sz → refined m ch dist err k sz) ∧
     length (dm_verts o) = sum_list sizes.*1 ∧ length (dm_tris o) = sum_list sizes.*2) ∨
  (detail_new fuel m ch dist err = Panicked ∧
   ∃ sizes, (length sizes ≤ length (pm_polys m))%nat ∧ (∀ k sz, sizes !! k = Some sz → refined m ch dist err k sz) ∧
     (n + n / 2 + 256 < sum_list sizes.*1 ∨ (n + n / 2) * 2 + 256 < sum_list sizes.*2)%nat).
Proof.
  intros fuel m ch dist err lives [] Hfuel Hlives. cbv zeta.
  assert (∀ row l, live row l → l = live_indices row) as Hli by (intros row l Hl; exact (live_fun _ _ _ Hl (live_indices_live row))).
  assert (lives = live_indices <$> pm_polys m) as ->.
  { clear -Hlives Hli. induction Hlives as [|row l rows ls Hl _ IH]; [done|]. cbn. by rewrite <-(Hli _ _ Hl), <-IH. }
  rewrite <-list_fmap_compose.
  assert (∀ k sz, needs m ch dist err k sz → refined m ch dist err k sz) as Hnr.
  { intros k sz (row & r & inp & f & own & hp & vs & ts & fs & E & extra & N1 & N2 & N3 & N4 & N5 & N6 & N7 & N8 & N9 & [] & ->).
    exists row, (live_indices row), r, inp, f, own, hp, ts, E, extra. rewrite <-so_verts.
    split_and!; try done. apply live_indices_live. }
  pose proof (detail_new_ends fuel m ch dist err) as H. cbv zeta in H.
  destruct db_cell0 as (C1 & C2 & C3).
  feed specialize H; try done.
  - intros k row Hrow. pose proof (live_indices_live row) as Hl. destruct (db_corners0 k row _ Hrow Hl) as [Hn Hidx].
    split; [done|]. split; [done|]. split; [|by apply (db_region0 k row)].
    intros inp Hinp a b Ha Hb. exact (db_sides0 k row _ inp a b Hrow Hl Hinp Ha Hb).
  - unfold ends in H. change (length ∘ live_indices) with (λ r, length (live_indices r)).
    destruct (detail_new fuel m ch dist err) as [o| |] eqn:Ed; [left|right|done].
    + destruct H as (sizes & H1 & H2 & H3 & H4). exists o, sizes. split_and!; try done. intros k sz Hk. apply Hnr. by apply H2.
    + split; [done|]. destruct H as (sizes & H1 & H2 & H3). exists sizes. split_and!; try done. intros k sz Hk. apply Hnr. by apply H2.
Qed.
Print Assumptions C84_detail_returns.
Lemma repeat_replicate {A} (a : A) n : repeat a n = replicate n a.
Proof. induction n; cbn; by f_equal. Qed.
(** Both happen: 20 polygons on the hill are refined to 8 vertices each, 140 need too much room. *)
Example C84_ex :
  let many n := PMesh [V 0 0 0; V 0 0 8; V 8 0 8] (repeat [0; 1; 2] n) [] (repeat 1 n) (repeat 1 n) (repeat 63 n) 3 geo0 0 f_one in
  (∀ n, detailable (many n) hill f_two f_one) ∧
  (∃ o, detail_new 200 (many 20%nat) hill f_two f_one = Done o ∧ length (dm_verts o) = 160%nat) ∧
  detail_new 200 (many 140%nat) hill f_two f_one = Panicked.
Proof.
  cbv zeta. split; [|split; [eexists; split; vm_compute; reflexivity|vm_compute; reflexivity]].
  intros n. set (m := PMesh _ _ _ _ _ _ _ _ _ _).
  assert (∀ k row l, pm_polys m !! k = Some row → live row l → l = [0; 1; 2] ∧ (k < n)%nat) as Hrow.
  { intros k row l Hk Hl. cbn in Hk. rewrite repeat_replicate in Hk. apply lookup_replicate in Hk as [Hr Hlt]. split; [|done].
    rewrite (live_fun _ _ _ Hl (live_indices_live row)), Hr. done. }
  constructor.
  - apply wf_chf_b_ok. by vm_compute.
  - cbn. lia.
  - cbn. lia.
  - assert (forallb (λ s, cs_y s <? 65535) (ch_spans hill) = true) as Hall by (by vm_compute).
    rewrite forallb_forall in Hall. intros i y Hy. unfold floor_of in Hy. apply fmap_Some in Hy as (s & Hs & ->).
    apply elem_of_list_lookup_2, elem_of_list_In, Hall in Hs. lia.
  - cbn. lia.
  - intros v Hv. cbn in Hv. rewrite !elem_of_cons, elem_of_nil in Hv. destruct Hv as [-> |[-> |[-> |[]]]]; cbn; lia.
  - split_and!; by vm_compute.
  - by vm_compute.
  - by vm_compute.
  - intros k row l Hk Hl. destruct (Hrow k row l Hk Hl) as [-> _]. cbn. split; [lia|]. intros p Hp. rewrite !elem_of_cons, elem_of_nil in Hp.
    destruct Hp as [-> |[-> |[-> |[]]]]; cbn; lia.
  - intros k row l inp a b Hk Hl Hc Ha Hb. destruct (Hrow k row l Hk Hl) as [-> _].
    inversion Hc as [|? a1 ? r1 (w1 & W1 & E1) Hc1]; subst. inversion Hc1 as [|? a2 ? r2 (w2 & W2 & E2) Hc2]; subst.
    inversion Hc2 as [|? a3 ? r3 (w3 & W3 & E3) Hc3]; subst. inversion Hc3; subst. clear Hc Hc1 Hc2 Hc3.
    cbn in W1, W2, W3. injection W1 as <-. injection W2 as <-. injection W3 as <-.
    rewrite !elem_of_cons, elem_of_nil in Ha, Hb.
    destruct Ha as [-> |[-> |[-> |[]]]]; destruct Hb as [-> |[-> |[-> |[]]]]; by vm_compute.
  - intros k row l Hk Hl. destruct (Hrow k row l Hk Hl) as [-> Hn].
    exists 1, 0, (V 0 0 0), 0%nat, 0%nat, 0%nat. split; [cbn; rewrite repeat_replicate; by apply lookup_replicate|]. split; [done|]. split; [by left|]. split; [done|].
    split; [cbn; lia|]. split; [exists (CC 0 1); split; [done|]; vm_compute; by left|]. split; [done|]. cbn. lia.
Qed.
