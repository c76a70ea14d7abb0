(** The detail step returns. *)
From Verif Require Import Base FlowProofs ModelMath FloatOrder FloatSignProofs FloatReal FloatSpotProofs ModelHeightfield ModelCompact ModelContours ModelPoly ModelTriMesh ModelMarkArea ModelDetail
  SpecCompact SpecDistance SpecRegions SpecContours SpecDetail SpecPatch GraphProofs DetailHeightProofs DetailTessProofs DetailPolyProofs DetailMeshProofs DetailPatchProofs DetailLimitProofs.
Local Open Scope Z_scope.

(** ** Bounds of polygons *)
Lemma poly_bounds_spec w h verts row :
  0 ≤ w ≤ 32767 → 0 ≤ h ≤ 32767 →
  (∀ p, p ∈ live_indices row → ∃ v, verts !! Z.to_nat p = Some v ∧ 0 ≤ vx v ≤ w ∧ 0 ≤ vz v ≤ h) →
  ∃ b mx mz Mx Mz, poly_bounds w h verts row = Done b ∧
    b_xmin b = Z.max 0 (mx - 1) ∧ b_zmin b = Z.max 0 (mz - 1) ∧ b_xmax b = Z.min w (Mx + 1) ∧ b_zmax b = Z.min h (Mz + 1) ∧
    (∀ p v, p ∈ live_indices row → verts !! Z.to_nat p = Some v → mx ≤ vx v ≤ Mx ∧ mz ≤ vz v ≤ Mz) ∧
    mx ≤ w ∧ mz ≤ h ∧
    (Mx = 0 ∨ ∃ p v, p ∈ live_indices row ∧ verts !! Z.to_nat p = Some v ∧ vx v = Mx) ∧
    (Mz = 0 ∨ ∃ p v, p ∈ live_indices row ∧ verts !! Z.to_nat p = Some v ∧ vz v = Mz).
Proof.
  intros Hw Hh Hv. unfold poly_bounds.
  assert (ends False (foldM (λ p b, let! v := get verts (Z.to_nat p) in
    Done (Bnds (Z.min (b_xmin b) (vx v)) (Z.max (b_xmax b) (vx v)) (Z.min (b_zmin b) (vz v)) (Z.max (b_zmax b) (vz v))))
    (live_indices row) (Bnds w 0 h 0)) (λ b,
      (∀ p v, p ∈ live_indices row → verts !! Z.to_nat p = Some v → b_xmin b ≤ vx v ≤ b_xmax b ∧ b_zmin b ≤ vz v ≤ b_zmax b) ∧
      b_xmin b ≤ w ∧ b_zmin b ≤ h ∧ b_xmax b ≤ w ∧ b_zmax b ≤ h ∧ 0 ≤ b_xmax b ∧ 0 ≤ b_zmax b ∧
      (b_xmax b = 0 ∨ ∃ p v, p ∈ live_indices row ∧ verts !! Z.to_nat p = Some v ∧ vx v = b_xmax b) ∧
      (b_zmax b = 0 ∨ ∃ p v, p ∈ live_indices row ∧ verts !! Z.to_nat p = Some v ∧ vz v = b_zmax b))) as Hend.
  { apply (ends_inv False (λ l b,
      (∀ p v, p ∈ l → verts !! Z.to_nat p = Some v → b_xmin b ≤ vx v ≤ b_xmax b ∧ b_zmin b ≤ vz v ≤ b_zmax b) ∧
      b_xmin b ≤ w ∧ b_zmin b ≤ h ∧ b_xmax b ≤ w ∧ b_zmax b ≤ h ∧ 0 ≤ b_xmax b ∧ 0 ≤ b_zmax b ∧
      (b_xmax b = 0 ∨ ∃ p v, p ∈ l ∧ verts !! Z.to_nat p = Some v ∧ vx v = b_xmax b) ∧
      (b_zmax b = 0 ∨ ∃ p v, p ∈ l ∧ verts !! Z.to_nat p = Some v ∧ vz v = b_zmax b))).
    - cbn. split; [intros p v Hp; by apply elem_of_nil in Hp|]. split_and!; try lia; by left.
    - intros pre p post b El (G1 & G2 & G3 & G4 & G5 & G6 & G7 & G8 & G9).
      destruct (Hv p) as (v & Hpv & Hx & Hz); [rewrite El; set_solver|]. rewrite (get_some _ _ _ Hpv). cbn [obind ends b_xmin b_xmax b_zmin b_zmax].
      split.
      { intros p' v' [Hp'| ->%elem_of_list_singleton]%elem_of_app Hv'; [specialize (G1 p' v' Hp' Hv'); lia|].
        rewrite Hpv in Hv'. injection Hv' as <-. lia. }
      split; [lia|]. split; [lia|]. split; [lia|]. split; [lia|]. split; [lia|]. split; [lia|]. split.
      + destruct (Z.max_spec (b_xmax b) (vx v)) as [[_ ->]|[_ ->]].
        * right. exists p, v. split; [set_solver|done].
        * destruct G8 as [?|(p' & v' & ? & ? & ?)]; [by left|right]. exists p', v'. split; [set_solver|done].
      + destruct (Z.max_spec (b_zmax b) (vz v)) as [[_ ->]|[_ ->]].
        * right. exists p, v. split; [set_solver|done].
        * destruct G9 as [?|(p' & v' & ? & ? & ?)]; [by left|right]. exists p', v'. split; [set_solver|done]. }
  destruct (foldM _ _ _) as [b| |]; [|done..]. cbn [ends] in Hend. destruct Hend as (G1 & G2 & G3 & G4 & G5 & G6 & G7 & G8 & G9). cbn [obind].
  unfold chk_u16, chk, U16_MAX.
  destruct ((0 <=? b_xmax b + 1) && _) eqn:E1; [|lia]. cbn [obind]. destruct ((0 <=? b_zmax b + 1) && _) eqn:E2; [|lia]. cbn [obind].
  eexists. exists (b_xmin b), (b_zmin b), (b_xmax b), (b_zmax b). split; [done|]. cbn. done.
Qed.

Lemma max_patch_le bs b : b ∈ bs → b_xmin b < b_xmax b → b_zmin b < b_zmax b →
  b_xmax b - b_xmin b ≤ (max_patch bs).1 ∧ b_zmax b - b_zmin b ≤ (max_patch bs).2.
Proof.
  unfold max_patch. intros Hin Hx Hz.
  assert (∀ l a, a.1 ≤ (foldl (λ '(mw, mh) b, if (b_xmax b <=? b_xmin b) || (b_zmax b <=? b_zmin b) then (mw, mh)
    else (Z.max mw (b_xmax b - b_xmin b), Z.max mh (b_zmax b - b_zmin b))) a l).1 ∧
    a.2 ≤ (foldl (λ '(mw, mh) b, if (b_xmax b <=? b_xmin b) || (b_zmax b <=? b_zmin b) then (mw, mh)
    else (Z.max mw (b_xmax b - b_xmin b), Z.max mh (b_zmax b - b_zmin b))) a l).2) as Hmono.
  { induction l as [|c l IH]; intros [mw mh]; cbn [foldl]; [cbn; lia|].
    destruct (_ || _); [apply IH|]. destruct (IH (Z.max mw (b_xmax c - b_xmin c), Z.max mh (b_zmax c - b_zmin c))) as [I1 I2]. cbn [fst snd] in *. lia. }
  generalize (0, 0). induction bs as [|c bs IH]; intros [mw mh]; [by apply elem_of_nil in Hin|]. cbn [foldl].
  apply elem_of_cons in Hin as [->|Hin]; [|by apply IH].
  destruct (_ || _) eqn:E; [lia|]. destruct (Hmono bs (Z.max mw (b_xmax c - b_xmin c), Z.max mh (b_zmax c - b_zmin c))) as [I1 I2]. cbn [fst snd] in *. lia.
Qed.

(** ** Positions *)
Definition coord_ok (x : f32) : Prop := f_valid x ∧ nonneg x.

(** ** One polygon, and all *)
Lemma nonneg_fmin a b : nonneg a → nonneg b → nonneg (fmin a b).
Proof. unfold fmin. intros. repeat case_match; done. Qed.

Section ret.
  Context (fuel : nat) (m : pmesh) (ch : chf) (dist err : f32).
  Notation bs := (pm_border m).
  Notation cs := (g_cs (pm_geo m)).
  Context (Hwf : wf_chf ch) (Hw : Z.of_nat (ch_w ch) ≤ 32767) (Hh : Z.of_nat (ch_h ch) ≤ 32767).
  Context (Hfl : ∀ i y, floor_of ch i = Some y → y < 65535).
  Context (Hbs : 0 ≤ bs).
  Context (Hvs : ∀ v, v ∈ pm_verts m → 0 ≤ vx v ≤ Z.of_nat (ch_w ch) - 2 * bs ∧ 0 ≤ vz v ≤ Z.of_nat (ch_h ch) - 2 * bs).
  Context (Hcs : f_valid cs ∧ f_lt f_zero cs = true) (Hics : f_lt f_zero (g_cs (ch_geo ch)) = true).
  Context (Hdist : f_lt f_zero dist = true) (Herr : f_cast f_ceil_Z 0 U32_MAX (pm_maxerr m) ≤ 32767).
  Context (Hfuel : (2 * (ch_w ch * ch_h ch) < fuel)%nat).
  (** A polygon whose region has a span at one of its corners. *)
  Definition row_ok (k : nat) (row : list Z) : Prop :=
    (3 ≤ length (live_indices row) ≤ 126)%nat ∧
    (∀ p, p ∈ live_indices row → (Z.to_nat p < length (pm_verts m))%nat) ∧
    (∀ inp, corner_list m row inp → ratios_ok (detail_params m ch dist err) inp) ∧
    ∃ r p v x z i, pm_regs m !! k = Some r ∧ r ≠ 0 ∧ p ∈ live_indices row ∧ pm_verts m !! Z.to_nat p = Some v ∧
      (x < ch_w ch)%nat ∧ in_cell ch (x + z * ch_w ch) i ∧ region_of ch i = Some r ∧
      bs ≤ Z.of_nat x ∧ vx v - 1 ≤ Z.of_nat x - bs ≤ vx v ∧ bs ≤ Z.of_nat z ∧ vz v - 1 ≤ Z.of_nat z - bs ≤ vz v.
  Context (Hrows : ∀ k row, pm_polys m !! k = Some row → row_ok k row).

  (** What sub-mesh a polygon needs. *)
  Definition needs (k : nat) (sz : nat * nat) : Prop :=
    ∃ row r inp f own hp vs ts fs E extra,
      pm_polys m !! k = Some row ∧ pm_regs m !! k = Some r ∧ corner_list m row inp ∧
      shows_region ch f r own ∧ shows ch f own (hp_data hp) ∧
      hp_xmin hp + bs = Z.of_nat (fr_x f) ∧ hp_zmin hp + bs = Z.of_nat (fr_z f) ∧ hp_w hp = Z.of_nat (fr_w f) ∧ hp_h hp = Z.of_nat (fr_h f) ∧
      submesh_ok (detail_params m ch dist err) hp inp vs ts fs E extra ∧ sz = (length vs, length ts).

  Lemma corner_coord v : v ∈ pm_verts m → coord_ok (v_x (corner_pos cs (g_ch (pm_geo m)) v)) ∧ coord_ok (v_z (corner_pos cs (g_ch (pm_geo m)) v)).
  Proof.
    intros Hv. destruct (Hvs v Hv) as [Hx Hz]. destruct Hcs as [Vc Pc]. unfold coord_ok. cbn.
    split; (split; [apply f_mul_valid; [apply f_of_Z_valid|done]|apply nonneg_mul; [apply nonneg_of_Z; lia|by apply pos_nonneg]]).
  Qed.
  Definition spot_ok (f : vec3) : Prop := nonneg (v_x f) ∧ nonneg (v_z f).

  Notation dp := (detail_params m ch dist err).
  Lemma spot_height (B : Prop) hp f : patch_ok hp → 1 ≤ hp_w hp → 1 ≤ hp_h hp → 0 ≤ hp_xmin hp ≤ 32767 → 0 ≤ hp_zmin hp ≤ 32767 → spot_ok f →
    ends B (get_height f (dp_ics dp) (dp_ch dp) (dp_radius dp) hp) (λ _, True).
  Proof.
    intros Hok H1 H2 H3 H4 [Hx Hz].
    assert (∀ c, nonneg c → 0 ≤ f_cast f_floor_Z I32_MIN I32_MAX (f_add (f_mul c (dp_ics dp)) c_0_01) ≤ I32_MAX) as Hcell.
    { intros c Hc. split; [|apply f_cast_range; unfold I32_MIN, I32_MAX; lia]. apply cast_floor_nonneg; [unfold I32_MIN, I32_MAX; lia|].
      apply nonneg_add; [apply nonneg_mul; [done|apply nonneg_div; [by vm_compute|done]]|by vm_compute]. }
    pose proof (Hcell _ Hx). pose proof (Hcell _ Hz).
    destruct (get_height_spec f (dp_ics dp) (dp_ch dp) (dp_radius dp) hp) as (v & -> & _);
      [done|done|done|cbn; lia|unfold I32_MIN, I32_MAX in *; lia|unfold I32_MIN, I32_MAX in *; lia|done].
  Qed.

  Lemma edge_spot a b n k : coord_ok (v_x a) → coord_ok (v_z a) → coord_ok (v_x b) → coord_ok (v_z b) → (k ≤ n)%nat → (n ≤ 31)%nat → spot_ok (edge_pos a b n k).
  Proof.
    intros [Va1 Na1] [Va2 Na2] [Vb1 Nb1] [Vb2 Nb2] Hk Hn. pose proof (part_range n k Hk Hn) as Hp.
    assert (f_valid (f_div (f_of_Z (Z.of_nat k)) (f_of_Z (Z.of_nat n)))) by (apply f_div_valid; apply f_of_Z_valid).
    split; cbn; by apply edge_coord_nonneg.
  Qed.

  Lemma grid_spot inp n : (∀ a, a ∈ inp → nonneg (v_x a) ∧ nonneg (v_z a)) → grid_okp (detail_params m ch dist err) spot_ok inp n.
  Proof.
    intros Hin lo hi my x z Hab Hx Hz. unfold aabb_xyz in Hab. apply obind_done in Hab as (v0 & Hv0 & [= Hab]).
    apply get_done, elem_of_list_lookup_2 in Hv0.
    assert (nonneg (v_x lo) ∧ nonneg (v_z lo)) as [Nx Nz].
    { assert (∀ l lo0 hi0, (∀ a, a ∈ l → nonneg (v_x a) ∧ nonneg (v_z a)) → nonneg (v_x lo0) → nonneg (v_z lo0) →
        foldl (λ '(lo, hi) v, (V3 (fmin (v_x lo) (v_x v)) (fmin (v_y lo) (v_y v)) (fmin (v_z lo) (v_z v)),
          V3 (fmax (v_x hi) (v_x v)) (fmax (v_y hi) (v_y v)) (fmax (v_z hi) (v_z v)))) (lo0, hi0) l = (lo, hi) → nonneg (v_x lo) ∧ nonneg (v_z lo)) as Hf.
      { induction l as [|a l IH]; intros lo0 hi0 Hl H1 H2 E; cbn [foldl] in E; [by injection E as <- _|].
        destruct (Hl a (elem_of_list_here _ _)). eapply IH; [| | |exact E]; [intros; apply Hl; by apply elem_of_list_further|by apply nonneg_fmin..]. }
      eapply Hf; [|apply (proj1 (Hin v0 Hv0))|apply (proj2 (Hin v0 Hv0))|exact Hab].
      intros a Ha. apply Hin. by eapply elem_of_take in Ha as (? & ? & ?); eapply elem_of_list_lookup_2. }
    change (dp_dist (detail_params m ch dist err)) with dist in *.
    assert (∀ c y, nonneg c → f_cast f_floor_Z I32_MIN I32_MAX (f_div c dist) ≤ y → nonneg (f_mul (f_of_Z y) dist)) as Hc.
    { intros c y Nc Hy. pose proof (cast_floor_nonneg I32_MIN I32_MAX (f_div c dist) ltac:(unfold I32_MIN, I32_MAX; lia) (nonneg_div _ _ Nc Hdist)).
      apply nonneg_mul; [apply nonneg_of_Z; lia|by apply pos_nonneg]. }
    split; cbn; [exact (Hc _ _ Nx Hx)|exact (Hc _ _ Nz Hz)].
  Qed.

  (** Room for [len] entries, of a vector that starts with capacity [c]. *)
  Definition room_ok (c len : nat) (rm : room) : Prop := grown_once c rm ∧ ((len ≤ c)%nat ∨ rm_track rm = (c + 256)%nat).
  Definition total (sizes : list (nat * nat)) : nat * nat := (sum_list (sizes.*1), sum_list (sizes.*2)).
  Context (vcap : nat).
  Definition too_large : Prop :=
    ∃ sizes, (length sizes ≤ length (pm_polys m))%nat ∧ (∀ k sz, sizes !! k = Some sz → needs k sz) ∧
      (vcap + 256 < (total sizes).1 ∨ vcap * 2 + 256 < (total sizes).2)%nat.
  Definition linv (L n : nat) (st : dstate) : Prop :=
    length (ds_verts st) = 256%nat ∧ length (ds_data st) = L ∧
    ∃ sizes, length sizes = n ∧ (∀ k sz, sizes !! k = Some sz → needs k sz) ∧
      length (dm_verts (ds_out st)) = (total sizes).1 ∧ length (dm_tris (ds_out st)) = (total sizes).2 ∧
      (too_large ∨ room_ok vcap (total sizes).1 (ds_vroom st) ∧ room_ok (vcap * 2) (total sizes).2 (ds_troom st)).

  Lemma row_bounds n row : pm_polys m !! n = Some row →
    ∃ b, poly_bounds (Z.of_nat (ch_w ch)) (Z.of_nat (ch_h ch)) (pm_verts m) row = Done b ∧
      0 ≤ b_xmin b < b_xmax b ∧ 0 ≤ b_zmin b < b_zmax b ∧ b_xmax b + bs ≤ Z.of_nat (ch_w ch) ∧ b_zmax b + bs ≤ Z.of_nat (ch_h ch) ∧
      ∃ r x z i, pm_regs m !! n = Some r ∧ r ≠ 0 ∧ in_cell ch (x + z * ch_w ch) i ∧ region_of ch i = Some r ∧
        b_xmin b ≤ Z.of_nat x - bs < b_xmax b ∧ b_zmin b ≤ Z.of_nat z - bs < b_zmax b.
  Proof.
    intros Hrow. destruct (Hrows n row Hrow) as (H3 & Hidx & _ & r & p & v & x & z & i & Hr & Hr0 & Hp & Hv & Hxw & Hin & Hri & Hx1 & Hx2 & Hz1 & Hz2).
    assert (∀ p, p ∈ live_indices row → ∃ v, pm_verts m !! Z.to_nat p = Some v ∧ v ∈ pm_verts m) as Hget.
    { intros p' Hp'. destruct (lookup_lt_is_Some_2 (pm_verts m) (Z.to_nat p')) as [v' Hv']; [by apply Hidx|]. exists v'. split; [done|by eapply elem_of_list_lookup_2]. }
    destruct (poly_bounds_spec (Z.of_nat (ch_w ch)) (Z.of_nat (ch_h ch)) (pm_verts m) row) as (b & mx & mz & Mx & Mz & Eb & B1 & B2 & B3 & B4 & B5 & B6 & B7 & B8 & B9).
    - lia.
    - lia.
    - intros p' Hp'. destruct (Hget p' Hp') as (v' & Hv' & Hin'). destruct (Hvs v' Hin') as [? ?]. exists v'. split; [done|]. lia.
    - exists b. split; [done|]. destruct (B5 p v Hp Hv) as [Bx Bz].
      assert (v ∈ pm_verts m) as Hvin by (by eapply elem_of_list_lookup_2). destruct (Hvs v Hvin) as [Vx Vz].
      assert (z < ch_h ch)%nat as Hzh.
      { pose proof (in_cell_lt ch Hwf _ _ Hin) as Hlt. destruct (decide (z < ch_h ch)%nat) as [|Hge]; [done|]. exfalso. assert (ch_h ch * ch_w ch ≤ z * ch_w ch)%nat by (apply Nat.mul_le_mono_r; lia). lia. }
      assert (Mx + bs ≤ Z.of_nat (ch_w ch) - bs) as HMx.
      { destruct B8 as [->|(p' & v' & Hp' & Hv' & <-)]; [lia|]. apply elem_of_list_lookup_2 in Hv'. destruct (Hvs v' Hv'). lia. }
      assert (Mz + bs ≤ Z.of_nat (ch_h ch) - bs) as HMz.
      { destruct B9 as [->|(p' & v' & Hp' & Hv' & <-)]; [lia|]. apply elem_of_list_lookup_2 in Hv'. destruct (Hvs v' Hv'). lia. }
      split; [lia|]. split; [lia|]. split; [lia|]. split; [lia|].
      exists r, x, z, i. split; [done|]. split; [done|]. split; [done|]. split; [done|]. lia.
  Qed.

  Lemma sum_list_snoc l (n : nat) : sum_list (l ++ [n]) = (sum_list l + n)%nat.
  Proof. induction l as [|k l IH]; cbn; [lia|]. cbn in IH. lia. Qed.

  Lemma make_room_ends (B : Prop) len n r (Q : room → Prop) : B → (∀ r', Q r') → ends B (make_room len n r) Q.
  Proof. intros HB HQ. unfold make_room. repeat case_match; cbn; auto. Qed.

  Lemma detail_poly_ends L n b row st : pm_polys m !! n = Some row →
    poly_bounds (Z.of_nat (ch_w ch)) (Z.of_nat (ch_h ch)) (pm_verts m) row = Done b →
    (b_xmax b - b_xmin b) * (b_zmax b - b_zmin b) ≤ Z.of_nat L →
    linv L n st → ends too_large (detail_poly fuel m ch dist err n b st) (linv L (S n)).
  Proof.
    intros Hrow Hb HL (Hlv & Hld & sizes & Hls & Hneed & Htv & Htt & Hrm).
    destruct (row_bounds n row Hrow) as (b' & Hb' & Bx & Bz & Bw & Bh & r & x & z & i & Hr & Hr0 & Hin & Hri & Hx & Hz).
    rewrite Hb in Hb'. injection Hb' as <-.
    destruct (Hrows n row Hrow) as (H3 & Hidx & Hrat & _).
    unfold detail_poly. rewrite (get_some _ _ _ Hrow). cbn [obind]. cbv zeta.
    assert (∃ inp, mapM_o (λ p, let! v := get (pm_verts m) (Z.to_nat p) in Done (corner_pos cs (g_ch (pm_geo m)) v)) (live_indices row) = Done inp ∧ corner_list m row inp) as (inp & -> & Hcl).
    { unfold corner_list. clear H3 Hrat. revert Hidx. generalize (live_indices row). induction l as [|p l IH]; intros Hidx; [by exists []|]. cbn [mapM_o].
      destruct (lookup_lt_is_Some_2 (pm_verts m) (Z.to_nat p)) as [v Hv]; [apply Hidx; by left|]. rewrite (get_some _ _ _ Hv). cbn [obind].
      destruct IH as (inp & -> & HF); [intros; apply Hidx; by right|].
      cbn [obind]. eexists. split; [done|]. constructor; [by exists v|done]. }
    cbn [obind]. unfold chk_u16, chk, U16_MAX.
    destruct ((0 <=? b_xmax b - b_xmin b) && _) eqn:E1; [|lia]. cbn [obind]. destruct ((0 <=? b_zmax b - b_zmin b) && _) eqn:E2; [|lia]. cbn [obind].
    rewrite (get_some _ _ _ Hr). cbn [obind].
    set (f := Frame (Z.to_nat (b_xmin b + bs)) (Z.to_nat (b_zmin b + bs)) (Z.to_nat (b_xmax b - b_xmin b)) (Z.to_nat (b_zmax b - b_zmin b))).
    assert (frame_fits ch f) as Hff by (unfold frame_fits; cbn; lia).
    assert (fr_w f * fr_h f ≤ L)%nat as HN by (cbn; apply Nat2Z.inj_le; rewrite Nat2Z.inj_mul, !Z2Nat.id by lia; lia).
    destruct (height_data_spec ch Hwf Hw Hh f Hff ltac:(cbn; lia) r Hfl L HN fuel (live_indices row) (ds_verts st) bs (ds_data st) (b_xmin b) (b_zmin b))
      as (hp & own & Ehp & Hdim & Hok & Hsr & Hsh); [done|done|lia|lia|cbn; lia|cbn; lia|done| | |].
    { destruct Hff as [F1 F2]. assert (fr_w f * fr_h f ≤ ch_w ch * ch_h ch)%nat by (apply Nat.mul_le_mono; lia). lia. }
    { exists (Z.to_nat (Z.of_nat x - bs - b_xmin b)), (Z.to_nat (Z.of_nat z - bs - b_zmin b)), i. cbn. split; [lia|]. split; [lia|]. split; [|done].
      unfold frame_column. cbn. replace (_ + Z.to_nat (Z.of_nat x - _ - _))%nat with x by lia. replace (_ + Z.to_nat (Z.of_nat z - _ - _))%nat with z by lia. done. }
    cbn [fr_w fr_h f] in Ehp. rewrite !Z2Nat.id in Ehp by lia. rewrite Ehp. cbn [obind].
    destruct Hdim as (D1 & D2 & D3 & D4 & D5). cbn [hp_xmin hp_zmin hp_w hp_h hp_data fr_w fr_h f] in D1, D2, D3, D4, D5.
    pose proof (Forall2_length _ _ _ Hcl) as Hlen.
    assert (∀ a, a ∈ inp → coord_ok (v_x a) ∧ coord_ok (v_z a)) as Hco.
    { intros a Ha. apply elem_of_list_lookup in Ha as [k Ha]. destruct (Forall2_lookup_r _ _ _ _ _ Hcl Ha) as (p & Hp & v & Hv & ->).
      apply corner_coord. by eapply elem_of_list_lookup_2. }
    fold (detail_params m ch dist err).
    eapply ends_bind; [apply (build_poly_detail_ends too_large (detail_params m ch dist err) hp spot_ok inp (ds_verts st))|].
    - intros g Hg. apply spot_height; [done|lia|lia|lia|lia|done].
    - lia.
    - left. lia.
    - left. by apply Hrat.
    - by left.
    - intros a a' n' k' Ha Ha' Hk Hn'. destruct (Hco a Ha), (Hco a' Ha'). by apply edge_spot.
    - apply grid_spot. intros a Ha. destruct (Hco a Ha) as [[? ?] [? ?]]. done.
    - done.
    - intros d (_ & E & extra & Hpd & _). pose proof (poly_detail_submesh _ _ _ _ _ _ Hpd) as Hso. pose proof Hpd as [].
      assert (length (take (dd_n d) (dd_verts d)) = dd_n d) as Hlt by (rewrite take_length; lia).
      assert (needs n (dd_n d, length (dd_tris d))) as Hn.
      { exists row, r, inp, f, own, hp, (take (dd_n d) (dd_verts d)), (dd_tris d), (dd_flags d), E, extra.
        split_and!; try done; try (cbn; lia). by rewrite Hlt. }
      set (sizes' := sizes ++ [(dd_n d, length (dd_tris d))]).
      assert (∀ k sz, sizes' !! k = Some sz → needs k sz) as Hneed'.
      { intros k sz Hk. unfold sizes' in Hk. apply lookup_app_Some in Hk as [Hk|[? Hk]]; [by apply Hneed|].
        apply list_lookup_singleton_Some in Hk as [? <-]. replace k with n by lia. done. }
      assert ((total sizes').1 = ((total sizes).1 + dd_n d)%nat ∧ (total sizes').2 = ((total sizes).2 + length (dd_tris d))%nat) as [T1 T2].
      { unfold sizes', total. rewrite !fmap_app. cbn. by rewrite !sum_list_snoc. }
      assert (length sizes' = S n) as Hls' by (unfold sizes'; rewrite app_length; cbn; lia).
      pose proof (lookup_lt_Some _ _ _ Hrow) as Hnlt.
      unfold store_detail. cbn [ds_out ds_verts ds_data ds_vroom ds_troom]. rewrite Htv, Htt.
      assert (ends too_large (make_room (total sizes).1 (dd_n d) (ds_vroom st)) (λ vr, too_large ∨ room_ok vcap (total sizes').1 vr)) as Hv.
      { destruct Hrm as [Hbig|[[Rv1 Rv2] _]]; [|destruct (decide (vcap + 256 < (total sizes').1)%nat) as [Hbig|Hfit]].
        - apply make_room_ends; [done|intros; by left].
        - assert too_large by (exists sizes'; split; [lia|]; split; [done|by left]). apply make_room_ends; [done|intros; by left].
        - destruct (make_room_fits vcap (total sizes).1 (dd_n d) (ds_vroom st)) as (vr & -> & V1 & V2); [done|done|lia|]. right. unfold room_ok. by rewrite T1. }
      assert (ends too_large (make_room (total sizes).2 (length (dd_tris d)) (ds_troom st)) (λ tr, too_large ∨ room_ok (vcap * 2) (total sizes').2 tr)) as Ht.
      { destruct Hrm as [Hbig|[_ [Rv1 Rv2]]]; [|destruct (decide (vcap * 2 + 256 < (total sizes').2)%nat) as [Hbig|Hfit]].
        - apply make_room_ends; [done|intros; by left].
        - assert too_large by (exists sizes'; split; [lia|]; split; [done|by right]). apply make_room_ends; [done|intros; by left].
        - destruct (make_room_fits (vcap * 2) (total sizes).2 (length (dd_tris d)) (ds_troom st)) as (vr & -> & V1 & V2); [done|done|lia|]. right. unfold room_ok. by rewrite T2. }
      eapply ends_bind; [exact Hv|]. intros vr Hvr. eapply ends_bind; [exact Ht|]. intros tr Htr. cbn [ends]. split; [|split].
      + cbn. rewrite app_length, fmap_length, drop_length. lia.
      + cbn. lia.
      + exists sizes'. cbn [ds_out dm_verts dm_tris ds_vroom ds_troom]. rewrite !app_length, fmap_length, Hlt, T1, T2, Htv, Htt. split_and!; try done. rewrite <-T1, <-T2.
        destruct Hvr as [?|?]; [by left|]. destruct Htr as [?|?]; [by left|]. by right.
  Qed.
End ret.

Lemma detail_new_ends fuel m ch dist err :
  wf_chf ch → Z.of_nat (ch_w ch) ≤ 32767 → Z.of_nat (ch_h ch) ≤ 32767 → (∀ i y, floor_of ch i = Some y → y < 65535) → 0 ≤ pm_border m →
  (∀ v, v ∈ pm_verts m → 0 ≤ vx v ≤ Z.of_nat (ch_w ch) - 2 * pm_border m ∧ 0 ≤ vz v ≤ Z.of_nat (ch_h ch) - 2 * pm_border m) →
  f_valid (g_cs (pm_geo m)) ∧ f_lt f_zero (g_cs (pm_geo m)) = true → f_lt f_zero (g_cs (ch_geo ch)) = true →
  f_lt f_zero dist = true → f_cast f_ceil_Z 0 U32_MAX (pm_maxerr m) ≤ 32767 → (2 * (ch_w ch * ch_h ch) < fuel)%nat →
  (∀ k row, pm_polys m !! k = Some row → row_ok m ch dist err k row) →
  let nv := sum_list ((λ r, length (live_indices r)) <$> pm_polys m) in
  ends (too_large m ch dist err (nv + nv / 2)) (detail_new fuel m ch dist err) (λ d,
    ∃ sizes, length sizes = length (pm_polys m) ∧ (∀ k sz, sizes !! k = Some sz → needs m ch dist err k sz) ∧
      length (dm_verts d) = (total sizes).1 ∧ length (dm_tris d) = (total sizes).2).
Proof.
  intros Hwf Hw Hh Hfl Hbs Hvs Hcs Hics Hdist Herr Hfuel Hrows nv. unfold detail_new.
  destruct (length (pm_polys m) =? 0)%nat eqn:E0.
  { rewrite orb_true_r. cbn [ends]. exists []. cbn. split; [lia|]. split; [|done]. intros k sz Hk. by rewrite lookup_nil in Hk. }
  rewrite orb_false_r. destruct (length (pm_verts m) =? 0)%nat eqn:E1.
  { exfalso. destruct (pm_polys m) as [|row rows] eqn:Ep; [done|]. destruct (Hrows 0%nat row eq_refl) as (H3 & Hidx & _).
    destruct (live_indices row) as [|p l]; [cbn in H3; lia|]. specialize (Hidx p ltac:(by left)). lia. }
  assert (∃ bs, mapM_o (poly_bounds (Z.of_nat (ch_w ch)) (Z.of_nat (ch_h ch)) (pm_verts m)) (pm_polys m) = Done bs ∧
    Forall2 (λ row b, poly_bounds (Z.of_nat (ch_w ch)) (Z.of_nat (ch_h ch)) (pm_verts m) row = Done b ∧ b_xmin b < b_xmax b ∧ b_zmin b < b_zmax b) (pm_polys m) bs) as (bs & -> & Hbs2).
  { assert (∀ row, row ∈ pm_polys m → ∃ b, poly_bounds (Z.of_nat (ch_w ch)) (Z.of_nat (ch_h ch)) (pm_verts m) row = Done b ∧ b_xmin b < b_xmax b ∧ b_zmin b < b_zmax b) as Hall.
    { intros row Hrow. apply elem_of_list_lookup in Hrow as [k Hk].
      edestruct row_bounds as (b & Hb & ? & ? & _); [..|exists b; split; [exact Hb|lia]]; eassumption. }
    revert Hall. generalize (pm_polys m). induction l as [|row l IH]; intros Hall; [by exists []|]. cbn [mapM_o].
    destruct (Hall row ltac:(by left)) as (b & Hb & Hb2). rewrite Hb. cbn [obind]. destruct IH as (bs & -> & HF); [intros; apply Hall; by right|].
    cbn [obind]. eexists. split; [done|]. by constructor. }
  cbn [obind]. cbv zeta. fold nv. destruct (max_patch bs) as [mw mh] eqn:Emp.
  pose proof (Forall2_length _ _ _ Hbs2) as Hlb. set (vcap := (nv + nv / 2)%nat).
  eapply ends_bind.
  - apply (ends_inv (too_large m ch dist err vcap) (λ l, linv m ch dist err vcap (Z.to_nat (mw * mh)) (length l))).
    + cbn [length]. split; [done|]. split; [apply repeat_length|]. exists []. cbn. split; [done|]. split; [intros k sz Hk; by rewrite lookup_nil in Hk|].
      split; [done|]. split; [done|]. right. unfold room_ok, grown_once. cbn. lia.
    + intros pre [i b] post st El Hst.
      assert (imap (λ i b, (i, b)) bs !! length pre = Some (i, b)) as Hi by (rewrite El; by apply list_lookup_middle).
      rewrite list_lookup_imap in Hi. destruct (bs !! length pre) as [b'|] eqn:Eb; [|done]. cbn in Hi. injection Hi as <- <-.
      destruct (Forall2_lookup_r _ _ _ _ _ Hbs2 Eb) as (row & Hrow & Hb & Hb1 & Hb2).
      rewrite app_length, Nat.add_1_r. eapply detail_poly_ends; try done.
      destruct (max_patch_le bs b') as [M1 M2]; [by eapply elem_of_list_lookup_2|done|done|]. rewrite Emp in M1, M2. cbn in M1, M2.
      rewrite Z2Nat.id by nia. nia.
  - intros st (_ & _ & sizes & Hls & Hneed & Htv & Htt & _). cbn [ends]. exists sizes. rewrite imap_length, <-Hlb in Hls. done.
Qed.

