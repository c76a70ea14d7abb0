(** The configuration builder: theorems C69. *)
From Coq Require Import Reals Lra.
From Verif Require Import Base ModelMath ModelConfig FloatReal VoxelProofs.
Local Open Scope R_scope.

(** Voxels have a positive size, and the agent's measures are lengths. *)
Record sensible (b : cfg_builder) : Prop := {
  sb_cs : pos_size (cb_cs b);
  sb_ch : pos_size (cb_ch b);
  sb_height : size (cb_height b);
  sb_radius : size (cb_radius b);
  sb_climb : size (cb_climb b);
  sb_edge : size (cb_edge_len b)
}.

Lemma build_config_done b c : build_config b = Done c →
  cf_radius c = f_ceil_u16 (f_div (cb_radius b) (cb_cs b)) ∧ cf_border c = (cf_radius c + 3)%Z ∧
  cf_wh c = f_ceil_u16 (f_div (cb_height b) (cb_ch b)) ∧
  cf_climb c = f_floor_u16 (f_div (cb_climb b) (cb_ch b)) ∧
  cf_edge_len c = f_to_u16 (f_div (cb_edge_len b) (cb_cs b)) ∧
  cf_cs c = cb_cs b ∧ cf_ch c = cb_ch b ∧ cf_slope c = cb_slope b ∧ cf_edge_err c = cb_edge_err b ∧
  cf_wall c = cb_wall b ∧ cf_areas c = cb_areas b.
Proof.
  unfold build_config. unfold chk_u16 at 1, chk at 1, U16_MAX at 1. destruct (_ && _); cbn [obind]; [|done].
  destruct (field_size _ _ _ _) as [w| |]; cbn [obind]; [|done|done].
  destruct (field_size _ _ (v_z _) _) as [h| |]; cbn [obind]; [|done|done].
  by intros [= <-].
Qed.

(** ** C69 *)
(** The agent in voxels. Unless a value saturates at the largest [u16], height
    and radius are the least numbers of voxels that hold the agent, climb and edge
    length the greatest that do not exceed theirs, in each case up to the error of one
    f32 division in one direction and exactly in the other. The border is the radius
    and 3 voxels more, and nothing else is changed. *)
Theorem C69_agent_in_voxels :
  ∀ b c, sensible b → build_config b = Done c →
  ((cf_wh c < 65535)%Z → voxels_up (f_R (cb_height b)) (f_R (cf_ch c)) (cf_wh c)) ∧
  voxels_up (f_R (cb_radius b)) (f_R (cf_cs c)) (cf_radius c) ∧
  ((cf_climb c < 65535)%Z → voxels_down (f_R (cb_climb b)) (f_R (cf_ch c)) (cf_climb c)) ∧
  ((cf_edge_len c < 65535)%Z → voxels_down (f_R (cb_edge_len b)) (f_R (cf_cs c)) (cf_edge_len c)) ∧
  cf_border c = (cf_radius c + 3)%Z ∧
  cf_cs c = cb_cs b ∧ cf_ch c = cb_ch b ∧ cf_slope c = cb_slope b ∧ cf_edge_err c = cb_edge_err b ∧
  cf_wall c = cb_wall b ∧ cf_areas c = cb_areas b.
Proof.
  intros b c [Hcs Hch Hh Hr Hc He] E. pose proof (build_config_done _ _ E) as (Er & Eb & Ew & Ec & El & Ecs & Ech & Erest).
  rewrite Ecs, Ech. split; [rewrite Ew; by apply ceil_voxels|]. split.
  { rewrite Er. apply ceil_voxels; [done|done|]. rewrite <-Er. revert E. unfold build_config, chk_u16 at 1, chk at 1, U16_MAX at 1.
    destruct (_ && _) eqn:Eq; cbn [obind]; [|done]. intros _. rewrite Er. lia. }
  split; [rewrite Ec; by apply floor_voxels|]. split; [|done].
  destruct (floor_voxels (cb_edge_len b) (cb_cs b) He Hcs) as [H1 H2]. rewrite El, H2. done.
Qed.

(** When building panics: never without tiling if the radius is at most 65532
    cells, and always if it is at least 65533. With tiling the tile and its border
    have to fit too. *)
Theorem C69_no_panic :
  ∀ b k, sensible b → (0 <= k <= 65532)%Z → f_R (cb_radius b) <= IZR k * f_R (cb_cs b) →
  (cb_tiling b = true → (0 <= cb_tile b ∧ cb_tile b + 2 * (k + 3) <= 65535)%Z) →
  ∃ c, build_config b = Done c.
Proof.
  intros b k [Hcs Hch Hh Hr Hc He] Hk Hle Ht. unfold build_config.
  pose proof (ceil_le _ _ k Hr Hcs ltac:(lia) Hle) as Hn. pose proof (ceil_range (f_div (cb_radius b) (cb_cs b))) as Hrg.
  set (n := f_ceil_u16 _) in *. unfold chk_u16 at 1, chk at 1, U16_MAX at 1. replace ((0 <=? n + 3) && (n + 3 <=? 65535))%Z with true by lia. cbn [obind].
  assert (∀ lo hi, ∃ s, field_size b (n + 3) lo hi = Done s) as Hfs.
  { intros lo hi. unfold field_size. destruct (cb_tiling b); [|by eexists]. destruct (Ht eq_refl) as [T1 T2].
    unfold chk_u16, chk, U16_MAX. replace ((0 <=? (n + 3) * 2) && ((n + 3) * 2 <=? 65535))%Z with true by lia. cbn [obind].
    destruct (_ && _) eqn:Eq; [by eexists|lia]. }
  destruct (Hfs (v_x (cb_min b)) (v_x (cb_max b))) as [w ->]. cbn [obind].
  destruct (Hfs (v_z (cb_min b)) (v_z (cb_max b))) as [h ->]. by eexists.
Qed.
Theorem C69_large_radius_panics :
  ∀ b, sensible b → 65533 * f_R (cb_cs b) <= f_R (cb_radius b) → build_config b = Panicked.
Proof.
  intros b [Hcs Hch Hh Hr Hc He] Hge. unfold build_config.
  pose proof (ceil_ge _ _ 65533 Hr Hcs ltac:(lia) Hge) as Hn. unfold chk_u16 at 1, chk at 1, U16_MAX at 1.
  destruct (_ && _) eqn:Eq; [lia|done].
Qed.

(** The default: an agent of 10 x 2 voxels, of 0.2 and 0.3 units, that climbs 4. *)
Theorem C69_default :
  ∃ c, build_config cb_default = Done c ∧
    cf_border c = 5%Z ∧ cf_wh c = 10%Z ∧ cf_climb c = 4%Z ∧ cf_radius c = 2%Z ∧ cf_edge_len c = 40%Z ∧
    cf_min_area c = 64%Z ∧ cf_merge_area c = 400%Z ∧ cf_nvp c = 6%Z ∧ cf_wall c = true ∧ cf_areas c = false.
Proof. eexists. split; [vm_compute; reflexivity|]. vm_compute. done. Qed.

(** ** Concrete builders *)
Lemma pos_b (s : bool) m e : (if s then false else SpecFloat.bounded 24 128 m e) = true → pos_size (S754_finite s m e).
Proof.
  destruct s; [done|]. intros H. split; [done|]. split; [done|]. cbn. apply Rmult_lt_0_compat; [by apply IZR_lt|].
  apply powerRZ_lt. lra.
Qed.
Lemma f_R_neg s m k : f_R (S754_finite s m (Z.neg k)) = IZR (if s then Z.neg m else Z.pos m) / IZR (2 ^ Z.pos k).
Proof. unfold f_R, Rdiv. f_equal. change (Z.neg k) with (- Z.pos k)%Z. rewrite powerRZ_neg'. f_equal. by apply pow2_R. Qed.
Ltac f_lra :=
  repeat match goal with |- context [f_R ?x] => let v := eval vm_compute in x in progress change (f_R x) with (f_R v) end;
  rewrite !f_R_neg;
  repeat match goal with |- context [IZR ?z] => let v := eval vm_compute in z in progress change (IZR z) with (IZR v) end;
  cbv iota; lra.
Lemma pos_is_size x : pos_size x → size x.
Proof. intros (? & ? & ?). split; [done|]. split; [done|lra]. Qed.

Lemma default_sensible : sensible cb_default.
Proof. split; try apply pos_is_size; apply pos_b; reflexivity. Qed.
Example C69_hypotheses_met :
  sensible cb_default ∧ f_R (cb_radius cb_default) <= IZR 3 * f_R (cb_cs cb_default) ∧
  cb_tiling cb_default = false ∧ ∃ c, build_config cb_default = Done c ∧ (cf_wh c < 65535)%Z.
Proof.
  split; [apply default_sensible|]. split; [f_lra|]. split; [done|]. destruct C69_default as (c & E & _ & Hw & _).
  exists c. split; [done|]. lia.
Qed.
(** The agent is 2 high and 0.6 wide to each side and climbs 0.9, cells are 0.3 by 0.2 and
    the edge error is 1.3, all as closely as f32 can say (to half a unit in the last
    place). *)
Theorem C69_default_agent :
  f_R (cb_height cb_default) = 2 ∧ Rabs (f_R (cb_radius cb_default) - 6 / 10) <= / 33554432 ∧ Rabs (f_R (cb_climb cb_default) - 9 / 10) <= / 33554432 ∧
  Rabs (f_R (cb_cs cb_default) - 3 / 10) <= / 67108864 ∧ Rabs (f_R (cb_ch cb_default) - 2 / 10) <= / 134217728 ∧
  Rabs (f_R (cb_edge_err cb_default) - 13 / 10) <= / 16777216.
Proof. split; [|split_and!; apply Rabs_le]; cbn [cb_default cb_height cb_radius cb_climb cb_cs cb_ch cb_edge_err]; f_lra. Qed.

(** What the default keeps in world units: cells of 0.3 by 0.2, slopes up to 45 degrees
    (in radians), an edge error of 1.3, detail samples every 1.8 with an error of 0.2. *)
Definition about (x : f32) (r : R) : Prop := r - 1 / 1000000 <= f_R x <= r + 1 / 1000000.
Theorem C69_default_sizes : ∃ c, build_config cb_default = Done c ∧
  about (cf_cs c) (3 / 10) ∧ about (cf_ch c) (2 / 10) ∧ about (cf_slope c) (785398 / 1000000) ∧ about (cf_edge_err c) (13 / 10) ∧
  about (cf_sample_dist c) (18 / 10) ∧ about (cf_sample_err c) (2 / 10).
Proof.
  eexists. split; [vm_compute; reflexivity|]. unfold about. cbn [cf_cs cf_ch cf_slope cf_edge_err cf_sample_dist cf_sample_err].
  rewrite !f_R_neg. repeat match goal with |- context [IZR ?z] => let v := eval vm_compute in z in progress change (IZR z) with (IZR v) end. cbv iota. lra.
Qed.

(** A radius of 20000 with cells of 0.3. *)
Definition wide : cfg_builder :=
  CfgB c_0_3 c_0_2 (f_of_Z 2) (f_of_Z 20000) c_0_9 c_0_9 (f_of_Z 8) (f_of_Z 20) (f_of_Z 12) c_1_3
    (f_of_Z 6) (f_of_Z 6) (f_of_Z 1) 32 v_zero v_zero true false false.
Example C69_panic_met : sensible wide ∧ 65533 * f_R (cb_cs wide) <= f_R (cb_radius wide).
Proof. split; [split; try apply pos_is_size; apply pos_b; reflexivity|]. f_lra. Qed.

(** The agent need not fit the height it is given exactly: a height of 3 + 2^-21
    with voxels of 1 + 2^-23 is 3 voxels, which are lower. *)
Definition tall : cfg_builder :=
  CfgB c_0_3 (f_of_me 8388609 (-23)) (f_of_me 6291457 (-21)) c_0_6 c_0_9 c_0_9 (f_of_Z 8) (f_of_Z 20) (f_of_Z 12) c_1_3
    (f_of_Z 6) (f_of_Z 6) (f_of_Z 1) 32 v_zero v_zero true false false.
Theorem C69_exact_fit_refuted :
  ∃ b c, sensible b ∧ build_config b = Done c ∧ IZR (cf_wh c) * f_R (cf_ch c) < f_R (cb_height b).
Proof.
  exists tall. assert (sensible tall) as Hs by (split; try apply pos_is_size; apply pos_b; reflexivity).
  eexists. split; [done|]. split; [vm_compute; reflexivity|]. f_lra.
Qed.

(** The documentation says that the climb in voxels should be rounded up, and that
    sampling distances are 0 or at least 0.9. The default rounds the climb down, and a
    distance of one cell is kept as 0.3. *)
Theorem C69_climb_rounded_up_refuted :
  ∃ b c, sensible b ∧ build_config b = Done c ∧ IZR (cf_climb c) * f_R (cf_ch c) < f_R (cb_climb b).
Proof.
  exists cb_default. eexists. split; [apply default_sensible|]. split; [vm_compute; reflexivity|]. f_lra.
Qed.
Definition fine : cfg_builder :=
  CfgB c_0_3 c_0_2 (f_of_Z 2) c_0_6 c_0_9 c_0_9 (f_of_Z 8) (f_of_Z 20) (f_of_Z 12) c_1_3
    (f_of_Z 6) (f_of_Z 1) (f_of_Z 1) 32 v_zero v_zero true false false.
Theorem C69_sample_limit_refuted :
  ∃ b c, sensible b ∧ build_config b = Done c ∧ f_lt f_zero (cf_sample_dist c) = true ∧ f_lt (cf_sample_dist c) c_0_9 = true.
Proof.
  exists fine. assert (sensible fine) as Hs by (split; try apply pos_is_size; apply pos_b; reflexivity).
  eexists. split; [done|]. split; [vm_compute; reflexivity|]. by vm_compute.
Qed.

Print Assumptions C69_agent_in_voxels.
Print Assumptions C69_no_panic.
Print Assumptions C69_large_radius_panics.
Print Assumptions C69_default.
Print Assumptions C69_exact_fit_refuted.
Print Assumptions C69_climb_rounded_up_refuted.
Print Assumptions C69_sample_limit_refuted.
Print Assumptions C69_default_sizes.
Print Assumptions C69_default_agent.
