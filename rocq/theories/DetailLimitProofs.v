(** Inputs on which building the detail mesh always fails, and the growth of the
    output vectors. *)
From Verif Require Import Base FlowProofs ModelMath FloatOrder ModelHeightfield ModelCompact ModelContours ModelPoly ModelTriMesh ModelMarkArea ModelDetail SpecDetail DetailHullProofs DetailMeshProofs.
Local Open Scope Z_scope.

(** ** The sample distance *)
Lemma build_poly_detail_dist p hp inp nin verts d :
  build_poly_detail p hp inp nin verts = Done d → f_lt f_zero (dp_dist p) = true.
Proof.
  unfold build_poly_detail. intros (v & _ & H)%obind_done. apply obind_done in H as (mx & _ & H).
  destruct (f_lt f_zero (dp_dist p)); [done|]. cbn [obind dv_hull dv_nh dv_verts] in H. by rewrite triangulate_hull_empty in H.
Qed.

Lemma detail_new_first fuel m ch dist err o : pm_verts m ≠ [] → pm_polys m ≠ [] → detail_new fuel m ch dist err = Done o →
  ∃ row b data r1 r2 st', pm_polys m !! 0%nat = Some row ∧
    poly_bounds (Z.of_nat (ch_w ch)) (Z.of_nat (ch_h ch)) (pm_verts m) row = Done b ∧
    detail_poly fuel m ch dist err 0 b (DSt dmesh0 (repeat v_zero 256) data r1 r2) = Done st'.
Proof.
  intros Hv Hp H. unfold detail_new in H. destruct (pm_verts m) eqn:Ev; [done|]. destruct (pm_polys m) as [|row rows] eqn:Ep; [done|].
  cbn [length Nat.eqb orb] in H. apply obind_done in H as (bs & Hbs & H). apply mapM_done in Hbs.
  inversion Hbs as [|? b ? bs' Hb Hbs' E1 E2]; subst. destruct (max_patch _) as [mw mh].
  apply obind_done in H as (st & Hst & _). cbn [imap foldM] in Hst. apply obind_done in Hst as (st' & Hst' & _).
  exists row, b. eexists _, _, _, st'. split; [done|]. split; [exact Hb|]. exact Hst'.
Qed.

Lemma detail_new_dist fuel m ch dist err o : pm_verts m ≠ [] → pm_polys m ≠ [] →
  detail_new fuel m ch dist err = Done o → f_lt f_zero dist = true.
Proof.
  intros Hv Hp H. apply detail_new_first in H as (row & b & data & r1 & r2 & st' & _ & _ & H); [|done|done].
  unfold detail_poly in H. apply obind_done in H as (? & _ & H). cbv zeta in H. apply obind_done in H as (? & _ & H).
  apply obind_done in H as (? & _ & H). apply obind_done in H as (? & _ & H). apply obind_done in H as (? & _ & H).
  apply obind_done in H as (? & _ & H). apply obind_done in H as (d & H & _).
  apply build_poly_detail_dist in H. done.
Qed.

(** ** Seeding from the scratch vertices *)
Lemma seed_offset_far ch bs hp o st : 2 ≤ hp_xmin hp → o ∈ OFFSETS → seed_offset ch bs hp v_zero o st = Done st.
Proof.
  intros Hx Ho. unfold seed_offset. destruct (st.1 <=? 0); [done|].
  assert (o.1 ≤ 1 ∧ -1 ≤ o.1 ∧ -1 ≤ o.2 ≤ 1) as (H1 & H2 & H3).
  { unfold OFFSETS in Ho. rewrite !elem_of_cons, elem_of_nil in Ho. destruct_or! Ho; subst; cbn; (lia || done). }
  change (f_to_i32 (v_x v_zero)) with 0. change (f_to_i32 (v_z v_zero)) with 0.
  unfold chk_i32, chk. rewrite !Z.add_0_l.
  destruct ((I32_MIN <=? o.1) && _) eqn:E1; [|unfold I32_MIN, I32_MAX in E1; lia]. cbn [obind].
  destruct ((I32_MIN <=? o.2) && _) eqn:E2; [|unfold I32_MIN, I32_MAX in E2; lia]. cbn [obind].
  destruct (o.1 <? hp_xmin hp) eqn:E3; [done|lia].
Qed.

Lemma foldM_stay {A St} (f : A → St → outcome St) l s : (∀ a, a ∈ l → f a s = Done s) → foldM f l s = Done s.
Proof.
  induction l as [|a l IH]; intros H; [done|]. cbn. rewrite H by apply elem_of_list_here. cbn. apply IH. intros b Hb. apply H. by apply elem_of_list_further.
Qed.

Lemma seed_start_far ch bs hp row : 2 ≤ hp_xmin hp →
  seed_start ch bs hp row (repeat v_zero 256) = Done None ∨ seed_start ch bs hp row (repeat v_zero 256) = Panicked.
Proof.
  intros Hx. unfold seed_start.
  assert (∀ l, foldM (λ p st, if st.1 <=? 0 then Done st else let! v := get (repeat v_zero 256) (Z.to_nat p) in foldM (seed_offset ch bs hp v) OFFSETS st) l (UNSET, None) = Done (UNSET, None)
     ∨ foldM (λ p st, if st.1 <=? 0 then Done st else let! v := get (repeat v_zero 256) (Z.to_nat p) in foldM (seed_offset ch bs hp v) OFFSETS st) l (UNSET, None) = Panicked) as H.
  { induction l as [|q l IH]; [by left|]. cbn [foldM].
    replace ((UNSET, @None (Z * Z * nat)).1 <=? 0) with false by done.
    unfold get. destruct (repeat v_zero 256 !! Z.to_nat q) as [v|] eqn:E; cbn [obind]; [|by right].
    assert (v = v_zero) as ->. { apply elem_of_list_lookup_2 in E. apply elem_of_list_In, repeat_spec in E. done. }
    rewrite foldM_stay by (intros; by apply seed_offset_far). cbn [obind]. apply IH. }
  destruct (H row) as [-> | ->]; cbn [obind snd]; auto.
Qed.

Lemma first_seed_panics fuel ch row bs data xmin zmin w h : 2 ≤ xmin →
  get_height_data fuel ch row (repeat v_zero 256) bs 0 (HP data xmin zmin w h) = Panicked.
Proof.
  intros Hx. unfold get_height_data, data_fill. destruct (_ <? _)%nat; [done|]. cbn [obind Z.eqb]. unfold seed_poly_center.
  set (hp := hp_set_data _ _). destruct (seed_start_far ch bs hp row) as [-> | ->]; [done|done..].
Qed.

Lemma detail_new_first_none fuel m ch dist err o row b :
  pm_verts m ≠ [] → pm_polys m !! 0%nat = Some row → pm_regs m !! 0%nat = Some 0 →
  poly_bounds (Z.of_nat (ch_w ch)) (Z.of_nat (ch_h ch)) (pm_verts m) row = Done b → 2 ≤ b_xmin b →
  detail_new fuel m ch dist err ≠ Done o.
Proof.
  intros Hv Hrow Hreg Hb Hx H. apply detail_new_first in H as (row' & b' & data & r1 & r2 & st' & Hrow' & Hb' & H); [|done|by intros E; rewrite E in Hrow].
  rewrite Hrow in Hrow'. injection Hrow' as <-. rewrite Hb in Hb'. injection Hb' as <-.
  unfold detail_poly in H. apply obind_done in H as (r & Hr & H). apply get_done in Hr. rewrite Hrow in Hr. injection Hr as <-.
  cbv zeta in H. apply obind_done in H as (? & _ & H).
  apply obind_done in H as (? & _ & H). apply obind_done in H as (? & _ & H). apply obind_done in H as (reg & Hr & H).
  apply get_done in Hr. rewrite Hreg in Hr. injection Hr as <-. cbn [ds_verts ds_data] in H.
  rewrite first_seed_panics in H by done. done.
Qed.

(** ** Growth of the output vectors *)
Lemma vec_push_n_fits n cap len : (len + n ≤ cap)%nat → vec_push_n n cap len = cap.
Proof.
  revert cap len. induction n as [|n IH]; intros cap len H; [done|]. cbn [vec_push_n]. unfold vec_reserve.
  destruct (cap - len <? 1)%nat eqn:E; [lia|]. apply IH. lia.
Qed.

(** As long as the contents fit the first allocation, or the first growth, there is no panic. *)
Definition grown_once (c : nat) (r : room) : Prop := (rm_track r = c ∧ rm_cap r = c) ∨ rm_track r = (c + 256)%nat.
Lemma make_room_fits c len n r : grown_once c r → (len ≤ c)%nat ∨ rm_track r = (c + 256)%nat → (len + n ≤ c + 256)%nat →
  ∃ r', make_room len n r = Done r' ∧ grown_once c r' ∧ ((len + n ≤ c)%nat ∨ rm_track r' = (c + 256)%nat).
Proof.
  intros Hr Hlen Hn. unfold make_room. destruct (len + n <=? rm_track r)%nat eqn:E.
  - destruct Hr as [[Ht Hc]|Ht].
    + eexists. split; [done|]. unfold grown_once. cbn [rm_track rm_cap]. rewrite vec_push_n_fits by lia. lia.
    + eexists. split; [done|]. unfold grown_once. cbn [rm_track rm_cap]. lia.
  - destruct Hr as [[Ht Hc]|Ht]; [|lia]. rewrite Ht, Hc in *.
    assert ((len + n - c + 255) / 256 = 1)%nat as ->.
    { symmetry. apply (Nat.div_unique _ _ 1 (len + n - c - 1)); lia. }
    rewrite Nat.mul_1_r. destruct (c + 256 <? c)%nat eqn:E2; [lia|].
    eexists. split; [done|]. unfold grown_once. cbn [rm_track rm_cap]. lia.
Qed.
