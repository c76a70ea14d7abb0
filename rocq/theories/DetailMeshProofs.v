(** The whole detail mesh: the table of sub-meshes and their contents. *)
From Verif Require Import Base FlowProofs ModelMath FloatOrder ModelHeightfield ModelCompact ModelContours ModelPoly ModelTriMesh ModelMarkArea ModelDetail SpecDetail DetailHullProofs DetailEdgeProofs DetailTessProofs DetailDelaunayProofs DetailPolyProofs.
Local Open Scope Z_scope.

(** ** Loops that returned *)
Lemma foldM_done_inv {A St} (I : list A → St → Prop) (f : A → St → outcome St) l s s' :
  foldM f l s = Done s' → I [] s →
  (∀ pre a post s1 s2, l = pre ++ a :: post → I pre s1 → f a s1 = Done s2 → I (pre ++ [a]) s2) → I l s'.
Proof.
  intros Hf H0 Hstep.
  enough (∀ pre post s1, l = pre ++ post → I pre s1 → foldM f post s1 = Done s' → I l s') as H by (by apply (H [] l s)).
  intros pre post. revert pre. induction post as [|a post IH]; intros pre s1 El HI Hd.
  - cbn in Hd. injection Hd as ->. rewrite app_nil_r in El. by subst.
  - cbn [foldM] in Hd. apply obind_done in Hd as (s2 & E1 & E2).
    apply (IH (pre ++ [a]) s2); [by rewrite <-app_assoc|by eapply Hstep|done].
Qed.
Lemma mapM_done {A C} (f : A → outcome C) l r : mapM_o f l = Done r → Forall2 (λ a b, f a = Done b) l r.
Proof.
  revert r. induction l as [|a l IH]; intros r H; cbn in H; [by injection H as <-|].
  apply obind_done in H as (b & Hb & H). apply obind_done in H as (bs & Hbs & [= <-]). constructor; [done|by apply IH].
Qed.

(** ** [get_height] never runs out of fuel *)
Lemma spiral_ends n i hp ix iz ch fy st : ends True (spiral n i hp ix iz ch fy st) (λ _, True).
Proof.
  revert i st. induction n as [|n IH]; intros i st; [done|]. cbn [spiral].
  destruct (spiral_visit hp ix iz ch fy st) as [st'| |] eqn:E; cbn [obind]; [|done|].
  - destruct (_ =? _); [destruct (negb _); [done|apply IH]|apply IH].
  - exfalso. unfold spiral_visit in E. destruct (_ && _); [|done]. unfold data_at, data_idx in E.
    unfold chk_i32, chk in E. repeat (destruct (_ && _); [cbn [obind] in E|done]).
    destruct (_ <? 0); [done|]. cbn [obind] in E. unfold get in E. destruct (hp_data hp !! _); [|done]. cbn [obind] in E.
    destruct (negb _); [|done]. cbv zeta in E. destruct (f_lt _ _); done.
Qed.
Lemma get_height_ends f ics ch r hp : ends True (get_height f ics ch r hp) (λ _, True).
Proof.
  unfold get_height, data_at, data_idx, clamp_i32, chk_i32, chk_u32, chk. cbv zeta.
  repeat match goal with
  | |- ends True (obind (if ?b then _ else _) _) _ => destruct b; cbn [obind]
  | |- ends True (obind (obind _ _) _) _ => rewrite obind_assoc
  | |- ends True (obind (get ?l ?i) _) _ => unfold get; destruct (l !! i); cbn [obind]
  | |- ends True (if ?b then _ else _) _ => destruct b
  | |- ends True Panicked _ => exact I
  | |- ends True (Done _) _ => exact I
  end; apply spiral_ends.
Qed.

(** ** Dimensions of height patches *)
Definition same_dims (a b : hpatch) : Prop :=
  hp_xmin a = hp_xmin b ∧ hp_zmin a = hp_zmin b ∧ hp_w a = hp_w b ∧ hp_h a = hp_h b ∧ length (hp_data a) = length (hp_data b).
Lemma same_dims_refl a : same_dims a a.
Proof. by repeat split. Qed.
Lemma same_dims_trans a b c : same_dims a b → same_dims b c → same_dims a c.
Proof. intros (?&?&?&?&?) (?&?&?&?&?). repeat split; congruence. Qed.

Lemma data_put_dims hp x z v hp' : data_put hp x z v = Done hp' → same_dims hp' hp.
Proof.
  unfold data_put. intros (i & _ & (d & Hd & [= <-])%obind_done)%obind_done.
  apply put_done in Hd as [_ ->]. repeat split. cbn. by rewrite insert_length.
Qed.
Lemma data_fill_dims hp v hp' : data_fill hp v = Done hp' → same_dims hp' hp.
Proof.
  unfold data_fill. destruct (_ <? _)%nat eqn:E; [done|]. intros [= <-]. repeat split. cbn.
  rewrite app_length, repeat_length, drop_length. lia.
Qed.

(** ** The table *)
Lemma tiles_app from rs to b c : tiles from rs to → b = to → 0 ≤ c → tiles from (rs ++ [(b, c)]) (to + c).
Proof.
  revert from. induction rs as [|[b' c'] rs IH]; intros from Ht -> Hc; cbn in *; [subst; auto|].
  destruct Ht as (-> & ? & Ht). split; [done|]. split; [done|]. by apply IH.
Qed.
Lemma tiles_le from rs to : tiles from rs to → from ≤ to.
Proof. revert from. induction rs as [|[b c] rs IH]; intros from; cbn; [lia|]. intros (-> & ? & Ht%IH). lia. Qed.
Lemma tiles_range from rs to k b c : tiles from rs to → rs !! k = Some (b, c) → from ≤ b ∧ 0 ≤ c ∧ b + c ≤ to.
Proof.
  revert from k. induction rs as [|[b' c'] rs IH]; intros from k; [done|]. cbn. intros (-> & ? & Ht) Hk. destruct k as [|k].
  - injection Hk as <- <-. apply tiles_le in Ht. lia.
  - apply (IH _ k) in Ht; [lia|done].
Qed.
Lemma segment_app {A} (l l' : list A) b c : 0 ≤ b → 0 ≤ c → b + c ≤ Z.of_nat (length l) → segment (l ++ l') b c = segment l b c.
Proof.
  intros. unfold segment. rewrite drop_app_le by lia. rewrite take_app_le; [done|]. rewrite drop_length. lia.
Qed.
Lemma segment_last {A} (l l' : list A) b c : b = Z.of_nat (length l) → c = Z.of_nat (length l') → segment (l ++ l') b c = l'.
Proof. intros -> ->. unfold segment. rewrite !Nat2Z.id, drop_app, take_ge by lia. done. Qed.

(** Where a local vertex ends up in the mesh. *)
Definition place (orig : vec3) (ch : f32) (v : vec3) : vec3 :=
  V3 (f_add (v_x v) (v_x orig)) (f_add (f_add (v_y v) (v_y orig)) ch) (f_add (v_z v) (v_z orig)).

(** The detail of one polygon: local vertex positions [vs], triangles [ts] with
    flags [fs]. [E] are the extra vertices of the edges, [extra] those of the
    interior. *)
Record submesh_ok (p : dparams) (hp : hpatch) (inp vs : list vec3) (ts : list dtri) (fs : list Z) (E : list (list vec3)) (extra : list vec3) : Prop := {
  so_edges : length E = length inp;
  so_verts : vs = inp ++ concat E ++ extra;
  so_max : (length vs ≤ 127)%nat;
  so_out : ∀ i e a b, E !! i = Some e → inp !! before (length inp) i = Some a → inp !! i = Some b → edge_out p hp (length inp + length (concat (take i E))) a b e;
  so_tmax : (length ts ≤ 255)%nat;
  so_tris : Forall (tri_lt (length vs)) ts;
  so_flags : Forall2 (flags_exact (outline E)) ts fs;
  so_shape : (extra = [] ∧ covers (outline E) ts ∧ length ts = (length (outline E) - 2)%nat) ∨ Forall (oriented vs (length vs)) ts;
}.

Definition interior (p : dparams) (hp : hpatch) (inp vs : list vec3) (ts : list dtri) (extra : list vec3) : Prop :=
  ∃ lo hi (samples : list sample), aabb_xyz inp (length inp) = Done (lo, hi) ∧
    let x0 := f_cast f_floor_Z I32_MIN I32_MAX (f_div (v_x lo) (dp_dist p)) in
    let x1 := f_cast f_ceil_Z I32_MIN I32_MAX (f_div (v_x hi) (dp_dist p)) in
    let z0 := f_cast f_floor_Z I32_MIN I32_MAX (f_div (v_z lo) (dp_dist p)) in
    let z1 := f_cast f_ceil_Z I32_MIN I32_MAX (f_div (v_z hi) (dp_dist p)) in
    let my := f_mul (f_add (v_y hi) (v_y lo)) c_0_5 in
    (∀ s, s ∈ samples → ∃ x z, x0 ≤ x < x1 ∧ z0 ≤ z < z1 ∧ grid_sample p hp inp (length inp) my x z s) ∧
    (∀ x z, x0 ≤ x < x1 → z0 ≤ z < z1 → inside_poly p inp (length inp) my x z →
      ∃ s, s ∈ samples ∧ grid_sample p hp inp (length inp) my x z s) ∧
    (∀ v, v ∈ extra → ∃ i s b, samples !! i = Some (s, b) ∧ v = sample_pos p i s) ∧
    (∀ i s b, samples !! i = Some (s, b) → nonneg (dp_err p) →
      sample_pos p i s ∈ extra ∨ length vs = 127%nat ∨ length ts = 255%nat ∨ near (dp_err p) vs ts (sample_pos p i s)).

Lemma poly_detail_submesh p hp inp d E extra : poly_detail p hp inp d E extra →
  submesh_ok p hp inp (take (dd_n d) (dd_verts d)) (dd_tris d) (dd_flags d) E extra.
Proof.
  intros []. assert (length (take (dd_n d) (dd_verts d)) = dd_n d) as Hl by (rewrite take_length; lia).
  assert (∀ k, (k < dd_n d)%nat → take (dd_n d) (dd_verts d) !! k = dd_verts d !! k) as Hk by (intros; by apply lookup_take).
  constructor; rewrite ?Hl; try done.
  destruct pd_shape as [?|Hor]; [by left|right]. eapply Forall_impl; [exact Hor|].
  assert (∀ t, face_ok (dd_verts d) (dd_n d) t → face_ok (take (dd_n d) (dd_verts d)) (dd_n d) t) as Hf.
  { intros [[a b] c] [Hlt (pa & pb & pc & Ha & Hb & Hc & Hcr)]. split; [done|]. exists pa, pb, pc. rewrite !Hk by lia. done. }
  intros [[a b] c] [H|[H|H]]; [left|right; left|right; right]; by apply Hf.
Qed.

Lemma interior_of p hp inp d E extra : poly_detail p hp inp d E extra → interior_ok p hp inp d extra →
  interior p hp inp (take (dd_n d) (dd_verts d)) (dd_tris d) extra.
Proof.
  intros [] (lo & hi & samples & H1 & H2 & H3 & H4 & H5). exists lo, hi, samples. split; [done|]. cbv zeta in *. split; [done|]. split; [done|]. split; [done|].
  assert (length (take (dd_n d) (dd_verts d)) = dd_n d) as Hl by (rewrite take_length; lia).
  intros i s b Hi He. rewrite Hl. destruct (H5 i s b Hi He) as [?|[?|[?|Hn]]]; [by left|by right; left|by right; right; left|].
  right. right. right.
  assert (∀ t, t ∈ dd_tris d → tri_dist (sample_pos p i s) (take (dd_n d) (dd_verts d)) t = tri_dist (sample_pos p i s) (dd_verts d) t) as Ht.
  { intros [[x y] z] Hin. rewrite Forall_forall in pd_tris. specialize (pd_tris _ Hin). cbn in pd_tris. unfold tri_dist.
    rewrite !lookup_take by lia. done. }
  destruct Hn as [(t & dd & Hin & Hd & Hlt)|Hn]; [left|right].
  - exists t, dd. rewrite Ht by done. done.
  - intros t dd Hin. rewrite Ht by done. by apply Hn.
Qed.

Section mesh.
  Context (fuel : nat) (m : pmesh) (ch : chf) (dist err : f32).
  Let g := pm_geo m.
  Definition detail_params : dparams :=
    DP dist err (Z.max 1 (f_cast f_ceil_Z 0 U32_MAX (pm_maxerr m))) (g_cs (ch_geo ch)) (g_ch (ch_geo ch)).
  Definition corner_list (row : list Z) (inp : list vec3) : Prop :=
    Forall2 (λ i v, ∃ w, pm_verts m !! Z.to_nat i = Some w ∧ v = corner_pos (g_cs g) (g_ch g) w) (live_indices row) inp.

  (** What sub-mesh [k] of the output holds. *)
  Definition sub_at (k : nat) (o : dmesh) : Prop :=
    ∃ row reg inp b verts data hp vs ts fs E extra sm,
      pm_polys m !! k = Some row ∧ pm_regs m !! k = Some reg ∧ corner_list row inp ∧
      poly_bounds (Z.of_nat (ch_w ch)) (Z.of_nat (ch_h ch)) (pm_verts m) row = Done b ∧
      length verts = 256%nat ∧
      get_height_data fuel ch (live_indices row) verts (pm_border m) reg
        (HP data (b_xmin b) (b_zmin b) (b_xmax b - b_xmin b) (b_zmax b - b_zmin b)) = Done hp ∧
      submesh_ok detail_params hp inp vs ts fs E extra ∧
      (extra = [] ∨ interior detail_params hp inp vs ts extra) ∧
      (∀ mext, poly_min_extent_sq inp (length inp) = Done mext →
        f_lt mext (f_mul (f_mul dist f_two) (f_mul dist f_two)) = false → interior detail_params hp inp vs ts extra) ∧
      dm_meshes o !! k = Some sm ∧
      segment (dm_verts o) (sm_vbase sm) (sm_vcount sm) = place (g_min g) (g_ch (ch_geo ch)) <$> vs ∧
      segment (dm_tris o) (sm_tbase sm) (sm_tcount sm) = ts ∧
      segment (dm_flags o) (sm_tbase sm) (sm_tcount sm) = fs.

  Definition table_ok (n : nat) (o : dmesh) : Prop :=
    length (dm_meshes o) = n ∧
    tiles 0 ((λ sm, (sm_vbase sm, sm_vcount sm)) <$> dm_meshes o) (Z.of_nat (length (dm_verts o))) ∧
    tiles 0 ((λ sm, (sm_tbase sm, sm_tcount sm)) <$> dm_meshes o) (Z.of_nat (length (dm_tris o))) ∧
    length (dm_flags o) = length (dm_tris o).

  Definition inv (n : nat) (st : dstate) : Prop :=
    table_ok n (ds_out st) ∧ length (ds_verts st) = 256%nat ∧
    (length (dm_verts (ds_out st)) ≤ 127 * n)%nat ∧ (length (dm_tris (ds_out st)) ≤ 255 * n)%nat ∧
    ∀ k, (k < n)%nat → sub_at k (ds_out st).

  Lemma sub_at_app k o vs ts fs sm : table_ok (length (dm_meshes o)) o → sub_at k o →
    sub_at k (DMesh (dm_meshes o ++ [sm]) (dm_verts o ++ vs) (dm_tris o ++ ts) (dm_flags o ++ fs)).
  Proof.
    intros (_ & T2 & T3 & T4) (row & reg & inp & b & verts & data & hp & vs' & ts' & fs' & E & extra & sm' & H1 & H2 & H3 & H4 & H5 & H6 & H7 & H8 & H9 & H10 & H11 & H12 & H13).
    exists row, reg, inp, b, verts, data, hp, vs', ts', fs', E, extra, sm'.
    do 9 (split; [done|]). cbn [dm_meshes dm_verts dm_tris dm_flags].
    split; [by apply lookup_app_l_Some|].
    assert (((λ sm, (sm_vbase sm, sm_vcount sm)) <$> dm_meshes o) !! k = Some (sm_vbase sm', sm_vcount sm')) as Hv by (by rewrite list_lookup_fmap, H10).
    assert (((λ sm, (sm_tbase sm, sm_tcount sm)) <$> dm_meshes o) !! k = Some (sm_tbase sm', sm_tcount sm')) as Ht by (by rewrite list_lookup_fmap, H10).
    apply (tiles_range _ _ _ k) with (1 := T2) in Hv. apply (tiles_range _ _ _ k) with (1 := T3) in Ht.
    rewrite !segment_app by lia. done.
  Qed.

  Lemma detail_poly_inv n b st st' :
    Z.of_nat (length (pm_polys m)) * 255 < 4294967296 →
    (∀ k row, pm_polys m !! k = Some row → (3 ≤ length (live_indices row))%nat) →
    inv n st → (∀ row, pm_polys m !! n = Some row → poly_bounds (Z.of_nat (ch_w ch)) (Z.of_nat (ch_h ch)) (pm_verts m) row = Done b) →
    detail_poly fuel m ch dist err n b st = Done st' → inv (S n) st'.
  Proof.
    intros Hbig H3 (Ht & Hlv & Hbv & Hbt & Hsub) Hb Hd. unfold detail_poly in Hd.
    apply obind_done in Hd as (row & Hrow & Hd). apply get_done in Hrow. cbv zeta in Hd.
    apply obind_done in Hd as (inp & Hinp & Hd). apply mapM_done in Hinp.
    apply obind_done in Hd as (w & Hw & Hd). apply obind_done in Hd as (h & Hhh & Hd).
    assert (∀ a b, chk_u16 a = Done b → b = a) as Hchk.
    { intros a c. unfold chk_u16, chk. destruct (_ && _); [by intros [= <-]|done]. }
    apply Hchk in Hw as ->. apply Hchk in Hhh as ->.
    apply obind_done in Hd as (reg & Hreg & Hd). apply get_done in Hreg.
    apply obind_done in Hd as (hp & Hhp & Hd).
    assert (corner_list row inp) as Hcl.
    { unfold corner_list. eapply Forall2_impl; [exact Hinp|]. cbn. intros i v (u & Hu & [= <-])%obind_done.
      apply get_done in Hu. by exists u. }
    pose proof (Forall2_length _ _ _ Hcl) as Hlen. specialize (H3 n row Hrow).
    apply obind_done in Hd as (d & Hd1 & Hd2). fold detail_params in Hd1.
    pose proof (build_poly_detail_ends True detail_params hp (λ _, True) inp (ds_verts st)) as Hbp.
    fold g in Hd1. rewrite Hd1 in Hbp. cbn [ends] in Hbp.
    destruct Hbp as (Hdist & E & extra & Hpd & Hint); [intros; apply get_height_ends|lia|by right|by right|by right|done|done|done|].
    unfold store_detail in Hd2. cbn [ds_out ds_verts ds_data ds_vroom ds_troom] in Hd2. cbv zeta in Hd2.
    apply obind_done in Hd2 as (vr & _ & Hd2). apply obind_done in Hd2 as (tr & _ & [= <-]).
    pose proof (poly_detail_submesh _ _ _ _ _ _ Hpd) as Hso. pose proof Hpd as [].
    assert (length (take (dd_n d) (dd_verts d)) = dd_n d) as Hlt by (rewrite take_length; lia).
    pose proof (lookup_lt_Some _ _ _ Hrow) as Hn.
    destruct Ht as (T1 & T2 & T3 & T4).
    assert (wrap_u32 (Z.of_nat (length (dm_verts (ds_out st)))) = Z.of_nat (length (dm_verts (ds_out st)))) as Ew1 by (apply Z.mod_small; lia).
    assert (wrap_u32 (Z.of_nat (length (dm_tris (ds_out st)))) = Z.of_nat (length (dm_tris (ds_out st)))) as Ew2 by (apply Z.mod_small; lia).
    assert (wrap_u32 (Z.of_nat (dd_n d)) = Z.of_nat (dd_n d)) as Ew3 by (apply Z.mod_small; lia).
    assert (wrap_u32 (Z.of_nat (length (dd_tris d))) = Z.of_nat (length (dd_tris d))) as Ew4 by (apply Z.mod_small; lia).
    rewrite Ew1, Ew2, Ew3, Ew4.
    pose proof (Forall2_length _ _ _ pd_flags) as Hfl.
    change (λ v, let v0 := v_add v (g_min (pm_geo m)) in V3 (v_x v0) (f_add (v_y v0) (g_ch (ch_geo ch))) (v_z v0))
      with (place (g_min g) (g_ch (ch_geo ch))).
    split; [|split; [|split; [|split]]]; cbn [ds_out ds_verts dm_meshes dm_verts dm_tris dm_flags].
    - unfold table_ok. cbn [ds_out ds_verts dm_meshes dm_verts dm_tris dm_flags]. rewrite !app_length, !fmap_app, fmap_length.
      cbn [length fmap list_fmap sm_vbase sm_vcount sm_tbase sm_tcount]. rewrite Hlt, !Nat2Z.inj_add. split; [lia|].
      split; [apply tiles_app; [done|done|lia]|]. split; [apply tiles_app; [done|done|lia]|]. lia.
    - rewrite app_length, fmap_length, drop_length. lia.
    - rewrite app_length, fmap_length. lia.
    - rewrite app_length. lia.
    - intros k Hk. destruct (decide (k = n)) as [->|Hne].
      + exists row, reg, inp, b, (ds_verts st), (ds_data st), hp, (take (dd_n d) (dd_verts d)), (dd_tris d), (dd_flags d), E, extra.
        eexists. split; [done|]. split; [done|]. split; [done|]. split; [by apply Hb|]. split; [done|]. split; [done|]. split; [done|].
        split.
        { pose proof (poly_min_extent_runs inp (length inp) ltac:(lia)) as Hr.
          destruct (poly_min_extent_sq inp (length inp)) as [mx| |] eqn:Emx; [|done..].
          destruct (Hint mx eq_refl) as [[_ ->]|Hi]; [by left|right]. by eapply interior_of. }
        split.
        { intros mx Emx Hf. destruct (Hint mx Emx) as [[Hf' _]|Hi]; [change (dp_dist detail_params) with dist in Hf'; congruence|]. by eapply interior_of. }
        cbn [dm_meshes dm_verts dm_tris dm_flags].
        split; [by rewrite lookup_app_r, T1, Nat.sub_diag by lia|]. cbn [sm_vbase sm_vcount sm_tbase sm_tcount].
        rewrite !segment_last; [done|lia|lia|done|done|done|by rewrite fmap_length, Hlt].
      + apply sub_at_app; [|apply Hsub; lia]. split; [done|]. done.
  Qed.

  Lemma detail_new_table o :
    Z.of_nat (length (pm_polys m)) * 255 < 4294967296 →
    (∀ k row, pm_polys m !! k = Some row → (3 ≤ length (live_indices row))%nat) →
    pm_verts m ≠ [] →
    detail_new fuel m ch dist err = Done o →
    table_ok (length (pm_polys m)) o ∧ ∀ k, (k < length (pm_polys m))%nat → sub_at k o.
  Proof.
    intros Hbig H3 Hv Hd. unfold detail_new in Hd.
    destruct (length (pm_verts m) =? 0)%nat eqn:E1; [destruct (pm_verts m); [done|done]|].
    destruct (length (pm_polys m) =? 0)%nat eqn:E2; cbn [orb] in Hd.
    { injection Hd as <-. assert (length (pm_polys m) = 0)%nat as -> by lia. split; [done|]. intros; lia. }
    apply obind_done in Hd as (bs & Hbs & Hd). apply mapM_done in Hbs. destruct (max_patch bs) as [mw mh].
    apply obind_done in Hd as (st & Hst & [= <-]).
    pose proof (Forall2_length _ _ _ Hbs) as Hlb.
    assert (inv (length (imap (λ i b, (i, b)) bs)) st) as (Ht & _ & _ & _ & Hsub).
    { eapply (foldM_done_inv (λ l, inv (length l))); [exact Hst| |].
      - split; [done|]. split; [done|]. cbn [ds_out dm_verts dm_tris dmesh0 length]. split; [lia|]. split; [lia|]. intros; lia.
      - intros pre [i b] post s1 s2 El Hi Hf. rewrite app_length, Nat.add_1_r.
        assert (imap (λ i b, (i, b)) bs !! length pre = Some (i, b)) as Hl by (rewrite El, lookup_app_r, Nat.sub_diag by lia; done).
        rewrite list_lookup_imap in Hl. apply fmap_Some in Hl as (b' & Hb' & [= -> ->]).
        eapply detail_poly_inv; [done|done|done| |done].
        intros row Hrow. by eapply (Forall2_lookup_lr _ _ _ _ _ _ Hbs Hrow). }
    rewrite imap_length, <-Hlb in Ht, Hsub. done.
  Qed.
End mesh.
