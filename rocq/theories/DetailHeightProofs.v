(** The spiral search of [get_height]. *)
From Verif Require Import Base FlowProofs ModelMath FloatOrder ModelHeightfield ModelCompact ModelContours ModelPoly ModelTriMesh ModelMarkArea ModelDetail SpecDetail.
Local Open Scope Z_scope.

(** The [j]-th of the 8[k] cells of ring [k], and the direction it is entered in. *)
Definition ring_pos (k j : Z) : Z * Z :=
  if j <? 2 * k then (k, 1 - k + j)
  else if j <? 4 * k then (3 * k - 1 - j, k)
  else if j <? 6 * k then (- k, 5 * k - 1 - j)
  else (j - 7 * k + 1, - k).
Definition ring_dir (k j : Z) : Z * Z :=
  if j =? 0 then (1, 0)
  else if j <? 2 * k then (0, 1)
  else if j <? 4 * k then (-1, 0)
  else if j <? 6 * k then (0, -1)
  else (1, 0).

Definition walk_at (k j : Z) (st : spiral_st) : Prop :=
  (sp_x st, sp_z st) = ring_pos k j ∧ (sp_dx st, sp_dz st) = ring_dir k j ∧ sp_start st = 4 * k * (k + 1) ∧ sp_iters st = 8 * (k + 1).

Lemma spiral_turn_h st : sp_h (spiral_turn st) = sp_h st.
Proof. unfold spiral_turn. by case_match. Qed.
Lemma spiral_turn_dmin st : sp_dmin (spiral_turn st) = sp_dmin st.
Proof. unfold spiral_turn. by case_match. Qed.

Lemma spiral_turn_at k j st : 1 ≤ k → 0 ≤ j < 8 * k - 1 → walk_at k j st → walk_at k (j + 1) (spiral_turn st).
Proof.
  intros Hk Hj (Hp & Hd & Hs & Hi). unfold walk_at, spiral_turn.
  destruct st as [x z dx dz s it dm h]. cbn [sp_x sp_z sp_dx sp_dz sp_start sp_iters] in *.
  unfold ring_pos, ring_dir in *.
  destruct (j <? 2 * k) eqn:E1; [|destruct (j <? 4 * k) eqn:E2; [|destruct (j <? 6 * k) eqn:E3]]; injection Hp as -> ->;
  destruct (j =? 0) eqn:E0; injection Hd as -> ->;
  match goal with |- context [if ?b then _ else _] => destruct b eqn:E end; cbn [sp_x sp_z sp_dx sp_dz sp_start sp_iters];
  destruct (j + 1 <? 2 * k) eqn:F1; destruct (j + 1 <? 4 * k) eqn:F2; destruct (j + 1 <? 6 * k) eqn:F3; destruct (j + 1 =? 0) eqn:F0;
  try lia; (split; [f_equal; lia|split; [f_equal; lia|lia]]).
Qed.

Lemma spiral_turn_next k st dm h : 1 ≤ k → walk_at k (8 * k - 1) st →
  walk_at (k + 1) 0 (spiral_turn (SpSt (sp_x st) (sp_z st) (sp_dx st) (sp_dz st) (sp_start st + sp_iters st) (sp_iters st + 8) dm h)).
Proof.
  intros Hk (Hp & Hd & Hs & Hi). unfold walk_at, spiral_turn.
  destruct st as [x z dx dz s it dm' h']. cbn [sp_x sp_z sp_dx sp_dz sp_start sp_iters] in *.
  unfold ring_pos, ring_dir in *.
  destruct (8 * k - 1 <? 2 * k) eqn:E1; [lia|]. destruct (8 * k - 1 <? 4 * k) eqn:E2; [lia|]. destruct (8 * k - 1 <? 6 * k) eqn:E3; [lia|].
  destruct (8 * k - 1 =? 0) eqn:E0; [lia|]. injection Hp as -> ->. injection Hd as -> ->.
  match goal with |- context [if ?b then _ else _] => destruct b eqn:E end; [lia|]. cbn [sp_x sp_z sp_dx sp_dz sp_start sp_iters].
  destruct (0 <? 2 * (k + 1)) eqn:F1; [|lia]. split; [f_equal; lia|]. split; [done|]. lia.
Qed.

Lemma ring_pos_cheb k j : 1 ≤ k → 0 ≤ j < 8 * k → Z.max (Z.abs (ring_pos k j).1) (Z.abs (ring_pos k j).2) = k.
Proof.
  intros Hk Hj. unfold ring_pos.
  destruct (j <? 2 * k) eqn:E1; [|destruct (j <? 4 * k) eqn:E2; [|destruct (j <? 6 * k) eqn:E3]]; cbn [fst snd]; lia.
Qed.

Lemma ring_pos_onto k x z : 1 ≤ k → Z.max (Z.abs x) (Z.abs z) = k → ∃ j, 0 ≤ j < 8 * k ∧ ring_pos k j = (x, z).
Proof.
  intros Hk Hm.
  assert (x = k ∧ 1 - k ≤ z ≤ k ∨ z = k ∧ -k ≤ x < k ∨ x = -k ∧ -k ≤ z < k ∨ z = -k ∧ -k < x ≤ k) as [[-> H]|[[-> H]|[[-> H]|[-> H]]]] by lia.
  - exists (z + k - 1). split; [lia|]. unfold ring_pos. destruct (_ <? 2 * k) eqn:?; [f_equal; lia|lia].
  - exists (3 * k - 1 - x). split; [lia|]. unfold ring_pos. destruct (_ <? 2 * k) eqn:?; [lia|]. destruct (_ <? 4 * k) eqn:?; [f_equal; lia|lia].
  - exists (5 * k - 1 - z). split; [lia|]. unfold ring_pos. destruct (_ <? 2 * k) eqn:?; [lia|]. destruct (_ <? 4 * k) eqn:?; [lia|].
    destruct (_ <? 6 * k) eqn:?; [f_equal; lia|lia].
  - exists (x + 7 * k - 1). split; [lia|]. unfold ring_pos. destruct (_ <? 2 * k) eqn:?; [lia|]. destruct (_ <? 4 * k) eqn:?; [lia|].
    destruct (_ <? 6 * k) eqn:?; [lia|]. f_equal; lia.
Qed.

(** The patch's cells are all in its array, and small enough for [i32]. *)
Definition patch_ok (hp : hpatch) : Prop :=
  0 ≤ hp_w hp ∧ 0 ≤ hp_h hp ∧ hp_w hp * hp_h hp ≤ Z.of_nat (length (hp_data hp)) ∧ hp_w hp * hp_h hp ≤ I32_MAX.

Lemma data_idx_done hp x z : patch_ok hp → 0 ≤ x < hp_w hp → 0 ≤ z < hp_h hp → data_idx hp x z = Done (Z.to_nat (x + z * hp_w hp)).
Proof.
  intros (Hw & Hh & Hl & Hm) Hx Hz. unfold data_idx, chk_i32, chk.
  assert (0 ≤ z * hp_w hp ≤ I32_MAX) by nia. assert (0 ≤ x + z * hp_w hp ≤ I32_MAX) by nia.
  destruct ((I32_MIN <=? z * hp_w hp) && _) eqn:E1; [|unfold I32_MIN in E1; lia]. cbn [obind].
  destruct ((I32_MIN <=? x + _) && _) eqn:E2; [|unfold I32_MIN in E2; lia]. cbn [obind].
  destruct (_ <? 0) eqn:E3; [lia|done].
Qed.

Lemma data_at_done hp x z : patch_ok hp → 0 ≤ x < hp_w hp → 0 ≤ z < hp_h hp →
  ∃ v, data_at hp x z = Done v ∧ hp_data hp !! Z.to_nat (x + z * hp_w hp) = Some v.
Proof.
  intros Hp Hx Hz. unfold data_at. rewrite data_idx_done by done. cbn [obind].
  destruct (get_lt (hp_data hp) (Z.to_nat (x + z * hp_w hp))) as (v & -> & Hv); [destruct Hp as (?&?&?&?); nia|]. by exists v.
Qed.

Section spiral.
  Context (hp : hpatch) (ix iz : Z) (ch fy : f32) (Hok : patch_ok hp).
  Definition height_err (v : Z) : f32 := f_abs (f_sub (f_mul (f_of_Z v) ch) fy).
  Definition comparable (v : Z) : Prop := f_lt (height_err v) F32_MAX = true.
  Definition cell_h (x z v : Z) : Prop := stored (hp_data hp) (hp_w hp) (hp_h hp) x z v.

  (** What is known after the first [j] cells of ring [k]. *)
  Definition seen (k j : Z) (st : spiral_st) : Prop :=
    (sp_h st = UNSET ∧ sp_dmin st = F32_MAX ∧
      ∀ j' v, 0 ≤ j' < j → cell_h (ix + (ring_pos k j').1) (iz + (ring_pos k j').2) v → ¬ comparable v) ∨
    (sp_h st ≠ UNSET ∧ comparable (sp_h st) ∧ sp_dmin st = height_err (sp_h st) ∧
      (∃ j', 0 ≤ j' < j ∧ cell_h (ix + (ring_pos k j').1) (iz + (ring_pos k j').2) (sp_h st)) ∧
      ∀ j' v, 0 ≤ j' < j → cell_h (ix + (ring_pos k j').1) (iz + (ring_pos k j').2) v → f_lt (height_err v) (sp_dmin st) = false).

  Lemma cell_h_fun x z v v' : cell_h x z v → cell_h x z v' → v = v'.
  Proof. intros (_ & _ & H & _) (_ & _ & H' & _). congruence. Qed.

  Lemma f_lt_irrefl x : f_lt x x = false.
  Proof.
    destruct (f_lt x x) eqn:E; [|done]. apply f_lt_rank in E as (a & b & Ha & Hb & Hab). rewrite Ha in Hb. injection Hb as <-.
    destruct a as [[]]. unfold rank_lt in Hab. lia.
  Qed.

  Lemma spiral_visit_at k j st : walk_at k j st → 0 ≤ j → seen k j st →
    ∃ st', spiral_visit hp ix iz ch fy st = Done st' ∧ walk_at k j st' ∧ seen k (j + 1) st'.
  Proof.
    intros Hw Hj Hs. pose proof Hw as (Hp & _).
    assert (ring_pos k j = (sp_x st, sp_z st)) as Hpos by done.
    unfold spiral_visit.
    assert ((∀ v, cell_h (ix + sp_x st) (iz + sp_z st) v → f_lt (height_err v) (sp_dmin st) = false) → seen k (j + 1) st) as Hskip.
    { intros Hno. destruct Hs as [(S1 & S2 & S3)|(S1 & S2 & S3 & (j0 & Hj0 & S4) & S5)].
      - left. split; [done|]. split; [done|]. intros j' v Hj' Hc. destruct (decide (j' = j)) as [->|]; [|apply (S3 j'); [lia|done]].
        rewrite Hpos in Hc. cbn in Hc. specialize (Hno v Hc). unfold comparable. rewrite S2 in Hno. congruence.
      - right. split; [done|]. split; [done|]. split; [done|]. split; [exists j0; split; [lia|done]|].
        intros j' v Hj' Hc. destruct (decide (j' = j)) as [->|]; [|apply (S5 j'); [lia|done]].
        rewrite Hpos in Hc. by apply Hno. }
    destruct (_ && _) eqn:Ein.
    2:{ exists st. split; [done|]. split; [done|]. apply Hskip. intros v (? & ? & _). lia. }
    destruct (data_at_done hp (ix + sp_x st) (iz + sp_z st)) as (v & -> & Hv); [done|lia|lia|]. cbn [obind].
    destruct (v =? UNSET) eqn:Eu; cbn [negb].
    { exists st. split; [done|]. split; [done|]. apply Hskip. intros u (_ & _ & Hu & Hne). rewrite Hv in Hu. injection Hu as <-.
      unfold UNSET in Eu. lia. }
    assert (cell_h (ix + sp_x st) (iz + sp_z st) v) as Hcell.
    { split; [lia|]. split; [lia|]. split; [done|]. unfold UNSET in Eu. lia. }
    cbv zeta. fold (height_err v). destruct (f_lt (height_err v) (sp_dmin st)) eqn:El.
    2:{ exists st. split; [done|]. split; [done|]. apply Hskip. intros u Hu. by rewrite (cell_h_fun _ _ _ _ Hu Hcell). }
    eexists. split; [done|]. split; [exact Hw|]. right. cbn [sp_h sp_dmin].
    assert (comparable v) as Hcv.
    { unfold comparable. destruct Hs as [(_ & S2 & _)|(_ & S2 & S3 & _)]; [by rewrite <-S2|]. rewrite S3 in El. by eapply f_lt_trans. }
    split; [lia|]. split; [done|]. split; [done|]. split.
    - exists j. rewrite Hpos. split; [lia|done].
    - intros j' u Hj' Hc. destruct (decide (j' = j)) as [->|Hne].
      + rewrite Hpos in Hc. cbn [fst snd] in Hc. rewrite (cell_h_fun _ _ _ _ Hc Hcell). apply f_lt_irrefl.
      + destruct (f_lt (height_err u) (height_err v)) eqn:E; [|done].
        destruct Hs as [(_ & S2 & S3)|(_ & S2 & S3 & _ & S5)].
        * exfalso. eapply (S3 j' u); [lia|done|]. unfold comparable. by eapply f_lt_trans.
        * assert (f_lt (height_err u) (sp_dmin st) = true) as H1 by (by eapply f_lt_trans).
          rewrite (S5 j' u) in H1; [done|lia|done].
  Qed.

  (** The rest of ring [k] and the rings up to [r]. *)
  Lemma spiral_spec r k j st : 1 ≤ k ≤ r → 0 ≤ j < 8 * k → walk_at k j st → seen k j st →
    (∀ k' j' v, 1 ≤ k' < k → 0 ≤ j' < 8 * k' → cell_h (ix + (ring_pos k' j').1) (iz + (ring_pos k' j').2) v → ¬ comparable v) →
    ∃ v, spiral (Z.to_nat (4 * r * (r + 1) - (4 * k * (k - 1) + j))) (4 * k * (k - 1) + j) hp ix iz ch fy st = Done v ∧
      ((∃ k, 1 ≤ k ≤ r ∧ (∃ j', 0 ≤ j' < 8 * k ∧ cell_h (ix + (ring_pos k j').1) (iz + (ring_pos k j').2) v) ∧ comparable v ∧
         (∀ k' j' u, 1 ≤ k' < k → 0 ≤ j' < 8 * k' → cell_h (ix + (ring_pos k' j').1) (iz + (ring_pos k' j').2) u → ¬ comparable u) ∧
         ∀ j' u, 0 ≤ j' < 8 * k → cell_h (ix + (ring_pos k j').1) (iz + (ring_pos k j').2) u → f_lt (height_err u) (height_err v) = false)
       ∨ v = UNSET ∧ ∀ k' j' u, 1 ≤ k' ≤ r → 0 ≤ j' < 8 * k' → cell_h (ix + (ring_pos k' j').1) (iz + (ring_pos k' j').2) u → ¬ comparable u).
  Proof.
    remember (Z.to_nat (4 * r * (r + 1) - (4 * k * (k - 1) + j))) as n eqn:En. revert k j st En.
    induction n as [|n IH]; intros k j st En Hk Hj Hw Hs Hprev.
    { exfalso. nia. }
    cbn [spiral]. destruct (spiral_visit_at k j st Hw ltac:(lia) Hs) as (st1 & -> & Hw1 & Hs1). cbn [obind].
    pose proof Hw1 as (_ & _ & Hst & Hit). rewrite Hst.
    destruct (decide (j = 8 * k - 1)) as [->|Hne].
    - destruct (_ =? 4 * k * (k + 1)) eqn:Eq; [|lia].
      replace (8 * k - 1 + 1) with (8 * k) in Hs1 by lia.
      destruct Hs1 as [(S1 & S2 & S3)|(S1 & S2 & S3 & S4 & S5)].
      + rewrite S1. change (negb (UNSET =? UNSET)) with false. cbv iota.
        assert (∀ k' j' v, 1 ≤ k' < k + 1 → 0 ≤ j' < 8 * k' → cell_h (ix + (ring_pos k' j').1) (iz + (ring_pos k' j').2) v → ¬ comparable v) as Hprev'.
        { intros k' j' v Hk' Hj' Hc. destruct (decide (k' = k)) as [->|]; [by apply (S3 j')|]. eapply (Hprev k' j'); [lia|done|done]. }
        destruct (decide (k = r)) as [->|Hkr].
        * assert (n = 0%nat) as -> by lia. cbn [spiral]. exists UNSET. split; [by rewrite spiral_turn_h|]. right. split; [done|].
          intros k' j' u Hk'. apply Hprev'. lia.
        * replace (4 * k * (k - 1) + (8 * k - 1) + 1) with (4 * (k + 1) * (k + 1 - 1) + 0) by lia.
          apply IH.
          -- lia.
          -- lia.
          -- lia.
          -- rewrite <-Hst. by apply spiral_turn_next; [lia|].
          -- left. rewrite spiral_turn_h, spiral_turn_dmin. split; [done|]. split; [done|]. intros; lia.
          -- done.
      + destruct (sp_h st1 =? UNSET) eqn:Eu; cbn [negb]; [lia|]. exists (sp_h st1). split; [done|]. left. exists k. split; [done|].
        split; [done|]. split; [done|]. split; [done|]. intros j' u Hj' Hc. rewrite <-S3. by apply (S5 j').
    - destruct (_ =? 4 * k * (k + 1)) eqn:Eq; [lia|].
      replace (4 * k * (k - 1) + j + 1) with (4 * k * (k - 1) + (j + 1)) by lia.
      apply IH.
      + lia.
      + done.
      + lia.
      + apply spiral_turn_at; [lia|lia|done].
      + unfold seen in *. by rewrite spiral_turn_h, spiral_turn_dmin.
      + done.
  Qed.
End spiral.

(** The column of the patch that a point falls into, nearest to the patch. *)
Definition patch_col (c ics : f32) (lo n : Z) : Z := Z.max 0 (Z.min (n - 1) (f_cast f_floor_Z I32_MIN I32_MAX (f_add (f_mul c ics) c_0_01) - lo)).

Lemma get_height_spec f ics ch r hp : patch_ok hp → 1 ≤ hp_w hp → 1 ≤ hp_h hp → 0 ≤ r ≤ 32767 →
  I32_MIN ≤ f_cast f_floor_Z I32_MIN I32_MAX (f_add (f_mul (v_x f) ics) c_0_01) - hp_xmin hp ≤ I32_MAX →
  I32_MIN ≤ f_cast f_floor_Z I32_MIN I32_MAX (f_add (f_mul (v_z f) ics) c_0_01) - hp_zmin hp ≤ I32_MAX →
  ∃ v, get_height f ics ch r hp = Done v ∧
    nearest_height (hp_data hp) (hp_w hp) (hp_h hp) (patch_col (v_x f) ics (hp_xmin hp) (hp_w hp)) (patch_col (v_z f) ics (hp_zmin hp) (hp_h hp)) r
      (comparable ch (v_y f)) (λ u v, f_lt (height_err ch (v_y f) u) (height_err ch (v_y f) v) = true) v.
Proof.
  intros Hok Hw Hh Hr Hx Hz. unfold get_height. cbv zeta.
  set (cx := f_cast _ _ _ (f_add (f_mul (v_x f) _) _)) in *. set (cz := f_cast _ _ _ (f_add (f_mul (v_z f) _) _)) in *.
  unfold chk_i32 at 1. unfold chk at 1. destruct ((I32_MIN <=? cx - hp_xmin hp) && _) eqn:E1; [|lia]. cbn [obind]. clear E1.
  unfold clamp_i32 at 1. destruct (_ <? 0) eqn:E2; [lia|]. cbn [obind]. clear E2.
  unfold chk_i32 at 1. unfold chk at 1. destruct ((I32_MIN <=? cz - hp_zmin hp) && _) eqn:E1; [|lia]. cbn [obind]. clear E1.
  unfold clamp_i32 at 1. destruct (_ <? 0) eqn:E2; [lia|]. cbn [obind]. clear E2.
  unfold patch_col. fold cx cz. set (ix := Z.max 0 (Z.min (hp_w hp - 1) _)). set (iz := Z.max 0 (Z.min (hp_h hp - 1) _)).
  assert (0 ≤ ix < hp_w hp) as Hix by (unfold ix; lia). assert (0 ≤ iz < hp_h hp) as Hiz by (unfold iz; lia).
  destruct (data_at_done hp ix iz Hok Hix Hiz) as (v & -> & Hv). cbn [obind].
  destruct (v =? UNSET) eqn:Eu; cbn [negb].
  2:{ exists v. split; [done|]. left. split; [done|]. split; [done|]. split; [done|]. unfold UNSET in Eu. lia. }
  assert (v = UNSET) as -> by lia.
  unfold chk_u32, chk. replace ((0 <=? r * 2) && (r * 2 <=? U32_MAX)) with true by (unfold U32_MAX; lia). cbn [obind].
  replace ((0 <=? r * 2 + 1) && (r * 2 + 1 <=? U32_MAX)) with true by (unfold U32_MAX; lia). cbn [obind].
  replace ((0 <=? (r * 2 + 1) * (r * 2 + 1)) && ((r * 2 + 1) * (r * 2 + 1) <=? U32_MAX)) with true by (unfold U32_MAX; nia). cbn [obind].
  replace ((r * 2 + 1) * (r * 2 + 1) - 1) with (4 * r * (r + 1)) by lia.
  assert (∀ u, ¬ stored (hp_data hp) (hp_w hp) (hp_h hp) ix iz u) as Hno.
  { intros u (_ & _ & Hu & Hne). rewrite Hv in Hu. injection Hu as <-. done. }
  destruct (decide (r = 0)) as [->|Hr0].
  { exists UNSET. split; [done|]. right. split; [done|]. right. split; [done|]. intros; lia. }
  destruct (spiral_spec hp ix iz ch (v_y f) Hok r 1 0 (spiral0 UNSET)) as (u & E & Hu).
  - lia.
  - lia.
  - done.
  - left. split; [done|]. split; [done|]. intros; lia.
  - intros; lia.
  - replace (4 * r * (r + 1) - (4 * 1 * (1 - 1) + 0)) with (4 * r * (r + 1)) in E by lia.
    replace (4 * 1 * (1 - 1) + 0) with 0 in E by lia. exists u. split; [done|]. right. split; [done|].
    assert (∀ k x' z', rings ix iz x' z' = k → 1 ≤ k → ∃ j', 0 ≤ j' < 8 * k ∧ x' = ix + (ring_pos k j').1 ∧ z' = iz + (ring_pos k j').2) as Honto.
    { intros k x' z' Hrg Hk. destruct (ring_pos_onto k (x' - ix) (z' - iz) Hk Hrg) as (j' & Hj' & Hp). exists j'. rewrite Hp. cbn. split; [done|]. lia. }
    assert (∀ k j', 1 ≤ k → 0 ≤ j' < 8 * k → rings ix iz (ix + (ring_pos k j').1) (iz + (ring_pos k j').2) = k) as Hcheb.
    { intros k j' Hk Hj'. unfold rings. rewrite <-(ring_pos_cheb k j' Hk Hj') at 3. f_equal; f_equal; lia. }
    destruct Hu as [(k & Hk & (j' & Hj' & Hc) & Hcmp & Hprev & Hbest)|(-> & Hnone)].
    + left. exists k. split; [done|]. split; [eexists _, _; split; [by apply Hcheb; [lia|done]|done]|]. split; [done|]. split.
      * intros k' w Hk' (x' & z' & Hrg & Hc'). destruct (decide (k' = 0)) as [->|].
        { exfalso. unfold rings in Hrg. replace x' with ix in Hc' by lia. replace z' with iz in Hc' by lia. by eapply Hno. }
        destruct (Honto k' x' z' Hrg) as (j2 & Hj2 & -> & ->); [lia|]. eapply (Hprev k' j2); [lia|done|done].
      * intros w (x' & z' & Hrg & Hc') _. destruct (Honto k x' z' Hrg) as (j2 & Hj2 & -> & ->); [lia|].
        by rewrite (Hbest j2 w Hj2 Hc').
    + right. split; [done|]. intros k w Hk (x' & z' & Hrg & Hc'). destruct (Honto k x' z' Hrg) as (j2 & Hj2 & -> & ->); [lia|].
      by eapply (Hnone k j2).
Qed.
