(** Theorems for C87 (agents that differ in height or climb) and C88 (the order of the
    triangles and the walkable floors). *)
From Verif Require Import Base ModelMath ModelHeightfield ModelFilters ModelHistory
  SpecHeightfield HeapProofs InsertProofs FilterProofs HistoryProofs PropertiesHeightfield.
Local Open Scope Z_scope.

(** ** C87 *)
(** The [i]-th span of a column is walkable before filtering, or is a low step above one
    that is. *)
Definition carries (climb : Z) (l : list cell) (i : nat) : Prop :=
  ∃ a, l !! i = Some a ∧
    (walkable a ∨ ∃ j b, i = S j ∧ l !! j = Some b ∧ walkable b ∧ c_max a - c_max b ≤ climb).

(** An agent of height [wh] and climb [climb] can stand on span [i] of cell [(x, z)]. *)
Definition can_stand (wh climb : Z) (hf : hfield) (x z i : nat) : Prop :=
  ∃ hf' l a, run_filters wh climb hf = Done hf' ∧ is_column hf' (x + z * hf_w hf) l ∧
    l !! i = Some a ∧ walkable a.

(** What the three filters leave, in full. *)
Theorem C87_standing_exact :
  ∀ hf wh climb G x z l i a, reachable hf → 0 ≤ wh ≤ 65535 → 0 ≤ climb ≤ 65535 → field_geometry hf G →
  (x < hf_w hf)%nat → (z < hf_h hf)%nat → is_column hf (x + z * hf_w hf) l → l !! i = Some a →
  can_stand wh climb hf x z i ↔
    carries climb l i ∧ wh ≤ open_top (geometry l) i - c_max a ∧
    ¬ is_ledge (column_map (hf_w hf) (hf_h hf) G) wh climb x z (c_max a) (open_top (geometry l) i).
Proof.
  intros hf wh climb G x z l i a (cols & Hok)%reachable_ok Hwh Hcl HG Hx Hz Hcol Hi. pose proof Hok as [Hr Hl Hf].
  apply (field_geometry_rep _ _ _ Hok) in HG as ->.
  assert (runs (run_filters wh climb hf) (λ hf', ∀ l', is_column hf' (x + z * hf_w hf) l' →
    ∃ a', l' !! i = Some a' ∧ (walkable a' ↔ carries climb l i ∧ wh ≤ open_top (geometry l) i - c_max a ∧
      ¬ is_ledge (column_map (hf_w hf) (hf_h hf) (geom <$> cols)) wh climb x z (c_max a) (open_top (geometry l) i)))
    ∧ runs (run_filters wh climb hf) (λ hf', ∃ l', is_column hf' (x + z * hf_w hf) l')) as [H1 H2].
  2: { unfold can_stand. destruct (run_filters wh climb hf) as [hf'| |]; [|done..]. cbn [runs] in *. split.
    - intros (h & l' & a' & [= <-] & Hc & Ha & Hw). destruct (H1 _ Hc) as (a2 & Ha2 & E).
      rewrite Ha in Ha2. injection Ha2 as <-. by apply E.
    - intros Hc. destruct H2 as [l' Hl']. destruct (H1 _ Hl') as (a2 & Ha2 & E).
      exists hf', l', a2. split_and!; [done|done|done|]. by apply E. }
  apply (is_column_rep _ _ _ _ Hr) in Hcol as (kl & E0 & <-).
  enough (runs (run_filters wh climb hf) (λ hf', ∃ l', is_column hf' (x + z * hf_w hf) l' ∧
    (∀ l2, is_column hf' (x + z * hf_w hf) l2 → l2 = l') ∧
    ∃ a', l' !! i = Some a' ∧ (walkable a' ↔ carries climb kl.*2 i ∧ wh ≤ open_top (geometry kl.*2) i - c_max a ∧
      ¬ is_ledge (column_map (hf_w hf) (hf_h hf) (geom <$> cols)) wh climb x z (c_max a) (open_top (geometry kl.*2) i)))) as H.
  { split; (eapply runs_mono; [exact H|]).
    - intros hf' (l' & Hl' & Hu & Ha) l2 Hl2. by rewrite (Hu _ Hl2).
    - intros hf' (l' & Hl' & _). by exists l'. }
  unfold run_filters.
  eapply runs_bind; [by apply filter_low_hanging_rep|].
  intros hf1 (Hsh1 & cols1 & Hr1 & Hl1 & Hall1).
  assert (length cols1 = (hf_w hf1 * hf_h hf1)%nat) as Hl1'.
  { destruct Hsh1 as (-> & -> & _). congruence. }
  eapply runs_bind; [by apply (filter_ledge_rep wh climb hf1 cols1)|].
  intros hf2 (Hsh2 & cols2 & Hr2 & Hl2 & Hall2).
  assert (length cols2 = (hf_w hf2 * hf_h hf2)%nat) as Hl2'.
  { destruct Hsh2 as (-> & -> & _). congruence. }
  eapply runs_mono; [by apply (filter_low_height_rep wh hf2 cols2)|].
  intros hf3 (Hsh3 & cols3 & Hr3 & Hl3 & Hall3).
  assert (geom <$> cols1 = geom <$> cols) as Hg1.
  { apply list_eq. intros c. rewrite !list_lookup_fmap. destruct (cols !! c) as [l|] eqn:E.
    - destruct (Hall1 _ _ E) as (l1 & -> & _ & V). cbn. f_equal. unfold geom. by rewrite V, low_pure_geometry.
    - apply lookup_ge_None in E. rewrite <-Hl1 in E. apply lookup_ge_None in E. by rewrite E. }
  rewrite Hg1 in Hall2. destruct Hsh1 as (Hw1 & Hh1 & _). rewrite Hw1, Hh1 in Hall2.
  set (c := (x + z * hf_w hf)%nat) in *.
  destruct (Hall1 _ _ E0) as (kl1 & E1 & _ & V1). destruct (Hall2 _ _ E1) as (kl2 & E2 & _ & V2).
  destruct (Hall3 _ _ E2) as (kl3 & E3 & _ & V3).
  assert (geometry kl1.*2 = geometry kl.*2) as G1 by by rewrite V1, low_pure_geometry.
  assert (geometry kl2.*2 = geometry kl.*2) as G2 by by rewrite V2, ledge_pure_geometry.
  replace (c mod hf_w hf)%nat with x in V2
    by (unfold c; rewrite Nat.mod_add by lia; by rewrite Nat.mod_small).
  replace (c / hf_w hf)%nat with z in V2
    by (unfold c; rewrite Nat.div_add by lia; by rewrite Nat.div_small).
  exists kl3.*2. split_and!.
  { apply (is_column_rep _ _ _ _ Hr3). by exists kl3. }
  { intros l2 (kl3' & E & <-)%(is_column_rep _ _ _ _ Hr3). congruence. }
  rewrite V3, height_pure_lookup, G2, V2, ledge_pure_lookup, G1, V1, low_pure_lookup, Hi.
  cbn [fmap option_fmap option_map].
  set (area := match _ with Some _ => _ | None => c_area a end).
  assert (walkable (Cell (c_min a) (c_max a) area) ↔ carries climb kl.*2 i) as Harea.
  { unfold walkable. cbn [c_area]. unfold carries. unfold area. clear area. split.
    - intros Hw. exists a. split; [done|]. destruct (decide (c_area a = 0)) as [Ez|]; [|by left]. right.
      destruct i as [|j]; [by rewrite Ez in Hw|]. destruct (kl.*2 !! j) as [b|] eqn:Eb; cbn in Hw; [|by rewrite Ez in Hw].
      exists j, b. split; [done|]. split; [done|]. unfold is_walkable, NOT_WALKABLE in Hw. unfold walkable.
      rewrite Ez in Hw. cbn in Hw. destruct (Z.eqb_spec (c_area b) 0); [done|]. cbn in Hw.
      destruct (Z.leb_spec (c_max a - c_max b) climb); [done|done].
    - intros (a0 & [= <-]%(eq_trans (eq_sym Hi)) & Hc). unfold walkable, is_walkable, NOT_WALKABLE in *.
      destruct (decide (c_area a = 0)) as [Ez|En].
      + destruct Hc as [?|(j & b & -> & Hb & Hwb & Hle)]; [done|]. rewrite Hb. cbn. rewrite Ez. cbn.
        destruct (Z.eqb_spec (c_area b) 0); [done|]. cbn.
        destruct (Z.leb_spec (c_max a - c_max b) climb); [done|lia].
      + destruct (Z.eqb_spec (c_area a) 0); [done|]. cbn.
        destruct i as [|j]; cbn; [done|]. destruct (kl.*2 !! j); cbn; done. }
  eexists. split; [reflexivity|]. rewrite <-Harea. unfold walkable. cbn [c_area c_max].
  rewrite <-ledge_flag_spec by lia.
  set (F := ledge_flag _ _ _ _ _ _ _).
  unfold is_walkable, NOT_WALKABLE.
  destruct (Z.eqb_spec area 0) as [Ez|En], F; cbn; destruct (Z.ltb_spec (open_top (geometry kl.*2) i - c_max a) wh);
    cbn; intuition (done || lia).
Qed.

(** An agent that climbs better loses a place only if it can step up from there, further
    than the other could, and the floors around then differ by more than its climb. *)
Theorem C87_better_climber :
  ∀ hf wh c1 c2 G x z l i a, reachable hf → 0 ≤ wh ≤ 65535 → 0 ≤ c1 ≤ c2 → c2 ≤ 65535 → field_geometry hf G →
  (x < hf_w hf)%nat → (z < hf_h hf)%nat → is_column hf (x + z * hf_w hf) l → l !! i = Some a →
  can_stand wh c1 hf x z i →
  can_stand wh c2 hf x z i ∨
  ∃ up down, let steps := step_floor (column_map (hf_w hf) (hf_h hf) G) wh c2 x z (c_max a) (open_top (geometry l) i) in
    steps up ∧ steps down ∧ c_max a + c1 < up ∧ down + c2 < up.
Proof.
  intros hf wh c1 c2 G x z l i a Hre Hwh Hc Hc2 HG Hx Hz Hl Hi Hs.
  pose proof (C87_standing_exact hf wh c1 G x z l i a Hre Hwh ltac:(lia) HG Hx Hz Hl Hi) as X1.
  pose proof (C87_standing_exact hf wh c2 G x z l i a Hre Hwh ltac:(lia) HG Hx Hz Hl Hi) as X2.
  apply X1 in Hs as (Hca & Hop & Hnl).
  set (cm := column_map (hf_w hf) (hf_h hf) G) in *. set (ce := open_top (geometry l) i) in *.
  assert (is_ledge cm wh c2 x z (c_max a) ce ∨ ¬ is_ledge cm wh c2 x z (c_max a) ce) as [Hl2|Hl2].
  { rewrite <-ledge_flag_spec by lia. destruct (ledge_flag _ _ _ _ _ _ _); [by left|by right]. }
  - right. destruct Hl2 as [H|[H|[(d & g & nf & nc & Hd & Hn & Hg & Ho & Hlt)|(f1 & f2 & S1 & S2 & Hgt)]]].
    + exfalso. apply Hnl. by left.
    + exfalso. apply Hnl. by right; left.
    + exfalso. apply Hnl. right. right. left. exists d, g, nf, nc. split_and!; [done..|lia].
    + exists f1, f2. cbn zeta. split; [done|]. split; [done|]. split; [|lia].
      destruct (decide (c_max a + c1 < f1)) as [|Hle]; [done|]. exfalso. apply Hnl.
      assert (f2 < c_max a - c1 ∨ c_max a - c1 ≤ f2) as [Hlow|Hhi] by lia.
      * right. right. left. destruct S2 as [->|(d & g & nc & Hd & Hn & Hg & Ho & _)]; [lia|].
        exists d, g, f2, nc. by split_and!.
      * right. right. right. exists f1, f2. split_and!.
        -- destruct S1 as [->|(d & g & nc & Hd & Hn & Hg & Ho & _)]; [by left|]. right. exists d, g, nc.
           split_and!; [done..|lia].
        -- destruct S2 as [->|(d & g & nc & Hd & Hn & Hg & Ho & _)]; [by left|]. right. exists d, g, nc.
           split_and!; [done..|lia].
        -- lia.
  - left. apply X2. split_and!; [|done|done].
    destruct Hca as (a0 & Ha0 & Hw). exists a0. split; [done|].
    destruct Hw as [?|(j & b & ? & ? & ? & ?)]; [by left|]. right. exists j, b. split_and!; [done..|lia].
Qed.

(** A smaller agent loses a place only if it is a ledge for it, because of an opening
    beside the place that is too low for the taller agent. *)
Theorem C87_smaller_agent :
  ∀ hf h1 h2 climb G x z l i a, reachable hf → 0 ≤ h1 ≤ h2 → h2 ≤ 65535 → 0 ≤ climb ≤ 65535 → field_geometry hf G →
  (x < hf_w hf)%nat → (z < hf_h hf)%nat → is_column hf (x + z * hf_w hf) l → l !! i = Some a →
  can_stand h2 climb hf x z i →
  can_stand h1 climb hf x z i ∨
  ∃ d g, let ce := open_top (geometry l) i in
    (d < 4)%nat ∧ neighbour (column_map (hf_w hf) (hf_h hf) G) x z d = Some g ∧
    (h1 ≤ Z.min ce (open_bottom g) - c_max a < h2 ∨
     ∃ nf nc, gap g nf nc ∧ h1 ≤ Z.min ce nc - Z.max (c_max a) nf < h2).
Proof.
  intros hf h1 h2 climb G x z l i a Hre Hh Hh2 Hc HG Hx Hz Hl Hi Hs.
  pose proof (C87_standing_exact hf h1 climb G x z l i a Hre ltac:(lia) Hc HG Hx Hz Hl Hi) as X1.
  pose proof (C87_standing_exact hf h2 climb G x z l i a Hre ltac:(lia) Hc HG Hx Hz Hl Hi) as X2.
  apply X2 in Hs as (Hca & Hop & Hnl).
  set (cm := column_map (hf_w hf) (hf_h hf) G) in *. set (ce := open_top (geometry l) i) in *.
  assert (is_ledge cm h1 climb x z (c_max a) ce ∨ ¬ is_ledge cm h1 climb x z (c_max a) ce) as [Hl2|Hl2].
  3: { left. apply X1. split_and!; [done|lia|done]. }
  { rewrite <-ledge_flag_spec by lia. destruct (ledge_flag _ _ _ _ _ _ _); [by left|by right]. }
  right. destruct Hl2 as [H|[(d & g & Hd & Hn & Ho)|[(d & g & nf & nc & Hd & Hn & Hg & Ho & Hlt)|(f1 & f2 & S1 & S2 & Hgt)]]].
  - exfalso. apply Hnl. by left.
  - exists d, g. cbn zeta. split_and!; [done..|]. left. split; [done|].
    destruct (decide (h2 ≤ Z.min ce (open_bottom g) - c_max a)); [|lia].
    exfalso. apply Hnl. right. left. by exists d, g.
  - exists d, g. cbn zeta. split_and!; [done..|]. right. exists nf, nc. split; [done|]. split; [done|].
    destruct (decide (h2 ≤ Z.min ce nc - Z.max (c_max a) nf)); [|lia].
    exfalso. apply Hnl. right. right. left. by exists d, g, nf, nc.
  - assert (∀ f, step_floor cm h1 climb x z (c_max a) ce f → step_floor cm h2 climb x z (c_max a) ce f ∨
      ∃ d g, (d < 4)%nat ∧ neighbour cm x z d = Some g ∧
        ∃ nf nc, gap g nf nc ∧ h1 ≤ Z.min ce nc - Z.max (c_max a) nf < h2) as Hst.
    { intros f [->|(d & g & nc & Hd & Hn & Hg & Ho & Hb)]; [by left; left|].
      destruct (decide (h2 ≤ Z.min ce nc - Z.max (c_max a) f)).
      - left. right. exists d, g, nc. by split_and!.
      - right. exists d, g. split_and!; [done..|]. exists f, nc. split; [done|lia]. }
    destruct (Hst _ S1) as [T1|(d & g & ? & ? & ?)]; [|exists d, g; cbn zeta; split_and!; [done..|by right]].
    destruct (Hst _ S2) as [T2|(d & g & ? & ? & ?)]; [|exists d, g; cbn zeta; split_and!; [done..|by right]].
    exfalso. apply Hnl. right. right. right. by exists f1, f2.
Qed.

(** Nine columns with given spans, in row-major order, all walkable. *)
Definition field9 (cols : list (list (Z * Z))) : list hf_op :=
  concat (imap (λ n col, (λ '(a, b), OpInsert (mkIns (n mod 3) (n / 3) 1 (ex_span a b 255))) <$> col) cols).
Definition built9 (cols : list (list (Z * Z))) : hfield :=
  match run_ops (field9 cols) (new_hf 3 3 geo0) with Done hf => hf | _ => new_hf 0 0 geo0 end.
Definition stands (wh climb : Z) (hf : hfield) : option bool :=
  match run_filters wh climb hf with
  | Done hf' => match span_at hf' 1 1 with Done (Some s) => Some (negb (s_area s =? 0)) | _ => None end
  | _ => None
  end.

Lemma column_unique hf c l l' : reachable hf → is_column hf c l → is_column hf c l' → l = l'.
Proof.
  intros (cols & [Hr _ _])%reachable_ok (kl & E & <-)%(is_column_rep _ _ _ _ Hr) (kl' & E' & <-)%(is_column_rep _ _ _ _ Hr).
  congruence.
Qed.

Lemma stands_spec wh climb hf b : reachable hf → 0 ≤ wh ≤ 65535 → 0 ≤ climb ≤ 65535 → hf_w hf = 3%nat → hf_h hf = 3%nat →
  stands wh climb hf = Some b → can_stand wh climb hf 1 1 0 ↔ b = true.
Proof.
  intros Hre Hw Hc E1 E2 Hs. unfold stands in Hs. unfold can_stand.
  assert (run_filters wh climb hf = run_ops [OpLowHanging climb; OpLedge wh climb; OpLowHeight wh] hf) as Erun.
  { unfold run_filters. cbn. destruct (filter_low_hanging climb hf); cbn; [|done..].
    destruct (filter_ledge wh climb _); cbn; [|done..]. by destruct (filter_low_height wh _). }
  destruct (run_filters wh climb hf) as [hf'| |] eqn:E; [|done..].
  assert (Forall valid_op [OpLowHanging climb; OpLedge wh climb; OpLowHeight wh]) as Hvo.
  { repeat (apply List.Forall_cons; [cbn; lia|]). constructor. }
  destruct (reachable_ok _ Hre) as [cols Hok].
  pose proof (run_ops_ok [OpLowHanging climb; OpLedge wh climb; OpLowHeight wh] hf cols) as Hr'.
  rewrite <-Erun in Hr'. cbn [runs] in Hr'.
  destruct Hr' as [(Hw' & Hh' & _) [cols' Hok']]; [exact Hvo|done|].
  assert (reachable hf') as Hre'.
  { destruct Hre as (w & h & g & ops & Hv & Hrun).
    exists w, h, g, (ops ++ [OpLowHanging climb; OpLedge wh climb; OpLowHeight wh]). split.
    - apply Forall_app. split; [done|exact Hvo].
    - unfold run_ops in *. rewrite foldM_app, Hrun. cbn [obind]. by rewrite <-Erun. }
  pose proof (C06_span_at_total hf' 1 1 Hre' ltac:(lia) ltac:(lia)) as H6.
  destruct (span_at hf' 1 1) as [[s|]| |]; [|done..]. cbn [runs] in H6. destruct H6 as (l & Hl & Hh).
  injection Hs as <-. rewrite Hw', E1 in Hl. rewrite E1. split.
  - intros (h & l' & a & [= <-] & Hl' & Ha & Hwa). rewrite (column_unique _ _ _ _ Hre' Hl' Hl) in Ha.
    destruct l as [|a' l]; [done|]. cbn in Ha, Hh. injection Ha as ->. injection Hh as ->. unfold walkable in Hwa. cbn in Hwa.
    by destruct (Z.eqb_spec (s_area s) 0).
  - intros Hb. destruct l as [|a' l]; [done|]. cbn in Hh. injection Hh as ->.
    eexists hf', _, _. split; [done|]. split; [exact Hl|]. split; [done|]. unfold walkable. cbn.
    by destruct (Z.eqb_spec (s_area s) 0).
Qed.

Lemma built9_reachable cols : Forall valid_op (field9 cols) →
  match run_ops (field9 cols) (new_hf 3 3 geo0) with Done _ => true | _ => false end = true →
  reachable (built9 cols).
Proof.
  intros Hv Hr. unfold built9. exists 3%nat, 3%nat, geo0, (field9 cols). split; [done|].
  by destruct (run_ops _ _).
Qed.

(** A step up on one side, a step down on the other. *)
Definition between_steps : list (list (Z * Z)) :=
  [[(0, 10)]; [(0, 10)]; [(0, 10)]; [(0, 9)]; [(0, 10)]; [(0, 12)]; [(0, 10)]; [(0, 10)]; [(0, 10)]].

(** "An agent that climbs better can stand wherever another one can": false. *)
Theorem C87_better_climber_refuted : ∃ hf wh c1 c2 x z i, reachable hf ∧ 0 ≤ c1 < c2 ∧
  can_stand wh c1 hf x z i ∧ ¬ can_stand wh c2 hf x z i.
Proof.
  assert (reachable (built9 between_steps)) as Hr.
  { apply built9_reachable; [|by vm_compute]. repeat (apply List.Forall_cons; [cbn; unfold valid_insertion; cbn; lia|]). constructor. }
  exists (built9 between_steps), 10, 1, 2, 1%nat, 1%nat, 0%nat. split; [done|]. split; [lia|]. split.
  - apply (stands_spec _ _ _ true Hr); [lia|lia|by vm_compute|by vm_compute|by vm_compute|done].
  - intros H. apply (stands_spec _ _ _ false Hr) in H; [done|lia|lia|by vm_compute|by vm_compute|by vm_compute].
Qed.

(** A pit on one side, under a roof that is too low for the taller agent. *)
Definition beside_pit : list (list (Z * Z)) :=
  [[(0, 10)]; [(0, 10)]; [(0, 10)]; [(0, 1); (16, 17)]; [(0, 10)]; [(0, 10)]; [(0, 10)]; [(0, 10)]; [(0, 10)]].

(** "A smaller agent can stand wherever a taller one can": false. *)
Theorem C87_smaller_agent_refuted : ∃ hf h1 h2 climb x z i, reachable hf ∧ 0 ≤ h1 < h2 ∧
  can_stand h2 climb hf x z i ∧ ¬ can_stand h1 climb hf x z i.
Proof.
  assert (reachable (built9 beside_pit)) as Hr.
  { apply built9_reachable; [|by vm_compute]. repeat (apply List.Forall_cons; [cbn; unfold valid_insertion; cbn; lia|]). constructor. }
  exists (built9 beside_pit), 5, 10, 2, 1%nat, 1%nat, 0%nat. split; [done|]. split; [lia|]. split.
  - apply (stands_spec _ _ _ true Hr); [lia|lia|by vm_compute|by vm_compute|by vm_compute|done].
  - intros H. apply (stands_spec _ _ _ false Hr) in H; [done|lia|lia|by vm_compute|by vm_compute|by vm_compute].
Qed.

(** The hypotheses of the theorems above hold for the field with the steps. *)
Example C87_ex : ∃ G, reachable (built9 between_steps) ∧ field_geometry (built9 between_steps) G ∧
  (∃ l a, is_column (built9 between_steps) 4 l ∧ l !! 0%nat = Some a) ∧
  can_stand 10 1 (built9 between_steps) 1 1 0 ∧ can_stand 20 1 (built9 between_steps) 1 1 0.
Proof.
  assert (reachable (built9 between_steps)) as Hr.
  { apply built9_reachable; [|by vm_compute]. repeat (apply List.Forall_cons; [cbn; unfold valid_insertion; cbn; lia|]). constructor. }
  destruct (reachable_ok _ Hr) as [cols Hok].
  exists (geom <$> cols). split; [done|]. split; [by apply (field_geometry_rep _ cols)|].
  assert (can_stand 10 1 (built9 between_steps) 1 1 0) as Hc.
  { apply (stands_spec _ _ _ true Hr); [lia|lia|by vm_compute|by vm_compute|by vm_compute|done]. }
  split_and!; [|done|].
  - pose proof (C06_span_at_total (built9 between_steps) 1 1 Hr) as H.
    assert (span_at (built9 between_steps) 1 1 = Done (Some (mkSpan 0 10 255 None))) as E by by vm_compute.
    assert (hf_w (built9 between_steps) = 3%nat ∧ hf_h (built9 between_steps) = 3%nat) as [Ew Eh] by (split; vm_compute; reflexivity).
    rewrite Ew, Eh in H. specialize (H ltac:(lia) ltac:(lia)). rewrite E in H. destruct H as (l & Hl & Hh). exists l. destruct l as [|a l]; [discriminate Hh|]. exists a. split; [exact Hl|reflexivity].
  - apply (stands_spec _ _ _ true Hr); [lia|lia|by vm_compute|by vm_compute|by vm_compute|done].
Qed.

(** ** C88 *)
(** The inserted span [i] lies in column [c], within [m]. *)
Definition lies_in (w : nat) (c : nat) (m : cell) (i : insertion) : Prop :=
  (in_x i + in_z i * w)%nat = c ∧ c_min m ≤ s_min (in_span i) ∧ s_max (in_span i) ≤ c_max m.

Definition inside (w h : nat) (i : insertion) : Prop := (in_x i < w)%nat ∧ (in_z i < h)%nat.

Lemma good_apart l : good_column l → ∀ i j a b, (i < j)%nat → l !! i = Some a → l !! j = Some b → c_max a < c_min b.
Proof.
  intros [G1 G2] i j a b Hij Ha Hb. revert b Hb. induction Hij as [|j Hij IH]; intros b Hb; [by eapply G2|].
  assert (is_Some (l !! j)) as [c Hc]. { apply lookup_lt_is_Some. apply lookup_lt_Some in Hb. lia. }
  pose proof (IH _ Hc). pose proof (G2 _ _ _ Hc Hb). pose proof (G1 _ _ Hc). lia.
Qed.

Lemma good_meet l a b y : good_column l → a ∈ l → b ∈ l → c_min a ≤ y ≤ c_max a → c_min b ≤ y ≤ c_max b → a = b.
Proof.
  intros Hg [i Hi]%elem_of_list_lookup [j Hj]%elem_of_list_lookup Ya Yb.
  destruct (Nat.lt_trichotomy i j) as [H|[->|H]].
  - pose proof (good_apart l Hg i j a b H Hi Hj). lia.
  - congruence.
  - pose proof (good_apart l Hg j i b a H Hj Hi). lia.
Qed.

Lemma reachable_good hf c l : reachable hf → is_column hf c l → good_column l.
Proof.
  intros (cols & [Hr _ Hf])%reachable_ok (kl & E & <-)%(is_column_rep _ _ _ _ Hr). by destruct (Hf _ _ E).
Qed.

(** The area of a span is the area of a span that was inserted within it, and at least
    that of every one that reaches up to the merge threshold below its ceiling, whatever
    the order of the insertions. *)
Theorem C88_area_of_a_span :
  ∀ w h g t is hf c l, Forall valid_insertion is → Forall (inside w h) is → Forall (λ i, in_thr i = t) is →
  run_ops (OpInsert <$> is) (new_hf w h g) = Done hf → is_column hf c l →
  (∀ i, i ∈ is → (in_x i + in_z i * w)%nat = c → ∃ m, m ∈ l ∧ lies_in w c m i) ∧
  ∀ m, m ∈ l →
    (∃ i, i ∈ is ∧ lies_in w c m i ∧ s_area (in_span i) = c_area m) ∧
    (∀ i, i ∈ is → lies_in w c m i → c_max m - t ≤ s_max (in_span i) → s_area (in_span i) ≤ c_area m).
Proof.
  intros w h g t is. induction is as [|i is IH] using rev_ind; intros hf c l Hv Hin Ht Hrun Hcol.
  { cbn in Hrun. injection Hrun as <-. split; [by intros i ?%elem_of_nil|].
    intros m Hm. exfalso. destruct Hcol as (kl & (o & Ho & Hk) & <-). cbn in Ho.
    apply elem_of_list_lookup_2 in Ho. apply elem_of_list_In, repeat_spec in Ho. subst o.
    destruct kl as [|[k a] kl]; [by apply elem_of_nil in Hm|]. by destruct Hk. }
  assert (Forall valid_op (OpInsert <$> (is ++ [i]))) as Hva by by apply Forall_fmap.
  pose proof (run_ops_ok _ _ _ Hva (hf_ok_new w h g)) as Hshape. rewrite Hrun in Hshape. cbn [runs] in Hshape.
  destruct Hshape as [(HwF & HhF & _) Hshape]. cbn in HwF, HhF. clear Hva.
  apply Forall_app in Hv as [Hv Hvi]. apply Forall_app in Hin as [Hin Hini]. apply Forall_app in Ht as [Ht Hti].
  apply (proj1 (Forall_singleton _ _)) in Hvi, Hini, Hti.
  assert (Forall valid_op (OpInsert <$> is)) as Hvo by by apply Forall_fmap.
  rewrite fmap_app in Hrun. unfold run_ops in Hrun. rewrite foldM_app in Hrun.
  pose proof (run_ops_ok _ _ _ Hvo (hf_ok_new w h g)) as Hok. unfold run_ops in *.
  destruct (foldM run_op (OpInsert <$> is) (new_hf w h g)) as [hf1| |] eqn:E1; [|done..]. cbn [runs] in Hok.
  destruct Hok as [(Hw1 & Hh1 & _) [cols1 Hok1]]. cbn in Hw1, Hh1.
  assert (reachable hf1) as Hre1 by by exists w, h, g, (OpInsert <$> is).
  cbn [obind fmap list_fmap foldM run_op] in Hrun.
  unfold inside in Hini. destruct Hini as [Hx Hz].
  pose proof (C05_merged_area hf1 i Hre1 Hvi ltac:(by rewrite Hw1) ltac:(by rewrite Hh1)) as H5.
  pose proof (C03_insertion_exact hf1 i Hre1 Hvi ltac:(by rewrite Hw1) ltac:(by rewrite Hh1)) as H3.
  cbn zeta in H5, H3.
  destruct (add_span hf1 i) as [r| |] eqn:Er; [|done..]. cbn [runs obind] in *.
  destruct H5 as (hf' & -> & H5). destruct H3 as (hf'' & [= <-] & H3 & Hother). injection Hrun as ->.
  assert (reachable hf) as Hre.
  { apply (reachable_step (OpInsert i) hf1); [done|done|]. cbn.
    by rewrite Er. }
  clear Er. set (ci := (in_x i + in_z i * hf_w hf1)%nat) in *.
  assert (ci = in_x i + in_z i * w)%nat as Eci by (unfold ci; by rewrite Hw1).
  assert (∀ c', (c' < w * h)%nat → ∃ l', is_column hf1 c' l') as Hex.
  { intros c' Hc'. destruct Hok1 as [Hr1 Hl1 _]. rewrite Hw1, Hh1 in Hl1. rewrite <-Hl1 in Hc'.
    apply lookup_lt_is_Some in Hc' as [kl Hkl]. exists kl.*2. apply (is_column_rep _ _ _ _ Hr1). eauto. }
  assert (c < w * h)%nat as Hc.
  { destruct Hshape as [cols [Hr Hl _]]. apply (is_column_rep _ _ _ _ Hr) in Hcol as (kl & E & _).
    apply lookup_lt_Some in E. by rewrite Hl, HwF, HhF in E. }
  destruct (Hex c Hc) as [l0 Hl0]. destruct (IH hf1 c l0 Hv Hin Ht eq_refl Hl0) as [P0 I0].
  pose proof (reachable_good _ _ _ Hre1 Hl0) as G0. pose proof (reachable_good _ _ _ Hre Hcol) as Gl.
  destruct (decide (c = ci)) as [Ec|Ec].
  2: { assert (l = l0) as -> by (eapply (column_unique hf); [done|done|by apply Hother]). split.
    - intros i0 [Hi0|Hi0]%elem_of_app E0; [by apply P0|]. apply elem_of_list_singleton in Hi0 as ->. congruence.
    - intros m Hm. destruct (I0 m Hm) as [(i0 & ? & ?) Hup]. split.
      + exists i0. split; [apply elem_of_app; by left|done].
      + intros i1 [Hi1|Hi1]%elem_of_app Hlies Hm1; [by apply Hup|]. apply elem_of_list_singleton in Hi1 as ->.
        destruct Hlies as [? _]. congruence. }
  rewrite Ec in *. clear Ec c.
  destruct (H5 l0 Hl0) as (l' & m0 & Hl' & Hm0 & B1 & B2 & A1 & A2 & A3 & Hall).
  rewrite <-(column_unique _ _ _ _ Hre Hcol Hl') in *. clear l' Hl'.
  destruct (H3 l0 Hl0) as (l' & Hl' & Hsol). rewrite <-(column_unique _ _ _ _ Hre Hcol Hl') in *. clear l' Hl'.
  cbn [c_min c_max c_area] in *. destruct Hvi as (Vi & _).
  assert (∀ a, a ∈ l0 → overlaps a (Cell (s_min (in_span i)) (s_max (in_span i)) (s_area (in_span i))) →
    c_min m0 ≤ c_min a ∧ c_max a ≤ c_max m0) as Hmerge.
  { intros a Ha Ho. destruct G0 as [Gb _]. pose proof Ha as [k Hk]%elem_of_list_lookup. pose proof (Gb _ _ Hk) as Hb.
    assert (∀ y, c_min a ≤ y ≤ c_max a → c_min m0 ≤ y ≤ c_max m0) as Hy.
    { intros y Hy. assert (solid l y) as (b & Hb' & Hyb). { apply Hsol. left. by exists a. }
      apply Hall in Hb' as [->|[Hb' Hno]]; [done|]. exfalso. apply Hno.
      by rewrite (good_meet l0 b a y (reachable_good _ _ _ Hre1 Hl0) Hb' Ha Hyb Hy). }
    pose proof (Hy (c_min a) ltac:(lia)). pose proof (Hy (c_max a) ltac:(lia)). lia. }
  assert (∀ a, a ∈ l0 → overlaps a (Cell (s_min (in_span i)) (s_max (in_span i)) (s_area (in_span i))) ∨
    ¬ overlaps a (Cell (s_min (in_span i)) (s_max (in_span i)) (s_area (in_span i)))) as Hdec.
  { intros a _. unfold overlaps. cbn. lia. }
  split.
  - intros i0 [Hi0|Hi0]%elem_of_app E0.
    + destruct (P0 i0 Hi0 E0) as (a & Ha & Hc0 & L1 & L2). destruct (Hdec a Ha) as [Ho|Ho].
      * destruct (Hmerge a Ha Ho). exists m0. split; [done|]. split_and!; [done|lia|lia].
      * exists a. split; [apply Hall; by right|done].
    + apply elem_of_list_singleton in Hi0 as ->. exists m0. split; [done|]. by split_and!.
  - intros m Hm. split.
    + apply Hall in Hm as [->|[Hm Hno]].
      * destruct A3 as [Ea|(a & Ha & Ho & _ & Ea)].
        -- exists i. split; [apply elem_of_app; right; by apply elem_of_list_singleton|]. by split_and!.
        -- destruct (I0 a Ha) as [(i0 & Hi0 & (Hc0 & L1 & L2) & Er) _]. destruct (Hmerge a Ha Ho).
           exists i0. split; [apply elem_of_app; by left|]. split; [split_and!; [done|lia|lia]|congruence].
      * destruct (I0 m Hm) as [(i0 & ? & ?) _]. exists i0. split; [apply elem_of_app; by left|done].
    + intros i0 Hi0 (Hc0 & L1 & L2) Htop.
      apply elem_of_app in Hi0 as [Hi0|Hi0].
      * destruct (P0 i0 Hi0 Hc0) as (a & Ha & _ & L3 & L4).
        assert (s_min (in_span i0) ≤ s_max (in_span i0)) as Vi0.
        { destruct (proj1 (Forall_forall _ _) Hv i0 Hi0) as ((? & ?) & _). done. }
        destruct (I0 a Ha) as [_ Hup].
        destruct (Hdec a Ha) as [Ho|Ho].
        -- destruct (Hmerge a Ha Ho) as [M1 M2].
           assert (m = m0) as ->. { apply (good_meet l m m0 (s_max (in_span i0)) Gl); [done|done|lia|lia]. }
           assert (s_area (in_span i0) ≤ c_area a) by (apply Hup; [done|by split_and!|lia]).
           assert (c_area a ≤ c_area m0) by (apply A2; [done|done|lia]). lia.
        -- assert (a ∈ l) as Hal by (apply Hall; by right).
           assert (m = a) as ->. { apply (good_meet l m a (s_max (in_span i0)) Gl); [done|done|lia|lia]. }
           apply Hup; [done|by split_and!|done].
      * apply elem_of_list_singleton in Hi0 as ->.
        assert (m = m0) as ->. { apply (good_meet l m m0 (s_max (in_span i)) Gl); [done|done|lia|lia]. }
        done.
Qed.

(** So the order of the insertions does not matter for a span unless a walkable one lies
    deep within it. *)
Theorem C88_order_mostly_irrelevant :
  ∀ w h g t is1 is2 hf1 hf2 c l1 l2 k m1 m2, Forall valid_insertion is1 → Forall (inside w h) is1 →
  Forall (λ i, in_thr i = t) is1 → is1 ≡ₚ is2 →
  run_ops (OpInsert <$> is1) (new_hf w h g) = Done hf1 → run_ops (OpInsert <$> is2) (new_hf w h g) = Done hf2 →
  is_column hf1 c l1 → is_column hf2 c l2 → l1 !! k = Some m1 → l2 !! k = Some m2 →
  (∀ i, i ∈ is1 → lies_in w c m1 i → s_area (in_span i) ≠ 0 → c_max m1 - t ≤ s_max (in_span i)) →
  same_extent m1 m2 ∧ (walkable m1 ↔ walkable m2).
Proof.
  intros w h g t is1 is2 hf1 hf2 c l1 l2 k m1 m2 Hv Hin Ht Hp R1 R2 Hc1 Hc2 Hk1 Hk2 Htop.
  assert (Forall valid_insertion is2) as Hv2 by by rewrite <-Hp.
  assert (Forall (inside w h) is2) as Hin2 by by rewrite <-Hp.
  assert (Forall (λ i, in_thr i = t) is2) as Ht2 by by rewrite <-Hp.
  assert (∀ is hf, Forall valid_insertion is → run_ops (OpInsert <$> is) (new_hf w h g) = Done hf → reachable hf) as Hre.
  { intros is hf Hvi Hr. exists w, h, g, (OpInsert <$> is). split; [by apply Forall_fmap|done]. }
  assert (reachable (new_hf w h g)) as Hre0. { exists w, h, g, []. by split. }
  assert (c < w * h)%nat as Hc.
  { destruct Hc1 as (kl & (o & Ho & _) & _). apply lookup_lt_Some in Ho.
    assert (Forall valid_op (OpInsert <$> is1)) as Hva by by apply Forall_fmap.
    pose proof (run_ops_ok _ _ _ Hva (hf_ok_new w h g)) as Hs. rewrite R1 in Hs. cbn [runs] in Hs.
    destruct Hs as [(E1 & E2 & _) [cols [Hr Hl _]]]. cbn in E1, E2. rewrite <-(rep_len _ _ Hr), Hl, E1, E2 in Ho. done. }
  pose proof (C04_insertion_order_irrelevant (new_hf w h g) is1 is2 Hre0 Hv Hv2 (fmap_Permutation _ _ _ Hp)) as H4.
  rewrite R1 in H4. cbn [runs] in H4. rewrite R2 in H4. cbn [runs] in H4. destruct (H4 c Hc) as (l1' & l2' & H1 & H2 & Hg).
  rewrite (column_unique _ _ _ _ (Hre _ _ Hv R1) H1 Hc1), (column_unique _ _ _ _ (Hre _ _ Hv2 R2) H2 Hc2) in Hg.
  assert (same_extent m1 m2) as Hse.
  { assert (geometry l1 !! k = geometry l2 !! k) as E by by rewrite Hg. rewrite !geometry_lookup, Hk1, Hk2 in E.
    cbn in E. injection E as E1 E2. by split. }
  split; [done|].
  destruct (C88_area_of_a_span w h g t is1 hf1 c l1 Hv Hin Ht R1 Hc1) as [_ I1].
  destruct (C88_area_of_a_span w h g t is2 hf2 c l2 Hv2 Hin2 Ht2 R2 Hc2) as [_ I2].
  destruct (I1 m1) as [(i1 & Hi1 & L1 & A1) U1]; [by eapply elem_of_list_lookup_2|].
  destruct (I2 m2) as [(i2 & Hi2 & L2 & A2) U2]; [by eapply elem_of_list_lookup_2|].
  assert (∀ i, lies_in w c m1 i ↔ lies_in w c m2 i) as HL.
  { intros i. unfold lies_in. destruct Hse as [-> ->]. done. }
  destruct Hse as [_ E2]. unfold walkable.
  assert (∀ i, i ∈ is1 → 0 ≤ s_area (in_span i)) as Hpos.
  { intros i Hi. destruct (proj1 (Forall_forall _ _) Hv i Hi) as (_ & _ & [? _] & _). done. }
  split; intros Hw.
  - assert (s_area (in_span i1) ≠ 0) as Hn by congruence. pose proof (Htop i1 Hi1 L1 Hn) as Hto. pose proof (Hpos i1 Hi1).
    rewrite Hp in Hi1. pose proof (U2 i1 Hi1 ltac:(by apply HL) ltac:(lia)). lia.
  - assert (s_area (in_span i2) ≠ 0) as Hn by congruence. rewrite <-Hp in Hi2. apply HL in L2.
    pose proof (Htop i2 Hi2 L2 Hn) as Hto. pose proof (Hpos i2 Hi2). pose proof (U1 i2 Hi2 L2 Hto). lia.
Qed.

(** A steep wall through a walkable floor. *)
Definition wall_span : insertion := mkIns 0 0 1 (ex_span 0 20 0).
Definition floor_span : insertion := mkIns 0 0 1 (ex_span 5 5 255).

(** "Whether a floor is walkable does not depend on the order of the triangles": false. *)
Theorem C88_order_irrelevant_refuted : ∃ is1 is2 hf1 hf2 m1 m2,
  Forall valid_insertion is1 ∧ Forall (inside 1 1) is1 ∧ Forall (λ i, in_thr i = 1) is1 ∧ is1 ≡ₚ is2 ∧
  run_ops (OpInsert <$> is1) (new_hf 1 1 geo0) = Done hf1 ∧ run_ops (OpInsert <$> is2) (new_hf 1 1 geo0) = Done hf2 ∧
  is_column hf1 0 [m1] ∧ is_column hf2 0 [m2] ∧ walkable m1 ∧ ¬ walkable m2.
Proof.
  exists [wall_span; floor_span], [floor_span; wall_span]. eexists _, _. exists (Cell 0 20 255), (Cell 0 20 0).
  split_and!.
  - repeat (apply List.Forall_cons; [cbn; unfold valid_insertion; cbn; lia|]). constructor.
  - repeat (apply List.Forall_cons; [unfold inside; cbn; lia|]). constructor.
  - repeat (apply List.Forall_cons; [done|]). constructor.
  - solve_Permutation.
  - vm_compute. reflexivity.
  - vm_compute. reflexivity.
  - exists [(2%positive, Cell 0 20 255)]. split; [|done]. exists (Some 2%positive).
    split; [by vm_compute|]. split; [done|]. exists None. split; [by vm_compute|done].
  - exists [(2%positive, Cell 0 20 0)]. split; [|done]. exists (Some 2%positive).
    split; [by vm_compute|]. split; [done|]. exists None. split; [by vm_compute|done].
  - done.
  - unfold walkable. cbn. intros H. by apply H.
Qed.

(** The hypotheses hold for a floor on top of a box, in both orders. *)
Example C88_ex : let is1 := [mkIns 0 0 1 (ex_span 0 20 0); mkIns 0 0 1 (ex_span 20 20 255)] in
  Forall valid_insertion is1 ∧ Forall (inside 1 1) is1 ∧ Forall (λ i, in_thr i = 1) is1 ∧
  ∃ hf1 hf2, run_ops (OpInsert <$> is1) (new_hf 1 1 geo0) = Done hf1 ∧
    run_ops (OpInsert <$> reverse is1) (new_hf 1 1 geo0) = Done hf2 ∧
    is_column hf1 0 [Cell 0 20 255] ∧ is_column hf2 0 [Cell 0 20 255] ∧
    ∀ i, i ∈ is1 → lies_in 1 0 (Cell 0 20 255) i → s_area (in_span i) ≠ 0 → 20 - 1 ≤ s_max (in_span i).
Proof.
  cbn zeta. split_and!.
  - repeat (apply List.Forall_cons; [cbn; unfold valid_insertion; cbn; lia|]). constructor.
  - repeat (apply List.Forall_cons; [unfold inside; cbn; lia|]). constructor.
  - repeat (apply List.Forall_cons; [done|]). constructor.
  - eexists _, _. split_and!.
    + vm_compute. reflexivity.
    + vm_compute. reflexivity.
    + exists [(2%positive, Cell 0 20 255)]. split; [|done]. exists (Some 2%positive).
      split; [by vm_compute|]. split; [done|]. exists None. split; [by vm_compute|done].
    + exists [(2%positive, Cell 0 20 255)]. split; [|done]. exists (Some 2%positive).
      split; [by vm_compute|]. split; [done|]. exists None. split; [by vm_compute|done].
    + intros i [->|[->|Hi%elem_of_nil]%elem_of_cons]%elem_of_cons _ Hn; [done|cbn; lia|done].
Qed.

Print Assumptions C87_standing_exact.
Print Assumptions C87_better_climber.
Print Assumptions C87_smaller_agent.
Print Assumptions C87_better_climber_refuted.
Print Assumptions C87_smaller_agent_refuted.
Print Assumptions C88_area_of_a_span.
Print Assumptions C88_order_mostly_irrelevant.
Print Assumptions C88_order_irrelevant_refuted.
