(** The three span filters: heap refinement and declarative meaning. *)
From Verif Require Import Base ModelMath ModelHeightfield ModelFilters SpecHeightfield
  HeapProofs.
Local Open Scope Z_scope.

Definition geom (l : list (key * cell)) : list (Z * Z) := geometry l.*2.

Lemma geometry_lookup l i :
  geometry l !! i = (λ a, (c_min a, c_max a)) <$> l !! i.
Proof. unfold geometry. apply list_lookup_fmap. Qed.

(** ** Generic rule for a pass that rewrites each column once *)
Lemma columns_pass (F : nat → list cell → list cell)
    (body : nat → nat → hfield → outcome hfield) hf cols :
  rep hf cols → length cols = (hf_w hf * hf_h hf)%nat →
  (∀ c l, cols !! c = Some l → geometry (F c l.*2) = geometry l.*2) →
  (∀ x z hf' cols' l, (x < hf_w hf)%nat → (z < hf_h hf)%nat →
     same_shape hf hf' → rep hf' cols' → geom <$> cols' = geom <$> cols →
     cols' !! (x + z * hf_w hf)%nat = Some l → cols !! (x + z * hf_w hf)%nat = Some l →
     runs (body x z hf') (λ hf'', same_shape hf' hf'' ∧
       ∃ l', rep hf'' (<[(x + z * hf_w hf)%nat := l']> cols') ∧ l'.*1 = l.*1 ∧
             l'.*2 = F (x + z * hf_w hf)%nat l.*2)) →
  runs (for_cells (hf_w hf) (hf_h hf) body hf) (λ hf', same_shape hf hf' ∧
    ∃ cols', rep hf' cols' ∧ length cols' = length cols ∧
      ∀ c l, cols !! c = Some l →
        ∃ l', cols' !! c = Some l' ∧ l'.*1 = l.*1 ∧ l'.*2 = F c l.*2).
Proof.
  intros Hr Hlen Hgeo Hbody.
  eapply runs_mono.
  { apply (for_cells_inv (λ n hf', same_shape hf hf' ∧
      ∃ cols', rep hf' cols' ∧ length cols' = length cols ∧
        ∀ c l, cols !! c = Some l →
          ∃ l', cols' !! c = Some l' ∧ l'.*1 = l.*1 ∧
                (if decide (c < n)%nat then l'.*2 = F c l.*2 else l' = l))).
    - split; [apply same_shape_refl|]. exists cols. split_and!; [done|done|].
      intros c l Hc. exists l. split_and!; [done|done|]. by rewrite decide_False by lia.
    - intros x z hf' Hx Hz (Hsh & cols' & Hr' & Hl' & Hall).
      set (c := (x + z * hf_w hf)%nat).
      assert (c < length cols)%nat as Hc by (rewrite Hlen; unfold c; nia).
      destruct (lookup_lt_is_Some_2 _ _ Hc) as [l Hlk].
      destruct (Hall _ _ Hlk) as (l' & Hlk' & _ & El). rewrite decide_False in El by (unfold c; lia).
      subst l'.
      assert (geom <$> cols' = geom <$> cols) as Hg.
      { apply list_eq. intros c'. rewrite !list_lookup_fmap.
        destruct (cols !! c') as [l0|] eqn:E0.
        - destruct (Hall _ _ E0) as (l0' & -> & _ & Ec). cbn. f_equal. unfold geom.
          case_decide; [rewrite Ec; by apply Hgeo|by subst].
        - apply lookup_ge_None in E0. rewrite <-Hl' in E0.
          apply lookup_ge_None in E0. by rewrite E0. }
      eapply runs_mono; [by apply (Hbody x z hf' cols' l)|].
      intros hf'' (Hsh' & l'' & Hr'' & Hk & Hv). split; [by eapply same_shape_trans|].
      eexists. split; [exact Hr''|]. rewrite insert_length. split; [done|].
      intros c' l0 Hc'. destruct (decide (c' = c)) as [->|Hne].
      + rewrite list_lookup_insert by lia. rewrite Hlk in Hc'. injection Hc' as <-.
        exists l''. split_and!; [done|done|]. rewrite decide_True by lia. done.
      + rewrite list_lookup_insert_ne by done.
        destruct (Hall _ _ Hc') as (l0' & H1 & H2 & H3). exists l0'.
        split_and!; [done|done|].
        destruct (decide (c' < c)%nat).
        * rewrite decide_True in H3 by done. by rewrite decide_True by lia.
        * rewrite decide_False in H3 by done. by rewrite decide_False by lia. }
  intros hf' (Hsh & cols' & Hr' & Hl' & Hall). split; [done|].
  exists cols'. split_and!; [done|done|].
  intros c l Hc. destruct (Hall _ _ Hc) as (l' & H1 & H2 & H3). exists l'.
  split_and!; [done|done|].
  apply lookup_lt_Some in Hc. rewrite Hlen in Hc. rewrite decide_True in H3 by done. done.
Qed.

Lemma span_key_at_rep hf cols x z l :
  rep hf cols → cols !! column_index hf x z = Some l → span_key_at hf x z = head_key l.
Proof.
  intros Hr Hc. destruct (rep_chain _ _ Hr _ _ Hc) as (o & Ho & Hl).
  unfold span_key_at. rewrite Ho. by eapply links_head.
Qed.

(** ** Low hanging obstacles *)
Fixpoint low_pure (climb : Z) (prev : option (Z * bool * Z)) (l : list cell) : list cell :=
  match l with
  | [] => []
  | s :: l' =>
    let w := is_walkable (c_area s) in
    let a := match prev with
             | Some (pmax, pwalk, parea) =>
               if negb w && pwalk && (c_max s - pmax <=? climb) then parea else c_area s
             | None => c_area s
             end in
    Cell (c_min s) (c_max s) a :: low_pure climb (Some (c_max s, w, a)) l'
  end.

Lemma low_hanging_col_spec fuel climb hf cols c pre rest prev :
  rep hf cols → cols !! c = Some (pre ++ rest) → (length rest ≤ fuel)%nat →
  runs (low_hanging_col fuel climb hf prev (head_key rest)) (λ hf', same_shape hf hf' ∧
    ∃ rest', rep hf' (<[c := pre ++ rest']> cols) ∧ rest'.*1 = rest.*1 ∧
             rest'.*2 = low_pure climb prev rest.*2).
Proof.
  revert fuel hf cols pre prev.
  induction rest as [|[k ce] rest IH]; intros fuel hf cols pre prev Hr Hc Hf.
  { destruct fuel; cbn; (split; [apply same_shape_refl|]); exists [];
    rewrite list_insert_id by done; done. }
  destruct fuel as [|fuel]; [cbn in Hf; lia|].
  change (head_key ((k, ce) :: rest)) with (Some k). cbn [low_hanging_col].
  pose proof (rep_lookup _ _ _ _ _ _ _ Hr Hc) as Hk.
  unfold span_get. rewrite Hk. cbn [unwrap obind s_area s_max s_next].
  cbn [fmap list_fmap snd low_pure].
  set (area' := match prev with Some _ => _ | None => _ end).
  destruct (span_put_area_spec hf cols c pre k ce rest area' Hr Hc)
    as (s & Hs & Ecell & Enext & hf' & Hput & Hsh & Hcols & Hsz & Hr').
  rewrite Hk in Hs. injection Hs as <-. rewrite Hput. cbn [obind].
  eapply runs_mono.
  { apply (IH fuel hf' (<[c:=pre ++ (k, Cell (c_min ce) (c_max ce) area') :: rest]> cols)
       (pre ++ [(k, Cell (c_min ce) (c_max ce) area')])).
    - done.
    - rewrite list_lookup_insert by (by eapply lookup_lt_Some). by rewrite <-app_assoc.
    - cbn in Hf. lia. }
  intros hf'' (Hsh' & rest' & Hr'' & Hk' & Hv).
  split; [by eapply same_shape_trans|].
  exists ((k, Cell (c_min ce) (c_max ce) area') :: rest').
  rewrite list_insert_insert, <-app_assoc in Hr''. split_and!; [done| |].
  - cbn. by rewrite Hk'.
  - cbn. by rewrite Hv.
Qed.

Lemma low_pure_geometry climb prev l : geometry (low_pure climb prev l) = geometry l.
Proof.
  revert prev. induction l as [|s l IH]; intros prev; [done|].
  cbn [low_pure]. unfold geometry in *. cbn. by rewrite IH.
Qed.

Lemma filter_low_hanging_rep climb hf cols :
  rep hf cols → length cols = (hf_w hf * hf_h hf)%nat →
  runs (filter_low_hanging climb hf) (λ hf', same_shape hf hf' ∧
    ∃ cols', rep hf' cols' ∧ length cols' = length cols ∧
      ∀ c l, cols !! c = Some l →
        ∃ l', cols' !! c = Some l' ∧ l'.*1 = l.*1 ∧ l'.*2 = low_pure climb None l.*2).
Proof.
  intros Hr Hlen. unfold filter_low_hanging.
  apply (columns_pass (λ _ l, low_pure climb None l)); [done|done| |].
  - intros. apply low_pure_geometry.
  - intros x z hf' cols' l Hx Hz Hsh Hr' Hg Hc _.
    destruct Hsh as (Hw & Hh & _).
    rewrite (span_key_at_rep _ cols' _ _ l); [|done|unfold column_index; by rewrite Hw].
    pose proof (rep_size _ _ _ _ Hr' Hc).
    eapply runs_mono; [apply (low_hanging_col_spec _ _ _ cols' (x + z * hf_w hf)%nat [] l); [done|done|lia]|].
    done.
Qed.

(** Pointwise meaning: the areas depend only on the original column. *)
Lemma low_pure_lookup climb prev l i :
  low_pure climb prev l !! i =
  (λ a, Cell (c_min a) (c_max a)
     (match (match i with O => prev | S j =>
               (λ b, (c_max b, is_walkable (c_area b), c_area b)) <$> l !! j end) with
      | Some (pmax, pwalk, parea) =>
        if negb (is_walkable (c_area a)) && pwalk && (c_max a - pmax <=? climb)
        then parea else c_area a
      | None => c_area a
      end)) <$> l !! i.
Proof.
  revert prev i. induction l as [|s l IH]; intros prev [|i]; [done..| |].
  - cbn [low_pure lookup list_lookup fmap option_fmap option_map]. done.
  - cbn [low_pure lookup list_lookup].
    change (list_lookup i ?x) with (x !! i). rewrite IH.
    destruct i as [|i].
    + destruct (l !! 0%nat) as [a|] eqn:E; [|done].
      cbn [lookup list_lookup fmap option_fmap option_map].
      f_equal. f_equal. destruct (is_walkable (c_area s)) eqn:Ew.
      * cbn [negb andb]. destruct prev as [[[? ?] ?]|]; done.
      * rewrite !andb_false_r. done.
    + reflexivity.
Qed.

(** ** Ledges *)
Lemma next_floor_rep hf cols c pre k ce post :
  rep hf cols → cols !! c = Some (pre ++ (k, ce) :: post) →
  next_floor hf (head_key post) =
  Done (match post with (_, ce') :: _ => c_min ce' | [] => MAX_HEIGHT end).
Proof.
  intros Hr Hc. destruct post as [|[k' ce'] post]; [done|].
  change (head_key ((k', ce') :: post)) with (Some k'). cbn [next_floor].
  assert (cols !! c = Some ((pre ++ [(k, ce)]) ++ (k', ce') :: post)) as Hc'
    by (by rewrite <-app_assoc).
  unfold span_get. rewrite (rep_lookup _ _ _ _ _ _ _ Hr Hc'). done.
Qed.

Lemma next_floor_head hf cols c l :
  rep hf cols → cols !! c = Some l →
  next_floor hf (head_key l) =
  Done (match l with (_, ce') :: _ => c_min ce' | [] => MAX_HEIGHT end).
Proof.
  intros Hr Hc. destruct l as [|[k' ce'] post]; [done|].
  change (head_key ((k', ce') :: post)) with (Some k'). cbn [next_floor].
  assert (cols !! c = Some ([] ++ (k', ce') :: post)) as Hc' by done.
  unfold span_get. rewrite (rep_lookup _ _ _ _ _ _ _ Hr Hc'). done.
Qed.

Fixpoint nbr_pure (wh climb floor ceiling : Z) (st : ledge_st) (g : list (Z * Z)) : ledge_st :=
  match g with
  | [] => st
  | (_, nfloor) :: g' =>
    let nceil := match g' with (mn, _) :: _ => mn | [] => MAX_HEIGHT end in
    if Z.min ceiling nceil - Z.max floor nfloor <? wh then
      nbr_pure wh climb floor ceiling st g'
    else
      let d := nfloor - floor in
      let diff' := Z.min (l_diff st) d in
      if Z.abs d <=? climb then
        nbr_pure wh climb floor ceiling
          (mkLedge diff' (Z.min (l_lo st) nfloor) (Z.max (l_hi st) nfloor)) g'
      else if d <? - climb then mkLedge diff' (l_lo st) (l_hi st)
      else nbr_pure wh climb floor ceiling (mkLedge diff' (l_lo st) (l_hi st)) g'
  end.

Lemma ledge_nbr_spec fuel hf cols c wh climb floor ceiling st pre rest :
  rep hf cols → cols !! c = Some (pre ++ rest) → (length rest ≤ fuel)%nat →
  ledge_nbr fuel hf wh climb floor ceiling st (head_key rest) =
  Done (nbr_pure wh climb floor ceiling st (geom rest)).
Proof.
  revert fuel pre st. induction rest as [|[k ce] rest IH]; intros fuel pre st Hr Hc Hf.
  { by destruct fuel. }
  destruct fuel as [|fuel]; [cbn in Hf; lia|].
  change (head_key ((k, ce) :: rest)) with (Some k). cbn [ledge_nbr].
  unfold span_get. rewrite (rep_lookup _ _ _ _ _ _ _ Hr Hc).
  cbn [unwrap obind s_max s_next].
  rewrite (next_floor_rep _ _ _ _ _ _ _ Hr Hc). cbn [obind].
  assert (Hc' : cols !! c = Some ((pre ++ [(k, ce)]) ++ rest)) by (by rewrite <-app_assoc).
  assert (Hf' : (length rest ≤ fuel)%nat) by (cbn in Hf; lia).
  unfold geom, geometry. cbn [fmap list_fmap snd nbr_pure].
  replace (match (λ a : cell, (c_min a, c_max a)) <$> rest.*2 with
           | [] => MAX_HEIGHT | (mn, _) :: _ => mn end)
    with (match rest with [] => MAX_HEIGHT | (_, ce') :: _ => c_min ce' end)
    by (destruct rest as [|[? ?] ?]; done).
  rewrite !(IH fuel (pre ++ [(k, ce)])) by done. unfold geom, geometry.
  repeat case_match; done.
Qed.

Fixpoint dirs_pure (dirs : list nat) (cm : Z → Z → option (list (Z * Z))) (wh climb : Z)
    (x z : nat) (floor ceiling : Z) (st : ledge_st) : ledge_st :=
  match dirs with
  | [] => st
  | d :: dirs' =>
    match neighbour cm x z d with
    | None => mkLedge (- climb - 1) (l_lo st) (l_hi st)
    | Some g =>
      if wh <=? Z.min ceiling (open_bottom g) - floor
      then mkLedge (- climb - 1) (l_lo st) (l_hi st)
      else dirs_pure dirs' cm wh climb x z floor ceiling
             (nbr_pure wh climb floor ceiling st g)
    end
  end.

Lemma ledge_dirs_spec dirs hf cols wh climb x z floor ceiling st :
  rep hf cols → length cols = (hf_w hf * hf_h hf)%nat →
  Forall (λ d, d < 4)%nat dirs →
  ledge_dirs dirs hf wh climb x z floor ceiling st =
  Done (dirs_pure dirs (column_map (hf_w hf) (hf_h hf) (geom <$> cols)) wh climb x z
          floor ceiling st).
Proof.
  intros Hr Hlen Hd. revert st. induction dirs as [|d dirs IH]; intros st; [done|].
  apply Forall_cons in Hd as [Hd Hds]. cbn [ledge_dirs dirs_pure].
  unfold neighbour.
  assert (Ex : nth d [-1; 0; 1; 0] 0 = dir_offset_x d).
  { destruct d as [|[|[|[|d]]]]; [done..|lia]. }
  assert (Ez : nth d [0; 1; 0; -1] 0 = dir_offset_z d).
  { destruct d as [|[|[|[|d]]]]; [done..|lia]. }
  rewrite Ex, Ez. set (nx := Z.of_nat x + dir_offset_x d). set (nz := Z.of_nat z + dir_offset_z d).
  unfold column_map. unfold contains.
  case_decide as Hin.
  2:{ replace ((0 <=? nx) && (nx <? Z.of_nat (hf_w hf)) && (0 <=? nz) && (nz <? Z.of_nat (hf_h hf))) with false by lia.
      done. }
  replace ((0 <=? nx) && (nx <? Z.of_nat (hf_w hf)) && (0 <=? nz) && (nz <? Z.of_nat (hf_h hf))) with true by lia.
  cbn [negb].
  assert (Hlt : (column_index hf (Z.to_nat nx) (Z.to_nat nz) < length cols)%nat).
  { rewrite Hlen. unfold column_index. nia. }
  destruct (lookup_lt_is_Some_2 _ _ Hlt) as [l Hl].
  rewrite (span_key_at_rep _ _ _ _ _ Hr Hl).
  rewrite (next_floor_head _ _ _ _ Hr Hl). cbn [obind].
  unfold column_index in Hl. rewrite list_lookup_fmap, Hl. cbn [fmap option_fmap option_map].
  replace (open_bottom (geom l)) with (match l with [] => MAX_HEIGHT | (_, ce') :: _ => c_min ce' end)
    by (destruct l as [|[? ?] ?]; done).
  case_match; [done|].
  pose proof (rep_size _ _ _ _ Hr Hl).
  rewrite (ledge_nbr_spec _ _ cols _ _ _ _ _ _ []  l) by (done || lia).
  cbn [obind]. by apply IH.
Qed.

Definition ledge_flag (cm : Z → Z → option (list (Z * Z))) (wh climb : Z) (x z : nat)
    (fl ce : Z) : bool :=
  let st := dirs_pure (seq 0 4) cm wh climb x z fl ce (mkLedge MAX_HEIGHT fl fl) in
  if l_diff st <? - climb then true else climb <? l_hi st - l_lo st.

Fixpoint ledge_pure (cm : Z → Z → option (list (Z * Z))) (wh climb : Z) (x z : nat)
    (l : list cell) : list cell :=
  match l with
  | [] => []
  | s :: l' =>
    let ce := match l' with s' :: _ => c_min s' | [] => MAX_HEIGHT end in
    (if is_walkable (c_area s) && ledge_flag cm wh climb x z (c_max s) ce
     then Cell (c_min s) (c_max s) NOT_WALKABLE else s)
    :: ledge_pure cm wh climb x z l'
  end.

Lemma ledge_pure_geometry cm wh climb x z l : geometry (ledge_pure cm wh climb x z l) = geometry l.
Proof.
  induction l as [|s l IH]; [done|]. unfold geometry in *. cbn. rewrite IH.
  by case_match.
Qed.

Lemma geom_insert_id (cols : list (list (key * cell))) (c : nat) l l' :
  cols !! c = Some l → geom l' = geom l → geom <$> <[c := l']> cols = geom <$> cols.
Proof.
  intros Hc Hg. rewrite list_fmap_insert. apply list_insert_id.
  rewrite list_lookup_fmap, Hc. cbn. by rewrite Hg.
Qed.

Lemma ledge_col_spec fuel wh climb x z hf cols c pre rest :
  rep hf cols → length cols = (hf_w hf * hf_h hf)%nat →
  cols !! c = Some (pre ++ rest) → (length rest ≤ fuel)%nat →
  runs (ledge_col fuel wh climb x z hf (head_key rest)) (λ hf', same_shape hf hf' ∧
    ∃ rest', rep hf' (<[c := pre ++ rest']> cols) ∧ rest'.*1 = rest.*1 ∧
      rest'.*2 = ledge_pure (column_map (hf_w hf) (hf_h hf) (geom <$> cols)) wh climb x z rest.*2).
Proof.
  revert fuel hf cols pre.
  induction rest as [|[k ce] rest IH]; intros fuel hf cols pre Hr Hlen Hc Hf.
  { destruct fuel; cbn; (split; [apply same_shape_refl|]); exists [];
    rewrite list_insert_id by done; done. }
  destruct fuel as [|fuel]; [cbn in Hf; lia|].
  change (head_key ((k, ce) :: rest)) with (Some k). cbn [ledge_col].
  pose proof (rep_lookup _ _ _ _ _ _ _ Hr Hc) as Hk.
  unfold span_get. rewrite Hk. cbn [unwrap obind s_area s_max s_next].
  cbn [fmap list_fmap snd ledge_pure].
  assert (Hc' : cols !! c = Some ((pre ++ [(k, ce)]) ++ rest)) by (by rewrite <-app_assoc).
  assert (Hf' : (length rest ≤ fuel)%nat) by (cbn in Hf; lia).
  (* continuing without a change *)
  assert (Hsame : runs (ledge_col fuel wh climb x z hf (head_key rest)) (λ hf', same_shape hf hf' ∧
    ∃ rest', rep hf' (<[c := pre ++ (k, ce) :: rest']> cols) ∧ rest'.*1 = rest.*1 ∧
      rest'.*2 = ledge_pure (column_map (hf_w hf) (hf_h hf) (geom <$> cols)) wh climb x z rest.*2)).
  { eapply runs_mono; [by apply (IH fuel hf cols (pre ++ [(k, ce)]))|].
    intros hf' (Hsh & rest' & H1 & H2 & H3). split; [done|]. exists rest'.
    rewrite <-app_assoc in H1. done. }
  destruct (is_walkable (c_area ce)) eqn:Ew; cbn [negb andb].
  2:{ eapply runs_mono; [exact Hsame|]. intros hf' (Hsh & rest' & H1 & H2 & H3).
      split; [done|]. exists ((k, ce) :: rest'). split_and!; [done| |].
      - cbn. by rewrite H2.
      - cbn. by rewrite H3. }
  rewrite (next_floor_rep _ _ _ _ _ _ _ Hr Hc). cbn [obind].
  rewrite (ledge_dirs_spec _ _ cols); [|done|done|by apply Forall_seq; intros; lia].
  cbn [obind].
  replace (match rest.*2 with [] => MAX_HEIGHT | s' :: _ => c_min s' end)
    with (match rest with [] => MAX_HEIGHT | (_, ce') :: _ => c_min ce' end)
    by (by destruct rest as [|[? ?] ?]).
  set (ceil := match rest with [] => MAX_HEIGHT | (_, ce') :: _ => c_min ce' end).
  unfold ledge_flag at 1.
  set (st := dirs_pure _ _ _ _ _ _ _ _ _).
  destruct (if l_diff st <? - climb then true else climb <? l_hi st - l_lo st) eqn:Ef.
  2:{ cbn [obind]. eapply runs_mono; [exact Hsame|]. intros hf' (Hsh & rest' & H1 & H2 & H3).
      split; [done|]. exists ((k, ce) :: rest'). split_and!; [done| |].
      - cbn. by rewrite H2.
      - cbn. by rewrite H3. }
  destruct (span_put_area_spec hf cols c pre k ce rest NOT_WALKABLE Hr Hc)
    as (s & Hs & Ecell & Enext & hf' & Hput & Hsh & Hcols & Hsz & Hr').
  rewrite Hk in Hs. injection Hs as <-. rewrite Hput. cbn [obind].
  pose proof Hsh as (Hw & Hh & _).
  eapply runs_mono.
  { apply (IH fuel hf' (<[c:=pre ++ (k, Cell (c_min ce) (c_max ce) NOT_WALKABLE) :: rest]> cols)
       (pre ++ [(k, Cell (c_min ce) (c_max ce) NOT_WALKABLE)])).
    - done.
    - by rewrite insert_length, Hw, Hh.
    - rewrite list_lookup_insert by (by eapply lookup_lt_Some). by rewrite <-app_assoc.
    - done. }
  intros hf'' (Hsh' & rest' & Hr'' & Hk' & Hv).
  split; [by eapply same_shape_trans|].
  exists ((k, Cell (c_min ce) (c_max ce) NOT_WALKABLE) :: rest').
  rewrite list_insert_insert, <-app_assoc in Hr''. split_and!; [done| |].
  - cbn. by rewrite Hk'.
  - cbn [fmap list_fmap snd]. f_equal. unfold compose in Hv. cbn [fmap list_fmap] in Hv. rewrite Hv, Hw, Hh.
    rewrite (geom_insert_id _ _ _ _ Hc); [done|].
    unfold geom. rewrite !fmap_app. unfold geometry. by rewrite !fmap_app.
Qed.

Lemma filter_ledge_rep wh climb hf cols :
  rep hf cols → length cols = (hf_w hf * hf_h hf)%nat →
  runs (filter_ledge wh climb hf) (λ hf', same_shape hf hf' ∧
    ∃ cols', rep hf' cols' ∧ length cols' = length cols ∧
      ∀ c l, cols !! c = Some l →
        ∃ l', cols' !! c = Some l' ∧ l'.*1 = l.*1 ∧
          l'.*2 = ledge_pure (column_map (hf_w hf) (hf_h hf) (geom <$> cols)) wh climb
                    (c mod hf_w hf) (c / hf_w hf) l.*2).
Proof.
  intros Hr Hlen. unfold filter_ledge.
  apply (columns_pass (λ c l, ledge_pure (column_map (hf_w hf) (hf_h hf) (geom <$> cols)) wh climb
                    (c mod hf_w hf) (c / hf_w hf) l)); [done|done| |].
  - intros. apply ledge_pure_geometry.
  - intros x z hf' cols' l Hx Hz Hsh Hr' Hg Hc _.
    destruct Hsh as (Hw & Hh & _).
    rewrite (span_key_at_rep _ cols' _ _ l); [|done|unfold column_index; by rewrite Hw].
    pose proof (rep_size _ _ _ _ Hr' Hc).
    eapply runs_mono.
    { apply (ledge_col_spec _ _ _ _ _ _ cols' (x + z * hf_w hf)%nat [] l); [done| |done|lia].
      rewrite Hw, Hh, <-Hlen. apply (f_equal length) in Hg. by rewrite !fmap_length in Hg. }
    intros hf'' (H1 & l' & H2 & H3 & H4). split; [done|]. exists l'. split_and!; [done|done|].
    rewrite H4, Hw, Hh, Hg.
    rewrite (Nat.mod_add), Nat.mod_small by lia.
    rewrite Nat.div_add, Nat.div_small by lia. done.
Qed.

(** The computed flag is the declarative ledge predicate. *)
Definition bad_gap (wh climb fl ce : Z) (g : list (Z * Z)) : Prop :=
  ∃ nf nc, gap g nf nc ∧ wh ≤ Z.min ce nc - Z.max fl nf ∧ nf < fl - climb.
Definition trav_gap (wh climb fl ce : Z) (g : list (Z * Z)) (nf : Z) : Prop :=
  ∃ nc, gap g nf nc ∧ wh ≤ Z.min ce nc - Z.max fl nf ∧ Z.abs (nf - fl) ≤ climb.

Lemma gap_cons mn fl g nf nc :
  gap ((mn, fl) :: g) nf nc ↔ (nf = fl ∧ nc = open_bottom g) ∨ gap g nf nc.
Proof.
  unfold gap. split.
  - intros ([|i] & mn' & H & ->).
    + cbn in H. injection H as -> ->. left. split; [done|]. by destruct g as [|[? ?] ?].
    + right. by exists i, mn'.
  - intros [[-> ->]|(i & mn' & H & ->)].
    + exists 0%nat, mn. split; [done|]. by destruct g as [|[? ?] ?].
    + by exists (S i), mn'.
Qed.

Lemma gap_nil nf nc : ¬ gap [] nf nc.
Proof. intros (i & mn & H & _). by rewrite lookup_nil in H. Qed.

(** [st'] extends the traversable range of [st] by exactly the floors [T]. *)
Definition extends (st st' : ledge_st) (T : Z → Prop) : Prop :=
  (l_lo st' ≤ l_lo st ∧ (∀ nf, T nf → l_lo st' ≤ nf) ∧ (l_lo st' = l_lo st ∨ T (l_lo st'))) ∧
  (l_hi st ≤ l_hi st' ∧ (∀ nf, T nf → nf ≤ l_hi st') ∧ (l_hi st' = l_hi st ∨ T (l_hi st'))).

Lemma extends_ext st st' T T' : (∀ nf, T nf ↔ T' nf) → extends st st' T → extends st st' T'.
Proof. unfold extends. intros H ((?&?&?)&(?&?&?)). split_and!; naive_solver. Qed.

Lemma extends_trans st1 st2 st3 (T1 T2 T3 : Z → Prop) :
  extends st1 st2 T1 → extends st2 st3 T2 → (∀ nf, T3 nf ↔ T1 nf ∨ T2 nf) →
  extends st1 st3 T3.
Proof.
  unfold extends. intros ((A1&A2&A3)&(A4&A5&A6)) ((B1&B2&B3)&(B4&B5&B6)) HT.
  split_and!; try lia.
  - intros nf [H|H]%HT; [specialize (A2 _ H); lia|auto].
  - destruct B3 as [E|?]; [|right; apply HT; by right]. rewrite E.
    destruct A3 as [E'|?]; [left; lia|right; apply HT; by left].
  - intros nf [H|H]%HT; [specialize (A5 _ H); lia|auto].
  - destruct B6 as [E|?]; [|right; apply HT; by right]. rewrite E.
    destruct A6 as [E'|?]; [left; lia|right; apply HT; by left].
Qed.

Lemma nbr_pure_spec wh climb fl ce g st :
  0 ≤ climb →
  let st' := nbr_pure wh climb fl ce st g in
  (l_diff st' < - climb ↔ l_diff st < - climb ∨ bad_gap wh climb fl ce g) ∧
  (¬ bad_gap wh climb fl ce g → extends st st' (trav_gap wh climb fl ce g)).
Proof.
  intros Hcl. revert st. induction g as [|[mn nfl] g IH]; intros st.
  - cbn. split.
    + split; [by left|]. intros [?|(? & ? & H & _)]; [done|]. by apply gap_nil in H.
    + intros _. unfold extends. split_and!; try lia;
      intros nf (nc & H & _); by apply gap_nil in H.
  - cbn [nbr_pure].
    replace (match g with [] => MAX_HEIGHT | (mn0, _) :: _ => mn0 end) with (open_bottom g)
      by (destruct g as [|[? ?] ?]; done).
    set (nc := open_bottom g).
    assert (Hbad : bad_gap wh climb fl ce ((mn, nfl) :: g) ↔
       (wh ≤ Z.min ce nc - Z.max fl nfl ∧ nfl < fl - climb) ∨ bad_gap wh climb fl ce g).
    { unfold bad_gap. split.
      - intros (nf & nc' & [[-> ->]|Hg]%gap_cons & H1 & H2); [by left|right; eauto 10].
      - intros [[H1 H2]|(nf & nc' & Hg & H1 & H2)].
        + exists nfl, nc. rewrite gap_cons. auto.
        + exists nf, nc'. rewrite gap_cons. auto. }
    assert (Htr : ∀ nf, trav_gap wh climb fl ce ((mn, nfl) :: g) nf ↔
       (nf = nfl ∧ wh ≤ Z.min ce nc - Z.max fl nfl ∧ Z.abs (nfl - fl) ≤ climb) ∨
       trav_gap wh climb fl ce g nf).
    { intros nf. unfold trav_gap. split.
      - intros (nc' & [[-> ->]|Hg]%gap_cons & H1 & H2); [by left|right; eauto 10].
      - intros [(-> & H1 & H2)|(nc' & Hg & H1 & H2)].
        + exists nc. rewrite gap_cons. auto.
        + exists nc'. rewrite gap_cons. auto. }
    destruct (Z.ltb_spec (Z.min ce nc - Z.max fl nfl) wh) as [Hov|Hov].
    { destruct (IH st) as [I1 I2]. split.
      - rewrite I1, Hbad. split; [naive_solver|]. intros [?|[?|?]]; [by left|lia|by right].
      - rewrite Hbad. intros Hn. eapply extends_ext; [|apply I2; naive_solver].
        intros nf. rewrite Htr. split; [by right|]. intros [(_&?&_)|?]; [lia|done]. }
    destruct (Z.leb_spec (Z.abs (nfl - fl)) climb) as [Habs|Habs].
    { set (st2 := mkLedge _ _ _). destruct (IH st2) as [I1 I2]. cbn [l_diff l_lo l_hi st2] in *. split.
      - rewrite I1, Hbad. split.
        + intros [?|?]; [left; lia|by right; right].
        + intros [?|[?|?]]; [left; lia|lia|by right].
      - rewrite Hbad. intros Hn.
        eapply (extends_trans st st2 _ (λ nf, nf = nfl)); [|apply I2; naive_solver|].
        + unfold extends, st2; cbn. split_and!; lia.
        + intros nf. rewrite Htr. split; [naive_solver|].
          intros [->|?]; [left; split_and!; lia|by right]. }
    destruct (Z.ltb_spec (nfl - fl) (- climb)) as [Hdrop|Hdrop].
    { cbn [l_diff l_lo l_hi]. split.
      - split; [|lia]. intros _. right. rewrite Hbad. left. split; lia.
      - rewrite Hbad. intros Hn. exfalso. apply Hn. left. split; lia. }
    set (st2 := mkLedge _ _ _). destruct (IH st2) as [I1 I2]. cbn [l_diff l_lo l_hi st2] in *. split.
    + rewrite I1, Hbad. split.
      * intros [?|?]; [left; lia|by right; right].
      * intros [?|[?|?]]; [left; lia|lia|by right].
    + rewrite Hbad. intros Hn.
      eapply (extends_trans st st2 _ (λ nf, False)); [|apply I2; naive_solver|].
      * unfold extends, st2; cbn. split_and!; try lia; done.
      * intros nf. rewrite Htr. split; [|naive_solver]. intros [(_&_&?)|?]; [lia|by right].
Qed.

Definition dir_bad (cm : Z → Z → option (list (Z * Z))) (wh climb : Z) (x z : nat)
    (fl ce : Z) (d : nat) : Prop :=
  neighbour cm x z d = None ∨
  (∃ g, neighbour cm x z d = Some g ∧ wh ≤ Z.min ce (open_bottom g) - fl) ∨
  (∃ g, neighbour cm x z d = Some g ∧ bad_gap wh climb fl ce g).

Lemma dirs_pure_spec dirs cm wh climb x z fl ce st :
  0 ≤ climb →
  let st' := dirs_pure dirs cm wh climb x z fl ce st in
  (l_diff st' < - climb ↔ l_diff st < - climb ∨ ∃ d, d ∈ dirs ∧ dir_bad cm wh climb x z fl ce d) ∧
  ((∀ d, d ∈ dirs → ¬ dir_bad cm wh climb x z fl ce d) →
     extends st st' (λ nf, ∃ d g, d ∈ dirs ∧ neighbour cm x z d = Some g ∧
                                  trav_gap wh climb fl ce g nf)).
Proof.
  intros Hcl. revert st. induction dirs as [|d dirs IH]; intros st.
  - cbn. split.
    + split; [by left|]. intros [?|(d & Hd & _)]; [done|]. by apply elem_of_nil in Hd.
    + intros _. unfold extends. split_and!; try lia;
      intros nf (d & g & Hd & _); by apply elem_of_nil in Hd.
  - cbn [dirs_pure]. destruct (neighbour cm x z d) as [g|] eqn:En.
    2:{ cbn. assert (dir_bad cm wh climb x z fl ce d) as Hb by (by left). split.
        - split; [|lia]. intros _. right. exists d. split; [left|done].
        - intros Hn. exfalso. apply (Hn d); [left|done]. }
    destruct (Z.leb_spec wh (Z.min ce (open_bottom g) - fl)) as [Hu|Hu].
    { cbn. assert (dir_bad cm wh climb x z fl ce d) as Hb by (right; left; eauto). split.
      - split; [|lia]. intros _. right. exists d. split; [left|done].
      - intros Hn. exfalso. apply (Hn d); [left|done]. }
    destruct (nbr_pure_spec wh climb fl ce g st Hcl) as [N1 N2].
    destruct (IH (nbr_pure wh climb fl ce st g)) as [I1 I2].
    assert (Hdb : dir_bad cm wh climb x z fl ce d ↔ bad_gap wh climb fl ce g).
    { unfold dir_bad. rewrite En. split.
      - intros [?|[(g' & [= <-] & ?)|(g' & [= <-] & ?)]]; [done|lia|done].
      - intros. right. right. eauto. }
    split.
    + cbn zeta. rewrite I1, N1. split.
      * intros [[?|?]|(d' & ? & ?)]; [by left|right; exists d; split; [left|by apply Hdb]|].
        right. exists d'. split; [by right|done].
      * intros [?|(d' & [->|?]%elem_of_cons & ?)]; [by left; left| |].
        -- left. right. by apply Hdb.
        -- right. eauto.
    + intros Hn. eapply extends_trans.
      * apply N2. rewrite <-Hdb. apply Hn. left.
      * apply I2. intros d' Hd'. apply Hn. by right.
      * intros nf. split.
        -- intros (d' & g' & [->|?]%elem_of_cons & Hg' & Ht); [|right; eauto 10].
           rewrite En in Hg'. injection Hg' as <-. by left.
        -- intros [Ht|(d' & g' & ? & ? & ?)].
           ++ exists d, g. split_and!; [left|done|done].
           ++ exists d', g'. split_and!; [by right|done|done].
Qed.

Lemma elem_of_seq4 d : d ∈ seq 0 4 ↔ (d < 4)%nat.
Proof. rewrite elem_of_seq. lia. Qed.

Lemma ledge_flag_spec cm wh climb x z fl ce :
  0 ≤ climb →
  ledge_flag cm wh climb x z fl ce = true ↔ is_ledge cm wh climb x z fl ce.
Proof.
  intros Hcl. unfold ledge_flag.
  destruct (dirs_pure_spec (seq 0 4) cm wh climb x z fl ce (mkLedge MAX_HEIGHT fl fl) Hcl)
    as [D1 D2]. cbn zeta in *.
  set (st := dirs_pure (seq 0 4) cm wh climb x z fl ce (mkLedge MAX_HEIGHT fl fl)) in *.
  unfold extends in D2. cbn [l_diff l_lo l_hi] in *.
  destruct (Z.ltb_spec (l_diff st) (- climb)) as [Hlt|Hge].
  - split; [intros _|done]. apply D1 in Hlt as [Hlt|(d & Hd%elem_of_seq4 & Hb)]; [unfold MAX_HEIGHT in *; lia|].
    unfold is_ledge. destruct Hb as [?|[(g & ? & ?)|(g & ? & nf & nc & ? & ? & ?)]].
    + left. eauto.
    + right. left. eauto.
    + right. right. left. exists d, g, nf, nc. auto.
  - assert (Hno : ∀ d, d ∈ seq 0 4 → ¬ dir_bad cm wh climb x z fl ce d).
    { intros d Hd Hb. assert (l_diff st < - climb); [|lia]. apply D1. right. eauto. }
    destruct (D2 Hno) as [(L1 & L2 & L3) (H1 & H2 & H3)].
    assert (Hst : ∀ f, (∃ d g, d ∈ seq 0 4 ∧ neighbour cm x z d = Some g ∧ trav_gap wh climb fl ce g f)
                  → step_floor cm wh climb x z fl ce f).
    { intros f (d & g & Hd%elem_of_seq4 & Hg & nc & ? & ? & ?). right. exists d, g, nc. auto. }
    assert (Hlo : ∀ f, step_floor cm wh climb x z fl ce f → l_lo st ≤ f ≤ l_hi st).
    { intros f [->|(d & g & nc & Hd%elem_of_seq4 & Hg & Hgap & ? & ?)]; [lia|].
      assert (∃ d g, d ∈ seq 0 4 ∧ neighbour cm x z d = Some g ∧ trav_gap wh climb fl ce g f) as Ht.
      { exists d, g. split_and!; [done|done|]. exists nc. auto. }
      split; [by apply L2|by apply H2]. }
    split.
    + intros Hb. right. right. right. exists (l_hi st), (l_lo st). split_and!.
      * destruct H3 as [->|?]; [by left|by apply Hst].
      * destruct L3 as [->|?]; [by left|by apply Hst].
      * lia.
    + intros [(d & Hd & Hx)|[(d & g & Hd & Hg & Hx)|[(d & g & nf & nc & Hd & Hg & Hx)|(f1 & f2 & F1 & F2 & Hx)]]].
      * exfalso. apply (Hno d); [by apply elem_of_seq4|]. by left.
      * exfalso. apply (Hno d); [by apply elem_of_seq4|]. right. left. eauto.
      * exfalso. apply (Hno d); [by apply elem_of_seq4|]. right. right. exists g. split; [done|].
        by exists nf, nc.
      * apply Hlo in F1, F2. lia.
Qed.

Lemma ledge_pure_lookup cm wh climb x z l i :
  ledge_pure cm wh climb x z l !! i =
  (λ a, if is_walkable (c_area a) &&
           ledge_flag cm wh climb x z (c_max a) (open_top (geometry l) i)
        then Cell (c_min a) (c_max a) NOT_WALKABLE else a) <$> l !! i.
Proof.
  revert i. induction l as [|s l IH]; intros [|i]; [done..| |].
  - cbn. unfold open_top. by destruct l.
  - cbn [ledge_pure lookup list_lookup]. change (list_lookup i ?x) with (x !! i).
    rewrite IH. done.
Qed.

(** ** Low ceilings *)
Fixpoint height_pure (wh : Z) (l : list cell) : list cell :=
  match l with
  | [] => []
  | s :: l' =>
    let ce := match l' with s' :: _ => c_min s' | [] => MAX_HEIGHT end in
    (if ce - c_max s <? wh then Cell (c_min s) (c_max s) NOT_WALKABLE else s)
    :: height_pure wh l'
  end.

Lemma height_pure_geometry wh l : geometry (height_pure wh l) = geometry l.
Proof.
  induction l as [|s l IH]; [done|]. unfold geometry in *. cbn. rewrite IH. by case_match.
Qed.

Lemma low_height_col_spec fuel wh hf cols c pre rest :
  rep hf cols → cols !! c = Some (pre ++ rest) → (length rest ≤ fuel)%nat →
  runs (low_height_col fuel wh hf (head_key rest)) (λ hf', same_shape hf hf' ∧
    ∃ rest', rep hf' (<[c := pre ++ rest']> cols) ∧ rest'.*1 = rest.*1 ∧
      rest'.*2 = height_pure wh rest.*2).
Proof.
  revert fuel hf cols pre.
  induction rest as [|[k ce] rest IH]; intros fuel hf cols pre Hr Hc Hf.
  { destruct fuel; cbn; (split; [apply same_shape_refl|]); exists [];
    rewrite list_insert_id by done; done. }
  destruct fuel as [|fuel]; [cbn in Hf; lia|].
  change (head_key ((k, ce) :: rest)) with (Some k). cbn [low_height_col].
  pose proof (rep_lookup _ _ _ _ _ _ _ Hr Hc) as Hk.
  unfold span_get. rewrite Hk. cbn [unwrap obind s_area s_max s_next].
  rewrite (next_floor_rep _ _ _ _ _ _ _ Hr Hc). cbn [obind].
  cbn [fmap list_fmap snd height_pure].
  replace (match rest.*2 with [] => MAX_HEIGHT | s' :: _ => c_min s' end)
    with (match rest with [] => MAX_HEIGHT | (_, ce') :: _ => c_min ce' end)
    by (by destruct rest as [|[? ?] ?]).
  set (top := match rest with [] => MAX_HEIGHT | (_, ce') :: _ => c_min ce' end).
  assert (Hf' : (length rest ≤ fuel)%nat) by (cbn in Hf; lia).
  destruct (Z.ltb_spec (top - c_max ce) wh).
  - destruct (span_put_area_spec hf cols c pre k ce rest NOT_WALKABLE Hr Hc)
      as (s & Hs & Ecell & Enext & hf' & Hput & Hsh & Hcols & Hsz & Hr').
    rewrite Hk in Hs. injection Hs as <-. rewrite Hput. cbn [obind].
    eapply runs_mono.
    { apply (IH fuel hf' (<[c:=pre ++ (k, Cell (c_min ce) (c_max ce) NOT_WALKABLE) :: rest]> cols)
         (pre ++ [(k, Cell (c_min ce) (c_max ce) NOT_WALKABLE)])); [done| |done].
      rewrite list_lookup_insert by (by eapply lookup_lt_Some). by rewrite <-app_assoc. }
    intros hf'' (Hsh' & rest' & Hr'' & Hk' & Hv).
    split; [by eapply same_shape_trans|].
    exists ((k, Cell (c_min ce) (c_max ce) NOT_WALKABLE) :: rest').
    rewrite list_insert_insert, <-app_assoc in Hr''. split_and!; [done| |].
    + cbn. by rewrite Hk'.
    + cbn. by rewrite Hv.
  - cbn [obind]. eapply runs_mono.
    { apply (IH fuel hf cols (pre ++ [(k, ce)])); [done| |done]. by rewrite <-app_assoc. }
    intros hf' (Hsh & rest' & H1 & H2 & H3).
    split; [done|]. exists ((k, ce) :: rest'). rewrite <-app_assoc in H1. split_and!; [done| |].
    + cbn. by rewrite H2.
    + cbn. by rewrite H3.
Qed.

Lemma filter_low_height_rep wh hf cols :
  rep hf cols → length cols = (hf_w hf * hf_h hf)%nat →
  runs (filter_low_height wh hf) (λ hf', same_shape hf hf' ∧
    ∃ cols', rep hf' cols' ∧ length cols' = length cols ∧
      ∀ c l, cols !! c = Some l →
        ∃ l', cols' !! c = Some l' ∧ l'.*1 = l.*1 ∧ l'.*2 = height_pure wh l.*2).
Proof.
  intros Hr Hlen. unfold filter_low_height.
  apply (columns_pass (λ _ l, height_pure wh l)); [done|done| |].
  - intros. apply height_pure_geometry.
  - intros x z hf' cols' l Hx Hz Hsh Hr' Hg Hc _.
    destruct Hsh as (Hw & Hh & _).
    rewrite (span_key_at_rep _ cols' _ _ l); [|done|unfold column_index; by rewrite Hw].
    pose proof (rep_size _ _ _ _ Hr' Hc).
    eapply runs_mono; [apply (low_height_col_spec _ _ _ cols' (x + z * hf_w hf)%nat [] l); [done|done|lia]|].
    done.
Qed.

Lemma height_pure_lookup wh l i :
  height_pure wh l !! i =
  (λ a, if open_top (geometry l) i - c_max a <? wh
        then Cell (c_min a) (c_max a) NOT_WALKABLE else a) <$> l !! i.
Proof.
  revert i. induction l as [|s l IH]; intros [|i]; [done..| |].
  - cbn. unfold open_top. by destruct l.
  - cbn [height_pure lookup list_lookup]. change (list_lookup i ?x) with (x !! i).
    rewrite IH. done.
Qed.
