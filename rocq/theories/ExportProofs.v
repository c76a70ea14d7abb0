(** Proofs about the scene export and import. *)
From Verif Require Import Base ModelMath ModelTriMesh ModelExport SpecExport.
From stdpp Require Import gmap.
Local Open Scope Z_scope.

Definition U32_SIZE : Z := 4294967296.

(** ** Caches *)
Ltac s4 := split; [|split; [|split]].
Section Cache.
Context {Y T : Type} (tbl : gmap positive T).
Definition cache_inv (R : positive → Y → Prop) (c : gmap positive Z * list Y) : Prop :=
  (∀ h i, c.1 !! h = Some i → 0 <= i ∧ ∃ y, c.2 !! Z.to_nat i = Some y ∧ R h y) ∧
  (∀ h h' i, c.1 !! h = Some i → c.1 !! h' = Some i → h = h') ∧
  (∀ k, (k < length c.2)%nat → ∃ h, c.1 !! h = Some (Z.of_nat k)) ∧
  size c.1 = length c.2 ∧
  (∀ h, is_Some (c.1 !! h) → is_Some (tbl !! h)).

Lemma cache_empty R : cache_inv R (∅, []).
Proof.
  split_and!; cbn [fst snd].
  - intros h i. rewrite lookup_empty. done.
  - intros h h' i. rewrite lookup_empty. done.
  - cbn. lia.
  - rewrite map_size_empty. done.
  - intros h [? H]. rewrite lookup_empty in H. done.
Qed.

Lemma cache_numbering R c : cache_inv R c → numbering c.1 (length c.2).
Proof.
  intros (H1 & H2 & H3 & _). split_and!.
  - intros h i H. destruct (H1 h i H) as [H0 (y & Hy & _)]. apply lookup_lt_Some in Hy. lia.
  - done.
  - intros i Hi. destruct (H3 (Z.to_nat i) ltac:(lia)) as [h Hh]. exists h. rewrite Hh. f_equal. lia.
Qed.

Lemma cache_mono (R R' : positive → Y → Prop) c : (∀ h y, R h y → R' h y) → cache_inv R c → cache_inv R' c.
Proof.
  intros HR (H1 & H2 & H3 & H4 & H5). split_and!; try done.
  intros h i H. destruct (H1 h i H) as [? (y & ? & ?)]. eauto.
Qed.

Lemma cache_room R c h : Z.of_nat (size tbl) <= U32_SIZE → cache_inv R c → c.1 !! h = None → is_Some (tbl !! h) →
  Z.of_nat (length c.2) < U32_SIZE.
Proof.
  intros Hs (_ & _ & _ & H4 & H5) Hn Ht.
  assert (HS : (dom c.1 ∪ {[h]} : gset positive) ⊆ dom tbl).
  { intros k Hk. apply elem_of_union in Hk as [Hk|Hk].
    - apply elem_of_dom. apply H5. apply elem_of_dom. done.
    - apply elem_of_singleton in Hk as ->. apply elem_of_dom. done. }
  apply subseteq_size in HS. rewrite size_union in HS.
  - rewrite size_singleton, !size_dom in HS. rewrite <- H4. unfold U32_SIZE in *. lia.
  - intros k Hk Hk'. apply elem_of_singleton in Hk' as ->. apply elem_of_dom in Hk as [? Hk]. congruence.
Qed.

Lemma cache_push R c h y : cache_inv R c → c.1 !! h = None → R h y → is_Some (tbl !! h) → Z.of_nat (length c.2) < U32_SIZE →
  cache_inv R (<[h := wrap_u32 (Z.of_nat (length c.2))]> c.1, c.2 ++ [y]).
Proof.
  intros (H1 & H2 & H3 & H4 & H5) Hn HR Ht Hl.
  assert (Hw : wrap_u32 (Z.of_nat (length c.2)) = Z.of_nat (length c.2)).
  { unfold wrap_u32. apply Z.mod_small. unfold U32_SIZE in Hl. lia. }
  rewrite Hw. split_and!; cbn [fst snd].
  - intros k i. destruct (decide (h = k)) as [<-|Hk].
    + rewrite lookup_insert. intros [= <-]. split; [lia|]. exists y. split; [|done]. rewrite Nat2Z.id.
      rewrite lookup_app_r, Nat.sub_diag by lia. done.
    + rewrite lookup_insert_ne by done. intros H. destruct (H1 k i H) as [? (y' & Hy & ?)].
      split; [done|]. exists y'. split; [|done]. apply lookup_app_l_Some. done.
  - intros k k' i. destruct (decide (h = k)) as [<-|Hk].
    + rewrite lookup_insert. intros [= <-]. destruct (decide (h = k')) as [<-|Hk']; [done|].
      rewrite lookup_insert_ne by done. intros H. destruct (H1 k' _ H) as [_ (y' & Hy & _)]. apply lookup_lt_Some in Hy. lia.
    + rewrite lookup_insert_ne by done. intros H. destruct (decide (h = k')) as [<-|Hk'].
      * rewrite lookup_insert. intros [= <-]. destruct (H1 k _ H) as [_ (y' & Hy & _)]. apply lookup_lt_Some in Hy. lia.
      * rewrite lookup_insert_ne by done. apply (H2 k k' i H).
  - intros k Hk. rewrite app_length in Hk. cbn in Hk. destruct (decide (k = length c.2)) as [->|Hk'].
    + exists h. rewrite lookup_insert. done.
    + destruct (H3 k ltac:(lia)) as [k' Hk'']. exists k'. rewrite lookup_insert_ne; [done|]. intros ->. congruence.
  - rewrite map_size_insert_None by done. rewrite app_length. cbn. lia.
  - intros k. destruct (decide (h = k)) as [<-|Hk]; [done|]. rewrite lookup_insert_ne by done. apply H5.
Qed.
End Cache.

(** ** Materials and their images *)
Section Export.
Context (meshes : gmap positive bmesh) (mats : gmap positive material) (images : gmap positive image).
Hypothesis Hmeshes : Z.of_nat (size meshes) <= U32_SIZE.
Hypothesis Hmats : Z.of_nat (size mats) <= U32_SIZE.
Hypothesis Himages : Z.of_nat (size images) <= U32_SIZE.

Definition Rim (h : positive) (s : simage) : Prop := ∃ im, images !! h = Some im ∧ s = ser_image im.
Definition Rmt (f : gmap positive Z) (h : positive) (s : smaterial) : Prop := ∃ m, mats !! h = Some m ∧ encodes f m s.
Definition Rms (h : positive) (s : smesh) : Prop := ∃ m, meshes !! h = Some m ∧ s = ser_mesh m.

Definition enc_slot (f : gmap positive Z) (t : option positive) (i : option Z) : Prop :=
  match t with None => i = None | Some h => i = f !! h ∧ is_Some i end.

Lemma enc_slot_mono f f' t i : f ⊆ f' → enc_slot f t i → enc_slot f' t i.
Proof.
  intros Hf. destruct t as [h|]; cbn; [|done]. intros [-> [j Hj]]. split; [|by rewrite Hj].
  rewrite Hj. symmetry. eapply lookup_weaken; done.
Qed.

Lemma ser_slot_ok t c : cache_inv images Rim c →
  let r := ser_slot images t c in
  cache_inv images Rim r.2 ∧ c.1 ⊆ r.2.1 ∧
  (∀ h, is_Some (r.2.1 !! h) → is_Some (c.1 !! h) ∨ t = Some h) ∧
  match r.1 with
  | Some i => enc_slot r.2.1 t i
  | None => ∃ h, t = Some h ∧ images !! h = None
  end.
Proof.
  intros Hc. destruct t as [h|]; cbn [ser_slot]; [|cbn; split_and!; auto].
  destruct (c.1 !! h) as [i|] eqn:E.
  - cbn. split_and!; [done|done|auto|by rewrite E|by eexists].
  - destruct (images !! h) as [im|] eqn:Eim; cbn [fst snd]; [|split_and!; eauto].
    split_and!.
    + apply cache_push; [done|done|by exists im|by eexists|]. eapply cache_room; [|done|done|by eexists]; done.
    + apply insert_subseteq. done.
    + intros k. destruct (decide (h = k)) as [<-|Hk]; [auto|]. rewrite lookup_insert_ne by done. auto.
    + cbn. rewrite lookup_insert. split; [done|by eexists].
Qed.

Lemma ser_slots_ok l c : cache_inv images Rim c →
  let r := ser_slots images l c in
  cache_inv images Rim r.2 ∧ c.1 ⊆ r.2.1 ∧
  (∀ h, is_Some (r.2.1 !! h) → is_Some (c.1 !! h) ∨ Some h ∈ l) ∧
  match r.1 with
  | Some is => Forall2 (enc_slot r.2.1) l is ∧ (∀ h, Some h ∈ l → is_Some (images !! h))
  | None => ∃ h, Some h ∈ l ∧ images !! h = None
  end.
Proof.
  revert c. induction l as [|t l IH]; intros c Hc; cbn [ser_slots].
  - cbn. split_and!; auto. intros h H. apply elem_of_nil in H. done.
  - destruct (ser_slot_ok t c Hc) as (A1 & A2 & A3 & A4).
    destruct (ser_slot images t c) as [[i|] c1] eqn:E; cbn [fst snd] in *.
    + destruct (IH c1 A1) as (B1 & B2 & B3 & B4).
      assert (HT : ∀ h, is_Some ((ser_slots images l c1).2.1 !! h) → is_Some (c.1 !! h) ∨ Some h ∈ t :: l).
      { intros h Hh. destruct (B3 h Hh) as [?|?]; [|right; by right]. destruct (A3 h H) as [?|?]; [by left|right; subst; by left]. }
      assert (HI : ∀ h, t = Some h → is_Some (images !! h)).
      { intros h ->. cbn in A4. destruct A4 as [Hi Hs]. rewrite Hi in Hs. destruct A1 as (_ & _ & _ & _ & X). apply X. done. }
      destruct (ser_slots images l c1) as [[is|] c2] eqn:E2; cbn [fst snd] in *.
      * split; [done|split; [by etrans|split; [done|]]].
        destruct B4 as [B4 B5]. split; [constructor; [|done]|].
        -- eapply enc_slot_mono; done.
        -- intros h Hh. apply elem_of_cons in Hh as [Hh|Hh]; [by apply HI|by apply B5].
      * split_and!; [done|by etrans|done|]. destruct B4 as (h & ? & ?). exists h. split; [by right|done].
    + split_and!; [done|done| |].
      * intros h Hh. destruct (A3 h Hh) as [?|?]; [by left|right; subst; by left].
      * destruct A4 as (h & -> & ?). exists h. split; [by left|done].
Qed.

Lemma ser_material_ok m c : cache_inv images Rim c →
  let r := ser_material images m c in
  cache_inv images Rim r.2 ∧ c.1 ⊆ r.2.1 ∧
  (∀ h, is_Some (r.2.1 !! h) → is_Some (c.1 !! h) ∨ Some h ∈ mt_tex m) ∧
  match r.1 with
  | Some s => encodes r.2.1 m s ∧ loadable images m
  | None => ¬ loadable images m
  end.
Proof.
  intros Hc. unfold ser_material. destruct (ser_slots_ok (mt_tex m) c Hc) as (A1 & A2 & A3 & A4).
  destruct (ser_slots images (mt_tex m) c) as [[is|] c1]; cbn [fst snd] in *; s4; try done.
  - destruct A4 as [A4 A5]. split_and!; [|done]. unfold encodes. cbn.
    split_and!; [done| | | | |].
    + rewrite <- list_fmap_compose. symmetry. rewrite <- (list_fmap_id (mt_uv m)) at 2. apply list_fmap_ext. intros ? [] _; done.
    + by destruct (mt_alpha m).
    + by destruct (mt_par m).
    + by destruct (mt_rend m).
    + done.
  - destruct A4 as (h & Hh & Hn). intros HL. specialize (HL h Hh). rewrite Hn in HL. by destruct HL.
Qed.

Lemma encodes_mono f f' m s : f ⊆ f' → encodes f m s → encodes f' m s.
Proof.
  intros Hf (H & ?). split; [|done]. eapply Forall2_impl; [done|]. intros t i. apply (enc_slot_mono f f' t i Hf).
Qed.

(** ** The whole export *)
Record einv (seen : list entity) (e : export) : Prop := {
  ei_im : cache_inv images Rim (ex_imgs e);
  ei_mt : cache_inv mats (Rmt (ex_imgs e).1) (ex_mats e);
  ei_ms : cache_inv meshes Rms (ex_meshes e);
  ei_msu : ∀ h, is_Some ((ex_meshes e).1 !! h) ↔ ∃ en, en ∈ seen ∧ shown meshes en ∧ en_mesh en = h;
  ei_mtu : ∀ h, is_Some ((ex_mats e).1 !! h) ↔
    ∃ en m, en ∈ seen ∧ shown meshes en ∧ en_mat en = Some h ∧ mats !! h = Some m ∧ loadable images m;
  ei_imu : ∀ h, is_Some ((ex_imgs e).1 !! h) →
    ∃ en k m, en ∈ seen ∧ shown meshes en ∧ en_mat en = Some k ∧ mats !! k = Some m ∧ Some h ∈ mt_tex m
}.

Lemma export_mesh_ok h c : cache_inv meshes Rms c →
  let r := export_mesh meshes h c in
  cache_inv meshes Rms r.2 ∧ c.1 ⊆ r.2.1 ∧
  (∀ k, is_Some (r.2.1 !! k) → is_Some (c.1 !! k) ∨ (k = h ∧ is_Some (meshes !! h))) ∧
  match r.1 with
  | Some i => r.2.1 !! h = Some i ∧ is_Some (meshes !! h)
  | None => meshes !! h = None ∧ r.2 = c
  end.
Proof.
  intros Hc. unfold export_mesh. destruct (c.1 !! h) as [i|] eqn:E.
  - cbn. split_and!; try done; [auto|]. destruct Hc as (_ & _ & _ & _ & X). apply X. by eexists.
  - destruct (meshes !! h) as [m|] eqn:Em; cbn [fst snd]; [|split_and!; auto].
    split_and!.
    + apply cache_push; [done|done|by exists m|by eexists|]. eapply cache_room; [|done|done|by eexists]; done.
    + apply insert_subseteq. done.
    + intros k. destruct (decide (h = k)) as [<-|Hk]; [eauto|]. rewrite lookup_insert_ne by done. auto.
    + by rewrite lookup_insert.
    + by eexists.
Qed.

Lemma export_entity_ok seen en e : einv seen e →
  let r := export_entity meshes mats images en e in
  einv (seen ++ [en]) r.2 ∧ (ex_meshes e).1 ⊆ (ex_meshes r.2).1 ∧ (ex_mats e).1 ⊆ (ex_mats r.2).1 ∧
  match r.1 with
  | Some v => shown meshes en ∧ vi_tf v = en_tf en ∧ Some (vi_mesh v) = (ex_meshes r.2).1 !! en_mesh en ∧
              (vi_mat v = en_mat en ≫= λ h, (ex_mats r.2).1 !! h) ∧
              (∀ h, en_mat en = Some h → vi_mat v = None → ∀ m, mats !! h = Some m → ¬ loadable images m)
  | None => ¬ shown meshes en
  end.
Proof.
  intros [I1 I2 I3 I4 I5 I6]. unfold export_entity.
  assert (Hskip : ¬ shown meshes en → ∀ e', ex_imgs e' = ex_imgs e → ex_mats e' = ex_mats e → ex_meshes e' = ex_meshes e →
                  einv (seen ++ [en]) e').
  { intros Hn [im mt ms]. cbn. intros -> -> ->. constructor; cbn [ex_imgs ex_mats ex_meshes]; try done.
    - intros h. rewrite I4. split; intros (en' & ? & ? & ?); exists en'; split_and!; try done; [set_solver|].
      apply elem_of_app in H as [?|H]; [done|]. apply elem_of_list_singleton in H as ->. done.
    - intros h. rewrite I5. split; intros (en' & m & ? & ? & ?); exists en', m; split_and!; try set_solver.
    - intros h Hh. destruct (I6 h Hh) as (en' & k & m & ? & ?). exists en', k, m. split; [set_solver|done]. }
  destruct (en_visible en) eqn:Ev; cbn [negb].
  2: { cbn [fst snd]. assert (Hn : ¬ shown meshes en) by (intros [? _]; congruence). split_and!; try done. by apply Hskip. }
  destruct (export_mesh_ok (en_mesh en) (ex_meshes e) I3) as (A1 & A2 & A3 & A4).
  destruct (export_mesh meshes (en_mesh en) (ex_meshes e)) as [[i|] c]; cbn [fst snd] in *.
  2: { destruct A4 as [A4 ->]. assert (Hn : ¬ shown meshes en) by (intros [_ Hs]; rewrite A4 in Hs; by destruct Hs).
       split_and!; try done. by apply Hskip. }
  destruct A4 as [A4 A5].
  assert (Hs : shown meshes en) by done.
  assert (Hms : ∀ h, is_Some (c.1 !! h) ↔ ∃ en', en' ∈ seen ++ [en] ∧ shown meshes en' ∧ en_mesh en' = h).
  { intros h. split.
    - intros Hh. destruct (A3 h Hh) as [H|[-> _]].
      + apply I4 in H as (en' & ? & ?). exists en'. split; [set_solver|done].
      + exists en. split; [set_solver|done].
    - intros (en' & Hin & Hs' & <-). apply elem_of_app in Hin as [Hin|Hin].
      + eapply lookup_weaken_is_Some; [|done]. apply I4. eauto.
      + apply elem_of_list_singleton in Hin as ->. by eexists. }
  unfold export_mat. destruct (en_mat en) as [h|] eqn:Em; cbn [ex_imgs ex_mats ex_meshes].
  2: { cbn [fst snd ex_imgs ex_mats ex_meshes vi_tf vi_mesh vi_mat]. split_and!; try done.
       constructor; cbn [ex_imgs ex_mats ex_meshes]; try done.
       - intros h. rewrite I5. split; intros (en' & m & ? & ? & He & ?); exists en', m; split_and!; try set_solver.
       - intros h Hh. destruct (I6 h Hh) as (en' & k & m & ? & ?). exists en', k, m. split; [set_solver|done]. }
  destruct ((ex_mats e).1 !! h) as [j|] eqn:Ej.
  { cbn [fst snd ex_imgs ex_mats ex_meshes vi_tf vi_mesh vi_mat]. split_and!; try done.
    constructor; cbn [ex_imgs ex_mats ex_meshes]; try done.
    - intros k. split.
      + intros Hk. apply I5 in Hk as (en' & m & ? & ?). exists en', m. split; [set_solver|done].
      + intros (en' & m & Hin & ? & He & ? & ?). apply elem_of_app in Hin as [Hin|Hin].
        * apply I5. eexists _, _. eauto.
        * apply elem_of_list_singleton in Hin as ->. rewrite Em in He. injection He as <-. by eexists.
    - intros k Hk. destruct (I6 k Hk) as (en' & k' & m & ? & ?). exists en', k', m. split; [set_solver|done]. }
  destruct (mats !! h) as [m|] eqn:Emt.
  2: { cbn [fst snd ex_imgs ex_mats ex_meshes vi_tf vi_mesh vi_mat]. split_and!; try done; [|congruence].
       constructor; cbn [ex_imgs ex_mats ex_meshes]; try done.
       - intros k. split.
         + intros Hk. apply I5 in Hk as (en' & m & ? & ?). exists en', m. split; [set_solver|done].
         + intros (en' & m & Hin & ? & He & ? & ?). apply elem_of_app in Hin as [Hin|Hin].
           * apply I5. eexists _, _. eauto.
           * apply elem_of_list_singleton in Hin as ->. rewrite Em in He. injection He as <-. congruence.
       - intros k Hk. destruct (I6 k Hk) as (en' & k' & m & ? & ?). exists en', k', m. split; [set_solver|done]. }
  destruct (ser_material_ok m (ex_imgs e) I1) as (B1 & B2 & B3 & B4).
  assert (Himu : ∀ k, is_Some ((ser_material images m (ex_imgs e)).2.1 !! k) →
            ∃ en' k' m', en' ∈ seen ++ [en] ∧ shown meshes en' ∧ en_mat en' = Some k' ∧ mats !! k' = Some m' ∧ Some k ∈ mt_tex m').
  { intros k Hk. destruct (B3 k Hk) as [H|H].
    - destruct (I6 k H) as (en' & k' & m' & ? & ?). exists en', k', m'. split; [set_solver|done].
    - exists en, h, m. split_and!; try done. set_solver. }
  destruct (ser_material images m (ex_imgs e)) as [[s|] ci]; cbn [fst snd] in *.
  - destruct B4 as [B4 B5].
    assert (Hmt : cache_inv mats (Rmt ci.1) (ex_mats e)).
    { eapply cache_mono; [|done]. intros k y (m' & ? & ?). exists m'. split; [done|]. by eapply encodes_mono. }
    split_and!; try done.
    + constructor; cbn [ex_imgs ex_mats ex_meshes]; try done.
      * apply cache_push; [done|done|by exists m|by eexists|]. eapply cache_room; [|done|done|by eexists]; done.
      * cbn [fst]. intros k. destruct (decide (h = k)) as [<-|Hk].
        -- rewrite lookup_insert. split; [|by eexists]. intros _. exists en, m. split_and!; try done. set_solver.
        -- rewrite lookup_insert_ne by done. split.
           ++ intros H. apply I5 in H as (en' & m' & ? & ?). exists en', m'. split; [set_solver|done].
           ++ intros (en' & m' & Hin & ? & He & ? & ?). apply elem_of_app in Hin as [Hin|Hin].
              ** apply I5. eexists _, _. eauto.
              ** apply elem_of_list_singleton in Hin as ->. congruence.
    + cbn. by apply insert_subseteq.
    + cbn. by rewrite lookup_insert.
  - split_and!; try done.
    + constructor; cbn [ex_imgs ex_mats ex_meshes]; try done.
      * eapply cache_mono; [|done]. intros k y (m' & ? & ?). exists m'. split; [done|]. by eapply encodes_mono.
      * intros k. split.
        -- intros Hk. apply I5 in Hk as (en' & m' & ? & ?). exists en', m'. split; [set_solver|done].
        -- intros (en' & m' & Hin & ? & He & ? & ?). apply elem_of_app in Hin as [Hin|Hin].
           ++ apply I5. eexists _, _. eauto.
           ++ apply elem_of_list_singleton in Hin as ->. rewrite Em in He. injection He as <-. congruence.
    + cbn. intros k [= <-] _ m'. rewrite Emt. intros [= <-]. done.
Qed.

Definition vis_ok (f g : gmap positive Z) (en : entity) (v : visual) : Prop :=
  vi_tf v = en_tf en ∧ Some (vi_mesh v) = f !! en_mesh en ∧ vi_mat v = en_mat en ≫= λ h, g !! h.

Lemma export_entities_ok l : ∀ seen e, einv seen e →
  let r := export_entities meshes mats images l e in
  einv (seen ++ l) r.2 ∧ (ex_meshes e).1 ⊆ (ex_meshes r.2).1 ∧ (ex_mats e).1 ⊆ (ex_mats r.2).1 ∧
  Forall2 (vis_ok (ex_meshes r.2).1 (ex_mats r.2).1) (filter (shown meshes) l) r.1.
Proof.
  induction l as [|en l IH]; intros seen e He; cbn [export_entities].
  - cbn. rewrite app_nil_r. split_and!; done.
  - destruct (export_entity_ok seen en e He) as (A1 & A2 & A3 & A4).
    destruct (export_entity meshes mats images en e) as [v e1]; cbn [fst snd] in *.
    destruct (IH (seen ++ [en]) e1 A1) as (B1 & B2 & B3 & B4).
    destruct (export_entities meshes mats images l e1) as [vs e2]; cbn [fst snd] in *.
    rewrite <- app_assoc in B1. cbn [app] in B1.
    destruct v as [v|].
    + destruct A4 as (C1 & C2 & C3 & C4 & C5). split_and!; [done|by etrans|by etrans|].
      rewrite filter_cons_True by done. constructor; [|done].
      split_and!; [done| |].
      * rewrite C3. rewrite <- C3. symmetry. eapply lookup_weaken; done.
      * rewrite C4. destruct (en_mat en) as [h|] eqn:Em; [|done]. cbn [mbind option_bind] in *.
        destruct ((ex_mats e1).1 !! h) as [j|] eqn:Ej.
        -- symmetry. eapply lookup_weaken; done.
        -- destruct ((ex_mats e2).1 !! h) as [j|] eqn:Ej2; [|done]. exfalso.
           destruct (ei_mtu _ _ B1 h) as [X _]. destruct (X ltac:(by eexists)) as (en' & m & _ & _ & _ & Hm & HL).
           by apply (C5 h eq_refl C4 m Hm).
    + split_and!; [done|by etrans|by etrans|]. rewrite filter_cons_False by done. done.
Qed.
End Export.

Lemma export_describes w r : get_navmesh_input false w = inr r →
  ∀ meshes mats images, w_meshes w = Some meshes → w_mats w = Some mats → w_images w = Some images →
  Z.of_nat (size meshes) <= U32_SIZE → Z.of_nat (size mats) <= U32_SIZE → Z.of_nat (size images) <= U32_SIZE →
  ∃ fm ft fi, describes meshes mats images (w_entities w) fm ft fi r.
Proof.
  unfold get_navmesh_input. intros H meshes mats images E1 E2 E3 S1 S2 S3. rewrite E1, E2, E3 in H.
  destruct (w_backend w) as [[aff|]|]; try done.
  assert (I0 : einv meshes mats images [] (Ex (∅, []) (∅, []) (∅, []))).
  { constructor; try apply cache_empty; cbn [ex_imgs ex_mats ex_meshes fst].
    - intros h. rewrite lookup_empty. split; [by intros []|]. intros (en & He & _). by apply elem_of_nil in He.
    - intros h. rewrite lookup_empty. split; [by intros []|]. intros (en & m & He & _). by apply elem_of_nil in He.
    - intros h. rewrite lookup_empty. by intros []. }
  destruct (export_entities_ok meshes mats images S1 S2 S3 (w_entities w) [] _ I0) as (B1 & _ & _ & B4).
  destruct (export_entities meshes mats images (w_entities w) (Ex (∅, []) (∅, []) (∅, []))) as [vis e]; cbn [fst snd app] in *.
  injection H as <-. destruct B1 as [I1 I2 I3 I4 I5 I6].
  exists (ex_meshes e).1, (ex_mats e).1, (ex_imgs e).1. constructor; cbn; try done.
  - by eapply cache_numbering.
  - by eapply cache_numbering.
  - by eapply cache_numbering.
  - intros h i Hi. destruct I3 as (X & _). destruct (X h i Hi) as [_ (y & ? & (m & ? & ->))]. eauto.
  - intros h i Hi. destruct I2 as (X & _). destruct (X h i Hi) as [_ (y & ? & (m & ? & ?))]. eauto.
  - intros h i Hi. destruct I1 as (X & _). destruct (X h i Hi) as [_ (y & ? & (m & ? & ->))]. eauto.
Qed.

(** ** Meshes survive the trip *)

Lemma values_trip v : vvalues_of (svalues_of v) = v.
Proof. destruct v as [|[] ?]; done. Qed.

Definition attr_step : Z * svalues → bmesh → outcome bmesh :=
  λ '(id, v) m, if known_id id then insert_attribute m id (vvalues_of v) else Done m.

Lemma attrs_fold L : ∀ m, NoDup L.*1 → (∀ id v, (id, v) ∈ L → known_id id = true → format_ok id (vvalues_of v) = true) →
  ∃ m', foldM attr_step L m = Done m' ∧ bm_topo m' = bm_topo m ∧ bm_idx m' = bm_idx m ∧ bm_usage m' = bm_usage m ∧
    (∀ id v, (id, v) ∈ L → known_id id = true → bm_attrs m' !! id = Some (vvalues_of v)) ∧
    (∀ id, id ∉ L.*1 → bm_attrs m' !! id = bm_attrs m !! id).
Proof.
  induction L as [|[id v] L IH]; intros m Hnd Hf; cbn [foldM].
  { exists m. split_and!; try done. intros id v H. by apply elem_of_nil in H. }
  rewrite fmap_cons in Hnd. cbn [fst] in Hnd. apply NoDup_cons in Hnd as [Hni Hnd].
  assert (Hf' : ∀ id' v', (id', v') ∈ L → known_id id' = true → format_ok id' (vvalues_of v') = true).
  { intros id' v' Hin. apply Hf. by right. }
  unfold attr_step at 1. destruct (known_id id) eqn:Hk.
  - unfold insert_attribute. rewrite (Hf id v ltac:(by left) Hk). cbn [obind].
    destruct (IH (BM (bm_topo m) (<[id:=vvalues_of v]> (bm_attrs m)) (bm_idx m) (bm_usage m)) Hnd Hf')
      as (m' & E & A1 & A2 & A3 & A4 & A5).
    exists m'. split_and!; try done.
    + intros id' v' Hin Hk'. apply elem_of_cons in Hin as [[= -> ->]|Hin]; [|by apply A4].
      rewrite A5 by done. cbn. by rewrite lookup_insert.
    + intros id' Hni'. rewrite fmap_cons in Hni'. apply not_elem_of_cons in Hni' as [Hne Hni']. rewrite A5 by done. cbn in *.
      by rewrite lookup_insert_ne.
  - cbn [obind]. destruct (IH m Hnd Hf') as (m' & E & A1 & A2 & A3 & A4 & A5).
    exists m'. split_and!; try done.
    + intros id' v' Hin Hk'. apply elem_of_cons in Hin as [[= -> ->]|Hin]; [congruence|by apply A4].
    + intros id' Hni'. rewrite fmap_cons in Hni'. apply not_elem_of_cons in Hni' as [Hne Hni']. by apply A5.
Qed.

Definition keep_attr : Z * vvalues → option (Z * svalues) :=
  λ '(id, v), if known_id id then Some (id, svalues_of v) else None.

Lemma keep_elem (l : list (Z * vvalues)) id s : (id, s) ∈ omap keep_attr l ↔ ∃ v, (id, v) ∈ l ∧ known_id id = true ∧ s = svalues_of v.
Proof.
  rewrite elem_of_list_omap. split.
  - intros ([id' v] & Hin & H). cbn in H. destruct (known_id id') eqn:E; [|done]. injection H as <- <-. eauto.
  - intros (v & Hin & Hk & ->). exists (id, v). split; [done|]. cbn. by rewrite Hk.
Qed.

Lemma keep_nodup (l : list (Z * vvalues)) : NoDup l.*1 → NoDup (omap keep_attr l).*1.
Proof.
  induction l as [|[id v] l IH]; [intros _; constructor|]. rewrite fmap_cons. intros Hnd. apply NoDup_cons in Hnd as [Hni Hnd].
  cbn. destruct (known_id id); [|by apply IH]. rewrite fmap_cons. constructor; [|by apply IH]. cbn.
  intros Hin. apply Hni. apply elem_of_list_fmap in Hin as ([id' s] & -> & Hin). apply keep_elem in Hin as (v' & Hin & _ & _).
  apply elem_of_list_fmap. by exists (id', v').
Qed.

Lemma mesh_trip m : mesh_ok m → ∃ m', deser_mesh (ser_mesh m) = Done m' ∧ same_mesh m m'.
Proof.
  intros Hok. unfold deser_mesh. cbn [sm_attrs sm_topo sm_idx ser_mesh].
  change (omap _ (map_to_list (bm_attrs m))) with (omap keep_attr (map_to_list (bm_attrs m))).
  set (L := omap keep_attr (map_to_list (bm_attrs m))).
  assert (HL : ∀ id s, (id, s) ∈ L ↔ ∃ v, bm_attrs m !! id = Some v ∧ known_id id = true ∧ s = svalues_of v).
  { intros id s. unfold L. rewrite keep_elem. split; intros (v & Hv & ?); exists v; (split; [|done]).
    - by apply elem_of_map_to_list in Hv.
    - by apply elem_of_map_to_list. }
  destruct (attrs_fold L (BM (topology_of (stopology_of (bm_topo m))) ∅ None USAGE_ALL)) as (m' & E & A1 & A2 & A3 & A4 & A5).
  { apply keep_nodup. apply NoDup_fst_map_to_list. }
  { intros id s Hin Hk. apply HL in Hin as (v & Hv & _ & ->). rewrite values_trip. by apply Hok. }
  change (foldM _ L _) with (foldM attr_step L (BM (topology_of (stopology_of (bm_topo m))) ∅ None USAGE_ALL)).
  rewrite E. cbn [obind]. eexists. split; [done|]. unfold same_mesh. cbn. split_and!.
  - rewrite A1. cbn. by destruct (bm_topo m).
  - destruct (bm_idx m) as [[]|]; cbn; [done|done|]. by rewrite A2.
  - intros id. destruct (known_id id) eqn:Hk.
    + destruct (bm_attrs m !! id) as [v|] eqn:Ev.
      * rewrite (A4 id (svalues_of v)); [by rewrite values_trip| |done]. apply HL. eauto.
      * rewrite A5; [by cbn; rewrite lookup_empty|]. intros Hin. apply elem_of_list_fmap in Hin as ([id' s] & -> & Hin).
        apply HL in Hin as (v & Hv & _). cbn in Ev. congruence.
    + rewrite A5; [by cbn; rewrite lookup_empty|]. intros Hin. apply elem_of_list_fmap in Hin as ([id' s] & -> & Hin).
      apply HL in Hin as (v & Hv & Hk' & _). cbn in Hk. congruence.
Qed.

Lemma image_trip i : same_image i (deser_image (ser_image i)).
Proof.
  unfold same_image, deser_image, ser_image. cbn. split_and!; try done. by destruct (im_view i).
Qed.

Lemma same_mesh_trimesh m m' : same_mesh m m' → trimesh_of m' = trimesh_of m.
Proof. intros (H1 & H2 & H3). unfold trimesh_of. rewrite H1, H2, H3. done. Qed.

(** ** Imports *)

Lemma keeps_refl {T} (a : assets T) : keeps a a.
Proof. by intros h x. Qed.
Lemma keeps_trans {T} (a b c : assets T) : keeps a b → keeps b c → keeps a c.
Proof. intros H1 H2 h x H. auto. Qed.
Lemma as_add_ok {T} (a : assets T) x : assets_ok a → assets_ok (as_add a x).2 ∧ keeps a (as_add a x).2.
Proof.
  intros Ha. split.
  - intros h y. cbn. destruct (decide (as_next a = h)) as [<-|Hne]; [lia|]. rewrite lookup_insert_ne by done.
    intros H. apply Ha in H. lia.
  - intros h y H. cbn. rewrite lookup_insert_ne; [done|]. intros <-. apply Ha in H. lia.
Qed.

Section Import.
Context {T : Type} (base : positive).
(** Cached indices stand for loaded assets, no two for the same one, none older
    than the import. *)
Definition icache_inv (R : Z → T → Prop) (c : gmap Z positive) (a : assets T) : Prop :=
  assets_ok a ∧ (base <= as_next a)%positive ∧
  (∀ i h, c !! i = Some h → (base <= h)%positive ∧ ∃ x, as_tbl a !! h = Some x ∧ R i x) ∧
  (∀ i j h, c !! i = Some h → c !! j = Some h → i = j).

Lemma icache_push R c a i x : icache_inv R c a → c !! i = None → R i x →
  icache_inv R (<[i := as_next a]> c) (as_add a x).2.
Proof.
  intros (H1 & H2 & H3 & H4) Hn HR. destruct (as_add_ok a x H1) as [H5 H6]. split; [done|split; [cbn; lia|split]].
  - intros j h. destruct (decide (i = j)) as [<-|Hj].
    + rewrite lookup_insert. intros [= <-]. split; [done|]. exists x. cbn. by rewrite lookup_insert.
    + rewrite lookup_insert_ne by done. intros H. destruct (H3 j h H) as [? (y & ? & ?)]. split; [done|]. exists y. auto.
  - intros j k h. destruct (decide (i = j)) as [<-|Hj].
    + rewrite lookup_insert. intros [= <-]. destruct (decide (i = k)) as [<-|Hk]; [done|]. rewrite lookup_insert_ne by done.
      intros H. destruct (H3 k _ H) as [_ (y & Hy & _)]. apply H1 in Hy. lia.
    + rewrite lookup_insert_ne by done. intros H. destruct (decide (i = k)) as [<-|Hk].
      * rewrite lookup_insert. intros [= <-]. destruct (H3 j _ H) as [_ (y & Hy & _)]. apply H1 in Hy. lia.
      * rewrite lookup_insert_ne by done. eauto.
Qed.
Lemma icache_mono (R R' : Z → T → Prop) c a : (∀ i x, R i x → R' i x) → icache_inv R c a → icache_inv R' c a.
Proof.
  intros HR (H1 & H2 & H3 & H4). split_and!; try done. intros i h H. destruct (H3 i h H) as [? (x & ? & ?)]. eauto.
Qed.
End Import.

Section Resp.
Context (r : response).
Definition Jim (i : Z) (x : image) : Prop := ∃ s, rs_imgs r !! Z.to_nat i = Some s ∧ x = deser_image s.
Definition Jms (i : Z) (x : bmesh) : Prop := ∃ s, rs_meshes r !! Z.to_nat i = Some s ∧ deser_mesh s = Done x.
Definition dec_slot (tbl : gmap positive image) (t : option Z) (t' : option positive) : Prop :=
  match t with
  | None => t' = None
  | Some i => ∃ h s, t' = Some h ∧ rs_imgs r !! Z.to_nat i = Some s ∧ tbl !! h = Some (deser_image s)
  end.
Definition decodes (tbl : gmap positive image) (s : smaterial) (m : material) : Prop :=
  Forall2 (dec_slot tbl) (st_tex s) (mt_tex m) ∧
  mt_uv m = uv_of <$> st_uv s ∧ mt_alpha m = alpha_of (st_alpha s) ∧ mt_par m = par_of (st_par s) ∧
  mt_rend m = rend_of (st_rend s) ∧ mt_rest m = st_rest s.
Definition Jmt (tbl : gmap positive image) (i : Z) (x : material) : Prop :=
  ∃ s, rs_mats r !! Z.to_nat i = Some s ∧ decodes tbl s x.

Definition slot_valid (t : option Z) : Prop := ∀ i, t = Some i → is_Some (rs_imgs r !! Z.to_nat i).
Definition resp_valid : Prop :=
  (∀ s, s ∈ rs_mats r → ∀ t, t ∈ st_tex s → slot_valid t).
Definition vis_valid (v : visual) : Prop :=
  (∃ s m, rs_meshes r !! Z.to_nat (vi_mesh v) = Some s ∧ deser_mesh s = Done m) ∧
  (∀ i, vi_mat v = Some i → is_Some (rs_mats r !! Z.to_nat i)).

Lemma dec_slot_mono a a' t t' : keeps a a' → dec_slot (as_tbl a) t t' → dec_slot (as_tbl a') t t'.
Proof. intros Hk. destruct t as [i|]; cbn; [|done]. intros (h & s & ? & ? & ?). exists h, s. auto. Qed.

Lemma deser_slot_ok b t c : icache_inv b Jim c.1 c.2 → slot_valid t →
  ∃ t' c', deser_slot (rs_imgs r) t c = Done (t', c') ∧ icache_inv b Jim c'.1 c'.2 ∧ keeps c.2 c'.2 ∧ dec_slot (as_tbl c'.2) t t'.
Proof.
  intros Hc Hv. destruct t as [i|]; cbn [deser_slot].
  2: { exists None, c. split; [done|split; [done|split; [apply keeps_refl|done]]]. }
  destruct (c.1 !! i) as [h|] eqn:E.
  - exists (Some h), c. split; [done|split; [done|split; [apply keeps_refl|]]].
    destruct Hc as (_ & _ & H3 & _). destruct (H3 i h E) as [_ (x & ? & (s & ? & ->))]. cbn. eauto.
  - destruct (Hv i eq_refl) as [s Hs]. unfold get; rewrite Hs; cbn [unwrap]. cbn [obind as_add].
    exists (Some (as_next c.2)). eexists. split; [done|]. cbn [fst snd].
    split; [|split].
    + apply (icache_push b Jim c.1 c.2 i); [done|done|by exists s].
    + apply (as_add_ok c.2 (deser_image s)). apply Hc.
    + cbn. exists (as_next c.2), s. by rewrite lookup_insert.
Qed.

Lemma deser_slots_ok b l : ∀ c, icache_inv b Jim c.1 c.2 → (∀ t, t ∈ l → slot_valid t) →
  ∃ l' c', deser_slots (rs_imgs r) l c = Done (l', c') ∧ icache_inv b Jim c'.1 c'.2 ∧ keeps c.2 c'.2 ∧
    Forall2 (dec_slot (as_tbl c'.2)) l l'.
Proof.
  induction l as [|t l IH]; intros c Hc Hv; cbn [deser_slots].
  - exists [], c. split; [done|split; [done|split; [apply keeps_refl|done]]].
  - destruct (deser_slot_ok b t c Hc) as (t' & c1 & -> & A1 & A2 & A3); [apply Hv; by left|]. cbn [obind fst snd].
    destruct (IH c1 A1) as (l' & c2 & -> & B1 & B2 & B3); [intros ? ?; apply Hv; by right|]. cbn [obind fst snd].
    exists (t' :: l'), c2. split; [done|split; [done|split; [by eapply keeps_trans|]]].
    constructor; [|done]. by eapply dec_slot_mono.
Qed.

Record iinv (b1 b2 b3 : positive) (p : import) : Prop := {
  ii_ms : icache_inv b1 Jms (ip_meshes p) (ed_meshes (ip_ed p));
  ii_mt : icache_inv b2 (Jmt (as_tbl (ed_images (ip_ed p)))) (ip_mats p) (ed_mats (ip_ed p));
  ii_im : icache_inv b3 Jim (ip_images p) (ed_images (ip_ed p))
}.
Definition grows (p p' : import) : Prop :=
  keeps (ed_meshes (ip_ed p)) (ed_meshes (ip_ed p')) ∧ keeps (ed_mats (ip_ed p)) (ed_mats (ip_ed p')) ∧
  keeps (ed_images (ip_ed p)) (ed_images (ip_ed p')) ∧ ip_meshes p ⊆ ip_meshes p' ∧ ip_mats p ⊆ ip_mats p'.
Lemma grows_refl p : grows p p.
Proof. split_and!; try apply keeps_refl; done. Qed.
Lemma grows_trans p q s : grows p q → grows q s → grows p s.
Proof.
  intros (?&?&?&?&?) (?&?&?&?&?). split_and!; first [by eapply keeps_trans|by etrans].
Qed.

Lemma Jmt_mono a a' i x : keeps a a' → Jmt (as_tbl a) i x → Jmt (as_tbl a') i x.
Proof.
  intros Hk (s & ? & (H & ?)). exists s. split; [done|split; [|done]]. eapply Forall2_impl; [done|].
  intros. by eapply dec_slot_mono.
Qed.

Lemma import_mesh_ok b1 b2 b3 v p : iinv b1 b2 b3 p → vis_valid v →
  ∃ h p', import_mesh r (vi_mesh v) p = Done (h, p') ∧ iinv b1 b2 b3 p' ∧ grows p p' ∧ ip_meshes p' !! vi_mesh v = Some h.
Proof.
  intros [I1 I2 I3] [(s & m & Hs & Hm) _]. unfold import_mesh. destruct (ip_meshes p !! vi_mesh v) as [h|] eqn:E.
  - exists h, p. split; [done|split; [by constructor|split; [apply grows_refl|done]]].
  - unfold get; rewrite Hs; cbn [unwrap]. cbn [obind]. rewrite Hm. cbn [obind as_add].
    eexists _, _. split; [done|]. cbn [ip_meshes]. split; [|split].
    + constructor; cbn [ip_meshes ip_mats ip_images ip_ed ed_meshes ed_mats ed_images]; try done.
      apply (icache_push b1 Jms (ip_meshes p) (ed_meshes (ip_ed p)) (vi_mesh v) m); [done|done|]. by exists s.
    + split_and!; cbn; try apply keeps_refl; try done.
      * apply (as_add_ok (ed_meshes (ip_ed p)) m). apply I1.
      * by apply insert_subseteq.
    + by rewrite lookup_insert.
Qed.

Lemma import_mat_ok b1 b2 b3 fb v p : resp_valid → iinv b1 b2 b3 p → vis_valid v →
  ∃ h p', import_mat r fb (vi_mat v) p = Done (h, p') ∧ iinv b1 b2 b3 p' ∧ grows p p' ∧
    match vi_mat v with None => h = fb | Some i => ip_mats p' !! i = Some h end.
Proof.
  intros HR [I1 I2 I3] [_ Hv]. unfold import_mat. destruct (vi_mat v) as [i|].
  2: { exists fb, p. split; [done|split; [by constructor|split; [apply grows_refl|done]]]. }
  destruct (ip_mats p !! i) as [h|] eqn:E.
  { exists h, p. split; [done|split; [by constructor|split; [apply grows_refl|done]]]. }
  destruct (Hv i eq_refl) as [s Hs]. unfold get; rewrite Hs; cbn [unwrap]. cbn [obind]. unfold deser_material.
  destruct (deser_slots_ok b3 (st_tex s) (ip_images p, ed_images (ip_ed p)) I3) as (l' & c' & -> & B1 & B2 & B3).
  { apply HR. by eapply elem_of_list_lookup_2. }
  cbn [obind fst snd as_add]. eexists _, _. split; [done|]. split; [|split].
  - constructor; cbn [ip_meshes ip_mats ip_images ip_ed ed_meshes ed_mats ed_images]; [done| |done].
    match goal with |- icache_inv _ _ _ (As _ (<[_ := ?m]> _)) =>
      apply (icache_push b2 (Jmt (as_tbl c'.2)) (ip_mats p) (ed_mats (ip_ed p)) i m); [|done|] end.
    + eapply icache_mono; [|done]. intros j x. by apply Jmt_mono.
    + exists s. split; [done|]. split; [done|]. cbn. done.
  - split_and!; cbn; try apply keeps_refl; try done.
    + match goal with |- keeps _ (As _ (<[_ := ?m]> _)) => apply (as_add_ok (ed_mats (ip_ed p)) m) end. apply I2.
    + by apply insert_subseteq.
  - cbn. by rewrite lookup_insert.
Qed.

Lemma import_visuals_ok b1 b2 b3 fb l : resp_valid → (∀ v, v ∈ l → vis_valid v) → ∀ p, iinv b1 b2 b3 p →
  ∃ sp p', import_visuals r fb l p = Done (sp, p') ∧ iinv b1 b2 b3 p' ∧ grows p p' ∧
    Forall2 (λ v s, s.1.1 = vi_tf v ∧ ip_meshes p' !! vi_mesh v = Some s.1.2 ∧
                    match vi_mat v with None => s.2 = fb | Some i => ip_mats p' !! i = Some s.2 end) l sp.
Proof.
  intros HR. induction l as [|v l IH]; intros Hv p Hp; cbn [import_visuals].
  - exists [], p. split; [done|split; [done|split; [apply grows_refl|done]]].
  - destruct (import_mesh_ok b1 b2 b3 v p Hp) as (h & p1 & -> & A1 & A2 & A3); [apply Hv; by left|]. cbn [obind fst snd].
    destruct (import_mat_ok b1 b2 b3 fb v p1 HR A1) as (h' & p2 & -> & B1 & B2 & B3); [apply Hv; by left|]. cbn [obind fst snd].
    destruct (IH ltac:(intros ? ?; apply Hv; by right) p2 B1) as (sp & p3 & -> & C1 & C2 & C3). cbn [obind fst snd].
    eexists _, p3. split; [done|split; [done|split]].
    + eapply grows_trans; [done|]. by eapply grows_trans.
    + constructor; [|done]. cbn. split; [done|split].
      * eapply lookup_weaken; [done|]. etrans; [apply B2|apply C2].
      * destruct (vi_mat v); [|done]. eapply lookup_weaken; [done|]. apply C2.
Qed.
End Resp.

Lemma chunks3_concat l : chunks3 (concat ((λ i : Z * Z * Z, [i.1.1; i.1.2; i.2]) <$> l)) = l.
Proof. induction l as [|[[a b] c] l IH]; [done|]. cbn in *. by rewrite IH. Qed.
Lemma length_concat3 (l : list (Z * Z * Z)) : length (concat ((λ i : Z * Z * Z, [i.1.1; i.1.2; i.2]) <$> l)) = (length l * 3)%nat.
Proof. induction l as [|[[a b] c] l IH]; [done|]. cbn in *. by rewrite IH. Qed.

Lemma affector_trip t : trimesh_of (affector_mesh t) = Some (TM (tm_verts t) (tm_idx t) (repeat 0 (length (tm_idx t)))).
Proof.
  unfold trimesh_of, affector_mesh. cbn [bm_topo bm_attrs bm_idx]. rewrite lookup_singleton. cbn [mbind option_bind as_float3 fmap option_fmap option_map index_list].
  unfold from_mesh. cbn [negb mbind option_bind]. rewrite length_concat3, Nat.mod_mul by done. cbn [Nat.eqb negb]. rewrite chunks3_concat. done.
Qed.

Lemma import_affectors_ok l : ∀ a, assets_ok a →
  let x := import_affectors l a in
  assets_ok x.2 ∧ keeps a x.2 ∧
  Forall2 (λ f s, s.1 = f.1 ∧ as_tbl x.2 !! s.2 = Some (affector_mesh f.2)) l x.1.
Proof.
  induction l as [|[tf t] l IH]; intros a Ha; cbn [import_affectors].
  - cbn. split; [done|split; [apply keeps_refl|constructor]].
  - destruct (as_add_ok a (affector_mesh t) Ha) as [A1 A2]. cbn [as_add] in *. cbn [fst snd] in A1, A2.
    destruct (IH _ A1) as (B1 & B2 & B3).
    destruct (import_affectors l _) as [rest a2] eqn:E; cbn [fst snd] in *.
    split; [done|split; [by eapply keeps_trans|]]. constructor; [|done]. cbn. split; [done|]. apply B2. cbn. by rewrite lookup_insert.
Qed.

(** ** The round trip *)

Lemma deser_mat_same (r : response) fi images (tbl : gmap positive image) m s x :
  (∀ h i, fi !! h = Some i → ∃ im, images !! h = Some im ∧ rs_imgs r !! Z.to_nat i = Some (ser_image im)) →
  encodes fi m s → decodes r tbl s x → same_material images tbl m x.
Proof.
  intros Hi (E1 & E2 & E3 & E4 & E5 & E6) (D1 & D2 & D3 & D4 & D5 & D6).
  split; [|rewrite D2, D3, D4, D5, D6, E2, E3, E4, E5, E6; done].
  clear -Hi E1 D1. revert D1. generalize (mt_tex x). induction E1 as [|t i lt li Ht E1 IH]; intros lx D1.
  - inversion D1. constructor.
  - inversion D1 as [|? t' ? lx' D2 D3]; subst. constructor; [|by apply IH].
    destruct t as [h|].
    + destruct Ht as [Hh [j Hj]]. subst i. rewrite Hj in D2. destruct D2 as (h' & s' & -> & Hs & Ht).
      destruct (Hi h j Hj) as (im & Him & Hs'). rewrite Hs' in Hs. injection Hs as <-.
      exists im, (deser_image (ser_image im)). split; [done|split; [done|apply image_trip]].
    + subst i. cbn in D2. by subst t'.
Qed.

Lemma roundtrip meshes mats images ens fm ft fi r ed :
  describes meshes mats images ens fm ft fi r → (∀ h m, meshes !! h = Some m → mesh_ok m) → editor_ok ed →
  ∃ affs vis ed', import_response r ed = Done (affs, vis, ed') ∧
    editor_ok ed' ∧ keeps (ed_meshes ed) (ed_meshes ed') ∧ keeps (ed_mats ed) (ed_mats ed') ∧ keeps (ed_images ed) (ed_images ed') ∧
    Forall2 (λ f s, s.1 = f.1 ∧ ∃ m, as_tbl (ed_meshes ed') !! s.2 = Some m ∧
       trimesh_of m = Some (TM (tm_verts f.2) (tm_idx f.2) (repeat 0 (length (tm_idx f.2))))) (rs_aff r) affs ∧
    Forall2 (λ en s, s.1.1 = en_tf en ∧
      (∃ m m', meshes !! en_mesh en = Some m ∧ as_tbl (ed_meshes ed') !! s.1.2 = Some m' ∧ same_mesh m m') ∧
      (match en_mat en ≫= λ h, mats !! h with
       | Some m => (loadable images m ∧ ∃ m', as_tbl (ed_mats ed') !! s.2 = Some m' ∧ same_material images (as_tbl (ed_images ed')) m m') ∨
                   (¬ loadable images m ∧ as_tbl (ed_mats ed') !! s.2 = Some white_material)
       | None => as_tbl (ed_mats ed') !! s.2 = Some white_material
       end)) (filter (shown meshes) ens) vis ∧
    (∀ j k en en' s s', filter (shown meshes) ens !! j = Some en → filter (shown meshes) ens !! k = Some en' →
       vis !! j = Some s → vis !! k = Some s' → (s.1.2 = s'.1.2 ↔ en_mesh en = en_mesh en')).
Proof.
  intros D Hok (O1 & O2 & O3). unfold import_response.
  destruct (import_affectors_ok (rs_aff r) (ed_meshes ed) O1) as (A1 & A2 & A3).
  destruct (import_affectors (rs_aff r) (ed_meshes ed)) as [affs ms] eqn:EA; cbn [fst snd] in A1, A2, A3.
  destruct (as_add_ok (ed_mats ed) white_material O2) as [F1 F2].
  cbn [as_add] in *. set (mt1 := As (Pos.succ (as_next (ed_mats ed))) (<[as_next (ed_mats ed) := white_material]> (as_tbl (ed_mats ed)))) in *.
  cbn [snd] in F1, F2. set (fb := as_next (ed_mats ed)) in *.
  assert (V1 : resp_valid r).
  { intros s Hs t Ht i ->. apply elem_of_list_lookup in Hs as (k & Hk).
    destruct (de_mats _ _ _ _ _ _ _ _ D) as (_ & _ & N3).
    destruct (N3 (Z.of_nat k)) as [h Hh]; [apply lookup_lt_Some in Hk; lia|].
    destruct (de_mat _ _ _ _ _ _ _ _ D h _ Hh) as (m & s' & _ & Hs' & (En & _)). rewrite Nat2Z.id, Hk in Hs'. injection Hs' as <-.
    apply elem_of_list_lookup in Ht as (q & Hq). apply Forall2_flip in En. destruct (Forall2_lookup_l _ _ _ _ _ En Hq) as (t & _ & Hq').
    cbn in Hq'. destruct t as [h'|]; [|done]. destruct Hq' as [Hq' _]. symmetry in Hq'.
    destruct (de_image _ _ _ _ _ _ _ _ D h' i Hq') as (im & _ & Him). by eexists. }
  assert (V2 : ∀ v, v ∈ rs_vis r → vis_valid r v).
  { intros v Hv. apply elem_of_list_lookup in Hv as (k & Hk). pose proof (de_visuals _ _ _ _ _ _ _ _ D) as DV. apply Forall2_flip in DV.
    destruct (Forall2_lookup_l _ _ _ _ _ DV Hk) as (en & _ & (_ & X2 & X3)). split.
    - symmetry in X2. destruct (de_mesh _ _ _ _ _ _ _ _ D _ _ X2) as (m & Hm & Hs). destruct (mesh_trip m (Hok _ _ Hm)) as (m' & Em & _).
      exists (ser_mesh m), m'. done.
    - intros i Hi. rewrite Hi in X3. destruct (en_mat en) as [h|]; [|done]. cbn in X3. symmetry in X3.
      destruct (de_mat _ _ _ _ _ _ _ _ D _ _ X3) as (m & s & _ & Hs & _). by eexists. }
  assert (I0 : iinv r (as_next ms) (Pos.succ fb) (as_next (ed_images ed)) (Ip (Ed ms mt1 (ed_images ed)) ∅ ∅ ∅)).
  { constructor; cbn [ip_meshes ip_mats ip_images ip_ed ed_meshes ed_mats ed_images].
    all: split; [done|split; [cbn; lia|split]]; intros; try (rewrite lookup_empty in *; done). }
  destruct (import_visuals_ok r _ _ _ fb (rs_vis r) V1 V2 _ I0) as (sp & p & -> & C1 & C2 & C3). cbn [obind fst snd].
  exists affs, sp, (ip_ed p). destruct C2 as (G1 & G2 & G3 & _ & _). cbn [ip_ed ed_meshes ed_mats ed_images] in G1, G2, G3.
  destruct C1 as [J1 J2 J3].
  assert (Hfb : as_tbl (ed_mats (ip_ed p)) !! fb = Some white_material).
  { apply G2. unfold mt1. cbn. by rewrite lookup_insert. }
  split; [done|]. split; [split; [apply J1|split; [apply J2|apply J3]]|].
  split; [by eapply keeps_trans|]. split; [by eapply keeps_trans|]. split; [done|].
  pose proof (de_visuals _ _ _ _ _ _ _ _ D) as DV.
  split; [|split].
  - eapply Forall2_impl; [exact A3|]. intros f s [H1 H2]. split; [done|]. exists (affector_mesh f.2).
    split; [by apply G1|apply affector_trip].
  - apply Forall2_same_length_lookup. split; [transitivity (length (rs_vis r)); [by eapply Forall2_length|by eapply Forall2_length]|].
    intros k en s Hen Hs.
    destruct (Forall2_lookup_l _ _ _ _ _ DV Hen) as (v & Hv & (X1 & X2 & X3)).
    destruct (Forall2_lookup_lr _ _ _ _ _ _ C3 Hv Hs) as (Y1 & Y2 & Y3).
    split; [by rewrite Y1|]. split.
    + symmetry in X2. destruct (de_mesh _ _ _ _ _ _ _ _ D _ _ X2) as (m & Hm & Hsm).
      destruct J1 as (_ & _ & J1 & _). destruct (J1 _ _ Y2) as [_ (x & Hx & (sm & Hsm' & Hd))]. rewrite Hsm in Hsm'. injection Hsm' as <-.
      destruct (mesh_trip m (Hok _ _ Hm)) as (m' & Em & Hsame). rewrite Em in Hd. injection Hd as <-. eauto.
    + destruct (en_mat en) as [h|] eqn:Eh; cbn [mbind option_bind] in *.
      2: { rewrite X3 in Y3. rewrite Y3. done. }
      destruct (mats !! h) as [m|] eqn:Em.
      * assert (Hen' : en ∈ ens ∧ shown meshes en).
        { apply elem_of_list_lookup_2 in Hen. apply elem_of_list_filter in Hen. tauto. }
        destruct (ft !! h) as [i|] eqn:Ei.
        -- left. destruct (de_mat_used _ _ _ _ _ _ _ _ D h) as [U _]. destruct (U ltac:(by eexists)) as (_ & m0 & _ & _ & _ & Hm0 & HL).
           rewrite Em in Hm0. injection Hm0 as <-. split; [done|].
           rewrite X3 in Y3. destruct J2 as (_ & _ & J2 & _). destruct (J2 _ _ Y3) as [_ (x & Hx & (sm & Hsm & Hdec))].
           exists x. split; [done|]. destruct (de_mat _ _ _ _ _ _ _ _ D _ _ Ei) as (m0 & s0 & Hm0 & Hs0 & Henc).
           rewrite Em in Hm0. injection Hm0 as <-. rewrite Hsm in Hs0. injection Hs0 as <-.
           eapply deser_mat_same; [|done|done]. apply (de_image _ _ _ _ _ _ _ _ D).
        -- right. split.
           ++ intros HL. destruct (de_mat_used _ _ _ _ _ _ _ _ D h) as [_ U].
              assert (is_Some (ft !! h)) as [? ?] by (apply U; exists en, m; split_and!; try done; tauto). congruence.
           ++ rewrite X3 in Y3. by rewrite Y3.
      * destruct (ft !! h) as [i|] eqn:Ei.
        -- destruct (de_mat _ _ _ _ _ _ _ _ D _ _ Ei) as (m0 & s0 & Hm0 & _). congruence.
        -- rewrite X3 in Y3. by rewrite Y3.
  - intros j k en en' s s' Hj Hk Hsj Hsk.
    destruct (Forall2_lookup_l _ _ _ _ _ DV Hj) as (v & Hv & (_ & X2 & _)).
    destruct (Forall2_lookup_l _ _ _ _ _ DV Hk) as (v' & Hv' & (_ & X2' & _)).
    destruct (Forall2_lookup_lr _ _ _ _ _ _ C3 Hv Hsj) as (_ & Y2 & _).
    destruct (Forall2_lookup_lr _ _ _ _ _ _ C3 Hv' Hsk) as (_ & Y2' & _).
    destruct (de_meshes _ _ _ _ _ _ _ _ D) as (_ & N2 & _). destruct J1 as (_ & _ & _ & J1). split.
    + intros E. rewrite E in Y2. pose proof (J1 _ _ _ Y2 Y2') as Ev. rewrite Ev in X2. by eapply N2; symmetry.
    + intros E. rewrite E, <- X2' in X2. injection X2 as Ev. rewrite Ev, Y2' in Y2. by injection Y2.
Qed.
