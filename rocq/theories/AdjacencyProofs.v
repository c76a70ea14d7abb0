(** [build_adjacency] links the slots of polygons that share an edge. *)
From Verif Require Import Base ModelMath ModelContours ModelPoly SpecPoly TriangulateProofs MergeProofs.
Local Open Scope Z_scope.

(** A slot: a polygon, an edge number and the two ends of that edge. *)
Record slot : Type := Sl { sp : nat; se : nat; su : Z; sv : Z }.
Definition asc (s : slot) : bool := su s <? sv s.

Definition poly_slots (i : nat) (vs : list Z) : list slot :=
  (λ e, Sl i e (vs !!! e) (vs !!! nx e (length vs))) <$> seq 0 (length vs).
Definition all_slots (vss : list (list Z)) (n : nat) : list slot :=
  concat ((λ i, poly_slots i (vss !!! i)) <$> seq 0 n).

Lemma all_slots_S vss n : all_slots vss (S n) = all_slots vss n ++ poly_slots n (vss !!! n).
Proof. unfold all_slots. rewrite seq_S, fmap_app, concat_app. cbn. by rewrite app_nil_r. Qed.

Lemma poly_slots_in i vs s : s ∈ poly_slots i vs ↔
  sp s = i ∧ vs !! se s = Some (su s) ∧ vs !! nx (se s) (length vs) = Some (sv s).
Proof.
  unfold poly_slots. rewrite elem_of_list_fmap. split.
  - intros (e & -> & He%elem_of_seq). cbn. split; [done|].
    split; apply list_lookup_lookup_total_lt; [lia|]. unfold nx. apply Nat.mod_upper_bound. lia.
  - intros (Hp & Hu & Hv). exists (se s). split.
    + destruct s as [p e u v]. cbn in *. by rewrite Hp, (list_lookup_total_correct _ _ _ Hu), (list_lookup_total_correct _ _ _ Hv).
    + apply elem_of_seq. apply lookup_lt_Some in Hu. lia.
Qed.
Definition at_slot (vss : list (list Z)) (s : slot) : Prop :=
  ∃ vs, vss !! sp s = Some vs ∧ vs !! se s = Some (su s) ∧ vs !! nx (se s) (length vs) = Some (sv s).
Lemma all_slots_in vss n s : (n <= length vss)%nat → s ∈ all_slots vss n ↔ (sp s < n)%nat ∧ at_slot vss s.
Proof.
  intros Hn. unfold all_slots. rewrite elem_of_concat. split.
  - intros (l & Hs & Hl). apply elem_of_list_fmap in Hl as (i & -> & Hi%elem_of_seq).
    apply poly_slots_in in Hs as (<- & Hu & Hv). split; [lia|].
    exists (vss !!! sp s). split; [apply list_lookup_lookup_total_lt; lia|done].
  - intros (Hlt & vs & Hvs & Hu & Hv). exists (poly_slots (sp s) vs). split; [by apply poly_slots_in|].
    apply elem_of_list_fmap. exists (sp s). split; [by rewrite (list_lookup_total_correct _ _ _ Hvs)|].
    apply elem_of_seq. lia.
Qed.
Lemma at_slot_eq vss s t : at_slot vss s → at_slot vss t → sp s = sp t → se s = se t → s = t.
Proof.
  destruct s as [p e u v], t as [p' e' u' v']. intros (vs & H & Hu & Hv) (vs' & H' & Hu' & Hv'). cbn in *. intros -> ->. f_equal; congruence.
Qed.
Lemma poly_slots_NoDup i vs : NoDup (poly_slots i vs).
Proof.
  unfold poly_slots. apply NoDup_fmap_2_strong; [|apply NoDup_seq]. intros e e' _ _ [= -> _ _]. done.
Qed.
Lemma all_slots_NoDup vss n : NoDup (all_slots vss n).
Proof.
  induction n as [|n IH]; [constructor|]. rewrite all_slots_S. apply NoDup_app. split; [done|].
  split; [|apply poly_slots_NoDup]. intros s Hs Hs'. apply poly_slots_in in Hs' as (Hp & _).
  unfold all_slots in Hs. apply elem_of_concat in Hs as (l & Hs & Hl).
  apply elem_of_list_fmap in Hl as (i & -> & Hi%elem_of_seq). apply poly_slots_in in Hs as (Hp' & _). lia.
Qed.
Lemma poly_slots_length i vs : length (poly_slots i vs) = length vs.
Proof. unfold poly_slots. by rewrite fmap_length, seq_length. Qed.
Lemma poly_slots_drop i vs j : (j < length vs)%nat →
  drop j (poly_slots i vs) = Sl i j (vs !!! j) (vs !!! nx j (length vs)) :: drop (S j) (poly_slots i vs).
Proof.
  intros Hj. apply drop_S. unfold poly_slots. rewrite list_lookup_fmap. rewrite lookup_seq_lt by done. done.
Qed.
Lemma poly_slots_edges i vs : (λ s, (su s, sv s)) <$> poly_slots i vs = cycle_edges vs.
Proof.
  unfold poly_slots. rewrite <- list_fmap_compose. destruct vs as [|v vs]; [done|].
  apply list_eq. intros k. rewrite list_lookup_fmap. cbn [cycle_edges].
  rewrite lookup_zip_with. destruct (decide (k < length (v :: vs))%nat) as [Hk|Hk].
  - rewrite lookup_seq_lt by done. cbn [fmap option_fmap option_map]. unfold compose.
    rewrite (list_lookup_lookup_total_lt (v :: vs) k) by done. cbn [mbind option_bind].
    cbn [su sv]. destruct (decide (k = length vs)) as [->|Hne].
    + rewrite lookup_app_r, Nat.sub_diag by lia. cbn [lookup list_lookup mbind option_bind].
      unfold nx. cbn [length]. rewrite Nat.add_1_r, Nat.mod_same by lia. done.
    + cbn [length] in Hk. rewrite lookup_app_l by lia. rewrite (list_lookup_lookup_total_lt vs k) by lia. cbn [mbind option_bind].
      unfold nx. cbn [length]. rewrite Nat.mod_small by lia. rewrite Nat.add_1_r. done.
  - rewrite (lookup_ge_None_2 (seq _ _)) by (rewrite seq_length; lia).
    rewrite (lookup_ge_None_2 (v :: vs)) by lia. done.
Qed.
Lemma all_slots_edges vss n : (n <= length vss)%nat →
  (λ s, (su s, sv s)) <$> all_slots vss n = concat (cycle_edges <$> take n vss).
Proof.
  intros Hn. induction n as [|n IH]; [by rewrite take_0|]. rewrite all_slots_S, fmap_app, IH, poly_slots_edges by lia.
  destruct (lookup_lt_is_Some_2 vss n) as [vs Hvs]; [lia|].
  rewrite (take_S_r _ _ _ Hvs), fmap_app, concat_app, (list_lookup_total_correct _ _ _ Hvs). cbn. by rewrite app_nil_r.
Qed.

Lemma next_vert_done nvp vs t j : padded nvp vs t → (j < length vs)%nat → next_vert t nvp j = Done (vs !!! nx j (length vs)).
Proof.
  intros P Hj. pose proof P as (Et & Hl & Hv). unfold next_vert.
  assert (get t 0 = Done (vs !!! 0%nat)) as E0.
  { apply get_some. rewrite (padded_get _ _ _ _ P) by lia. apply list_lookup_lookup_total_lt. lia. }
  destruct (decide (j + 1 = length vs)%nat) as [He|Hne].
  - assert (nx j (length vs) = 0%nat) as -> by (unfold nx; rewrite He; apply Nat.mod_same; lia).
    destruct (nvp <=? j + 1)%nat eqn:E; [done|].
    assert (get t (j + 1) = Done 65535) as ->.
    { apply get_some. rewrite Et. rewrite lookup_app_r, He, Nat.sub_diag by lia.
      destruct (nvp - length vs)%nat eqn:E'; [lia|]. done. }
    cbn [obind]. unfold NO_INDEX. done.
  - assert (nx j (length vs) = (j + 1)%nat) as -> by (unfold nx; apply Nat.mod_small; lia).
    destruct (nvp <=? j + 1)%nat eqn:E; [lia|].
    assert (vs !! (j + 1)%nat = Some (vs !!! (j + 1)%nat)) as Hx by (apply list_lookup_lookup_total_lt; lia).
    rewrite (get_some t (j + 1) (vs !!! (j + 1)%nat)) by (rewrite (padded_get _ _ _ _ P); [done|lia]). cbn [obind].
    assert (0 <= vs !!! (j + 1)%nat < 65535) by (rewrite Forall_lookup in Hv; by eapply Hv).
    unfold NO_INDEX. destruct (_ =? 65535) eqn:E'; [lia|done].
Qed.

(** ** The chains of edges *)

Inductive zchain (next : list Z) : Z → list nat → Prop :=
| zchain_nil : zchain next NO_INDEX []
| zchain_cons i o c : Z.of_nat i < 65535 → next !! i = Some o → zchain next o c → zchain next (Z.of_nat i) (i :: c).

Lemma zchain_put next n x o c : (∀ i, i ∈ c → (i < n)%nat) → zchain next o c → zchain (<[n := x]> next) o c.
Proof.
  intros Hlt Hc. induction Hc as [|i o c Hi0 Hi Hc IH]; [constructor|].
  econstructor; [done| |apply IH; intros; apply Hlt; by right].
  rewrite list_lookup_insert_ne; [done|]. assert (i < n)%nat by (apply Hlt; left). lia.
Qed.

Definition rec_of (s : slot) : edge := Edg (su s) (sv s) (Z.of_nat (sp s)) (Z.of_nat (sp s)) (Z.of_nat (se s)) 0.

(** [as_] lists the ascending slots collected so far. *)
Record erep (nv cap : nat) (as_ : list slot) (e : etab) : Prop := {
  er_n : et_n e = length as_;
  er_elen : length (et_edges e) = cap;
  er_nlen : length (et_next e) = cap;
  er_flen : length (et_first e) = nv;
  er_chain : ∀ v, (v < nv)%nat → ∃ o c, et_first e !! v = Some o ∧ zchain (et_next e) o c ∧ NoDup c ∧
    (∀ i, i ∈ c ↔ ∃ s, as_ !! i = Some s ∧ su s = Z.of_nat v)
}.

Lemma wrap_small z : 0 <= z < 65536 → wrap_u16 z = z.
Proof. intros H. unfold wrap_u16. rewrite Z.mod_small; lia. Qed.

Lemma collect_step nv cap as_ e u v p j : erep nv cap as_ e → (length as_ < cap)%nat → Z.of_nat (length as_) < 65535 →
  0 <= u < Z.of_nat nv → ∃ f, get (et_first e) (Z.to_nat u) = Done f ∧
  erep nv cap (as_ ++ [Sl p j u v])
    (ETab (<[Z.to_nat u := wrap_u16 (Z.of_nat (et_n e))]> (et_first e)) (<[et_n e := f]> (et_next e))
       (<[et_n e := rec_of (Sl p j u v)]> (et_edges e)) (S (et_n e))).
Proof.
  intros R Hc Hn Hu. destruct (er_chain _ _ _ _ R (Z.to_nat u)) as (o & c & Ho & Hz & Hnd & Hin); [lia|].
  exists o. split; [by apply get_some|].
  assert (∀ w o' (c' : list nat), (w < nv)%nat → et_first e !! w = Some o' → (∀ i, i ∈ c' ↔ ∃ s, as_ !! i = Some s ∧ su s = Z.of_nat w) →
    ∀ i, i ∈ c' → (i < length as_)%nat) as Hlt.
  { intros w o' c' _ _ H i Hi. apply H in Hi as (s & Hs & _). by eapply lookup_lt_Some. }
  split; cbn.
  - rewrite app_length, (er_n _ _ _ _ R). cbn. lia.
  - rewrite insert_length. apply R.
  - rewrite insert_length. apply R.
  - rewrite insert_length. apply R.
  - intros w Hw. rewrite (er_n _ _ _ _ R). destruct (decide (w = Z.to_nat u)) as [->|Hne].
    + exists (Z.of_nat (length as_)), (length as_ :: c). rewrite list_lookup_insert by (rewrite (er_flen _ _ _ _ R); lia).
      rewrite wrap_small by lia. split; [done|]. split; [|split].
      * econstructor; [done|apply list_lookup_insert; rewrite (er_nlen _ _ _ _ R); lia|].
        apply zchain_put; [by eapply Hlt|done].
      * constructor; [|done]. intros Hi. eapply Hlt in Hi; [|exact Hw|done|done]. lia.
      * intros i. rewrite elem_of_cons, Hin. split.
        -- intros [->|(s & Hs & E)].
           ++ exists (Sl p j u v). split; [|cbn; lia]. rewrite lookup_app_r, Nat.sub_diag by lia. done.
           ++ exists s. split; [|done]. by apply lookup_app_l_Some.
        -- intros (s & Hs & E). apply lookup_app_Some in Hs as [Hs|[Hge Hs]]; [right; eauto|].
           left. apply lookup_lt_Some in Hs. cbn in Hs. lia.
    + destruct (er_chain _ _ _ _ R w Hw) as (o' & c' & Ho' & Hz' & Hnd' & Hin').
      exists o', c'. rewrite list_lookup_insert_ne by done. split; [done|]. split; [|split; [done|]].
      * apply zchain_put; [by eapply Hlt|done].
      * intros i. rewrite Hin'. split.
        -- intros (s & Hs & E). exists s. split; [|done]. by apply lookup_app_l_Some.
        -- intros (s & Hs & E). apply lookup_app_Some in Hs as [Hs|[Hge Hs]]; [eauto|].
           exfalso. destruct (i - length as_)%nat; [|done]. cbn in Hs. injection Hs as <-. cbn in E. lia.
Qed.

Definition recs_are (as_ : list slot) (e : etab) : Prop := take (length as_) (et_edges e) = rec_of <$> as_.
Definition ascs : list slot → list slot := filter (λ s, asc s = true).

Lemma collect_runs nv cap nvp i vs t ss : padded nvp vs t → Forall (λ v, v < Z.of_nat nv) vs → Z.of_nat i < 65536 → Z.of_nat nvp <= 65536 →
  ∀ k j e, (j + k = nvp)%nat → (j <= length vs)%nat →
  Z.of_nat (length (ascs (ss ++ poly_slots i vs))) <= 65535 → (length (ss ++ poly_slots i vs) <= cap)%nat →
  erep nv cap (ascs (ss ++ take j (poly_slots i vs))) e → recs_are (ascs (ss ++ take j (poly_slots i vs))) e →
  runs (collect_edges k t nvp i j e) (λ e', erep nv cap (ascs (ss ++ poly_slots i vs)) e' ∧ recs_are (ascs (ss ++ poly_slots i vs)) e').
Proof.
  intros P Hnv Hi Hnvp k. induction k as [|k IH]; intros j e Hjk Hj Hc1 Hc2 R RR; cbn [collect_edges].
  { cbn. pose proof P as (_ & Hl & _). rewrite take_ge in R, RR by (rewrite poly_slots_length; lia). done. }
  destruct (decide (j = length vs)) as [->|Hne].
  - rewrite (get_some t (length vs) 65535).
    + cbn. rewrite take_ge in R, RR by (rewrite poly_slots_length; lia). done.
    + destruct P as (-> & _). rewrite lookup_app_r, Nat.sub_diag by lia.
      destruct (nvp - length vs)%nat eqn:E'; [lia|done].
  - assert (j < length vs)%nat as Hjl by lia.
    assert (vs !! j = Some (vs !!! j)) as Hx by (apply list_lookup_lookup_total_lt; lia).
    assert (0 <= vs !!! j < 65535 ∧ vs !!! j < Z.of_nat nv) as [Hu Hu'].
    { destruct P as (_ & _ & Hv). rewrite Forall_lookup in Hv, Hnv. split; [by eapply Hv|by eapply Hnv]. }
    rewrite (get_some t j (vs !!! j)) by (rewrite (padded_get _ _ _ _ P); done). cbn [obind].
    unfold NO_INDEX. destruct (_ =? 65535) eqn:E'; [lia|]. clear E'.
    rewrite (next_vert_done _ _ _ _ P Hjl). cbn [obind].
    set (u := vs !!! j) in *. set (v := vs !!! nx j (length vs)).
    set (s := Sl i j u v).
    assert (take (S j) (poly_slots i vs) = take j (poly_slots i vs) ++ [s]) as Et.
    { apply take_S_r. unfold poly_slots. rewrite list_lookup_fmap. by rewrite lookup_seq_lt by done. }
    assert (ascs (ss ++ take (S j) (poly_slots i vs)) = ascs (ss ++ take j (poly_slots i vs)) ++ ascs [s]) as Ea.
    { unfold ascs. rewrite Et, app_assoc, filter_app. done. }
    destruct (u <? v) eqn:Euv.
    + assert (ascs [s] = [s]) as Es by (unfold ascs; rewrite filter_cons_True by done; done).
      rewrite Es in Ea.
      assert (Z.of_nat (length (ascs (ss ++ take j (poly_slots i vs)))) < 65535 ∧ (length (ascs (ss ++ take j (poly_slots i vs))) < cap)%nat) as [B1 B2].
      { assert (S (length (ascs (ss ++ take j (poly_slots i vs)))) <= length (ascs (ss ++ poly_slots i vs)))%nat as H.
        { rewrite <- (take_drop (S j) (poly_slots i vs)) at 2. rewrite (app_assoc ss). unfold ascs at 2. rewrite filter_app.
          fold (ascs (ss ++ take (S j) (poly_slots i vs))). rewrite Ea, !app_length. cbn. lia. }
        pose proof (filter_length (λ s, asc s = true) (ss ++ poly_slots i vs)) as H2. fold (ascs (ss ++ poly_slots i vs)) in H2. lia. }
      rewrite put_lt by (rewrite (er_elen _ _ _ _ R), (er_n _ _ _ _ R); done). cbn [obind].
      destruct (collect_step nv cap _ e u v i j R B2 B1) as (f & Hf & R'); [lia|].
      rewrite Hf. cbn [obind].
      rewrite put_lt by (rewrite (er_nlen _ _ _ _ R), (er_n _ _ _ _ R); done). cbn [obind].
      rewrite put_lt by (rewrite (er_flen _ _ _ _ R); lia). cbn [obind].
      assert (Z.of_nat j < 65536) by (destruct P as (_ & ? & _); lia).
      rewrite (wrap_small (Z.of_nat i)), (wrap_small (Z.of_nat j)) by lia.
      apply IH; [lia|lia|done|done|rewrite Ea; exact R'|].
      unfold recs_are. rewrite Ea, app_length, fmap_app. cbn [length et_edges fmap list_fmap]. rewrite Nat.add_1_r.
      rewrite (er_n _ _ _ _ R).
      erewrite take_S_r by (apply list_lookup_insert; rewrite (er_elen _ _ _ _ R); done).
      rewrite take_insert by lia. by rewrite RR.
    + assert (ascs [s] = []) as Es.
      { unfold ascs. rewrite filter_cons_False; [done|]. unfold asc, s. cbn [su sv]. rewrite Euv. done. }
      rewrite Es, app_nil_r in Ea. cbn [obind]. apply IH; [lia|lia|done|done|by rewrite Ea|by rewrite Ea].
Qed.

Lemma collect_all_runs nv nvp polys vss : Forall2 (λ (r : list Z * list Z) vs, padded nvp vs r.1 ∧ Forall (λ v, v < Z.of_nat nv) vs) polys vss →
  Z.of_nat (length vss) <= 65535 → Z.of_nat nvp <= 65536 →
  Z.of_nat (length (ascs (all_slots vss (length vss)))) <= 65535 →
  let cap := (length vss * nvp)%nat in
  runs (foldM (λ i e, let! t := get polys i in collect_edges nvp t.1 nvp i 0 e) (seq 0 (length vss))
    (ETab (repeat NO_INDEX nv) (repeat NO_INDEX cap) (repeat edge0 cap) 0))
    (λ e, erep nv cap (ascs (all_slots vss (length vss))) e ∧ recs_are (ascs (all_slots vss (length vss))) e).
Proof.
  intros HF Hnp Hnvp Hasc cap.
  assert (∀ n, (n <= length vss)%nat → (length (all_slots vss n) <= n * nvp)%nat ∧
    Z.of_nat (length (ascs (all_slots vss n))) <= 65535) as Hbound.
  { intros n Hn. split.
    - induction n as [|n IH]; [cbn; lia|]. rewrite all_slots_S, app_length, poly_slots_length.
      destruct (lookup_lt_is_Some_2 vss n) as [vs Hvs]; [lia|]. rewrite (list_lookup_total_correct _ _ _ Hvs).
      destruct (Forall2_lookup_r _ _ _ _ _ HF Hvs) as (r & _ & (_ & Hl & _) & _). lia.
    - enough (length (ascs (all_slots vss n)) <= length (ascs (all_slots vss (length vss))))%nat by lia.
      remember (length vss) as N. clear -Hn. induction Hn as [|N Hn IH]; [done|].
      rewrite all_slots_S. unfold ascs in *. rewrite filter_app, app_length. lia. }
  apply (foldM_seq_inv (λ n e, erep nv cap (ascs (all_slots vss n)) e ∧ recs_are (ascs (all_slots vss n)) e)).
  - split; [|done]. split; cbn; [done|by rewrite repeat_length..|].
    intros v Hv. exists NO_INDEX, []. split; [by apply repeat_lookup|]. split; [constructor|]. split; [constructor|].
    intros i. split; [by intros ?%elem_of_nil|]. intros (s & Hs & _). done.
  - intros i e Hi [R RR]. destruct (lookup_lt_is_Some_2 vss i) as [vs Hvs]; [lia|].
    destruct (Forall2_lookup_r _ _ _ _ _ HF Hvs) as (r & Hr & P & Hlt).
    rewrite (get_some _ _ _ Hr). cbn [obind]. rewrite Nat.add_1_r.
    destruct (Hbound (S i)) as [B1 B2]; [lia|].
    rewrite all_slots_S, (list_lookup_total_correct _ _ _ Hvs) in *.
    eapply (collect_runs nv cap nvp i vs r.1 (all_slots vss i)); [done|done|lia|done|lia|lia|lia|unfold cap; nia|..];
      by rewrite take_0, app_nil_r.
Qed.

(** ** Matching *)

Definition rec_with (s : slot) (o : option slot) : edge :=
  match o with
  | None => rec_of s
  | Some t => Edg (su s) (sv s) (Z.of_nat (sp s)) (Z.of_nat (sp t)) (Z.of_nat (se s)) (Z.of_nat (se t))
  end.
Definition recs_match (as_ : list slot) (M : list (option slot)) (e : etab) : Prop :=
  length M = length as_ ∧ ∀ k s o, as_ !! k = Some s → M !! k = Some o → et_edges e !! k = Some (rec_with s o).
Definition opposite (s t : slot) : Prop := su s = sv t ∧ sv s = su t.

Record mrep (uniq : Z → Z → Prop) (as_ S : list slot) (M : list (option slot)) : Prop := {
  mr_from : ∀ k s t, as_ !! k = Some s → M !! k = Some (Some t) → t ∈ S ∧ opposite s t;
  mr_inj : ∀ k k' t, M !! k = Some (Some t) → M !! k' = Some (Some t) → k = k';
  mr_all : ∀ k s t, uniq (su s) (sv s) → t ∈ S → as_ !! k = Some s → opposite s t → M !! k = Some (Some t)
}.

Lemma match_runs as_ M e v0 v1 i j fuel c ks : recs_match as_ M e → Z.of_nat i < 65536 → Z.of_nat j < 65536 →
  zchain (et_next e) c ks → (length ks < fuel)%nat → (∀ k, k ∈ ks → ∃ s, as_ !! k = Some s ∧ su s = v1) →
  let t := Sl i j v0 v1 in
  runs (match_edge fuel v0 i j c e) (λ e',
    (e' = e ∧ ∀ k s, k ∈ ks → as_ !! k = Some s → opposite s t → ∃ t', M !! k = Some (Some t')) ∨
    (∃ k s, k ∈ ks ∧ as_ !! k = Some s ∧ opposite s t ∧
       e' = ETab (et_first e) (et_next e) (<[k := rec_with s (Some t)]> (et_edges e)) (et_n e))).
Proof.
  intros [HM RM] Hi Hj Hz. revert fuel. induction Hz as [|k o ks Hk Hnext Hz IH]; intros fuel Hfu Hin t.
  { destruct fuel; cbn; left; (split; [done|]); intros k s Hk; by apply elem_of_nil in Hk. }
  destruct fuel as [|fuel]; [cbn in Hfu; lia|]. cbn [match_edge]. unfold NO_INDEX.
  destruct (Z.of_nat k =? 65535) eqn:E; [lia|]. clear E.
  destruct (Hin k) as (s & Hs & Hsu); [left|].
  destruct (lookup_lt_is_Some_2 M k) as [om Hom]; [rewrite HM; by eapply lookup_lt_Some|].
  rewrite Nat2Z.id. rewrite (get_some _ _ _ (RM _ _ _ Hs Hom)). cbn [obind].
  destruct ((_ =? v0) && _) eqn:E.
  - rewrite put_lt by (eapply lookup_lt_Some, RM; done). cbn. right. exists k, s. split; [left|]. split; [done|].
    apply andb_true_iff in E as [E1 E2]. split.
    + split; cbn; [done|]. destruct om; cbn in E1; lia.
    + f_equal. f_equal. rewrite !wrap_small by lia. destruct om; done.
  - rewrite (get_some _ _ _ Hnext). cbn [obind]. cbn in Hfu.
    eapply runs_mono; [apply IH; [lia|]|].
    + intros k' Hk'. apply Hin. by right.
    + intros e' [[-> Hno]|(k' & s' & Hk' & H)].
      * left. split; [done|]. intros k' s' Hk' Hs' Hop. apply elem_of_cons in Hk' as [->|Hk']; [|by eapply Hno].
        assert (s' = s) as -> by congruence. destruct om as [t'|]; [by exists t'|].
        exfalso. destruct Hop as [_ Hv]. cbn in *. lia.
      * right. exists k', s'. split; [by right|done].
Qed.

Lemma chain_short as_ ks v1 : NoDup ks → (∀ k : nat, k ∈ ks → ∃ s : slot, as_ !! k = Some s ∧ su s = v1) → (length ks <= length as_)%nat.
Proof.
  intros Hnd Hin. rewrite <- (seq_length (length as_) 0). apply submseteq_length, NoDup_submseteq; [done|].
  intros i Hi. apply Hin in Hi as (s & Hs & _). apply elem_of_seq. apply lookup_lt_Some in Hs. lia.
Qed.

Lemma match_slot_runs nv cap nvp vs r uniq as_ S M e j i : 
  erep nv cap as_ e → recs_match as_ M e → mrep uniq as_ S M → padded nvp vs r → Forall (λ v, v < Z.of_nat nv) vs →
  (j < length vs)%nat → Z.of_nat i < 65536 → Z.of_nat nvp <= 65536 → NoDup as_ → (length as_ <= cap)%nat →
  let t := Sl i j (vs !!! j) (vs !!! nx j (length vs)) in
  (∀ s, s ∈ as_ → asc s = true) → t ∉ S →
  (∀ a b, uniq (su a) (sv a) → a ∈ as_ → b ∈ as_ → su a = su b → sv a = sv b → a = b) →
  (∀ a, uniq (sv t) (su t) → a ∈ S → su a = su t → sv a = sv t → a = t) →
  runs (match_slot r nvp i j e) (λ e', erep nv cap as_ e' ∧ ∃ M', recs_match as_ M' e' ∧ mrep uniq as_ (S ++ [t]) M').
Proof.
  intros R [HM RM] MR P Hnv Hj Hi Hnvp Hnd Hcap t Hasc Ht Huq1 Huq2. unfold match_slot.
  assert (vs !! j = Some (vs !!! j)) as Hx by (apply list_lookup_lookup_total_lt; lia).
  assert (vs !! nx j (length vs) = Some (vs !!! nx j (length vs))) as Hy
    by (apply list_lookup_lookup_total_lt; apply Nat.mod_upper_bound; lia).
  rewrite (get_some r j (vs !!! j)) by (rewrite (padded_get _ _ _ _ P); done). cbn [obind].
  rewrite (next_vert_done _ _ _ _ P Hj). cbn [obind].
  destruct (vs !!! nx j (length vs) <? vs !!! j) eqn:E.
  - assert (0 <= sv t < Z.of_nat nv) as Hsv.
    { destruct P as (_ & _ & Hv). rewrite Forall_lookup in Hv, Hnv. cbn. apply Hv in Hy as Hy1. apply Hnv in Hy as Hy2. lia. }
    destruct (er_chain _ _ _ _ R (Z.to_nat (sv t))) as (o & c & Ho & Hz & Hc & Hin); [lia|].
    cbn [sv t] in Ho. rewrite (get_some _ _ _ Ho). cbn [obind].
    rewrite Z2Nat.id in Hin by lia.
    assert (∀ k, k ∈ c → ∃ s, as_ !! k = Some s ∧ su s = sv t) as Hin' by (intros k; apply Hin).
    eapply runs_mono; [eapply (match_runs as_ M e (su t) (sv t) i j _ o c); [done|done| |done| |done]|].
    + destruct P as (_ & ? & _). lia.
    + rewrite (er_elen _ _ _ _ R). pose proof (chain_short as_ c (sv t) Hc Hin'). lia.
    + change (Sl i j (su t) (sv t)) with t. intros e' [[-> Hno]|(k & s & Hk & Hs & Hop & ->)].
      * split; [done|]. exists M. split; [done|]. split.
        -- intros k s t' Hs Hm. destruct (mr_from _ _ _ _ MR k s t' Hs Hm) as [H ?]. split; [|done]. apply elem_of_app. by left.
        -- apply MR.
        -- intros k s t' U Ht' Hs Hop. apply elem_of_app in Ht' as [Ht'|Ht'].
           ++ by eapply (mr_all _ _ _ _ MR).
           ++ apply elem_of_list_singleton in Ht' as ->. exfalso.
              assert (k ∈ c) as Hk by (apply Hin; exists s; split; [done|apply Hop]).
              destruct (Hno k s Hk Hs Hop) as [t' Hm]. destruct (mr_from _ _ _ _ MR k s t' Hs Hm) as [HS Hop'].
              apply Ht. enough (t' = t) as <- by done. apply Huq2; [|done|destruct Hop, Hop'; congruence..]. destruct Hop as [H1 H2]. by rewrite <-H1, <-H2.
      * assert (k < length M)%nat as HkM by (rewrite HM; by eapply lookup_lt_Some).
        split; [destruct R; split; cbn; [done|by rewrite insert_length|done..]|].
        exists (<[k := Some t]> M). split.
        -- split; [by rewrite insert_length|]. intros k' s' o' Hs' Ho'. cbn [et_edges].
           destruct (decide (k' = k)) as [->|Hne].
           ++ rewrite list_lookup_insert in Ho' by done. injection Ho' as <-. assert (s' = s) as -> by congruence.
              apply list_lookup_insert. rewrite (er_elen _ _ _ _ R). apply lookup_lt_Some in Hs. lia.
           ++ rewrite list_lookup_insert_ne in Ho' by done. rewrite list_lookup_insert_ne by done. by apply RM.
        -- assert (∀ k' t', M !! k' = Some (Some t') → t' ∈ S) as HinS.
           { intros k' t' Hm. destruct (lookup_lt_is_Some_2 as_ k') as [s' Hs']; [rewrite <- HM; by eapply lookup_lt_Some|].
             by eapply (mr_from _ _ _ _ MR). }
           split.
           ++ intros k' s' t' Hs' Hm. destruct (decide (k' = k)) as [->|Hne].
              ** rewrite list_lookup_insert in Hm by done. injection Hm as <-. assert (s' = s) as -> by congruence.
                 split; [|done]. apply elem_of_app. right. left.
              ** rewrite list_lookup_insert_ne in Hm by done. destruct (mr_from _ _ _ _ MR k' s' t' Hs' Hm) as [H ?]. split; [|done].
                 apply elem_of_app. by left.
           ++ intros k1 k2 t'. destruct (decide (k1 = k)) as [->|H1], (decide (k2 = k)) as [->|H2]; [done| | |].
              ** rewrite list_lookup_insert by done. rewrite list_lookup_insert_ne by done. intros [= <-] Hm. by apply HinS in Hm.
              ** rewrite list_lookup_insert_ne by done. rewrite list_lookup_insert by done. intros Hm [= <-]. by apply HinS in Hm.
              ** rewrite !list_lookup_insert_ne by done. apply MR.
           ++ intros k' s' t' U Ht' Hs' Hop'. apply elem_of_app in Ht' as [Ht'|Ht'].
              ** destruct (decide (k' = k)) as [->|Hne].
                 --- exfalso. assert (s' = s) as -> by congruence. apply Ht. enough (t' = t) as <- by done.
                     apply Huq2; [|done|destruct Hop, Hop'; congruence..]. destruct Hop as [H1 H2]. by rewrite <-H1, <-H2.
                 --- rewrite list_lookup_insert_ne by done. by eapply (mr_all _ _ _ _ MR).
              ** apply elem_of_list_singleton in Ht' as ->.
                 assert (s' = s) as ->.
                 { apply Huq1; [done|by eapply elem_of_list_lookup_2..|destruct Hop, Hop'; congruence|destruct Hop, Hop'; congruence]. }
                 assert (k' = k) as -> by (eapply (NoDup_lookup as_); [done|exact Hs'|exact Hs]).
                 by apply list_lookup_insert.
  - cbn. split; [done|]. exists M. split; [done|]. split.
    + intros k s t' Hs Hm. destruct (mr_from _ _ _ _ MR k s t' Hs Hm) as [H ?]. split; [|done]. apply elem_of_app. by left.
    + apply MR.
    + intros k s t' U Ht' Hs Hop. apply elem_of_app in Ht' as [Ht'|Ht'].
      * by eapply (mr_all _ _ _ _ MR).
      * apply elem_of_list_singleton in Ht' as ->. exfalso. assert (asc s = true) as Ha by (by eapply Hasc, elem_of_list_lookup_2).
        unfold asc in Ha. destruct Hop as [H1 H2]. cbn in *. lia.
Qed.

(** A table without double edges. *)
Lemma NoDup_once (vss : list (list Z)) u v : NoDup (edges_of vss) → once vss u v.
Proof.
  intros U p e p' e' Ha Hb.
  assert (∀ s, at_slot vss s → s ∈ all_slots vss (length vss)) as Hall.
  { intros s Hs. apply all_slots_in; [done|]. split; [|done]. destruct Hs as (vs & Hvs & _). by eapply lookup_lt_Some. }
  pose proof (all_slots_edges vss (length vss) ltac:(done)) as E. rewrite take_ge in E by done. unfold edges_of in U. rewrite <- E in U.
  apply (Hall (Sl p e u v)), elem_of_list_lookup in Ha as [i Ha]. apply (Hall (Sl p' e' u v)), elem_of_list_lookup in Hb as [j Hb].
  assert (i = j) as ->. { eapply (NoDup_lookup _ _ _ (u, v) U); rewrite list_lookup_fmap; [by rewrite Ha|by rewrite Hb]. }
  rewrite Ha in Hb. by injection Hb.
Qed.

Section all.
Context (nv nvp : nat) (polys : list (list Z * list Z)) (vss : list (list Z)).
Hypothesis HF : Forall2 (λ (r : list Z * list Z) vs, padded nvp vs r.1 ∧ Forall (λ v, v < Z.of_nat nv) vs) polys vss.
Hypothesis Hnp : Z.of_nat (length vss) <= 65535.
Hypothesis Hnvp : Z.of_nat nvp <= 65536.
Hypothesis Hasc : Z.of_nat (length (ascs (all_slots vss (length vss)))) <= 65535.
Let np := length vss.
Let as_ := ascs (all_slots vss np).
Let cap := (np * nvp)%nat.
Let uniq (u v : Z) := once vss u v ∧ once vss v u.

Local Lemma uniq_slots a b : once vss (su a) (sv a) → at_slot vss a → at_slot vss b → su a = su b → sv a = sv b → a = b.
Proof.
  intros U Ha Hb E1 E2. destruct (U (sp a) (se a) (sp b) (se b)) as [H1 H2]; [done|by rewrite E1, E2|].
  destruct a, b. cbn in *. congruence.
Qed.
Local Lemma as_asc s : s ∈ as_ → asc s = true ∧ at_slot vss s.
Proof.
  unfold as_, ascs. rewrite elem_of_list_filter. intros [H1 H2]. split; [done|].
  by apply all_slots_in in H2 as [_ ?].
Qed.
Local Lemma as_NoDup : NoDup as_.
Proof. apply NoDup_filter, all_slots_NoDup. Qed.
Local Lemma as_cap : (length as_ <= cap)%nat.
Proof.
  unfold as_, ascs. etransitivity; [apply filter_length|].
  enough (∀ n, (n <= length vss)%nat → (length (all_slots vss n) <= n * nvp)%nat) as H by (apply H; done).
  clear -HF. intros n Hn. induction n as [|n IH]; [cbn; lia|]. rewrite all_slots_S, app_length, poly_slots_length.
  destruct (lookup_lt_is_Some_2 vss n) as [vs Hvs]; [lia|]. rewrite (list_lookup_total_correct _ _ _ Hvs).
  destruct (Forall2_lookup_r _ _ _ _ _ HF Hvs) as (r & _ & (_ & Hl & _) & _). lia.
Qed.

Lemma match_all_runs e : erep nv cap as_ e → recs_are as_ e →
  runs (foldM (λ i e, let! t := get polys i in match_edges t.1 nvp i e) (seq 0 np) e)
    (λ e', erep nv cap as_ e' ∧ ∃ M, recs_match as_ M e' ∧ mrep uniq as_ (all_slots vss np) M).
Proof.
  intros R RR.
  apply (foldM_seq_inv (λ n e', erep nv cap as_ e' ∧ ∃ M, recs_match as_ M e' ∧ mrep uniq as_ (all_slots vss n) M)).
  - split; [done|]. exists (repeat None (length as_)). split.
    + split; [apply repeat_length|]. intros k s o Hs Ho. apply repeat_lookup_Some in Ho as [-> Hk].
      assert ((rec_of <$> as_) !! k = Some (rec_of s)) as H by (by rewrite list_lookup_fmap, Hs).
      unfold recs_are in RR. rewrite <- RR in H. by apply lookup_take_Some in H as [? _].
    + split.
      * intros k s t _ Ho. by apply repeat_lookup_Some in Ho as [? _].
      * intros k k' t Ho. by apply repeat_lookup_Some in Ho as [? _].
      * intros k s t _ Ht. by apply elem_of_nil in Ht.
  - clear e R RR. intros i e Hi (R & M & RM & MR). rewrite Nat.add_1_r.
    destruct (lookup_lt_is_Some_2 vss i) as [vs Hvs]; [unfold np in Hi; lia|].
    destruct (Forall2_lookup_r _ _ _ _ _ HF Hvs) as (r & Hr & P & Hlt).
    rewrite (get_some _ _ _ Hr). cbn [obind]. rewrite all_slots_S, (list_lookup_total_correct _ _ _ Hvs).
    unfold match_edges. rewrite (count_padded _ _ _ P).
    eapply runs_mono; [apply (foldM_seq_inv (λ j e', erep nv cap as_ e' ∧ ∃ M, recs_match as_ M e' ∧
      mrep uniq as_ (all_slots vss i ++ take j (poly_slots i vs)) M))|].
    + split; [done|]. exists M. rewrite take_0, app_nil_r. done.
    + clear e R M RM MR. intros j e Hj (R & M & RM & MR). rewrite Nat.add_1_r.
      assert (j < length vs)%nat as Hjl by lia.
      set (t := Sl i j (vs !!! j) (vs !!! nx j (length vs))).
      assert (poly_slots i vs !! j = Some t) as Htj.
      { unfold poly_slots. rewrite list_lookup_fmap, lookup_seq_lt by done. done. }
      rewrite (take_S_r _ _ _ Htj), app_assoc.
      assert (∀ s, s ∈ all_slots vss i ++ take j (poly_slots i vs) → at_slot vss s) as HS.
      { intros s Hs. apply elem_of_app in Hs as [Hs|Hs].
        - apply all_slots_in in Hs as [_ ?]; [done|unfold np in Hi; lia].
        - assert (s ∈ poly_slots i vs) as H by (apply elem_of_take in Hs as (k & Hk & _); by eapply elem_of_list_lookup_2).
          apply poly_slots_in in H as (<- & H1 & H2). by exists vs. }
      assert (at_slot vss t) as Hat.
      { assert (t ∈ poly_slots i vs) as H by (by eapply elem_of_list_lookup_2).
        apply poly_slots_in in H as (_ & H1 & H2). by exists vs. }
      eapply (match_slot_runs nv cap nvp vs r.1 uniq as_ _ M e j i); [done|done|done|done|done|done|unfold np in Hi; lia|done|apply as_NoDup|apply as_cap|..].
      * intros s Hs. by apply as_asc.
      * fold t. intros Ht. apply elem_of_app in Ht as [Ht|Ht].
        -- apply all_slots_in in Ht as [Ht _]; [cbn in Ht; lia|unfold np in Hi; lia].
        -- apply elem_of_take in Ht as (k & Hk & Hkj).
           assert (k = j); [|lia]. eapply (NoDup_lookup _ _ _ t (poly_slots_NoDup i vs)); done.
      * intros a b [U _] Ha Hb. apply (uniq_slots _ _ U); by apply as_asc.
      * fold t. intros a [_ U] Ha E1 E2. apply (uniq_slots a t); [by rewrite E1, E2|by apply HS|done..].
    + cbn beta. intros e'. rewrite Nat.add_0_l, take_ge; [done|by rewrite poly_slots_length].
Qed.
End all.

(** ** Storing *)

Definition nbr (ps : list (list Z * list Z)) (p e : nat) : option Z := r ← ps !! p; r.2 !! e.
Definition writes (d : edge) : list (nat * nat * Z) :=
  if e_p0 d =? e_p1 d then []
  else [(Z.to_nat (e_p0 d), Z.to_nat (e_e0 d), e_p1 d); (Z.to_nat (e_p1 d), Z.to_nat (e_e1 d), e_p0 d)].

Lemma put_nbr_runs nvp polys p e v : (p < length polys)%nat → Forall (λ r : list Z * list Z, length r.2 = nvp) polys → (e < nvp)%nat →
  runs (put_nbr polys p e v) (λ polys', polys'.*1 = polys.*1 ∧ Forall (λ r : list Z * list Z, length r.2 = nvp) polys' ∧
    nbr polys' p e = Some v ∧ ∀ p' e', (p', e') ≠ (p, e) → nbr polys' p' e' = nbr polys p' e').
Proof.
  intros Hp HL He. unfold put_nbr. destruct (lookup_lt_is_Some_2 polys p Hp) as [r Hr].
  assert (length r.2 = nvp) as Hl by (by rewrite Forall_lookup in HL; eapply HL).
  rewrite (get_some _ _ _ Hr). cbn [obind]. rewrite put_lt by lia. cbn [obind]. rewrite put_lt by done. cbn [runs].
  split; [|split; [|split]].
  - rewrite list_fmap_insert. cbn. apply list_insert_id. by rewrite list_lookup_fmap, Hr.
  - apply Forall_insert; [done|]. cbn. by rewrite insert_length.
  - unfold nbr. rewrite list_lookup_insert by done. cbn. apply list_lookup_insert. lia.
  - intros p' e' Hne. unfold nbr. destruct (decide (p' = p)) as [->|Hpp].
    + rewrite list_lookup_insert, Hr by done. cbn. apply list_lookup_insert_ne. congruence.
    + by rewrite list_lookup_insert_ne.
Qed.

Lemma store_writes d polys : store_edge d polys = foldM (λ w polys, put_nbr polys w.1.1 w.1.2 w.2) (writes d) polys.
Proof.
  unfold store_edge, writes. destruct (_ =? _); [done|]. cbn [foldM fst snd].
  apply obind_ext. intros ps. by destruct (put_nbr ps _ _ _).
Qed.

Lemma writes_runs nvp ws : ∀ polys, Forall (λ r : list Z * list Z, length r.2 = nvp) polys →
  (∀ w, w ∈ ws → (w.1.1 < length polys)%nat ∧ (w.1.2 < nvp)%nat) →
  (∀ w w', w ∈ ws → w' ∈ ws → w.1 = w'.1 → w.2 = w'.2) →
  runs (foldM (λ w polys, put_nbr polys w.1.1 w.1.2 w.2) ws polys) (λ polys', polys'.*1 = polys.*1 ∧
    Forall (λ r : list Z * list Z, length r.2 = nvp) polys' ∧
    (∀ w, w ∈ ws → nbr polys' w.1.1 w.1.2 = Some w.2) ∧
    (∀ p e, (∀ w, w ∈ ws → w.1 ≠ (p, e)) → nbr polys' p e = nbr polys p e)).
Proof.
  induction ws as [|w ws IH]; intros polys HL Hin Hcons.
  { cbn. split; [done|]. split; [done|]. split; [|done]. intros w Hw. by apply elem_of_nil in Hw. }
  cbn [foldM]. destruct (Hin w) as [Hp He]; [left|].
  eapply runs_bind; [by apply (put_nbr_runs nvp)|]. intros polys1 (E1 & HL1 & Hw & Hother). cbn beta.
  assert (length polys1 = length polys) as Hlen by (rewrite <- (fmap_length fst polys1), E1; apply fmap_length).
  eapply runs_mono; [apply (IH polys1)|].
  - done.
  - intros w' Hw'. rewrite Hlen. apply Hin. by right.
  - intros w' w'' H1 H2. apply Hcons; by right.
  - cbn beta. intros polys' (E2 & HL2 & Hws & Hrest). split; [congruence|]. split; [done|]. split.
    + intros w' Hw'. apply elem_of_cons in Hw' as [->|Hw']; [|by apply Hws].
      destruct (decide (Exists (λ w'' : nat * nat * Z, w''.1 = w.1) ws)) as [HE|HE].
      * apply Exists_exists in HE as (w'' & Hw'' & E). rewrite <- E. rewrite Hws by done. f_equal. apply Hcons; [by right|left|done].
      * rewrite Hrest; [done|]. intros w'' Hw'' E. apply HE. apply Exists_exists. exists w''. split; [done|].
        rewrite E. by destruct w as [[] ?].
    + intros p e Hne. rewrite Hrest by (intros w' Hw'; apply Hne; by right). apply Hother.
      intros E. apply (Hne w); [left|]. rewrite E. by destruct w as [[] ?].
Qed.

Lemma store_runs nvp ds polys : Forall (λ r : list Z * list Z, length r.2 = nvp) polys →
  (∀ d w, d ∈ ds → w ∈ writes d → (w.1.1 < length polys)%nat ∧ (w.1.2 < nvp)%nat) →
  (∀ d d' w w', d ∈ ds → d' ∈ ds → w ∈ writes d → w' ∈ writes d' → w.1 = w'.1 → w.2 = w'.2) →
  runs (foldM store_edge ds polys) (λ polys', polys'.*1 = polys.*1 ∧
    Forall (λ r : list Z * list Z, length r.2 = nvp) polys' ∧
    (∀ d w, d ∈ ds → w ∈ writes d → nbr polys' w.1.1 w.1.2 = Some w.2) ∧
    (∀ p e, (∀ d w, d ∈ ds → w ∈ writes d → w.1 ≠ (p, e)) → nbr polys' p e = nbr polys p e)).
Proof.
  intros HL Hin Hcons.
  assert (foldM store_edge ds polys = foldM (λ w polys, put_nbr polys w.1.1 w.1.2 w.2) (concat (writes <$> ds)) polys) as ->.
  { clear. revert polys. induction ds as [|d ds IH]; intros polys; [done|]. cbn [foldM fmap list_fmap concat].
    rewrite foldM_app, store_writes. apply obind_ext. intros ps _. apply IH. }
  assert (∀ w, w ∈ concat (writes <$> ds) ↔ ∃ d, d ∈ ds ∧ w ∈ writes d) as Hc.
  { intros w. rewrite elem_of_concat. split.
    - intros (l & Hw & Hl). apply elem_of_list_fmap in Hl as (d & -> & Hd). eauto.
    - intros (d & Hd & Hw). exists (writes d). split; [done|]. apply elem_of_list_fmap. eauto. }
  eapply runs_mono; [apply (writes_runs nvp); [done|..]|].
  - intros w (d & Hd & Hw)%Hc. by eapply Hin.
  - intros w w' (d & Hd & Hw)%Hc (d' & Hd' & Hw')%Hc. exact (Hcons d d' w w' Hd Hd' Hw Hw').
  - cbn beta. intros polys' (E & HL' & Hws & Hrest). split; [done|]. split; [done|]. split.
    + intros d w Hd Hw. apply Hws, Hc. eauto.
    + intros p e Hne. apply Hrest. intros w (d & Hd & Hw)%Hc. by eapply Hne.
Qed.

Lemma adjacency_runs nv nvp polys vss :
  Forall2 (λ (r : list Z * list Z) vs, padded nvp vs r.1 ∧ Forall (λ v, v < Z.of_nat nv) vs) polys vss →
  Forall (λ r : list Z * list Z, r.2 = repeat NO_INDEX nvp) polys →
  Z.of_nat (length vss) <= 65535 → Z.of_nat nvp <= 65536 →
  Z.of_nat (length (ascs (all_slots vss (length vss)))) <= 65535 →
  runs (build_adjacency nvp nv (length vss) polys) (λ polys', polys'.*1 = polys.*1 ∧
    Forall (λ r : list Z * list Z, length r.2 = nvp) polys' ∧
    (∀ p e q, nbr polys' p e = Some q → q = NO_INDEX ∨
       ∃ s t, at_slot vss s ∧ at_slot vss t ∧ sp s = p ∧ se s = e ∧ q = Z.of_nat (sp t) ∧ opposite s t ∧ sp s ≠ sp t ∧
         nbr polys' (sp t) (se t) = Some (Z.of_nat (sp s))) ∧
    (∀ s t, once vss (su s) (sv s) → once vss (sv s) (su s) → at_slot vss s → at_slot vss t → opposite s t → sp s ≠ sp t →
       nbr polys' (sp s) (se s) = Some (Z.of_nat (sp t)))).
Proof.
  intros HF HN Hnp Hnvp Hasc. unfold build_adjacency.
  eapply runs_bind; [by apply collect_all_runs|]. intros e (R & RR). cbn beta zeta.
  eapply runs_bind; [by apply match_all_runs|]. clear e R RR. intros e (R & M & [HM RM] & MR). cbn beta.
  set (as_ := ascs (all_slots vss (length vss))) in *.
  pose proof (as_NoDup vss) as Hnd. fold as_ in Hnd.
  assert (∀ d, d ∈ take (et_n e) (et_edges e) ↔ ∃ k s o, as_ !! k = Some s ∧ M !! k = Some o ∧ d = rec_with s o) as Hds.
  { intros d. rewrite elem_of_take. rewrite (er_n _ _ _ _ R). split.
    - intros (k & Hd & Hk). destruct (lookup_lt_is_Some_2 as_ k Hk) as [s Hs].
      destruct (lookup_lt_is_Some_2 M k) as [o Ho]; [lia|]. exists k, s, o. split; [done|]. split; [done|].
      rewrite (RM _ _ _ Hs Ho) in Hd. congruence.
    - intros (k & s & o & Hs & Ho & ->). exists k. split; [by apply RM|by eapply lookup_lt_Some]. }
  assert (∀ s, s ∈ as_ → asc s = true ∧ at_slot vss s) as Has by (apply as_asc).
  assert (∀ k s t, as_ !! k = Some s → M !! k = Some (Some t) → at_slot vss s ∧ at_slot vss t ∧ opposite s t ∧ asc s = true) as Hm.
  { intros k s t Hs Ho. destruct (mr_from _ _ _ _ MR k s t Hs Ho) as [Ht Hop]. 
    apply all_slots_in in Ht as [_ Ht]; [|done]. destruct (Has s); [by eapply elem_of_list_lookup_2|]. done. }
  assert (∀ d w, d ∈ take (et_n e) (et_edges e) → w ∈ writes d → ∃ k s t, as_ !! k = Some s ∧ M !! k = Some (Some t) ∧ sp s ≠ sp t ∧
    (w = (sp s, se s, Z.of_nat (sp t)) ∨ w = (sp t, se t, Z.of_nat (sp s)))) as Hw.
  { intros d w (k & s & o & Hs & Ho & ->)%Hds Hw. destruct o as [t|]; unfold writes in Hw; cbn in Hw.
    - destruct (_ =? _) eqn:E; [by apply elem_of_nil in Hw|]. exists k, s, t. split; [done|]. split; [done|]. split; [lia|].
      rewrite !Nat2Z.id in Hw. apply elem_of_cons in Hw as [->|Hw]; [by left|].
      apply elem_of_list_singleton in Hw as ->. by right.
    - rewrite Z.eqb_refl in Hw. by apply elem_of_nil in Hw. }
  assert (∀ s, at_slot vss s → (sp s < length polys)%nat ∧ (se s < nvp)%nat) as Hsl.
  { intros s (vs & Hvs & Hu & _). rewrite (Forall2_length _ _ _ HF). split; [by eapply lookup_lt_Some|].
    destruct (Forall2_lookup_r _ _ _ _ _ HF Hvs) as (r & _ & (_ & Hl & _) & _). apply lookup_lt_Some in Hu. lia. }
  assert (∀ k s t, as_ !! k = Some s → M !! k = Some (Some t) → sp s ≠ sp t →
    ∃ d, d ∈ take (et_n e) (et_edges e) ∧ (sp s, se s, Z.of_nat (sp t)) ∈ writes d ∧ (sp t, se t, Z.of_nat (sp s)) ∈ writes d) as Hww.
  { intros k s t Hs Ho Hne. exists (rec_with s (Some t)). split; [apply Hds; by exists k, s, (Some t)|].
    unfold writes. cbn. destruct (_ =? _) eqn:E; [lia|]. rewrite !Nat2Z.id. split; [left|right; left]. }
  eapply runs_mono; [apply (store_runs nvp)|].
  - eapply Forall_impl; [exact HN|]. cbn. intros r ->. apply repeat_length.
  - intros d w Hd Hwd. destruct (Hw d w Hd Hwd) as (k & s & t & Hs & Ho & _ & [->| ->]);
      destruct (Hm k s t Hs Ho) as (H1 & H2 & _); cbn; by apply Hsl.
  - intros d d' w w' Hd Hd' Hwd Hwd'.
    destruct (Hw d w Hd Hwd) as (k & s & t & Hs & Ho & Hne & Hor).
    destruct (Hw d' w' Hd' Hwd') as (k' & s' & t' & Hs' & Ho' & Hne' & Hor').
    destruct (Hm k s t Hs Ho) as (H1 & H2 & [O1 O2] & H4). destruct (Hm k' s' t' Hs' Ho') as (H1' & H2' & [O1' O2'] & H4').
    unfold asc in H4, H4'.
    destruct Hor as [->| ->], Hor' as [->| ->]; cbn [fst snd]; intros E; injection E as E1 E2.
    + assert (s = s') as <- by (by eapply at_slot_eq). assert (k = k') as <- by (eapply (NoDup_lookup as_); [done|exact Hs|exact Hs']).
      congruence.
    + assert (s = t') as <- by (by eapply at_slot_eq). lia.
    + assert (t = s') as <- by (by eapply at_slot_eq). lia.
    + assert (t = t') as <- by (by eapply at_slot_eq). assert (k = k') as <- by (by eapply (mr_inj _ _ _ _ MR)).
      congruence.
  - cbn beta. intros polys' (E & HL & Hws & Hrest). split; [done|]. split; [done|]. split.
    + intros p x q Hq.
      set (ws := concat (writes <$> take (et_n e) (et_edges e))).
      assert (∀ w, w ∈ ws ↔ ∃ d, d ∈ take (et_n e) (et_edges e) ∧ w ∈ writes d) as Hc.
      { intros w. unfold ws. rewrite elem_of_concat. split.
        - intros (l & Hwl & Hl). apply elem_of_list_fmap in Hl as (d & -> & Hd). eauto.
        - intros (d & Hd & Hwd). exists (writes d). split; [done|]. apply elem_of_list_fmap. eauto. }
      destruct (decide (Exists (λ w : nat * nat * Z, w.1 = (p, x)) ws)) as [HE|HE].
      * right. apply Exists_exists in HE as (w & (d & Hd & Hwd)%Hc & Ew).
        pose proof (Hws d w Hd Hwd) as Hq'. 
        destruct (Hw d w Hd Hwd) as (k & s & t & Hs & Ho & Hne & Hor).
        destruct (Hm k s t Hs Ho) as (H1 & H2 & [O1 O2] & _).
        destruct (Hww k s t Hs Ho Hne) as (d2 & Hd2 & W1 & W2).
        pose proof (Hws d2 _ Hd2 W1) as Q1. pose proof (Hws d2 _ Hd2 W2) as Q2. cbn [fst snd] in Q1, Q2.
        destruct Hor as [->| ->]; cbn [fst snd] in *; injection Ew as <- <-.
        -- exists s, t. do 7 (split; [first [done|congruence]|]). done.
        -- exists t, s. do 7 (split; [first [done|congruence]|]). done.
      * left. rewrite Hrest in Hq.
        -- unfold nbr in Hq. destruct (polys !! p) as [r|] eqn:Hr; [|done]. cbn in Hq.
           rewrite Forall_lookup in HN. rewrite (HN p r Hr) in Hq. by apply repeat_lookup_Some in Hq as [-> _].
        -- intros d w Hd Hwd Ew. apply HE, Exists_exists. exists w. split; [|done]. apply Hc. eauto.
    + intros s t U1 U2 Hs Ht Hop Hne.
      assert (∀ s, at_slot vss s → s ∈ all_slots vss (length vss)) as Hall.
      { intros s' Hs'. apply all_slots_in; [done|]. split; [|done]. destruct Hs' as (vs & Hvs & _). by eapply lookup_lt_Some. }
      assert (∀ s, at_slot vss s → asc s = true → ∃ k, as_ !! k = Some s) as Hk.
      { intros s' Hs' Ha. apply elem_of_list_lookup. apply elem_of_list_filter. split; [done|by apply Hall]. }
      destruct (Z.lt_trichotomy (su s) (sv s)) as [Hlt|[Heq|Hlt]].
      * destruct (Hk s Hs) as [k Hks]; [unfold asc; lia|].
        pose proof (mr_all _ _ _ _ MR k s t (conj U1 U2) (Hall t Ht) Hks Hop) as Ho.
        destruct (Hww k s t Hks Ho Hne) as (d2 & Hd2 & W1 & W2). apply (Hws d2 _ Hd2 W1).
      * exfalso. apply Hne. f_equal. apply (uniq_slots vss s t U1); [done|done|..]; destruct Hop; congruence.
      * destruct (Hk t Ht) as [k Hkt]; [destruct Hop; unfold asc; lia|].
        assert (opposite t s) as Hop' by (destruct Hop; split; congruence).
        assert (once vss (su t) (sv t) ∧ once vss (sv t) (su t)) as U by (destruct Hop as [H1 H2]; by rewrite <-H1, <-H2).
        pose proof (mr_all _ _ _ _ MR k t s U (Hall s Hs) Hkt Hop') as Ho.
        destruct (Hww k t s Hkt Ho) as (d2 & Hd2 & W1 & W2); [congruence|]. apply (Hws d2 _ Hd2 W2).
Qed.
