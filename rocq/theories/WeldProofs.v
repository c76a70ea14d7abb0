(** The hash table of [add_vertex] implements linear search. *)
From Coq Require Import Sorted.
From Verif Require Import Base ModelMath ModelContours ModelPoly SpecPoly.
Local Open Scope Z_scope.

Lemma same_vertex_weld v w : same_vertex v w = true ↔ weldable v w.
Proof. unfold same_vertex, weldable. lia. Qed.

Definition bucket (v : vtx) : nat := Z.to_nat (vertex_hash (vx v) (vz v)).
Lemma bucket_lt v : (bucket v < Z.to_nat BUCKETS)%nat.
Proof.
  unfold bucket, vertex_hash, BUCKETS. change (4096 - 1) with (Z.ones 12).
  rewrite Z.land_ones by lia. change (2 ^ 12) with 4096.
  match goal with |- context [?a mod 4096] => pose proof (Z.mod_pos_bound a 4096) end. lia.
Qed.

Inductive chain (next : list (option nat)) : option nat → list nat → Prop :=
| chain_nil : chain next None []
| chain_cons i o c : next !! i = Some o → chain next o c → chain next (Some i) (i :: c).

(** [tab] lists the vertices in use. *)
Record vtab_rep (cap : nat) (t : vtab) (tab : list vtx) : Prop := {
  vr_n : vt_n t = length tab;
  vr_cap : (length tab <= cap)%nat;
  vr_verts : take (length tab) (vt_verts t) = tab;
  vr_vlen : length (vt_verts t) = cap;
  vr_nlen : length (vt_next t) = cap;
  vr_flen : length (vt_first t) = Z.to_nat BUCKETS;
  vr_chain : ∀ b, (b < Z.to_nat BUCKETS)%nat → ∃ o c, vt_first t !! b = Some o ∧ chain (vt_next t) o c ∧
    StronglySorted (λ i j, (j < i)%nat) c ∧
    (∀ i, i ∈ c ↔ ∃ v, tab !! i = Some v ∧ bucket v = b)
}.

Lemma rep_lookup cap t tab i v : vtab_rep cap t tab → tab !! i = Some v → vt_verts t !! i = Some v.
Proof.
  intros R H. rewrite <- (vr_verts _ _ _ R) in H. by apply lookup_take_Some in H as [? _].
Qed.

Lemma find_chain cap t tab v fuel o c : vtab_rep cap t tab → chain (vt_next t) o c → (length c < fuel)%nat →
  StronglySorted (λ i j, (j < i)%nat) c → (∀ i, i ∈ c → ∃ w, tab !! i = Some w) →
  runs (find_vertex fuel t v o) (λ r,
    match r with
    | Some i => ∃ w, i ∈ c ∧ tab !! i = Some w ∧ weldable w v ∧
        ∀ j u, j ∈ c → (i < j)%nat → tab !! j = Some u → ¬ weldable u v
    | None => ∀ j u, j ∈ c → tab !! j = Some u → ¬ weldable u v
    end).
Proof.
  intros R Hc. revert fuel. induction Hc as [|i o c Hi Hc IH]; intros fuel Hfu Hs Hin.
  { destruct fuel; cbn; intros j u Hj; by apply elem_of_nil in Hj. }
  destruct fuel as [|fuel]; [cbn in Hfu; lia|]. cbn [find_vertex].
  destruct (Hin i) as [w Hw]; [left|].
  rewrite (get_some _ _ _ (rep_lookup _ _ _ _ _ R Hw)). cbn [obind].
  apply StronglySorted_inv in Hs as [Hs Hlt]. rewrite Forall_forall in Hlt.
  destruct (same_vertex w v) eqn:E.
  - apply same_vertex_weld in E. cbn. exists w. split; [left|]. split; [done|]. split; [done|].
    intros j u Hj Hlt'. apply elem_of_cons in Hj as [->|Hj]; [lia|]. apply Hlt in Hj. lia.
  - assert (¬ weldable w v) as Hnw by (rewrite <- same_vertex_weld; congruence).
    rewrite (get_some _ _ _ Hi). cbn [obind]. cbn in Hfu.
    eapply runs_mono; [apply IH; [lia|done|]|].
    + intros j Hj. apply Hin. by right.
    + intros [r|].
      * intros (w' & Hr & Hw' & Hweld & Hnone). exists w'. split; [by right|]. split; [done|]. split; [done|].
        intros j u Hj Hlt'. apply elem_of_cons in Hj as [->|Hj]; [intros Hu; rewrite Hw in Hu; by injection Hu as <-|].
        by apply Hnone.
      * intros Hnone j u Hj Hu. apply elem_of_cons in Hj as [->|Hj]; [rewrite Hw in Hu; by injection Hu as <-|].
        by eapply Hnone.
Qed.

Lemma chain_put (next : list (option nat)) n x o c : (∀ i, i ∈ c → (i < n)%nat) → chain next o c → chain (<[n := x]> next) o c.
Proof.
  intros Hlt Hc. induction Hc as [|i o c Hi Hc IH]; [constructor|].
  econstructor; [|apply IH; intros; apply Hlt; by right].
  rewrite list_lookup_insert_ne; [done|]. assert (i < n)%nat by (apply Hlt; left). lia.
Qed.

Lemma weld_bucket w v : weldable w v → bucket w = bucket v.
Proof. unfold bucket. by intros (-> & -> & _). Qed.

Lemma sorted_NoDup (c : list nat) : StronglySorted (λ i j, (j < i)%nat) c → NoDup c.
Proof.
  induction 1 as [|i c Hs IH Hlt]; [constructor|]. constructor; [|done].
  intros Hi. rewrite Forall_forall in Hlt. apply Hlt in Hi. lia.
Qed.

Lemma add_vertex_weld cap t tab v : vtab_rep cap t tab → (length tab < cap)%nat → Z.of_nat cap <= 65535 →
  runs (add_vertex v t) (λ '(i, t'), ∃ tab',
    vtab_rep cap t' tab' ∧
    ((newest tab v (Some i) ∧ tab' = tab) ∨ (newest tab v None ∧ i = length tab ∧ tab' = tab ++ [v]))).
Proof.
  intros R Hlen Hcap. unfold add_vertex. fold (bucket v).
  destruct (vr_chain _ _ _ R (bucket v) (bucket_lt v)) as (o & c & Hf & Hc & Hs & Hin).
  rewrite (get_some _ _ _ Hf). cbn [obind].
  assert (∀ i, i ∈ c → (i < length tab)%nat) as Hclt.
  { intros i Hi. apply Hin in Hi as (w & Hw & _). by eapply lookup_lt_Some. }
  eapply runs_bind; [eapply (find_chain cap _ tab v _ o c); [done|done| |done|]|].
  - assert (length c <= length tab)%nat; [|rewrite (vr_vlen _ _ _ R); pose proof (vr_cap _ _ _ R); lia].
    rewrite <- (seq_length (length tab) 0). apply submseteq_length. apply NoDup_submseteq; [by apply sorted_NoDup|].
    intros i Hi. apply elem_of_seq. apply Hclt in Hi. lia.
  - intros i Hi. apply Hin in Hi as (w & ? & _). eauto.
  - intros [i|].
    + intros (w & Hi & Hw & Hweld & Hnone). cbn. exists tab. split; [done|]. left. split; [|done].
      exists w. split; [done|]. split; [done|]. intros j u Hij Hu Hwu. eapply Hnone; [|done|done|done].
      apply Hin. exists u. split; [done|by apply weld_bucket].
    + intros Hnone. unfold chk_u16, U16_MAX. rewrite (vr_n _ _ _ R). rewrite chk_in by lia. cbn [obind].
      rewrite put_lt by (rewrite (vr_vlen _ _ _ R); lia). cbn [obind].
      rewrite put_lt by (rewrite (vr_nlen _ _ _ R); lia). cbn [obind].
      rewrite put_lt by (rewrite (vr_flen _ _ _ R); apply bucket_lt). cbn [obind runs].
      exists (tab ++ [v]). split; [|right; split; [|done]].
      * split; cbn.
        -- rewrite app_length. cbn. lia.
        -- rewrite app_length. cbn. lia.
        -- rewrite app_length. cbn. rewrite Nat.add_1_r. rewrite (take_S_r _ _ v).
           ++ rewrite take_insert by lia. by rewrite (vr_verts _ _ _ R).
           ++ apply list_lookup_insert. rewrite (vr_vlen _ _ _ R). lia.
        -- rewrite insert_length. apply R.
        -- rewrite insert_length. apply R.
        -- rewrite insert_length. apply R.
        -- intros b Hb. destruct (decide (b = bucket v)) as [->|Hne].
           ++ exists (Some (length tab)), (length tab :: c). rewrite list_lookup_insert by (rewrite (vr_flen _ _ _ R); lia).
              split; [done|]. split; [|split].
              ** econstructor; [apply list_lookup_insert; rewrite (vr_nlen _ _ _ R); lia|]. by apply chain_put.
              ** constructor; [done|]. by apply Forall_forall.
              ** intros i. rewrite elem_of_cons, Hin. split.
                 --- intros [->|(w & Hw & E)].
                     +++ exists v. split; [|done]. rewrite lookup_app_r, Nat.sub_diag by lia. done.
                     +++ exists w. split; [|done]. by apply lookup_app_l_Some.
                 --- intros (w & Hw & E). apply lookup_app_Some in Hw as [Hw|[Hge Hw]]; [right; eauto|].
                     left. apply lookup_lt_Some in Hw. cbn in Hw. lia.
           ++ destruct (vr_chain _ _ _ R b Hb) as (o' & c' & Hf' & Hc' & Hs' & Hin').
              exists o', c'. rewrite list_lookup_insert_ne by done. split; [done|].
              split; [|split; [done|]].
              ** apply chain_put; [|done]. intros i Hi. apply Hin' in Hi as (w & Hw & _). by eapply lookup_lt_Some.
              ** intros i. rewrite Hin'. split.
                 --- intros (w & Hw & E). exists w. split; [|done]. by apply lookup_app_l_Some.
                 --- intros (w & Hw & E). apply lookup_app_Some in Hw as [Hw|[Hge Hw]]; [eauto|].
                     exfalso. destruct (i - length tab)%nat; [|done]. cbn in Hw. injection Hw as <-. done.
      * intros j u Hu Hwu. eapply Hnone; [|done|done]. apply Hin. exists u. split; [done|by apply weld_bucket].
Qed.

Lemma empty_rep cap : vtab_rep cap (VTab (repeat (V 0 0 0) cap) 0 (repeat None (Z.to_nat BUCKETS)) (repeat (Some 0%nat) cap)) [].
Proof.
  split; cbn [vt_n vt_verts vt_next vt_first length]; rewrite ?repeat_length; try done; [lia|].
  intros b Hb. exists None, []. rewrite repeat_lookup by done. repeat split.
  - constructor.
  - constructor.
  - intros H. by apply elem_of_nil in H.
  - intros (v & Hv & _). done.
Qed.

(** A sequence of vertices. *)
Definition add_all (vs : list vtx) (t : vtab) : outcome (list nat * vtab) :=
  foldM (λ v '(is, t), let! (i, t) := add_vertex v t in Done (is ++ [i], t)) vs ([], t).

Lemma add_all_welds cap vs : ∀ t tab is0, vtab_rep cap t tab → (length tab + length vs <= cap)%nat → Z.of_nat cap <= 65535 →
  runs (foldM (λ v '(is, t), let! (i, t) := add_vertex v t in Done (is ++ [i], t)) vs (is0, t))
    (λ '(is, t'), ∃ tab' is', vtab_rep cap t' tab' ∧ is = is0 ++ is' ∧ welds tab vs is' tab').
Proof.
  induction vs as [|v vs IH]; intros t tab is0 R Hlen Hcap.
  { cbn. exists tab, []. rewrite app_nil_r. repeat split; [apply R..|constructor]. }
  cbn [foldM]. cbn in Hlen. rewrite obind_assoc.
  eapply runs_bind; [eapply (add_vertex_weld cap); [done|lia|done]|].
  intros [i t'] (tab' & R' & Hcase). cbn [obind].
  eapply runs_mono; [apply (IH t' tab'); [done| |done]|].
  - destruct Hcase as [[_ ->]|(_ & _ & ->)]; [lia|]. rewrite app_length. cbn. lia.
  - intros [is t''] (tab'' & is' & R'' & -> & W). exists tab'', (i :: is'). split; [done|].
    split; [by rewrite <- app_assoc|]. destruct Hcase as [[Hn ->]|(Hn & -> & ->)]; by constructor.
Qed.

(** ** Consequences of welding by linear search *)

Lemma welds_prefix tab vs is tab' : welds tab vs is tab' → ∃ l, tab' = tab ++ l.
Proof.
  induction 1 as [|tab v vs i is tab' Hn _ IH|tab v vs is tab' Hn _ [l ->]].
  - exists []. by rewrite app_nil_r.
  - done.
  - exists ([v] ++ l). by rewrite app_assoc.
Qed.
Lemma welds_same tab vs is tab' : welds tab vs is tab' →
  Forall2 (λ v i, ∃ w, tab' !! i = Some w ∧ weldable w v) vs is.
Proof.
  induction 1 as [|tab v vs i is tab' Hn W IH|tab v vs is tab' Hn W IH]; [constructor|..]; constructor; try done.
  - destruct Hn as (w & Hw & Hweld & _). exists w. split; [|done].
    destruct (welds_prefix _ _ _ _ W) as [l ->]. by apply lookup_app_l_Some.
  - exists v. destruct (welds_prefix _ _ _ _ W) as [l ->]. split.
    + rewrite <- app_assoc. rewrite lookup_app_r, Nat.sub_diag by lia. done.
    + unfold weldable. repeat split; try done. lia.
Qed.
Definition apart (tab : list vtx) : Prop :=
  ∀ i j v w, tab !! i = Some v → tab !! j = Some w → i ≠ j → ¬ weldable v w.
Lemma welds_apart tab vs is tab' : welds tab vs is tab' → apart tab → apart tab'.
Proof.
  induction 1 as [|tab v vs i is tab' Hn W IH|tab v vs is tab' Hn W IH]; intros Ha; [done|auto|].
  apply IH. intros i j x y Hx Hy Hij Hw.
  assert (weldable y x) as Hw' by (destruct Hw as (? & ? & ?); unfold weldable; repeat split; try done; lia).
  apply lookup_app_Some in Hx as [Hx|[Hge Hx]]; apply lookup_app_Some in Hy as [Hy|[Hge' Hy]].
  - by apply (Ha i j x y).
  - destruct (j - length tab)%nat; [|done]. injection Hy as <-. by apply (Hn i x).
  - destruct (i - length tab)%nat; [|done]. injection Hx as <-. by apply (Hn j y).
  - apply lookup_lt_Some in Hx, Hy. cbn in Hx, Hy. lia.
Qed.
Lemma welds_from tab vs is tab' w : welds tab vs is tab' → w ∈ tab' → w ∈ tab ∨ w ∈ vs.
Proof.
  induction 1 as [|tab v vs i is tab' Hn W IH|tab v vs is tab' Hn W IH]; [by left|..]; intros Hw; apply IH in Hw.
  - destruct Hw as [?|?]; [by left|right; by right].
  - destruct Hw as [Hw|?]; [|right; by right]. apply elem_of_app in Hw as [?|Hw]; [by left|].
    apply elem_of_list_singleton in Hw as ->. right. left.
Qed.
Lemma welds_length tab vs is tab' : welds tab vs is tab' → length is = length vs ∧ (length tab' <= length tab + length vs)%nat.
Proof.
  induction 1 as [|tab v vs i is tab' Hn W IH|tab v vs is tab' Hn W IH]; cbn; [lia|lia|].
  rewrite app_length in IH. cbn in IH. lia.
Qed.
(** Vertices at different places get different indices. *)
Lemma welds_inj tab vs is tab' : welds tab vs is tab' →
  NoDup ((λ v, (vx v, vz v)) <$> vs) → NoDup is.
Proof.
  intros W Hnd. pose proof (welds_same _ _ _ _ W) as HF.
  apply NoDup_alt. intros a b i Ha Hb.
  destruct (Forall2_lookup_r _ _ _ _ _ HF Ha) as (v & Hv & w & Hw & E1).
  destruct (Forall2_lookup_r _ _ _ _ _ HF Hb) as (v' & Hv' & w' & Hw' & E2).
  rewrite Hw in Hw'. injection Hw' as <-.
  eapply NoDup_lookup; [apply Hnd|..]; rewrite list_lookup_fmap; [rewrite Hv|rewrite Hv']; [done|]. cbn.
  destruct E1 as (<- & <- & _), E2 as (<- & <- & _). done.
Qed.
