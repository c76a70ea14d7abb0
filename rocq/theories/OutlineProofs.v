(** The boundaries of regions: none is forgotten, and they enclose their regions. *)
From Verif Require Import Base ModelMath ModelHeightfield ModelFilters ModelCompact ModelDistance ModelRegions
  ModelContours SpecHeightfield SpecCompact SpecDistance SpecRegions SpecContours SpecOutline PackProofs CompactProofs LinkProofs
  GraphProofs DistanceProofs SweepProofs FlowProofs WatershedProofs OrbitProofs ContourWalkProofs SimplifyProofs
  ContourSetProofs.
Local Open Scope Z_scope.

(** ** Sums *)
Lemma Zsum_app a b : Zsum (a ++ b) = Zsum a + Zsum b.
Proof. induction a as [|x a IH]; cbn; [done|]. unfold Zsum in *. lia. Qed.
Lemma Zsum_perm a b : a ≡ₚ b → Zsum a = Zsum b.
Proof. unfold Zsum. induction 1; cbn; lia. Qed.
Lemma Zsum_concat {A} (f : A → Z) (ll : list (list A)) : Zsum (f <$> concat ll) = Zsum ((λ l, Zsum (f <$> l)) <$> ll).
Proof. induction ll as [|l ll IH]; [done|]. cbn [concat]. rewrite fmap_app, Zsum_app, IH. done. Qed.
Lemma Zsum_ext {A} (f g : A → Z) l : (∀ a, a ∈ l → f a = g a) → Zsum (f <$> l) = Zsum (g <$> l).
Proof.
  induction l as [|a l IH]; intros H; [done|]. rewrite !fmap_cons. unfold Zsum in *. cbn [foldr]. rewrite (H a) by left.
  rewrite IH; [done|]. intros b Hb. apply H. by right.
Qed.
Lemma Zsum_add {A} (f g : A → Z) l : Zsum (f <$> l) + Zsum (g <$> l) = Zsum ((λ a, f a + g a) <$> l).
Proof. induction l as [|a l IH]; [done|]. rewrite !fmap_cons. unfold Zsum in *. cbn [foldr]. lia. Qed.
Lemma Zsum_opp {A} (f : A → Z) l : Zsum ((λ a, - f a) <$> l) = - Zsum (f <$> l).
Proof. induction l as [|a l IH]; [done|]. rewrite !fmap_cons. unfold Zsum in *. cbn [foldr]. lia. Qed.
Lemma Zsum_split {A} (f : A → Z) (P : A → Prop) `{!∀ a, Decision (P a)} l :
  Zsum (f <$> l) = Zsum (f <$> filter P l) + Zsum (f <$> filter (λ a, ¬ P a) l).
Proof.
  induction l as [|a l IH]; [done|]. rewrite !filter_cons, fmap_cons. unfold Zsum in *. cbn [foldr]. rewrite IH.
  destruct (decide (P a)); destruct (decide (¬ P a)); try done; rewrite fmap_cons; cbn [foldr]; lia.
Qed.
Lemma Zsum_const0 {A} (f : A → Z) l : (∀ a, a ∈ l → f a = 0) → Zsum (f <$> l) = 0.
Proof.
  induction l as [|a l IH]; intros H; [done|]. rewrite fmap_cons. unfold Zsum in *. cbn [foldr]. rewrite (H a) by left.
  rewrite IH; [done|]. intros b Hb. apply H. by right.
Qed.
Lemma Zsum_count {A} (P : A → Prop) `{!∀ a, Decision (P a)} l :
  Zsum ((λ a, if decide (P a) then 1 else 0) <$> l) = Z.of_nat (length (filter P l)).
Proof.
  induction l as [|a l IH]; [done|]. rewrite filter_cons, fmap_cons. unfold Zsum in *. cbn [foldr]. rewrite IH.
  destruct (decide (P a)); cbn [length]; lia.
Qed.

Lemma elem_concat {A} (x : A) (ll : list (list A)) : x ∈ concat ll ↔ ∃ l, x ∈ l ∧ l ∈ ll.
Proof.
  induction ll as [|l ll IH]; cbn [concat].
  - split; [by intros ?%elem_of_nil|]. intros (l & _ & []%elem_of_nil).
  - rewrite elem_of_app, IH. split.
    + intros [H|(l' & H1 & H2)]; [exists l; split; [done|left]|exists l'; split; [done|by right]].
    + intros (l' & H & [->|H2]%elem_of_cons); [by left|right; by exists l'].
Qed.
Lemma seq_rotate n : (0 < n)%nat → (λ k, ((k + 1) mod n)%nat) <$> seq 0 n ≡ₚ seq 0 n.
Proof.
  intros Hn. destruct n as [|n]; [lia|]. rewrite seq_S at 1. rewrite fmap_app. cbn [fmap list_fmap].
  rewrite Nat.add_0_l. rewrite Nat.add_1_r, Nat.mod_same by lia.
  change (seq 0 (S n)) with (0%nat :: seq 1 n). rewrite Permutation_app_comm. cbn [app]. constructor.
  assert ((λ k, ((k + 1) mod S n)%nat) <$> seq 0 n = seq 1 n) as ->; [|done].
  rewrite <-(fmap_S_seq 0 n). apply list_fmap_ext. intros i k Hk. apply lookup_seq in Hk as [-> Hk]. rewrite Nat.mod_small by lia. lia.
Qed.
Lemma sum_index {A} (f : A → Z) (l : list A) :
  Zsum ((λ k, default 0 (f <$> l !! k)) <$> seq 0 (length l)) = Zsum (f <$> l).
Proof.
  f_equal. apply list_eq. intros k. rewrite !list_lookup_fmap. destruct (decide (k < length l)%nat) as [Hk|Hk].
  - rewrite (lookup_seq_lt _ _ _ Hk). cbn. destruct (lookup_lt_is_Some_2 l k Hk) as [a ->]. done.
  - rewrite (lookup_ge_None_2 (seq 0 (length l))) by (rewrite seq_length; lia). by rewrite (lookup_ge_None_2 l) by lia.
Qed.
Lemma sum_rotate {A} (f : A → Z) (l : list A) :
  Zsum ((λ k, default 0 (f <$> l !! ((k + 1) mod length l)%nat)) <$> seq 0 (length l)) = Zsum (f <$> l).
Proof.
  destruct l as [|a0 l0] eqn:El; [done|]. rewrite <-El. rewrite <-(sum_index f l).
  trans (Zsum ((λ k, default 0 (f <$> l !! k)) <$> ((λ k, ((k + 1) mod length l)%nat) <$> seq 0 (length l)))).
  - by rewrite <-list_fmap_compose.
  - apply Zsum_perm. apply fmap_Permutation, seq_rotate. rewrite El. cbn. lia.
Qed.

Section outline.
  Context (ch : chf) (Hwf : wf_chf ch).
  Hypothesis (Hw16 : Z.of_nat (ch_w ch) ≤ 65535) (Hh16 : Z.of_nat (ch_h ch) ≤ 65535).
  Hypothesis (Hsym : symmetric ch) (Hr16 : regions_u16 ch) (Hbc : border_clear ch) (Hsm : regions_small ch).
  Context (err : f32) (len : Z) (wall areas : bool).
  Hypothesis Hlen : 0 ≤ len.
  Let w := ch_w ch.
  Let h := ch_h ch.
  Let b := ch_border ch.

  (** ** Loops *)
  Definition meets (x z : Z) (s : pos) : Z := crossing x z (c_start ch s) (c_end ch s).

  Lemma winding_walk r x z tr : closed_walk ch r tr → winding x z (c_end ch <$> tr) = Zsum (meets x z <$> tr).
  Proof.
    intros (Hne & _ & _ & Hcyc). unfold winding. rewrite fmap_length, <-(sum_rotate (meets x z) tr). apply Zsum_ext.
    intros k Hk%elem_of_seq. rewrite !list_lookup_fmap.
    destruct (lookup_lt_is_Some_2 tr k) as [s Hs]; [lia|].
    destruct (lookup_lt_is_Some_2 tr ((k + 1) mod length tr)) as [t Ht]; [apply Nat.mod_upper_bound; lia|].
    rewrite Hs, Ht. cbn. rewrite (Hcyc k s t Hs Ht). done.
  Qed.

  (** A loop that goes down somewhere goes up somewhere else. *)
  Lemma up_and_down r tr s : closed_walk ch r tr → s ∈ tr → p_d s = 2%nat → ∃ t, t ∈ tr ∧ p_d t = 0%nat.
  Proof.
    intros Hcl Hs Hd. destruct (decide (Exists (λ t, p_d t = 0%nat) tr)) as [H|H]; [by apply Exists_exists in H|].
    exfalso. rewrite <-Forall_Exists_neg, Forall_forall in H. destruct Hcl as (Hne & _ & Hv & Hcyc).
    set (f := λ s, snd (c_end ch s)). set (g := λ s, snd (c_start ch s)).
    assert (E : Zsum (f <$> tr) = Zsum (g <$> tr)).
    { rewrite <-(sum_index f), <-(sum_rotate g). apply Zsum_ext. intros k Hk%elem_of_seq.
      destruct (lookup_lt_is_Some_2 tr k) as [u Hu]; [lia|].
      destruct (lookup_lt_is_Some_2 tr ((k + 1) mod length tr)) as [t Ht]; [apply Nat.mod_upper_bound; lia|].
      rewrite Hu, Ht. change (f u = g t). unfold f, g. by rewrite (Hcyc k u t Hu Ht). }
    assert (Hle : ∀ l, (∀ t, t ∈ l → t ∈ tr) → Zsum (f <$> l) ≤ Zsum (g <$> l) ∧ (s ∈ l → Zsum (f <$> l) < Zsum (g <$> l))).
    { induction l as [|t l IH]; intros Hl; [split; [done|by intros ?%elem_of_nil]|].
      destruct IH as [IH1 IH2]; [intros u Hu; apply Hl; by right|]. rewrite !fmap_cons. unfold Zsum in *. cbn [foldr].
      assert (f t ≤ g t ∧ (p_d t = 2%nat → f t < g t)) as [H1 H2].
      { assert (t ∈ tr) as Ht by (apply Hl; left). destruct (Hv t Ht) as [(_ & Hd4 & _) _]. specialize (H t Ht). unfold f, g, c_end, c_start.
        cbn [snd]. destruct (p_d t) as [|[|[|[|d]]]]; [done| | | |lia]; cbn [nth]; split; lia. }
      split; [lia|]. intros [<-|Hin]%elem_of_cons; [specialize (H2 Hd); lia|specialize (IH2 Hin); lia]. }
    destruct (Hle tr) as [_ Hlt]; [done|]. specialize (Hlt Hs). lia.
  Qed.

  (** A loop that goes left somewhere goes right somewhere else. *)
  Lemma left_and_right r tr s : closed_walk ch r tr → s ∈ tr → p_d s = 3%nat → ∃ t, t ∈ tr ∧ p_d t = 1%nat.
  Proof.
    intros Hcl Hs Hd. destruct (decide (Exists (λ t, p_d t = 1%nat) tr)) as [H|H]; [by apply Exists_exists in H|].
    exfalso. rewrite <-Forall_Exists_neg, Forall_forall in H. destruct Hcl as (Hne & _ & Hv & Hcyc).
    set (f := λ s, fst (c_end ch s)). set (g := λ s, fst (c_start ch s)).
    assert (E : Zsum (f <$> tr) = Zsum (g <$> tr)).
    { rewrite <-(sum_index f), <-(sum_rotate g). apply Zsum_ext. intros k Hk%elem_of_seq.
      destruct (lookup_lt_is_Some_2 tr k) as [u Hu]; [lia|].
      destruct (lookup_lt_is_Some_2 tr ((k + 1) mod length tr)) as [t Ht]; [apply Nat.mod_upper_bound; lia|].
      rewrite Hu, Ht. change (f u = g t). unfold f, g. by rewrite (Hcyc k u t Hu Ht). }
    assert (Hle : ∀ l, (∀ t, t ∈ l → t ∈ tr) → Zsum (f <$> l) ≤ Zsum (g <$> l) ∧ (s ∈ l → Zsum (f <$> l) < Zsum (g <$> l))).
    { induction l as [|t l IH]; intros Hl; [split; [done|by intros ?%elem_of_nil]|].
      destruct IH as [IH1 IH2]; [intros u Hu; apply Hl; by right|]. rewrite !fmap_cons. unfold Zsum in *. cbn [foldr].
      assert (f t ≤ g t ∧ (p_d t = 3%nat → f t < g t)) as [H1 H2].
      { assert (t ∈ tr) as Ht by (apply Hl; left). destruct (Hv t Ht) as [(_ & Hd4 & _) _]. specialize (H t Ht). unfold f, g, c_end, c_start.
        cbn [fst]. destruct (p_d t) as [|[|[|[|d]]]]; [|done| | |lia]; cbn [nth]; split; lia. }
      split; [lia|]. intros [<-|Hin]%elem_of_cons; [specialize (H2 Hd); lia|specialize (IH2 Hin); lia]. }
    destruct (Hle tr) as [_ Hlt]; [done|]. specialize (Hlt Hs). lia.
  Qed.

  (** ** The sides of a region *)
  Definition spans_of (r : Z) : list (nat * nat) :=
    c ← seq 0 (w * h); match ch_cells ch !! c with
      | Some cell => (λ i, (c, i)) <$> filter (λ i, region_of ch i = Some r) (index_range cell)
      | None => []
      end.
  Lemma elem_spans r c i : (c, i) ∈ spans_of r ↔ in_cell ch c i ∧ region_of ch i = Some r.
  Proof.
    unfold spans_of. rewrite elem_of_list_bind. split.
    - intros (c' & Hin & Hc'). destruct (ch_cells ch !! c') as [cell|] eqn:Ec; [|by apply elem_of_nil in Hin].
      apply elem_of_list_fmap in Hin as (i' & [= <- <-] & (Hr & Hi)%elem_of_list_filter). split; [by exists cell|done].
    - intros [(cell & Ec & Hi) Hr]. exists c. rewrite Ec. split.
      + apply elem_of_list_fmap. exists i. split; [done|]. by apply elem_of_list_filter.
      + apply elem_of_seq. apply lookup_lt_Some in Ec. rewrite (cells_len ch Hwf) in Ec. fold w h in Ec. lia.
  Qed.
  Lemma NoDup_range cell : NoDup (index_range cell).
  Proof. unfold index_range. apply NoDup_seq. Qed.
  Lemma spans_nodup r : NoDup (spans_of r).
  Proof.
    unfold spans_of. assert (H : NoDup (seq 0 (w * h))) by apply NoDup_seq. revert H. generalize (seq 0 (w * h)). intros l Hl.
    induction l as [|c l IH]; [constructor|]. apply NoDup_cons in Hl as [Hc Hl]. rewrite bind_cons. apply NoDup_app. split; [|split].
    - destruct (ch_cells ch !! c); [|constructor]. apply NoDup_fmap; [intros ? ? [=]; done|]. apply NoDup_filter, NoDup_range.
    - intros [c1 i1] H1 (c2 & H2 & Hc2)%elem_of_list_bind. 
      assert (c1 = c) as ->. { destruct (ch_cells ch !! c); [|by apply elem_of_nil in H1]. by apply elem_of_list_fmap in H1 as (? & [= -> ->] & _). }
      assert (c = c2) as <-. { destruct (ch_cells ch !! c2); [|by apply elem_of_nil in H2]. by apply elem_of_list_fmap in H2 as (? & [= -> ->] & _). }
      done.
    - by apply IH.
  Qed.
  Definition sides_of (r : Z) (d : nat) : list pos := (λ ci, (ci.1, ci.2, d)) <$> spans_of r.
  Lemma elem_sides r d s : (d < 4)%nat → s ∈ sides_of r d ↔ valid ch r s ∧ p_d s = d.
  Proof.
    intros Hd. unfold sides_of. rewrite elem_of_list_fmap. split.
    - intros ([c i] & -> & [H1 H2]%elem_spans). done.
    - intros [(H1 & H2 & H3) Ed]. exists (p_c s, p_i s). destruct s as [[c i] d']. unfold p_c, p_i, p_d in *. cbn in *. subst d'.
      split; [done|]. by apply elem_spans.
  Qed.
  Lemma sides_nodup r d : NoDup (sides_of r d).
  Proof. unfold sides_of. apply NoDup_fmap; [|apply spans_nodup]. intros [a1 a2] [b1 b2] [= -> ->]. done. Qed.

  (** Sides that are no edges come in pairs. *)
  Definition across (s : pos) : pos := match go ch s with Some (c', j) => (c', j, ((p_d s + 2) mod 4)%nat) | None => s end.
  Lemma across_pair r d s : (d < 4)%nat → s ∈ sides_of r d → ¬ edge ch s →
    across s ∈ sides_of r ((d + 2) mod 4) ∧ ¬ edge ch (across s) ∧ across (across s) = s.
  Proof.
    intros Hd4 Hs He. apply elem_sides in Hs as [(Hin & Hd & Hr) Ed]; [|done]. unfold edge in He. destruct (go ch s) as [[c' j]|] eqn:Eg; [|done].
    assert (Ea : across s = (c', j, (d + 2) mod 4)%nat). { unfold across. by rewrite Eg, Ed. }
    apply go_some in Eg as [En Ej]. pose proof (nbr_sym ch Hwf Hsym _ _ _ _ _ Hin Hd En) as Eb. rewrite Ed in Eb.
    assert (Eg' : go ch (across s) = Some (p_c s, p_i s)).
    { rewrite Ea. unfold go. cbn [p_c p_i p_d fst snd]. rewrite Eb. rewrite decide_True; [done|congruence]. }
    split; [|split].
    - apply elem_sides; [by apply Nat.mod_upper_bound|]. rewrite Ea. split; [|done]. split; [|split].
      + cbn [p_c p_i fst snd]. by eapply (nbr_in_cell ch Hwf _ _ (p_d s)).
      + cbn [p_d snd]. by apply Nat.mod_upper_bound.
      + cbn [p_i fst snd]. congruence.
    - unfold edge. by rewrite Eg'.
    - unfold across at 1. rewrite Eg', Ea. cbn [p_d snd]. destruct s as [[c i] d']. unfold p_c, p_i, p_d in *. cbn [fst snd] in *. subst d'.
      f_equal. clear -Hd4. destruct d as [|[|[|[|d]]]]; [done..|lia].
  Qed.
  Lemma across_perm r : across <$> filter (λ s, ¬ edge ch s) (sides_of r 2) ≡ₚ filter (λ s, ¬ edge ch s) (sides_of r 0).
  Proof.
    apply NoDup_Permutation.
    - apply NoDup_fmap_2_strong; [|apply NoDup_filter, sides_nodup].
      intros s t [Hs1 Hs2]%elem_of_list_filter [Ht1 Ht2]%elem_of_list_filter E.
      destruct (across_pair r 2 s ltac:(lia) Hs2 Hs1) as (_ & _ & <-). destruct (across_pair r 2 t ltac:(lia) Ht2 Ht1) as (_ & _ & <-).
      by rewrite E.
    - apply NoDup_filter, sides_nodup.
    - intros t. rewrite elem_of_list_fmap. split.
      + intros (s & -> & [Hs1 Hs2]%elem_of_list_filter). destruct (across_pair r 2 s ltac:(lia) Hs2 Hs1) as (H1 & H2 & _).
        by apply elem_of_list_filter.
      + intros [Ht1 Ht2]%elem_of_list_filter. destruct (across_pair r 0 t ltac:(lia) Ht2 Ht1) as (H1 & H2 & H3).
        exists (across t). split; [done|]. by apply elem_of_list_filter.
  Qed.
  Lemma across_meets r x z s : s ∈ filter (λ s, ¬ edge ch s) (sides_of r 2) → meets x z (across s) = - meets x z s.
  Proof.
    intros [He Hs]%elem_of_list_filter. apply elem_sides in Hs as [Hv Ed]; [|lia]. pose proof Hv as (Hin & Hd & Hr).
    unfold edge in He. destruct (go ch s) as [[c' j]|] eqn:Eg; [|done].
    unfold across. rewrite Eg. pose proof (c_move ch Hwf r s c' j Hv Eg) as Ec. unfold next in Ec. rewrite Eg in Ec.
    unfold meets. rewrite Ed in *. cbn in Ec |- *. unfold c_start, c_end in *. unfold p_c, p_i in *. rewrite Ed in *.
    cbn [p_d fst snd nth] in *. cbn in Ec |- *. injection Ec as E1 E2. 
    set (cx := Z.of_nat (c' mod ch_w ch)%nat) in *. set (cz := Z.of_nat (c' / ch_w ch)%nat) in *.
    set (sx := Z.of_nat _) in E1 |- *. set (sz := Z.of_nat _) in E2 |- *. clearbody cx cz sx sz.
    unfold crossing. cbn [fst snd].
    repeat (match goal with |- context [?a <? ?b] => destruct (Z.ltb_spec a b) | |- context [?a =? ?b] => destruct (Z.eqb_spec a b) end; cbn [andb]; try lia).
  Qed.
  Lemma side_pair x z c i :
    (x < w)%nat → (z < h)%nat → (c < w * h)%nat →
    meets (Z.of_nat x) (Z.of_nat z) (c, i, 0%nat) + meets (Z.of_nat x) (Z.of_nat z) (c, i, 2%nat) =
    if decide (c = (x + z * w)%nat) then 1 else 0.
  Proof.
    intros Hx Hz Hc. destruct (cell_coords ch c Hc) as (Hw & Hcx & Hcz & Ec). fold w h in Hw, Hcx, Hcz, Ec.
    assert (c = (x + z * w)%nat ↔ (c mod w = x ∧ c / w = z)%nat) as Hiff.
    { split; [|intros [<- <-]; done]. intros ->. rewrite Nat.mod_add by done. rewrite Nat.div_add by done.
      rewrite Nat.mod_small, Nat.div_small by done. lia. }
    unfold meets, c_start, c_end, p_c, p_d. cbn [fst snd nth]. fold w. revert Hiff. clear Ec.
    set (cx := (c mod w)%nat) in *. set (cz := (c / w)%nat) in *. clearbody cx cz. intros Hiff. unfold crossing. cbn [fst snd].
    case_decide as Hd; [apply Hiff in Hd as [-> ->]|assert (¬ (cx = x ∧ cz = z)) as Hn by tauto];
    repeat (match goal with |- context [?a <? ?b] => destruct (Z.ltb_spec a b) | |- context [?a =? ?b] => destruct (Z.eqb_spec a b) end; cbn [andb]; try lia).
  Qed.

  Lemma layers_count r c : length (filter (λ ci : nat * nat, ci.1 = c) (spans_of r)) = layers ch r c.
  Proof.
    unfold layers. destruct (ch_cells ch !! c) as [cell|] eqn:Ec.
    - rewrite <-(fmap_length (λ i : nat, (c, i)) (filter _ (index_range cell))). apply Permutation_length. apply NoDup_Permutation.
      + apply NoDup_filter, spans_nodup.
      + apply NoDup_fmap; [intros ? ? [=]; done|]. apply NoDup_filter, NoDup_range.
      + intros [c' i]. rewrite elem_of_list_filter, elem_spans, elem_of_list_fmap. split.
        * intros [Hc' [(cell' & E & Hi) Hr]]. cbn in Hc'. subst c'. rewrite Ec in E. injection E as <-. exists i. split; [done|].
          by apply elem_of_list_filter.
        * intros (i' & [= -> ->] & [Hr Hi]%elem_of_list_filter). split; [done|]. split; [by exists cell|done].
    - destruct (filter _ _) as [|[c' i] l] eqn:E; [done|]. exfalso.
      assert ((c', i) ∈ filter (λ ci : nat * nat, ci.1 = c) (spans_of r)) as H by (rewrite E; left).
      apply elem_of_list_filter in H as [Hc' [(cell & E2 & _) _]%elem_spans]. cbn in Hc'. congruence.
  Qed.

  Definition up_edges (r : Z) : list pos := filter (edge ch) (sides_of r 0) ++ filter (edge ch) (sides_of r 2).
  Lemma region_winding r x z :
    (x < w)%nat → (z < h)%nat →
    Zsum (meets (Z.of_nat x) (Z.of_nat z) <$> up_edges r) = Z.of_nat (layers ch r (x + z * w)).
  Proof.
    intros Hx Hz. set (m := meets (Z.of_nat x) (Z.of_nat z)). unfold up_edges. rewrite fmap_app, Zsum_app.
    pose proof (Zsum_split m (edge ch) (sides_of r 0)) as E0. pose proof (Zsum_split m (edge ch) (sides_of r 2)) as E2.
    assert (Ex : Zsum (m <$> filter (λ s, ¬ edge ch s) (sides_of r 0)) = - Zsum (m <$> filter (λ s, ¬ edge ch s) (sides_of r 2))).
    { rewrite <-Zsum_opp. rewrite <-(Zsum_perm _ _ (fmap_Permutation m _ _ (across_perm r))). rewrite <-list_fmap_compose.
      apply Zsum_ext. intros s Hs. by apply (across_meets r). }
    assert (Et : Zsum (m <$> sides_of r 0) + Zsum (m <$> sides_of r 2) = Z.of_nat (layers ch r (x + z * w))).
    { unfold sides_of. rewrite <-!list_fmap_compose, Zsum_add. rewrite <-layers_count, <-Zsum_count. apply Zsum_ext.
      intros [c i] [Hin _]%elem_spans. unfold compose. cbn [fst snd]. apply side_pair; [done|done|]. by eapply (in_cell_lt ch Hwf). }
    lia.
  Qed.

  (** ** Loops of the build *)
  Definition loop : Type := Z * list pos * option contour.
  Definition to_outline (o : loop) : outline := Outline o.1.1 (key_of <$> o.1.2) (c_end ch <$> o.1.2) o.2.
  Definition loop_ok (o : loop) : Prop := closed_walk ch o.1.1 o.1.2 ∧ outlined ch (f_mul err err) (to_outline o).
  Definition loops (LL : list loop) : list pos := concat ((λ o : loop, o.1.2) <$> LL).
  Definition oinv (V : nat → Prop) (LL : list loop) (st : cstate) : Prop :=
    flags_inv ch (st_flags st) ∧
    take (st_count st) (st_table st) = omap snd LL ∧ (st_count st ≤ length (st_table st))%nat ∧
    Forall loop_ok LL ∧ NoDup (loops LL) ∧
    (∀ s, s ∈ loops LL → bit_at (st_flags st) s = false) ∧
    (∀ r s, valid ch r s → inner r → edge ch s → bit_at (st_flags st) s = true ∨ ∃ tr o, (r, tr, o) ∈ LL ∧ s ∈ tr) ∧
    (∀ i d, V i → (d < 2)%nat → bit (st_flags st) i d = false).

  Lemma walk_unit r tr : closed_walk ch r tr → unit_loop (c_end ch <$> tr).
  Proof.
    intros (Hne & _ & Hv & Hcyc). split; [by destruct tr|]. intros k p q. rewrite fmap_length, !list_lookup_fmap.
    intros (s & Hs & ->)%fmap_Some (t & Ht & ->)%fmap_Some. rewrite (Hcyc k s t Hs Ht). apply c_unit. apply Hv.
    by eapply elem_of_list_lookup_2.
  Qed.
  Lemma walk_sides r tr : closed_walk ch r tr →
    Forall2 (λ s p, side ch r s.1 s.2 ∧ side_end ch s.1 s.2 p) (key_of <$> tr) (c_end ch <$> tr).
  Proof.
    intros (_ & _ & Hv & _). apply Forall2_fmap_l, Forall2_fmap_r, Forall_Forall2_diag. apply Forall_forall. intros s Hs.
    destruct (Hv s Hs) as [(Hin & Hd & Hr) He]. cbn [key_of fst snd]. split.
    - split; [done|]. split; [done|]. intros j Hst Hj.
      destruct (proj1 (step_nbr ch Hwf _ _ _ j Hin Hd) Hst) as (c' & Hn). unfold edge, go in He. rewrite Hn in He.
      rewrite decide_True in He; [done|congruence].
    - pose proof (in_cell_lt ch Hwf _ _ Hin) as Hc. destruct (cell_coords ch _ Hc) as (Hw & Hx & Hz & Ec).
      exists (p_c s mod w)%nat, (p_c s / w)%nat. split; [done|]. split; [done|]. split; [unfold w; by rewrite <-Ec|].
      unfold c_end. done.
  Qed.
  Lemma loop_ok_of r tr oc : closed_walk ch r tr → walk_follows ch r tr → inner r →
    match oc with
    | Some ct => ct_reg ct = r ∧ c_end ch <$> tr = (λ v : rawv, (vx v.1 + b, vz v.1 + b)) <$> ct_raw ct ∧
        Forall2 (λ s v, beyond ch (ct_area ct) s.1 s.2 v.2) (key_of <$> tr) (ct_raw ct) ∧ has_area ch r (ct_area ct) ∧
        runs_straight (ct_raw ct) (ct_verts ct) ∧ (3 ≤ length (ct_verts ct))%nat
    | None => lone ch r (c_end ch <$> tr) ∨ ∃ area raw, has_area ch r area ∧ Forall2 (vertex_of ch area) tr raw ∧ flat_loop raw (f_mul err err)
    end → loop_ok (r, tr, oc).
  Proof.
    intros Hcl Hfo Hi Hm. split; [exact Hcl|]. split; [exact Hi|]. split; [by eapply walk_unit|]. split; [by apply walk_sides|].
    split.
    { intros k s t. cbn [to_outline ol_sides fst snd]. rewrite fmap_length, !list_lookup_fmap.
      intros (s' & Hs & ->)%fmap_Some (t' & Ht & ->)%fmap_Some. by apply (Hfo k s' t'). }
    cbn [to_outline ol_contour ol_reg ol_loop ol_sides fst snd]. destruct oc as [ct|]; [done|].
    destruct Hm as [Hm|(area & raw & Ha & HF & Hflat)]; [by left|]. right. exists area, raw. split; [done|]. split; [|split; [|done]].
    - clear Hcl Hfo Hflat. induction HF as [|s v tr raw (E & _) HF IH]; [done|]. rewrite !fmap_cons. by rewrite IH, <-E.
    - apply Forall2_fmap_l. eapply Forall2_impl; [exact HF|]. intros s v (_ & H & _). exact H.
  Qed.

  (** Adding a walked loop. *)
  Lemma oinv_loop (V V' : nat → Prop) LL st flags' r tr oc table' count' mx' :
    oinv V LL st → flags_inv ch flags' → loop_ok (r, tr, oc) →
    (∀ s, s ∈ tr → bit_at (st_flags st) s = true) →
    (∀ i d, bit flags' i d = bit (st_flags st) i d && negb (bool_decide ((i, d) ∈ key_of <$> tr))) →
    (∀ i d, V' i → (d < 2)%nat → V i ∨ bit flags' i d = false) →
    take count' table' = omap snd (LL ++ [(r, tr, oc)]) → (count' ≤ length table')%nat →
    oinv V' (LL ++ [(r, tr, oc)]) (CStt flags' table' count' mx').
  Proof.
    intros (Hfl & Htab & Hcnt & Hok & Hnd & Hcl & Hcomp & HV) Hfl' Hl Hset Hbits HV' Htab' Hcnt'.
    assert (Hloops : loops (LL ++ [(r, tr, oc)]) = loops LL ++ tr).
    { unfold loops. rewrite fmap_app, concat_app. cbn. by rewrite app_nil_r. }
    split; [done|]. split; [done|]. split; [done|]. split; [apply Forall_app; split; [done|by constructor]|].
    rewrite Hloops. split; [|split; [|split]].
    - apply NoDup_app. split; [done|]. split; [|apply Hl]. intros s Hs Ht. apply Hcl in Hs. rewrite Hset in Hs by done. done.
    - intros s [Hs|Hs]%elem_of_app; unfold bit_at; cbn [st_flags]; rewrite Hbits.
      + apply Hcl in Hs. unfold bit_at in Hs. by rewrite Hs.
      + rewrite bool_decide_eq_true_2; [by rewrite andb_false_r|]. apply elem_of_list_fmap. by exists s.
    - intros r' s Hv Hi He. cbn [st_flags]. destruct (Hcomp r' s Hv Hi He) as [Hb|(tr' & o' & Hin & Hs)].
      + unfold bit_at in *. rewrite Hbits, Hb. cbn [andb]. case_bool_decide as Hk; [|by left]. right.
        apply elem_of_list_fmap in Hk as (t & E & Ht). destruct (proj1 Hl) as (_ & _ & Hvt & _). cbn [fst snd] in Hvt. destruct (Hvt t Ht) as [Hvt' _].
        assert (r' = r) as ->. { destruct Hv as (_ & _ & E1), Hvt' as (_ & _ & E2). injection E as E3 E4. rewrite E3 in E1. congruence. }
        assert (s = t) as -> by (by apply (key_inj ch Hwf r)). exists tr, oc. split; [|done]. apply elem_of_app. right. left.
      + right. exists tr', o'. split; [|done]. apply elem_of_app. by left.
    - intros i d Hi Hd. cbn [st_flags]. destruct (HV' i d Hi Hd) as [Hi'|Hi']; [|done]. by rewrite Hbits, (HV _ _ Hi' Hd).
  Qed.

  (** The loop around a lone span. *)
  Definition ring (c i : nat) : list pos := [(c, i, 0%nat); (c, i, 1%nat); (c, i, 2%nat); (c, i, 3%nat)].
  Lemma ring_closed c i r :
    in_cell ch c i → region_of ch i = Some r → (∀ d, (d < 4)%nat → edge ch (c, i, d)) → closed_walk ch r (ring c i).
  Proof.
    intros Hin Hr He. split; [done|]. split; [|split].
    - unfold ring. repeat constructor; set_solver.
    - intros s Hs. unfold ring in Hs. rewrite !elem_of_cons in Hs. destruct Hs as [->|[->|[->|[->|[]%elem_of_nil]]]]; (split; [split; [done|split; [cbn; lia|done]]|apply He; lia]).
    - intros k s t Hs Ht. destruct k as [|[|[|[|k]]]]; cbn in Hs, Ht; [..|done]; injection Hs as <-; injection Ht as <-; unfold c_start, c_end; cbn [p_c p_d fst snd nth]; f_equal; lia.
  Qed.
  Lemma ring_follows c i r :
    in_cell ch c i → region_of ch i = Some r → (∀ d, (d < 4)%nat → edge ch (c, i, d)) → walk_follows ch r (ring c i).
  Proof.
    intros Hin Hr He.
    assert (∀ d, (d < 4)%nat → side ch r i d) as Hs. { intros d Hd. apply (edge_side ch Hwf r (c, i, d)); [done|by apply He]. }
    intros k s t Hs' Ht. destruct k as [|[|[|[|k]]]]; cbn in Hs', Ht; [..|done]; injection Hs' as <-; injection Ht as <-; apply seeks_here; apply Hs; cbn; lia.
  Qed.
  Lemma ring_lone c i r :
    in_cell ch c i → region_of ch i = Some r → (∀ d, (d < 4)%nat → edge ch (c, i, d)) → lone ch r (c_end ch <$> ring c i).
  Proof.
    intros Hin Hr He. pose proof (in_cell_lt ch Hwf _ _ Hin) as Hc. destruct (cell_coords ch c Hc) as (Hw & Hx & Hz & Ec).
    exists i, (c mod ch_w ch)%nat, (c / ch_w ch)%nat. rewrite <-Ec. split; [done|]. split; [done|]. split; [done|]. split.
    - intros d j Hd Hst Hj. destruct (proj1 (step_nbr ch Hwf _ _ _ j Hin Hd) Hst) as (c' & Hn). specialize (He d Hd).
      unfold edge, go in He. cbn [p_c p_i p_d fst snd] in He. rewrite Hn in He. rewrite decide_True in He; [done|congruence].
    - unfold ring, c_end. cbn [fmap list_fmap p_c p_d fst snd nth]. by rewrite !Z.add_0_r.
  Qed.

  Lemma walked_raw r area tr raw : closed_walk ch r tr → inner r → Forall2 (vertex_of ch area) tr raw →
    c_end ch <$> tr = (λ v : rawv, (vx v.1 + b, vz v.1 + b)) <$> (unborder b <$> raw) ∧ c_end ch <$> tr = (λ v : rawv, vpos v.1) <$> raw.
  Proof.
    intros Hcl Hi HF. split.
    - assert (∀ s, s ∈ tr → valid ch r s) as Hv by (intros s Hs; by apply Hcl). clear Hcl.
      induction HF as [|s v tr raw (E & _) HF IH]; [done|]. rewrite !fmap_cons. rewrite IH by (intros t Ht; apply Hv; by right). f_equal.
      assert (valid ch r s) as Hvs by (apply Hv; left).
      pose proof (c_end_clear ch Hwf Hbc r s Hvs Hi) as [H1 H2]. rewrite <-E in H1, H2.
      pose proof (unborder_pos b v (proj1 Hbc) H1 H2) as Ep. unfold vpos in Ep. injection Ep as Ex Ez.
      rewrite <-E, Ex, Ez. unfold vpos. f_equal; lia.
    - clear Hcl. induction HF as [|s v tr raw (E & _) HF IH]; [done|]. rewrite !fmap_cons. by rewrite IH, <-E.
  Qed.

  Lemma flat_of raw j0 (os os1 : list nat) (fv : nat → vtx * Z) (os' : list nat) :
    (0 < length raw)%nat → ordered raw os1 → keeps raw j0 os1 → (∀ o, o ∈ os1 → o ∈ os) → within raw (f_mul err err) j0 os1 →
    (∀ o, (fv o).1 = vat raw (ix raw j0 o)) →
    (os' ≠ [] → ∀ o, o ∈ os → ∃ o', o' ∈ os' ∧ vpos (fv o').1 = vpos (fv o).1) →
    (os' = [] → ∀ o o', o ∈ os → o' ∈ os → vpos (fv o).1 = vpos (fv o').1) →
    (length os' < 3)%nat → flat_loop raw (f_mul err err).
  Proof.
    intros Hn Hord Hkeep Hsub Hwi Hfv Hne Hnil Hlen'.
    assert (∃ p q, ∀ o, o ∈ os → vpos (fv o).1 = p ∨ vpos (fv o).1 = q) as (p & q & Hpq).
    { destruct os' as [|a [|a' [|? ?]]]; [..|cbn in Hlen'; lia].
      - destruct os as [|o0 os]; [exists (0, 0), (0, 0); by intros o ?%elem_of_nil|]. exists (vpos (fv o0).1), (0, 0).
        intros o Ho. left. apply Hnil; [done|done|left].
      - exists (vpos (fv a).1), (0, 0). intros o Ho. destruct (Hne ltac:(done) o Ho) as (o' & ->%elem_of_list_singleton & E). by left.
      - exists (vpos (fv a).1), (vpos (fv a').1). intros o Ho. destruct (Hne ltac:(done) o Ho) as (o' & Ho' & E).
        rewrite !elem_of_cons in Ho'. destruct Ho' as [->|[->|[]%elem_of_nil]]; [by left|by right]. }
    exists j0, os1, ((λ o, vat raw (ix raw j0 o)) <$> os1), p, q. split; [|split; [|split; [done|split]]].
    - destruct Hord as (_ & H2 & H3). split; [done|]. split; [done|]. apply Forall2_fmap_r, Forall2_same_length_lookup.
      split; [done|]. intros k o o' Ho Ho'. assert (o' = o) as -> by congruence. by rewrite (at_loop_pts raw Hn).
    - intros ->. by destruct Hord as [? _].
    - intros Hp j v Hch Hj. destruct (keeps_spec raw Hn j0 os1 Hkeep Hp j Hch) as (o & Ho & Eo).
      apply elem_of_list_fmap. exists o. split; [|done]. rewrite (at_loop_pts raw Hn) in Hj. injection Hj as <-. cbn [fst]. by rewrite Eo.
    - intros v (o & -> & Ho)%elem_of_list_fmap. rewrite <-Hfv. apply Hpq. by apply Hsub.
  Qed.

  Lemma straight_runs raw j0 (os os' : list nat) (fv : nat → vtx * Z) :
    (0 < length raw)%nat → ordered raw os → straight raw j0 os → (∀ o, (fv o).1 = vat raw (ix raw j0 o)) →
    (∀ p q, p ≠ q → adjacent ((λ o, vpos (fv o).1) <$> os) p q → adjacent ((λ o, vpos (fv o).1) <$> os') p q) →
    runs_straight (unborder b <$> raw) (unborder b <$> (fv <$> os')).
  Proof.
    intros Hn Hord Hst Hfv Hadj j m p q Hrun Hp Hq Hpq. rewrite at_loop_fmap in Hp, Hq.
    apply fmap_Some in Hp as (p' & Hp & ->). apply fmap_Some in Hq as (q' & Hq & ->).
    assert (Hch : ∀ j, changes (unborder b <$> raw) j ↔ changes raw j).
    { intros k. unfold changes. rewrite !at_loop_fmap. split.
      - intros (u & v & (u' & Eu & ->)%fmap_Some & (v' & Ev & ->)%fmap_Some & H). rewrite !unborder_flag in H. by exists u', v'.
      - intros (u & v & -> & -> & H). exists (unborder b u), (unborder b v). by rewrite !unborder_flag. }
    assert (Hrun' : portal_run raw j m).
    { destruct Hrun as (H1 & H2 & H3 & H4 & u & Hu & H5 & H6). split; [done|]. split; [by apply Hch|]. split; [by apply Hch|]. split.
      - intros o Ho Hc. apply (H4 o Ho). by apply Hch.
      - rewrite at_loop_fmap in Hu. apply fmap_Some in Hu as (u' & Hu & ->). rewrite unborder_flag in H5, H6. by exists u'. }
    destruct (Hst j m Hrun') as (k & x & Hx & E1 & E2).
    rewrite (at_loop_pts raw Hn) in Hp, Hq. injection Hp as <-. injection Hq as <-. cbn [fst] in *.
    assert (Hvp : vpos (vat raw (j mod length raw)) ≠ vpos (vat raw ((j + m) mod length raw))).
    { intros E. apply Hpq. by apply unborder_same. }
    destruct (Hadj _ _ Hvp) as (k' & Hk1 & Hk2).
    { exists k. rewrite fmap_length, !list_lookup_fmap, Hx. cbn. rewrite Hfv, E1. split; [done|].
      pose proof (lookup_lt_Some _ _ _ Hx) as Hlt. unfold nxt in E2. destruct (decide (k + 1 = length os)%nat) as [El|El].
      - rewrite lookup_ge_None_2 in E2 by lia. cbn in E2. rewrite El, Nat.mod_same by lia. destruct Hord as (-> & _). cbn. rewrite Hfv.
        rewrite <-E2. rewrite <-(ix_turn raw Hn j0 0). by rewrite Nat.add_0_r.
      - rewrite Nat.mod_small by lia. destruct (lookup_lt_is_Some_2 os (k + 1)) as [y Hy]; [lia|]. rewrite Hy in E2 |- *. cbn in *. by rewrite Hfv, E2. }
    exists k'. rewrite !fmap_length in *. rewrite !list_lookup_fmap in *.
    apply fmap_Some in Hk1 as (o & Ho & Eo). apply fmap_Some in Hk2 as (o2 & Ho2 & Eo2). rewrite Ho, Ho2. cbn.
    split; apply (f_equal Some), unborder_same; cbn [fst]; done.
  Qed.

  Lemma simplify_walk_within r area tr raw :
    closed_walk ch r tr → Forall2 (vertex_of ch area) tr raw →
    ends True (simplify_contour raw err len wall areas) (simplified raw (λ j0 os,
      (∃ os1, ordered raw os1 ∧ keeps raw j0 os1 ∧ (∀ o, o ∈ os1 → o ∈ os) ∧ within raw (f_mul err err) j0 os1) ∧ straight raw j0 os)).
  Proof.
    intros Hcl HF. pose proof (walk_loop ch r area tr raw Hcl HF) as Hloop. pose proof (loop_spread ch raw Hloop) as Hsp.
    assert (0 < length raw)%nat as Hn. { destruct raw; [by destruct Hloop|cbn; lia]. }
    eapply ends_mono; [apply (simplify_spec raw Hn True); [done|by left]|].
    intros l (j0 & os & H1 & H2 & (_ & _ & H4) & H3). by exists j0, os.
  Qed.

  Lemma contour_span_outline c i V LL st :
    in_cell ch c i → oinv V LL st →
    ends True (contour_span ch err len wall areas (c mod w) (c / w) i st) (λ st', ∃ LL', oinv (λ k, V k ∨ k = i) LL' st').
  Proof.
    intros Hin Hinv. pose proof Hinv as (Hfl & Htab & Hcnt & Hok & Hnd & Hcl & Hcomp & HV).
    pose proof Hfl as ((Hfll & Hf15) & Hbe & _). unfold contour_span.
    pose proof (in_cell_bound ch Hwf _ _ Hin) as Hi. rewrite <-Hfll in Hi.
    destruct (lookup_lt_is_Some_2 _ _ Hi) as [f Hf]. rewrite (get_some _ _ _ Hf). cbn [obind].
    destruct (span_some ch Hwf _ _ Hin) as (sp & Hsp & Hr). pose proof (Hr16 _ _ Hr) as Hr16'.
    destruct ((f =? 0) || (f =? 15)) eqn:Ef.
    - rewrite put_lt by done. cbn [obind ends]. destruct (decide (f = 15)) as [->|Hne].
      + assert (Hs : ∀ d, (d < 4)%nat → bit_at (st_flags st) (c, i, d) = true).
        { intros d Hd. unfold bit_at, bit, p_i, p_d. cbn [fst snd]. rewrite Hf. cbn [from_option id]. destruct d as [|[|[|[|d]]]]; [done..|lia]. }
        assert (He : ∀ d, (d < 4)%nat → edge ch (c, i, d)). { intros d Hd. by apply (Hbe (cs_reg sp)); [|by apply Hs]. }
        assert (Hii : inner (cs_reg sp)). { by apply (Hbe (cs_reg sp) (c, i, 0%nat)); [split; [done|split; [cbn; lia|done]]|apply Hs; lia]. }
        exists (LL ++ [(cs_reg sp, ring c i, None)]). apply (oinv_loop V _ LL st); [done|by eapply single_inv| | | | | |done].
        * apply loop_ok_of; [by apply ring_closed|by apply ring_follows|done|]. left. by apply ring_lone.
        * intros s Hs'. unfold ring in Hs'. rewrite !elem_of_cons in Hs'. destruct Hs' as [->|[->|[->|[->|[]%elem_of_nil]]]]; apply Hs; lia.
        * intros i' d'. unfold bit. destruct (decide (i = i')) as [<-|Hne].
          -- rewrite list_lookup_insert by done. rewrite Hf. cbn [from_option id]. rewrite Z.testbit_0_l. symmetry.
             destruct (decide (d' < 4)%nat) as [Hd|Hd].
             ++ rewrite bool_decide_eq_true_2; [by rewrite andb_false_r|]. unfold ring. cbn [fmap list_fmap]. unfold key_of, p_i, p_d. cbn [fst snd].
                destruct d' as [|[|[|[|d']]]]; [..|lia]; set_solver.
             ++ destruct (Z.testbit 15 (Z.of_nat d')) eqn:E; [|done]. exfalso. apply Hd, (high_bit ch 15); [lia|done].
          -- rewrite list_lookup_insert_ne by done. rewrite bool_decide_eq_false_2; [by rewrite andb_true_r|].
             unfold ring. cbn [fmap list_fmap]. unfold key_of, p_i, p_d. cbn [fst snd]. rewrite !elem_of_cons, elem_of_nil. intros H.
             destruct H as [[=]|[[=]|[[=]|[[=]|[]]]]]; congruence.
        * intros k d [Hk|Hk] _; [by left|]. right. subst k. unfold bit. rewrite list_lookup_insert by done. apply Z.testbit_0_l.
        * rewrite omap_app. cbn. by rewrite app_nil_r.
      + assert (f = 0) as -> by lia. rewrite list_insert_id by done. exists LL. do 7 (split; [done|]). cbn [st_flags].
        intros k d [Hk|Hk] Hd; [by apply HV|]. subst k. unfold bit. rewrite Hf. apply Z.testbit_0_l.
    - rewrite (get_some _ _ _ Hsp). cbn [obind].
      destruct ((cs_reg sp =? REG_NONE) || is_border (cs_reg sp)) eqn:Enb.
      { cbn [ends]. exists LL. do 7 (split; [done|]). intros k d [Hk|Hk] Hd; [by apply HV|]. subst k.
        destruct (bit (st_flags st) i d) eqn:E; [|done]. exfalso.
        destruct (Hbe (cs_reg sp) (c, i, d)) as [Hn _]; [split; [done|split; [cbn; lia|done]]|done|]. apply (inner_iff ch) in Hn; [|done]. congruence. }
      apply (inner_iff ch) in Enb; [|done]. destruct (area_some ch Hwf _ _ Hin) as (area & Ha). rewrite (get_some _ _ _ Ha). cbn [obind].
      eapply ends_bind.
      { apply ends_runs. eapply (walk_spec ch Hwf Hw16 Hh16 Hsym Hr16 c i (cs_reg sp) f area); [done|done|done|done|lia|done|].
        by apply Hsm. }
      intros [flags' raw] (Hfl' & tr & Hwalk & _ & Hset & Hbits & HF & Hfirst & Hfollow).
      pose proof (walk_loop ch (cs_reg sp) area tr raw Hwalk HF) as Hloop.
      assert (Hn : (0 < length raw)%nat). { destruct raw; [by destruct Hloop|cbn; lia]. }
      eapply ends_bind; [by eapply simplify_walk_within|]. intros l (j0 & os & Hord & Hkeep & ((os1 & Hord1 & Hkeep1 & Hsub1 & Hwi1) & Hstr) & ->).
      set (fv := λ o, _).
      eapply ends_bind.
      { apply ends_runs. unfold remove_degenerate_segments. apply (remove_degenerate_spec fv _ os 0); [exact (proj2 (proj2 Hord))|].
        rewrite fmap_length. lia. }
      intros verts (os' & -> & Hinc & Hsub & Hpos & Hnil & Hadj).
      destruct (walked_raw (cs_reg sp) area tr raw Hwalk Enb HF) as [Eraw1 Eraw2].
      assert (HV' : ∀ k d, V k ∨ k = i → (d < 2)%nat → V k ∨ bit flags' k d = false).
      { intros k d [Hk|Hk] Hd; [by left|]. right. subst k. rewrite Hbits. destruct (bit (st_flags st) i d) eqn:E0; [|done].
        rewrite bool_decide_eq_true_2; [done|]. apply elem_of_list_fmap. exists (c, i, d). split; [done|by apply Hfirst]. }
      assert (Harea : has_area ch (cs_reg sp) area). { exists i. split; [|done]. unfold region_of. by rewrite Hsp. }
      destruct (Nat.ltb_spec (length (fv <$> os')) 3) as [Hshort|Hlong].
      + cbn [ends]. exists (LL ++ [(cs_reg sp, tr, None)]). apply (oinv_loop V _ LL st); [done|done| |done|done|done| |done].
        * apply loop_ok_of; [done|done|done|]. right. exists area, raw. split; [done|].
          split; [done|]. rewrite fmap_length in Hshort. by eapply (flat_of raw j0 os os1 fv os').
        * rewrite omap_app. cbn. by rewrite app_nil_r.
      + set (ct := Ct _ _ _ _).
        assert (Hlo : loop_ok (cs_reg sp, tr, Some ct)). { apply loop_ok_of; [done|done|done|]. split; [done|]. split; [done|]. split.
          { cbn [ct ct_raw ct_area]. apply Forall2_fmap_l, Forall2_fmap_r. eapply Forall2_impl; [exact HF|]. intros s v (_ & H & _).
            cbn. by rewrite unborder_flag. }
          split; [done|]. split; [|cbn [ct ct_verts]; by rewrite fmap_length].
          cbn [ct ct_raw ct_verts]. by eapply (straight_runs raw j0 os os' fv). }
        unfold store_contour. cbn [st_max st_count st_table st_flags].
        set (m := if (st_max st <=? Z.of_nat (st_count st)) then _ else _).
        assert (Hm : ends True m (λ '(t, mx), ∃ k, t = take k (st_table st))).
        { unfold m. destruct (_ <=? _); [|cbn; exists (length (st_table st)); by rewrite take_ge].
          unfold chk_u16, chk. destruct (_ && _); cbn [obind ends]; [by eexists|done]. }
        eapply ends_bind; [exact Hm|]. intros [t mx'] (kt & ->). clear m Hm. unfold put.
        destruct (take kt (st_table st) !! st_count st) as [old|] eqn:Eold; [|done]. cbn [obind ends].
        pose proof (lookup_lt_Some _ _ _ Eold) as Hlt. rewrite take_length in Hlt.
        exists (LL ++ [(cs_reg sp, tr, Some ct)]). apply (oinv_loop V _ LL st); [done|done|done|done|done|done| |].
        * rewrite omap_app. cbn [omap list_omap snd]. rewrite <-Htab.
          rewrite (take_S_r _ _ ct) by (apply list_lookup_insert; rewrite take_length; lia).
          f_equal. rewrite take_insert by lia. rewrite take_take. by rewrite Nat.min_l by lia.
        * rewrite insert_length, take_length. lia.
  Qed.

  (** When every span was visited, every side is in a loop. *)
  Lemma all_walked LL st r s :
    oinv (λ i, (i < length (ch_spans ch))%nat) LL st → valid ch r s → inner r → edge ch s →
    ∃ tr o, (r, tr, o) ∈ LL ∧ s ∈ tr.
  Proof.
    intros (Hfl & _ & _ & _ & _ & _ & Hcomp & HV) Hv Hi He. destruct (Hcomp r s Hv Hi He) as [Hb|H]; [exfalso|done].
    assert (∀ t, valid ch r t → (p_d t < 2)%nat → bit_at (st_flags st) t = true → False) as H0.
    { intros t (Hin & _) Hd0 Hbt. unfold bit_at in Hbt. rewrite HV in Hbt; [done| |done]. by eapply (in_cell_bound ch Hwf). }
    destruct (decide (p_d s < 2)%nat) as [Hd|Hd]; [by apply (H0 s)|].
    destruct (walk_returns ch Hwf Hsym r s Hv) as (T & _ & HT).
    pose proof (trace_closed ch Hwf Hsym r s T Hv HT He) as Hcl.
    assert (s ∈ trace ch s 0 T) as Hs. { apply trace_elem. split; [done|]. exists 0%nat. destruct HT as (? & _). split; [lia|done]. }
    assert (∃ t, t ∈ trace ch s 0 T ∧ (p_d t < 2)%nat) as (t & Ht & Hd0).
    { destruct (decide (p_d s = 2)%nat) as [Hd2|Hd2].
      - destruct (up_and_down r _ s Hcl Hs Hd2) as (t & Ht & Hd0). exists t. split; [done|lia].
      - assert (p_d s = 3)%nat as Hd3 by (destruct Hv as (_ & ? & _); lia).
        destruct (left_and_right r _ s Hcl Hs Hd3) as (t & Ht & Hd0). exists t. split; [done|lia]. }
    apply trace_elem in Ht as (Het & a & _ & Ea).
    apply (H0 t); [rewrite Ea; by apply (iter_valid ch Hwf)|done|].
    destruct Hfl as (_ & _ & Ho). eapply Ho; [exact Hv|done|done| |done]. exists a. by rewrite Ea.
  Qed.

  Definition vertical (s : pos) : Prop := p_d s = 0%nat ∨ p_d s = 2%nat.
  Global Instance vertical_dec s : Decision (vertical s).
  Proof. unfold vertical. apply _. Qed.
  Lemma horizontal_meets r x z s : valid ch r s → ¬ vertical s → meets x z s = 0.
  Proof.
    intros (_ & Hd & _) Hv. unfold vertical in Hv. unfold meets, crossing, c_start, c_end. cbn [fst snd].
    destruct (p_d s) as [|[|[|[|d]]]]; [tauto| |tauto| |lia]; cbn [nth];
      repeat (match goal with |- context [?a <? ?b] => destruct (Z.ltb_spec a b) | |- context [?a =? ?b] => destruct (Z.eqb_spec a b) end; cbn [andb]; try lia).
  Qed.
  Lemma loops_filter (P : loop → Prop) `{!∀ o, Decision (P o)} LL : NoDup (loops LL) → NoDup (loops (filter P LL)).
  Proof.
    assert (∀ l s, s ∈ loops (filter P l) → s ∈ loops l) as Hsub.
    { intros l s. unfold loops. rewrite !elem_concat. intros (tr & Hs & (o & -> & [_ Ho]%elem_of_list_filter)%elem_of_list_fmap).
      exists o.1.2. split; [done|]. apply elem_of_list_fmap. by exists o. }
    induction LL as [|o LL IH]; intros Hnd; [done|]. unfold loops in Hnd. cbn [fmap list_fmap concat] in Hnd. apply NoDup_app in Hnd as (H1 & H2 & H3).
    rewrite filter_cons. case_decide; [|by apply IH]. unfold loops. cbn [fmap list_fmap concat]. apply NoDup_app. split; [done|]. split; [|by apply IH].
    intros s Hs Hin. apply (H2 s Hs). by apply Hsub.
  Qed.

  Lemma total_of_loops LL st r x z :
    oinv (λ i, (i < length (ch_spans ch))%nat) LL st → inner r → (x < w)%nat → (z < h)%nat →
    total_winding r (Z.of_nat x) (Z.of_nat z) (to_outline <$> LL) = Z.of_nat (layers ch r (x + z * w)).
  Proof.
    intros Hinv Hi Hx Hz. rewrite <-(region_winding r x z Hx Hz). set (m := meets (Z.of_nat x) (Z.of_nat z)).
    pose proof Hinv as (Hfl & _ & _ & Hok & Hnd & _ & _ & _). rewrite Forall_forall in Hok.
    set (LR := filter (λ o : loop, o.1.1 = r) LL).
    assert (HLR : ∀ o : loop, o ∈ LR ↔ o.1.1 = r ∧ o ∈ LL) by (intros o; unfold LR; by rewrite elem_of_list_filter).
    trans (Zsum (m <$> loops LR)).
    - unfold total_winding, loops. rewrite Zsum_concat. rewrite <-list_fmap_compose.
      assert (filter (λ o, ol_reg o = r) (to_outline <$> LL) = to_outline <$> LR) as ->.
      { unfold LR. clear. induction LL as [|o LL IH]; [done|]. rewrite fmap_cons, !filter_cons. cbn [to_outline ol_reg fst snd].
        case_decide; [|done]. by rewrite IH. }
      rewrite <-list_fmap_compose. apply Zsum_ext. intros o [E Ho]%HLR. unfold compose. cbn [to_outline ol_loop fst snd].
      apply (winding_walk r). rewrite <-E. by apply Hok.
    - assert (Hval : ∀ s, s ∈ loops LR → valid ch r s ∧ edge ch s).
      { intros s. unfold loops. rewrite elem_concat. intros (tr & Hs & (o & -> & [E Ho]%HLR)%elem_of_list_fmap).
        destruct (Hok o Ho) as [(_ & _ & H & _) _]. rewrite E in H. by apply H. }
      rewrite (Zsum_split m vertical (loops LR)).
      rewrite (Zsum_const0 m (filter (λ s, ¬ vertical s) (loops LR))).
      2: { intros s [Hv Hs]%elem_of_list_filter. apply (horizontal_meets r); [by apply Hval|done]. }
      rewrite Z.add_0_r. apply Zsum_perm, fmap_Permutation. apply NoDup_Permutation.
      + apply NoDup_filter. by apply loops_filter.
      + unfold up_edges. apply NoDup_app. split; [apply NoDup_filter, sides_nodup|]. split; [|apply NoDup_filter, sides_nodup].
        intros s [_ H1]%elem_of_list_filter [_ H2]%elem_of_list_filter. apply elem_sides in H1 as [_ H1]; [|lia]. apply elem_sides in H2 as [_ H2]; [|lia]. lia.
      + intros s. unfold up_edges. rewrite elem_of_app, !elem_of_list_filter, !elem_sides by lia. split.
        * intros [Hv Hs]. destruct (Hval s Hs) as [H1 H2]. destruct Hv as [Hv|Hv]; [left|right]; done.
        * intros Hs. assert (valid ch r s ∧ edge ch s ∧ vertical s) as (H1 & H2 & H3) by (unfold vertical; tauto). split; [done|].
          destruct (all_walked LL st r s Hinv H1 Hi H2) as (tr & o & Hin & Hs'). unfold loops. apply elem_concat.
          exists tr. split; [done|]. apply elem_of_list_fmap. exists (r, tr, o). split; [done|]. by apply HLR.
  Qed.

  Lemma build_outline cs :
    build_contours ch err len wall areas = Done cs →
    ∃ LL : list outline, omap ol_contour LL = ks_contours cs ∧ Forall (outlined ch (f_mul err err)) LL ∧ NoDup (concat (ol_sides <$> LL)) ∧
      (∀ r i d, inner r → side ch r i d → ∃ o, o ∈ LL ∧ ol_reg o = r ∧ (i, d) ∈ ol_sides o) ∧
      ∀ r x z, inner r → (x < w)%nat → (z < h)%nat →
        total_winding r (Z.of_nat x) (Z.of_nat z) LL = Z.of_nat (layers ch r (x + z * w)).
  Proof.
    intros Hb.
    assert (ends True (build_contours ch err len wall areas) (λ cs, ∃ LL st,
      oinv (λ i, (i < length (ch_spans ch))%nat) LL st ∧ ks_contours cs = take (st_count st) (st_table st))) as H.
    { clear Hb. unfold build_contours. fold w h.
      assert (∀ v, ends True (chk_u16 v) (λ _, True)) as Hchk. { intros v. unfold chk_u16, chk. by destruct (_ && _). }
      eapply ends_bind; [apply Hchk|]. intros b2 _. eapply ends_bind; [apply Hchk|]. intros w' _. eapply ends_bind; [apply Hchk|]. intros h' _.
      eapply ends_bind; [apply ends_runs, mark_boundaries_spec; done|]. intros flags [Hok Hg]. cbv beta in Hok, Hg.
      eapply ends_bind.
      - apply (ends_cells True (λ c st, ∃ LL, oinv (λ i, (i < cell_start (ch_cells ch) c)%nat) LL st)).
        + exists []. split; [by apply marked_inv|]. split; [done|]. split; [cbn; lia|]. split; [done|]. split; [constructor|].
          split; [by intros s ?%elem_of_nil|]. split; [|intros i d Hi; change (i < 0)%nat in Hi; lia].
          intros r s (Hin & Hd & Hr) Hi He. left. cbn [st_flags]. unfold bit_at.
          apply (Hg (p_i s) (in_cell_bound ch Hwf _ _ Hin) (p_c s)); [done|done|]. split; [intros r' Hr'; congruence|].
          destruct s as [[c i] d]. exact He.
        + intros c st Hc (LL & Hst). destruct (lookup_lt_is_Some_2 (ch_cells ch) c) as [cell Hcell]. { by rewrite (cells_len ch Hwf). }
          unfold w. rewrite (cell_at_some ch c cell Hc Hcell). cbn [obind]. fold w.
          eapply ends_mono; [apply (ends_inv True (λ pre st, ∃ LL, oinv (λ i, (i < cell_start (ch_cells ch) c)%nat ∨ i ∈ pre) LL st))|].
          * exists LL. destruct Hst as (H1 & H2 & H3 & H4 & H5 & H6 & H7 & H8). do 7 (split; [done|]). intros i d [Hi|[]%elem_of_nil]. by apply H8.
          * intros pre i post st' El (LL' & Hst').
            eapply ends_mono; [eapply (contour_span_outline c i (λ k, (k < cell_start (ch_cells ch) c)%nat ∨ k ∈ pre) LL'); [|exact Hst']|].
            -- exists cell. split; [done|]. rewrite El. set_solver.
            -- intros st2 (LL2 & H1 & H2 & H3 & H4 & H5 & H6 & H7 & H8). exists LL2. do 7 (split; [done|]). intros k d Hk Hd. apply H8; [|done].
               destruct Hk as [Hk|[Hk|Hk%elem_of_list_singleton]%elem_of_app]; auto.
          * intros st' (LL' & H1 & H2 & H3 & H4 & H5 & H6 & H7 & H8). exists LL'. do 7 (split; [done|]). intros k d Hk Hd. apply H8; [|done].
            destruct (decide (k < cell_start (ch_cells ch) c)%nat) as [|Hge]; [by left|right].
            assert (in_cell ch c k) as (cell' & Hcell' & Hk'). { apply (in_cell_range ch Hwf). split; [done|].
              replace (c + 1)%nat with (S c) in Hk by lia. lia. }
            congruence.
      - cbv beta. intros st (LL & Hst). cbn [ends ks_contours]. exists LL, st. split; [|done].
        destruct Hst as (H1 & H2 & H3 & H4 & H5 & H6 & H7 & H8). do 7 (split; [done|]). intros k d Hk Hd. apply H8; [|done].
        pose proof (wf_total _ Hwf) as Ht. rewrite (cells_len ch Hwf) in Ht. fold w h in Ht. lia. }
    rewrite Hb in H. cbn [ends] in H. destruct H as (LL & st & Hinv & ->). exists (to_outline <$> LL).
    pose proof Hinv as (_ & Htab & _ & Hok & Hnd & _). split; [|split; [|split; [|split]]].
    - rewrite Htab. clear. induction LL as [|o LL IH]; [done|]. rewrite fmap_cons. cbn [omap list_omap to_outline ol_contour].
      destruct o.2; by rewrite ?IH.
    - apply Forall_fmap. eapply Forall_impl; [exact Hok|]. intros o [_ H]. exact H.
    - assert (concat (ol_sides <$> (to_outline <$> LL)) = key_of <$> loops LL) as ->.
      { unfold loops. clear. induction LL as [|o LL IH]; [done|]. rewrite !fmap_cons. cbn [concat]. rewrite IH, fmap_app. done. }
      assert (∀ s, s ∈ loops LL → in_cell ch (p_c s) (p_i s)) as Hin.
      { intros s. unfold loops. rewrite elem_concat. intros (tr & Hs & (o & -> & Ho)%elem_of_list_fmap). rewrite Forall_forall in Hok.
        destruct (Hok o Ho) as [(_ & _ & Hv & _) _]. by destruct (Hv s Hs) as [(? & _) _]. }
      apply NoDup_fmap_2_strong; [|done]. intros s t Hs Ht E. injection E as E1 E2. pose proof (Hin s Hs) as H1. pose proof (Hin t Ht) as H2.
      rewrite <-E1 in H2. pose proof (in_cell_unique ch Hwf _ _ _ H1 H2) as E3.
      destruct s as [[a1 a2] a3], t as [[b1 b2] b3]. unfold p_c, p_i, p_d in *. cbn in *. congruence.
    - intros r i d Hi Hsd. destruct (in_cell_ex ch Hwf i) as (c & Hc).
      { pose proof Hsd as (_ & Hr & _). unfold region_of in Hr. destruct (ch_spans ch !! i) eqn:E; [|done]. by eapply lookup_lt_Some. }
      destruct (side_edge ch Hwf r c i d Hc Hsd) as [Hv He]. destruct (all_walked LL st r (c, i, d) Hinv Hv Hi He) as (tr & o & Hin & Hs).
      exists (to_outline (r, tr, o)). split; [apply elem_of_list_fmap; by exists (r, tr, o)|]. split; [done|].
      cbn [to_outline ol_sides fst snd]. apply elem_of_list_fmap. by exists (c, i, d).
    - intros r x z Hi Hx Hz. by eapply total_of_loops.
  Qed.
End outline.
