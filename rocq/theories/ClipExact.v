(** Clipping in exact arithmetic. *)
From Coq Require Import QArith Lqa Psatz.
From Verif Require Import Base ModelRasterize SpecRasterize ClipProofs.
Local Open Scope Q_scope.

Definition far (c : Q) (ax : axis) (p : pt Q) : bool := negb (Qle_bool (on ax p) c).
Lemma far_true c ax p : far c ax p = true ↔ c < on ax p.
Proof.
  unfold far. rewrite negb_true_iff. split.
  - intros H. apply Qnot_le_lt. intros Hle. apply Qle_bool_iff in Hle. congruence.
  - intros H. apply not_true_iff_false. intros Hle. apply Qle_bool_iff in Hle. lra.
Qed.
Lemma far_false c ax p : far c ax p = false ↔ on ax p <= c.
Proof. unfold far. rewrite negb_false_iff. apply Qle_bool_iff. Qed.
Lemma above_true g p : above g p = true ↔ 0 < ev g p.
Proof.
  unfold above. rewrite negb_true_iff. split.
  - intros H. apply Qnot_le_lt. intros Hle. apply Qle_bool_iff in Hle. congruence.
  - intros H. apply not_true_iff_false. intros Hle. apply Qle_bool_iff in Hle. lra.
Qed.
Lemma above_false g p : above g p = false ↔ ev g p <= 0.
Proof. unfold above. rewrite negb_false_iff. apply Qle_bool_iff. Qed.

Lemma le_dist c ax p : n_le exact_arith (n_of_Z exact_arith 0) (dist exact_arith c ax p) = negb (far c ax p).
Proof.
  cbn. apply eq_true_iff_eq. rewrite Qle_bool_iff, negb_true_iff, far_false. unfold dist. cbn.
  change (inject_Z 0) with 0. split; lra.
Qed.
Definition strictly (c : Q) (ax : axis) (p : pt Q) : bool := n_lt exact_arith (n_of_Z exact_arith 0) (dist exact_arith c ax p).
Lemma strictly_true c ax p : strictly c ax p = true ↔ on ax p < c.
Proof.
  unfold strictly. cbn. unfold Q_lt. rewrite negb_true_iff. unfold dist. cbn. change (inject_Z 0) with 0. split.
  - intros H. apply Qnot_le_lt. intros Hle. assert (c - on ax p <= 0) as H' by lra. apply Qle_bool_iff in H'. congruence.
  - intros H. apply not_true_iff_false. intros Hle. apply Qle_bool_iff in Hle. lra.
Qed.
Lemma lt_dist c ax p : n_lt exact_arith (dist exact_arith c ax p) (n_of_Z exact_arith 0) = far c ax p.
Proof.
  cbn. unfold Q_lt, far. f_equal. apply eq_true_iff_eq. rewrite !Qle_bool_iff. unfold dist. cbn. change (inject_Z 0) with 0. split; lra.
Qed.
Definition touches (c : Q) (ax : axis) (p : pt Q) : bool := n_eq exact_arith (dist exact_arith c ax p) (n_of_Z exact_arith 0).
Lemma touches_true c ax p : touches c ax p = true ↔ on ax p == c.
Proof.
  unfold touches. cbn. rewrite Qeq_bool_iff. unfold dist. cbn. change (inject_Z 0) with 0. split; lra.
Qed.

Definition cut (c : Q) (ax : axis) (b a : pt Q) : pt Q := cut_point exact_arith a b (dist exact_arith c ax a) (dist exact_arith c ax b).
Definition part1e (c : Q) (ax : axis) : list (pt Q) → list (pt Q) := part1 exact_arith c ax.
Definition part2e (c : Q) (ax : axis) : list (pt Q) → list (pt Q) := part2 exact_arith c ax.

Lemma crosses_far c ax b a : crosses exact_arith c ax b a = negb (eqb (far c ax b) (far c ax a)).
Proof. unfold crosses. rewrite !le_dist. by destruct (far c ax a), (far c ax b). Qed.
Lemma side1_eq c ax b a : side1 exact_arith c ax b a =
  if eqb (far c ax b) (far c ax a) then (if far c ax a then [] else [a])
  else cut c ax b a :: (if strictly c ax a then [a] else []).
Proof. unfold side1. rewrite crosses_far, le_dist. by destruct (far c ax a), (far c ax b). Qed.
Lemma strictly_near c ax p : strictly c ax p = true → far c ax p = false.
Proof. rewrite strictly_true, far_false. lra. Qed.
Lemma side2_eq c ax b a : side2 exact_arith c ax b a =
  if eqb (far c ax b) (far c ax a) then (if far c ax a then [a] else if touches c ax a then [a] else [])
  else cut c ax b a :: (if far c ax a then [a] else []).
Proof.
  unfold side2. rewrite crosses_far, le_dist, lt_dist. fold (touches c ax a). fold (strictly c ax a) (cut c ax b a).
  pose proof (strictly_near c ax a) as H. destruct (far c ax a), (far c ax b); cbn [negb eqb]; try done; destruct (strictly c ax a); try done; try (by specialize (H eq_refl)); cbn; by destruct (Qeq_bool _ _).
Qed.

(** ** The cut point *)

Definition peq (p q : pt Q) : Prop := px p == px q ∧ py p == py q ∧ pz p == pz q.
Lemma ev_peq g p q : peq p q → ev g p == ev g q.
Proof. intros (Hx & Hy & Hz). unfold ev. by rewrite Hx, Hy, Hz. Qed.
Lemma on_peq ax p q : peq p q → on ax p == on ax q.
Proof. intros (Hx & Hy & Hz). by destruct ax. Qed.

Lemma cut_between c ax b a : far c ax b ≠ far c ax a →
  ∃ s, 0 <= s <= 1 ∧ on ax (cut c ax b a) == c ∧ (on ax a == c → s == 1) ∧
    s * (on ax a - on ax b) == c - on ax b ∧
    px (cut c ax b a) == (1 - s) * px b + s * px a ∧ py (cut c ax b a) == (1 - s) * py b + s * py a ∧ pz (cut c ax b a) == (1 - s) * pz b + s * pz a.
Proof.
  intros Hf. set (s := (c - on ax b) / (on ax a - on ax b)).
  assert (¬ on ax a - on ax b == 0) as Hd.
  { intros E. apply Hf. destruct (far c ax b) eqn:Eb, (far c ax a) eqn:Ea; try done.
    - apply far_true in Eb. apply far_false in Ea. lra.
    - apply far_true in Ea. apply far_false in Eb. lra. }
  assert (s * (on ax a - on ax b) == c - on ax b) as Hs by (unfold s; field; done).
  assert (((c - on ax b) / (c - on ax b - (c - on ax a))) == s) as Hs'.
  { unfold s. assert (c - on ax b - (c - on ax a) == on ax a - on ax b) as -> by ring. done. }
  exists s. split; [|split; [|split; [|split]]].
  - destruct (far c ax b) eqn:Eb, (far c ax a) eqn:Ea; try done.
    + apply far_true in Eb. apply far_false in Ea. split; nra.
    + apply far_true in Ea. apply far_false in Eb. split; nra.
  - destruct ax; cbn in *; unfold dist; cbn; rewrite Hs'; lra.
  - intros E. nra.
  - done.
  - unfold cut, cut_point, p_map2, p_scale, dist. cbn. rewrite Hs'. split; [ring|]. split; ring.
Qed.
Lemma cut_ev c ax b a g s : 
  px (cut c ax b a) == (1 - s) * px b + s * px a → py (cut c ax b a) == (1 - s) * py b + s * py a → pz (cut c ax b a) == (1 - s) * pz b + s * pz a →
  ev g (cut c ax b a) == (1 - s) * ev g b + s * ev g a.
Proof. intros Hx Hy Hz. unfold ev. rewrite Hx, Hy, Hz. ring. Qed.
Lemma cut_end c ax b a : far c ax b ≠ far c ax a → on ax a == c → peq (cut c ax b a) a.
Proof.
  intros Hf Ha. destruct (cut_between c ax b a Hf) as (s & _ & _ & H1 & _ & Hx & Hy & Hz). specialize (H1 Ha).
  split; [|split]; [rewrite Hx|rewrite Hy|rewrite Hz]; rewrite H1; ring.
Qed.

(** ** Elements of the parts *)

Lemma side1_elem c ax b a x : x ∈ side1 exact_arith c ax b a →
  (x = a ∧ on ax a <= c) ∨ (x = cut c ax b a ∧ far c ax b ≠ far c ax a).
Proof.
  rewrite side1_eq. destruct (eqb _ _) eqn:E.
  - destruct (far c ax a) eqn:Ea; intros Hx; [by apply elem_of_nil in Hx|]. apply elem_of_list_singleton in Hx as ->. left. by apply far_false in Ea.
  - apply eqb_false_iff in E. intros Hx. apply elem_of_cons in Hx as [->|Hx]; [by right|].
    destruct (strictly c ax a) eqn:Es; [|by apply elem_of_nil in Hx]. apply elem_of_list_singleton in Hx as ->. apply strictly_true in Es. left. split; [done|lra].
Qed.
Lemma side2_elem c ax b a x : x ∈ side2 exact_arith c ax b a →
  (x = a ∧ c <= on ax a) ∨ (x = cut c ax b a ∧ far c ax b ≠ far c ax a).
Proof.
  rewrite side2_eq. destruct (eqb _ _) eqn:E.
  - destruct (far c ax a) eqn:Ea.
    + intros Hx. apply elem_of_list_singleton in Hx as ->. apply far_true in Ea. left. split; [done|lra].
    + destruct (touches c ax a) eqn:Et; intros Hx; [|by apply elem_of_nil in Hx]. apply elem_of_list_singleton in Hx as ->.
      apply touches_true in Et. left. split; [done|lra].
  - apply eqb_false_iff in E. intros Hx. apply elem_of_cons in Hx as [->|Hx]; [by right|].
    destruct (far c ax a) eqn:Ea; [|by apply elem_of_nil in Hx]. apply elem_of_list_singleton in Hx as ->. apply far_true in Ea. left. split; [done|lra].
Qed.

Lemma part_case {T} (ar : arith T) c ax l (P : list (pt T) → Prop) : (l = [] → P []) → (∀ b, last l = Some b → P (walk (side1 ar c ax) b l)) → P (part1 ar c ax l).
Proof. intros H0 H. unfold part1. destruct (last l) eqn:E; [by apply H|]. apply H0. by apply last_None. Qed.
Lemma part_case2 {T} (ar : arith T) c ax l (P : list (pt T) → Prop) : (l = [] → P []) → (∀ b, last l = Some b → P (walk (side2 ar c ax) b l)) → P (part2 ar c ax l).
Proof. intros H0 H. unfold part2. destruct (last l) eqn:E; [by apply H|]. apply H0. by apply last_None. Qed.

(** A set of points closed under means contains the parts. *)
Lemma part_closed c ax (S : pt Q → Prop) l :
  (∀ p q r s, S p → S q → 0 <= s <= 1 → px r == (1 - s) * px p + s * px q → py r == (1 - s) * py p + s * py q → pz r == (1 - s) * pz p + s * pz q → S r) →
  (∀ p, p ∈ l → S p) → (∀ p, p ∈ part1e c ax l → S p ∧ on ax p <= c) ∧ (∀ p, p ∈ part2e c ax l → S p ∧ c <= on ax p).
Proof.
  intros Hc Hl.
  assert (∀ b a, S b → S a → far c ax b ≠ far c ax a → S (cut c ax b a) ∧ on ax (cut c ax b a) == c) as Hcut.
  { intros b a Hb Ha Hf. destruct (cut_between c ax b a Hf) as (s & Hs & Hon & _ & _ & Hx & Hy & Hz). split; [|done]. by eapply (Hc b a). }
  split.
  - unfold part1e. pattern (part1 exact_arith c ax l). apply part_case; cbv beta; [intros _ p Hp; by apply elem_of_nil in Hp|]. intros b Hb. apply steps_walk.
    apply (steps_in (λ _ _, True) _ S); [apply Hl; by apply last_Some_elem_of|done| |by apply steps_true].
    intros b' a Hb' Ha _ x Hx. apply side1_elem in Hx as [[-> H]|[-> H]]; [done|]. destruct (Hcut b' a) as [H1 H2]; [done..|]. split; [done|lra].
  - unfold part2e. pattern (part2 exact_arith c ax l). apply part_case2; cbv beta; [intros _ p Hp; by apply elem_of_nil in Hp|]. intros b Hb. apply steps_walk.
    apply (steps_in (λ _ _, True) _ S); [apply Hl; by apply last_Some_elem_of|done| |by apply steps_true].
    intros b' a Hb' Ha _ x Hx. apply side2_elem in Hx as [[-> H]|[-> H]]; [done|]. destruct (Hcut b' a) as [H1 H2]; [done..|]. split; [done|lra].
Qed.

(** ** Convexity is kept *)

Lemma part_convex c ax l : convex l → convex (part1e c ax l) ∧ convex (part2e c ax l).
Proof.
  intros Hl.
  assert (∀ g b a, far c ax b ≠ far c ax a → above g b = above g a → above g (cut c ax b a) = above g a) as Hcut.
  { intros g b a Hf Hg. destruct (cut_between c ax b a Hf) as (s & Hs & _ & _ & _ & Hx & Hy & Hz).
    pose proof (cut_ev c ax b a g s Hx Hy Hz) as He. destruct (above g a) eqn:Ea.
    - apply above_true in Hg, Ea. apply above_true. rewrite He. destruct (Qlt_le_dec (1 # 2) s); nra.
    - apply above_false in Hg, Ea. apply above_false. rewrite He. nra. }
  split; intros g.
  - unfold part1e. pattern (part1 exact_arith c ax l). apply part_case; cbv beta; [intros; cbn; lia|]. intros b Hb. etrans; [|apply (Hl g)]. apply walk_turns; [done|].
    intros b' a. destruct (eqb (far c ax b') (far c ax a)) eqn:E.
    + exists a. split; [done|]. rewrite side1_eq, E. destruct (far c ax a); auto.
    + exists (cut c ax b' a). apply eqb_false_iff in E as E'. split; [by apply Hcut|]. rewrite side1_eq, E. destruct (strictly c ax a); auto.
  - unfold part2e. pattern (part2 exact_arith c ax l). apply part_case2; cbv beta; [intros; cbn; lia|]. intros b Hb. etrans; [|apply (Hl g)]. apply walk_turns; [done|].
    intros b' a. destruct (eqb (far c ax b') (far c ax a)) eqn:E.
    + exists a. split; [done|]. rewrite side2_eq, E. destruct (far c ax a); [auto|]. destruct (touches c ax a); auto.
    + exists (cut c ax b' a). apply eqb_false_iff in E as E'. split; [by apply Hcut|]. rewrite side2_eq, E. destruct (far c ax a); auto.
Qed.

(** ** Nothing is lost *)

Definition comb (g a : aff) (t h : Q) : aff := Aff (g_a g - t * g_a a) (g_b g - t * g_b a) (g_c g - t * g_c a) (g_d g - t * g_d a - h).
Lemma ev_comb g a t h p : ev (comb g a t h) p == ev g p - t * ev a p - h.
Proof. unfold ev, comb. cbn. ring. Qed.

Lemma best_slope (g a : aff) (l : list (pt Q)) : ∃ s, 0 <= s ∧ (∀ v, v ∈ l → 0 < ev a v → ev g v <= s * ev a v) ∧
  (s == 0 ∨ ∃ v, v ∈ l ∧ 0 < ev a v ∧ ev g v == s * ev a v).
Proof.
  induction l as [|v l (s & Hs & Hl & Hor)].
  - exists 0. split; [lra|]. split; [intros v Hv; by apply elem_of_nil in Hv|by left].
  - destruct (Qlt_le_dec 0 (ev a v)) as [Ha|Ha].
    + destruct (Qlt_le_dec (s * ev a v) (ev g v)) as [Hg|Hg].
      * set (s' := ev g v / ev a v). assert (s' * ev a v == ev g v) as Hs' by (unfold s'; field; lra).
        assert (s < s') as Hlt by nra. exists s'. split; [lra|]. split.
        -- intros q Hq Haq. apply elem_of_cons in Hq as [->|Hq]; [lra|]. specialize (Hl q Hq Haq). nra.
        -- right. exists v. split; [left|]. split; [done|]. by symmetry.
      * exists s. split; [done|]. split.
        -- intros q Hq Haq. apply elem_of_cons in Hq as [->|Hq]; [done|]. by apply Hl.
        -- destruct Hor as [?|(q & ? & ?)]; [by left|]. right. exists q. split; [by right|done].
    + exists s. split; [done|]. split.
      * intros q Hq Haq. apply elem_of_cons in Hq as [->|Hq]; [lra|]. by apply Hl.
      * destruct Hor as [?|(q & ? & ?)]; [by left|]. right. exists q. split; [by right|done].
Qed.

Lemma changes_tv {A} (K : A → bool) (phi : A → Z) l : ∀ b, steps (λ b a, Z.abs (phi b - phi a) = Z.of_nat (dlt (K b) (K a))) b l →
  tv (phi b) (phi <$> l) = Z.of_nat (changes (K b) (K <$> l)).
Proof.
  induction l as [|a l IH]; intros b; [done|]. cbn [steps fmap list_fmap tv changes]. intros [H1 H2]. rewrite IH by done. fold (dlt (K b) (K a)). lia.
Qed.

(** Values of [g] that are not positive on the near side and where edges cross the
    border are bounded by a multiple of [a] everywhere. *)
Lemma hull_cut (g a : aff) (l : list (pt Q)) b : convex l → last l = Some b →
  (∀ q, q ∈ l → ev a q <= 0 → ev g q <= 0) →
  steps (λ b c, (ev a b < 0 → 0 < ev a c → ev g b * ev a c - ev g c * ev a b <= 0) ∧
                (ev a c < 0 → 0 < ev a b → ev g c * ev a b - ev g b * ev a c <= 0)) b l →
  ∃ s, 0 <= s ∧ ∀ q, q ∈ l → ev g q <= s * ev a q.
Proof.
  intros Hcv Hb H1 H2.
  assert (∀ u v, u ∈ l → v ∈ l → ev a u <= 0 → 0 < ev a v → ev g u * ev a v - ev g v * ev a u <= 0) as Hpair.
  { intros u v Hu Hv Hau Hav. destruct (Qlt_le_dec 0 (ev g u * ev a v - ev g v * ev a u)) as [Hpos|]; [exfalso|done].
    pose proof (H1 u Hu Hau) as Hgu. assert (ev g u * ev a v <= 0) as Hga by nra.
    assert (ev a u < 0) as Hau'.
    { destruct (Qlt_le_dec (ev a u) 0) as [|L]; [done|]. assert (ev a u == 0) as E by lra. rewrite E in Hpos. lra. }
    assert (0 < ev g v) as Hgv.
    { destruct (Qlt_le_dec 0 (ev g v)) as [|L]; [done|]. assert (0 <= ev g v * ev a u) by nra. lra. }
    set (D := ev a v - ev a u). assert (0 < D) as HD by (unfold D; lra).
    set (t := (ev g v - ev g u) / D). set (h := (ev g u * ev a v - ev g v * ev a u) / D).
    assert (t * D == ev g v - ev g u) as Ht by (unfold t; field; lra).
    assert (h * D == ev g u * ev a v - ev g v * ev a u) as Hh by (unfold h; field; lra).
    assert (0 < h) as Hhp by nra.
    assert (ev g u - t * ev a u == h) as Eu.
    { apply (Qmult_inj_r _ _ D); [lra|]. rewrite Hh. assert ((ev g u - t * ev a u) * D == ev g u * D - (t * D) * ev a u) as -> by ring. rewrite Ht. unfold D. ring. }
    assert (ev g v - t * ev a v == h) as Ev.
    { apply (Qmult_inj_r _ _ D); [lra|]. rewrite Hh. assert ((ev g v - t * ev a v) * D == ev g v * D - (t * D) * ev a v) as -> by ring. rewrite Ht. unfold D. ring. }
    set (k := comb g a t (h / 2)).
    assert (above k u = true ∧ above k v = true) as [Ku Kv].
    { split; apply above_true; unfold k; rewrite ev_comb; assert (h / 2 == h * (1 # 2)) by field; lra. }
    set (phi := λ p : pt Q, if above k p then (if Qle_bool (ev a p) 0 then 1 else -1)%Z else 0%Z).
    assert (steps (λ b c, Z.abs (phi b - phi c) = Z.of_nat (dlt (above k b) (above k c))) b l) as Hst.
    { eapply (steps_in _ _ (λ p, ev a p == 0 → ev g p <= 0)); [..|exact H2].
      - intros E. apply H1; [by apply last_Some_elem_of|lra].
      - intros p Hp E. apply H1; [done|lra].
      - intros p q Hp Hq [S1 S2]. unfold phi.
        assert (∀ r, ev a r == 0 → ev g r <= 0 → above k r = true → False) as Hz.
        { intros r E Hg Hr. apply above_true in Hr. unfold k in Hr. rewrite ev_comb, E in Hr. assert (h / 2 == h * (1 # 2)) as Eh by field. lra. }
        assert (∀ r r', ev a r < 0 → 0 < ev a r' → ev g r * ev a r' - ev g r' * ev a r <= 0 → above k r = true → above k r' = true → False) as Hc.
        { intros r r' N P Hcr Hr Hr'. apply above_true in Hr, Hr'. unfold k in Hr, Hr'. rewrite ev_comb in Hr, Hr'.
          assert (h / 2 == h * (1 # 2)) as Eh by field. rewrite Eh in Hr, Hr'.
          assert (0 < (ev g r - t * ev a r - h * (1 # 2)) * ev a r') as M1 by nra.
          assert (0 < (ev g r' - t * ev a r' - h * (1 # 2)) * (- ev a r)) as M2 by nra.
          assert (0 < h * (ev a r' - ev a r)) as M3 by nra. lra. }
        destruct (above k p) eqn:Kp, (above k q) eqn:Kq; cbn; [| | |done].
        + destruct (Qle_bool (ev a p) 0) eqn:Ap, (Qle_bool (ev a q) 0) eqn:Aq; try done; exfalso.
          * apply Qle_bool_iff in Ap. assert (0 < ev a q) as Aq' by (apply Qnot_le_lt; intros E; apply Qle_bool_iff in E; congruence).
            destruct (Qlt_le_dec (ev a p) 0) as [L|L]; [by apply (Hc p q); auto|]. apply (Hz p); [lra| |done]. apply Hp. lra.
          * apply Qle_bool_iff in Aq. assert (0 < ev a p) as Ap' by (apply Qnot_le_lt; intros E; apply Qle_bool_iff in E; congruence).
            destruct (Qlt_le_dec (ev a q) 0) as [L|L]; [by apply (Hc q p); auto|]. apply (Hz q); [lra| |done]. apply Hq. lra.
        + by destruct (Qle_bool (ev a p) 0).
        + by destruct (Qle_bool (ev a q) 0). }
    pose proof (changes_tv (above k) phi l b Hst) as Htv. pose proof (Hcv k) as Hk. rewrite (turns_last _ _ _ Hb) in Hk.
    pose proof (tv_two (phi <$> l) (phi b) (phi u) (phi v)) as H. rewrite endof_fmap, (last_endof_some b b l Hb) in H.
    assert (phi u = 1%Z ∧ phi v = (-1)%Z) as [Pu Pv].
    { unfold phi. rewrite Ku, Kv. split.
      - apply Qle_bool_iff in Hau. by rewrite Hau.
      - destruct (Qle_bool (ev a v) 0) eqn:E; [|done]. apply Qle_bool_iff in E. lra. }
    rewrite Pu, Pv in H. specialize (H ltac:(rewrite <- Pu; by apply elem_of_list_fmap_1) ltac:(rewrite <- Pv; by apply elem_of_list_fmap_1)). lia. }
  destruct (best_slope g a l) as (s & Hs & Hl & Hor). exists s. split; [done|]. intros q Hq.
  destruct (Qlt_le_dec 0 (ev a q)) as [Ha|Ha]; [by apply Hl|]. pose proof (H1 q Hq Ha) as Hg.
  destruct Hor as [E|(v & Hv & Hav & E)]; [rewrite E; lra|]. specialize (Hpair q v Hq Hv Ha Hav). rewrite E in Hpair. nra.
Qed.

Definition axf (ax : axis) (c : Q) : aff := match ax with AxX => Aff 1 0 0 (- c) | AxZ => Aff 0 0 1 (- c) end.
Definition nxf (ax : axis) (c : Q) : aff := match ax with AxX => Aff (-1) 0 0 c | AxZ => Aff 0 0 (-1) c end.
Lemma ev_axf ax c p : ev (axf ax c) p == on ax p - c.
Proof. unfold ev. destruct ax; cbn; ring. Qed.
Lemma ev_nxf ax c p : ev (nxf ax c) p == c - on ax p.
Proof. unfold ev. destruct ax; cbn; ring. Qed.

Lemma steps_all {A} (P : A → Prop) l : ∀ b, steps (λ _ a, P a) b l → ∀ a, a ∈ l → P a.
Proof.
  induction l as [|x l IH]; intros b H a Ha; [by apply elem_of_nil in Ha|]. destruct H as [H1 H2].
  apply elem_of_cons in Ha as [->|Ha]; [done|]. by eapply IH.
Qed.
Lemma steps_and {A} (R R' : A → A → Prop) l : ∀ b, steps (λ b a, R b a ∧ R' b a) b l ↔ steps R b l ∧ steps R' b l.
Proof. induction l as [|a l IH]; intros b; cbn; [done|]. rewrite IH. tauto. Qed.

(** The crossing value of a functional at the cut point. *)
Lemma cut_cross c ax b a g : far c ax b ≠ far c ax a →
  ev g (cut c ax b a) * (on ax a - on ax b) == ev g b * (on ax a - c) - ev g a * (on ax b - c).
Proof.
  intros Hf. destruct (cut_between c ax b a Hf) as (s & _ & _ & _ & Hs & Hx & Hy & Hz). rewrite (cut_ev c ax b a g s Hx Hy Hz).
  assert (((1 - s) * ev g b + s * ev g a) * (on ax a - on ax b) ==
          ev g b * (on ax a - on ax b) - ev g b * (s * (on ax a - on ax b)) + ev g a * (s * (on ax a - on ax b))) as -> by ring.
  rewrite Hs. ring.
Qed.

Lemma side1_low c ax b a g : (∀ x, x ∈ side1 exact_arith c ax b a → ev g x <= 0) →
  (on ax a <= c → ev g a <= 0) ∧ (far c ax b ≠ far c ax a → ev g (cut c ax b a) <= 0).
Proof.
  rewrite side1_eq. intros H. split.
  - intros Ha. apply far_false in Ha as Hf. rewrite Hf in H. destruct (eqb _ _) eqn:E; [apply H; left|].
    apply eqb_false_iff in E. destruct (strictly c ax a) eqn:Es; [apply H; right; left|].
    assert (on ax a == c) as Hc. { destruct (Qlt_le_dec (on ax a) c) as [L|L]; [|lra]. apply strictly_true in L. congruence. }
    assert (far c ax b ≠ far c ax a) as E' by congruence. rewrite <- (ev_peq g _ _ (cut_end c ax b a E' Hc)). apply H. left.
  - intros Hf. destruct (eqb _ _) eqn:E; [apply eqb_prop in E; congruence|]. apply H. left.
Qed.
Lemma side2_low c ax b a g : (∀ x, x ∈ side2 exact_arith c ax b a → ev g x <= 0) →
  (c <= on ax a → ev g a <= 0) ∧ (far c ax b ≠ far c ax a → ev g (cut c ax b a) <= 0).
Proof.
  rewrite side2_eq. intros H. split.
  - intros Ha. destruct (eqb _ _) eqn:E.
    + destruct (far c ax a) eqn:Ef; [apply H; left|]. assert (touches c ax a = true) as Ht by (apply touches_true; apply far_false in Ef; lra).
      rewrite Ht in H. apply H. left.
    + apply eqb_false_iff in E. destruct (far c ax a) eqn:Ef; [apply H; right; left|]. apply far_false in Ef as Ha'.
      assert (on ax a == c) as Hc by lra. assert (far c ax b ≠ far c ax a) as E' by congruence.
      rewrite <- (ev_peq g _ _ (cut_end c ax b a E' Hc)). apply H. left.
  - intros Hf. destruct (eqb _ _) eqn:E; [apply eqb_prop in E; congruence|]. apply H. left.
Qed.
Lemma opposite_far c ax b a : on ax b < c → c < on ax a → far c ax b ≠ far c ax a.
Proof.
  intros Hb Ha. assert (far c ax b = false) as -> by (apply far_false; lra). assert (far c ax a = true) as -> by (apply far_true; lra). done.
Qed.

Theorem cut_hull c ax l p : convex l → in_hull l p →
  (on ax p <= c → in_hull (part1e c ax l) p) ∧ (c <= on ax p → in_hull (part2e c ax l) p).
Proof.
  intros Hcv Hp. split.
  - intros Hon g Hg. unfold part1e in Hg. revert Hg. pattern (part1 exact_arith c ax l). apply part_case; cbv beta.
    + intros ->. intros _. specialize (Hp (Aff 0 0 0 1)). unfold ev in Hp at 2. cbn in Hp. exfalso.
      assert (∀ q : pt Q, q ∈ [] → ev (Aff 0 0 0 1) q <= 0) as H by (intros q Hq; by apply elem_of_nil in Hq). specialize (Hp H). lra.
    + intros b Hb Hg. rewrite (steps_walk (side1 exact_arith c ax) (λ x, ev g x <= 0)) in Hg.
      apply (steps_impl _ (λ b a, (on ax a <= c → ev g a <= 0) ∧ (far c ax b ≠ far c ax a → ev g (cut c ax b a) <= 0))) in Hg;
        [|intros b' a _ H; by apply side1_low].
      apply steps_and in Hg as [Hg1 Hg2]. pose proof (steps_all _ _ _ Hg1) as Hg1'.
      destruct (hull_cut g (axf ax c) l b Hcv Hb) as (s & Hs & Hl).
      * intros q Hq Hle. rewrite ev_axf in Hle. apply Hg1'; [done|lra].
      * eapply steps_impl; [|exact Hg2]. cbv beta. intros b' a _ H. split; intros H1 H2; rewrite !ev_axf in *.
        -- assert (far c ax b' ≠ far c ax a) as Hf by (apply opposite_far; lra). specialize (H Hf). pose proof (cut_cross c ax b' a g Hf) as E.
           rewrite <- E. nra.
        -- assert (far c ax b' ≠ far c ax a) as Hf by (apply not_eq_sym, opposite_far; lra). specialize (H Hf). pose proof (cut_cross c ax b' a g Hf) as E. nra.
      * specialize (Hp (comb g (axf ax c) s 0)). rewrite ev_comb, ev_axf in Hp.
        assert (ev g p - s * (on ax p - c) - 0 <= 0) as H by (apply Hp; intros q Hq; rewrite ev_comb; specialize (Hl q Hq); lra). nra.
  - intros Hon g Hg. unfold part2e in Hg. revert Hg. pattern (part2 exact_arith c ax l). apply part_case2; cbv beta.
    + intros ->. intros _. specialize (Hp (Aff 0 0 0 1)). unfold ev in Hp at 2. cbn in Hp. exfalso.
      assert (∀ q : pt Q, q ∈ [] → ev (Aff 0 0 0 1) q <= 0) as H by (intros q Hq; by apply elem_of_nil in Hq). specialize (Hp H). lra.
    + intros b Hb Hg. rewrite (steps_walk (side2 exact_arith c ax) (λ x, ev g x <= 0)) in Hg.
      apply (steps_impl _ (λ b a, (c <= on ax a → ev g a <= 0) ∧ (far c ax b ≠ far c ax a → ev g (cut c ax b a) <= 0))) in Hg;
        [|intros b' a _ H; by apply side2_low].
      apply steps_and in Hg as [Hg1 Hg2]. pose proof (steps_all _ _ _ Hg1) as Hg1'.
      destruct (hull_cut g (nxf ax c) l b Hcv Hb) as (s & Hs & Hl).
      * intros q Hq Hle. rewrite ev_nxf in Hle. apply Hg1'; [done|lra].
      * eapply steps_impl; [|exact Hg2]. cbv beta. intros b' a _ H. split; intros H1 H2; rewrite !ev_nxf in *.
        -- assert (far c ax b' ≠ far c ax a) as Hf by (apply not_eq_sym, opposite_far; lra). specialize (H Hf). pose proof (cut_cross c ax b' a g Hf) as E. nra.
        -- assert (far c ax b' ≠ far c ax a) as Hf by (apply opposite_far; lra). specialize (H Hf). pose proof (cut_cross c ax b' a g Hf) as E. nra.
      * specialize (Hp (comb g (nxf ax c) s 0)). rewrite ev_comb, ev_nxf in Hp.
        assert (ev g p - s * (c - on ax p) - 0 <= 0) as H by (apply Hp; intros q Hq; rewrite ev_comb; specialize (Hl q Hq); lra). nra.
Qed.

Lemma hull_mean l p q r s : in_hull l p → in_hull l q → 0 <= s <= 1 →
  px r == (1 - s) * px p + s * px q → py r == (1 - s) * py p + s * py q → pz r == (1 - s) * pz p + s * pz q → in_hull l r.
Proof.
  intros Hp Hq Hs Hx Hy Hz g Hg. specialize (Hp g Hg). specialize (Hq g Hg).
  assert (ev g r == (1 - s) * ev g p + s * ev g q) as -> by (unfold ev; rewrite Hx, Hy, Hz; ring). nra.
Qed.
Lemma hull_elem l p : p ∈ l → in_hull l p.
Proof. intros Hp g Hg. by apply Hg. Qed.
Theorem cut_hull_sound c ax l p :
  (in_hull (part1e c ax l) p → in_hull l p ∧ on ax p <= c) ∧ (in_hull (part2e c ax l) p → in_hull l p ∧ c <= on ax p).
Proof.
  destruct (part_closed c ax (in_hull l) l (λ p q r s, hull_mean l p q r s) (hull_elem l)) as [H1 H2]. split; intros Hp.
  - split.
    + intros g Hg. apply Hp. intros q Hq. by apply (H1 q Hq).
    + specialize (Hp (axf ax c)). rewrite ev_axf in Hp. assert (on ax p - c <= 0); [|lra]. apply Hp. intros q Hq. rewrite ev_axf. destruct (H1 q Hq). lra.
  - split.
    + intros g Hg. apply Hp. intros q Hq. by apply (H2 q Hq).
    + specialize (Hp (nxf ax c)). rewrite ev_nxf in Hp. assert (c - on ax p <= 0); [|lra]. apply Hp. intros q Hq. rewrite ev_nxf. destruct (H2 q Hq). lra.
Qed.
