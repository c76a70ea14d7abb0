(** How many vertices clipping produces, in exact arithmetic. *)
From Coq Require Import QArith Lqa.
From Verif Require Import Base ModelRasterize SpecRasterize ClipProofs ClipExact.
Local Open Scope nat_scope.

Fixpoint count {A} (f : A → bool) (l : list A) : nat := match l with [] => 0 | a :: l' => (if f a then 1 else 0) + count f l' end.
Lemma count_app {A} (f : A → bool) l1 l2 : count f (l1 ++ l2) = count f l1 + count f l2.
Proof. induction l1 as [|a l1 IH]; [done|]. cbn [app count]. lia. Qed.
Lemma count_le {A} (f g : A → bool) l : (∀ a, f a = true → g a = true) → count f l ≤ count g l.
Proof.
  intros H. induction l as [|a l IH]; [done|]. cbn [count]. specialize (H a). destruct (f a); [rewrite H by done; lia|]. destruct (g a); lia.
Qed.
Lemma count_length {A} (f : A → bool) l : count f l ≤ length l.
Proof. induction l as [|a l IH]; cbn [count length]; [done|]. destruct (f a); lia. Qed.
Lemma count_pos {A} (f : A → bool) l a : a ∈ l → f a = true → 1 ≤ count f l.
Proof.
  induction l as [|x l IH]; intros Ha Hf; [by apply elem_of_nil in Ha|]. cbn [count]. apply elem_of_cons in Ha as [<-|Ha]; [rewrite Hf; lia|].
  specialize (IH Ha Hf). lia.
Qed.

(** Changes up and down. *)
Fixpoint ups (b : bool) (l : list bool) : nat := match l with [] => 0 | a :: l' => (if negb b && a then 1 else 0) + ups a l' end.
Fixpoint downs (b : bool) (l : list bool) : nat := match l with [] => 0 | a :: l' => (if b && negb a then 1 else 0) + downs a l' end.
Lemma ups_downs l : ∀ b, changes b l = ups b l + downs b l ∧ ups b l + (if b then 1 else 0) = downs b l + (if endof b l then 1 else 0).
Proof.
  induction l as [|a l IH]; intros b; [by cbn|]. change (endof b (a :: l)) with (endof a l). cbn [changes ups downs].
  destruct (IH a) as [H1 H2]. rewrite H1. destruct a, b; cbn [eqb negb andb]; lia.
Qed.
Lemma no_change {A} (F : A → bool) l : ∀ b, changes (F b) (F <$> l) = 0 → ∀ a, a ∈ l → F a = F b.
Proof.
  induction l as [|x l IH]; intros b H a Ha; [by apply elem_of_nil in Ha|]. cbn [fmap list_fmap changes] in H.
  assert (F b = F x) as E by (destruct (F b), (F x); cbn [eqb] in H; done || lia).
  rewrite E in H |- *. rewrite eqb_reflx in H. apply elem_of_cons in Ha as [->|Ha]; [done|]. by apply IH.
Qed.
Lemma count_all {A} (f : A → bool) (l : list A) : (∀ a, a ∈ l → f a = true) → count f l = length l.
Proof.
  induction l as [|x l IH]; intros H; [done|]. cbn [count length]. rewrite (H x) by left. rewrite IH; [done|]. intros a Ha. apply H. by right.
Qed.

Section Counts.
Context (c : Q) (ax : axis).
Notation F := (far c ax).
Notation s1 := (side1 exact_arith c ax).
Notation s2 := (side2 exact_arith c ax).
(** On or beyond the line. *)
Definition reach (p : pt Q) : bool := F p || touches c ax p.

Lemma len1_le l : ∀ b, length (walk s1 b l) ≤ length l + downs (F b) (F <$> l).
Proof.
  induction l as [|a l IH]; intros b; [done|]. cbn [walk fmap list_fmap downs length]. rewrite app_length. specialize (IH a).
  rewrite side1_eq. pose proof (strictly_near c ax a) as Hn. destruct (F b), (F a); cbn [eqb andb negb length]; try lia;
    destruct (strictly c ax a); cbn [length]; try lia; by specialize (Hn eq_refl).
Qed.
Lemma len2_le l : ∀ b, length (walk s2 b l) ≤ length l + ups (F b) (F <$> l).
Proof.
  induction l as [|a l IH]; intros b; [done|]. cbn [walk fmap list_fmap ups length]. rewrite app_length. specialize (IH a).
  rewrite side2_eq. destruct (F b), (F a); cbn [eqb andb negb length]; try lia. destruct (touches c ax a); cbn [length]; lia.
Qed.
Lemma len2_reach l : ∀ b, length (walk s2 b l) ≤ count reach l + changes (F b) (F <$> l).
Proof.
  induction l as [|a l IH]; intros b; [done|]. cbn [walk fmap list_fmap changes count]. rewrite app_length. specialize (IH a).
  rewrite side2_eq. unfold reach at 1. destruct (F b), (F a); cbn [eqb orb length]; try lia; destruct (touches c ax a); cbn [length]; lia.
Qed.
Lemma len1_ge l : ∀ b, changes (F b) (F <$> l) + count (strictly c ax) l ≤ length (walk s1 b l) ∧ count (λ p, negb (F p)) l ≤ length (walk s1 b l).
Proof.
  induction l as [|a l IH]; intros b; [done|]. cbn [walk fmap list_fmap changes count]. rewrite app_length. destruct (IH a) as [H1 H2].
  rewrite side1_eq. pose proof (strictly_near c ax a) as Hn.
  destruct (F b), (F a), (strictly c ax a); cbn [eqb negb length]; try (by specialize (Hn eq_refl)); lia.
Qed.
Lemma len2_ge l : ∀ b, changes (F b) (F <$> l) + count F l ≤ length (walk s2 b l).
Proof.
  induction l as [|a l IH]; intros b; [done|]. cbn [walk fmap list_fmap changes count]. rewrite app_length. specialize (IH a).
  rewrite side2_eq. destruct (F b), (F a); cbn [eqb length]; try lia.
Qed.
(** Only old vertices are strictly beyond the line. *)
Lemma beyond2 l : ∀ b, count F (walk s2 b l) = count F l.
Proof.
  induction l as [|a l IH]; intros b; [done|]. cbn [walk count]. rewrite count_app, IH. f_equal. rewrite side2_eq.
  destruct (eqb (F b) (F a)) eqn:E.
  - destruct (F a) eqn:Fa; cbn [count]; [by rewrite Fa|]. destruct (touches c ax a); cbn [count]; [by rewrite Fa|done].
  - apply eqb_false_iff in E. destruct (cut_between c ax b a E) as (s & _ & Hon & _).
    assert (F (cut c ax b a) = false) as Fc by (apply far_false; lra). cbn [count]. rewrite Fc. destruct (F a) eqn:Fa; cbn [count]; [by rewrite Fa|done].
Qed.
Lemma far_ups l : ∀ b, count F l + downs (F b) (F <$> l) ≤ length l.
Proof.
  induction l as [|a l IH]; intros b; [done|]. cbn [fmap list_fmap count downs length]. specialize (IH a). destruct (F a), (F b); cbn [andb negb]; lia.
Qed.
End Counts.

Lemma turns_two c ax l b : convex l → last l = Some b →
  changes (far c ax b) (far c ax <$> l) = 2 * ups (far c ax b) (far c ax <$> l) ∧ ups (far c ax b) (far c ax <$> l) = downs (far c ax b) (far c ax <$> l) ∧
  ups (far c ax b) (far c ax <$> l) ≤ 1.
Proof.
  intros Hcv Hb. specialize (Hcv (axf ax c)).
  assert (above (axf ax c) <$> l = far c ax <$> l) as E.
  { apply list_fmap_ext. intros _ p _. apply eq_true_iff_eq. rewrite above_true, far_true, ev_axf. split; intros; lra. }
  rewrite E, (turns_last _ _ _ Hb) in Hcv.
  destruct (ups_downs (far c ax <$> l) (far c ax b)) as [H1 H2]. rewrite endof_fmap, (last_endof_some b b l Hb) in H2. lia.
Qed.

(** ** Bounds *)

Lemma part1_length c ax l : convex l → length (part1e c ax l) ≤ length l + 1.
Proof.
  intros Hcv. unfold part1e, part1. destruct (last l) as [b|] eqn:Hb; [|cbn; lia].
  destruct (turns_two c ax l b Hcv Hb) as (_ & H2 & H3). pose proof (len1_le c ax l b). lia.
Qed.
Lemma part2_length c ax l : convex l → length (part2e c ax l) ≤ length l + 1.
Proof.
  intros Hcv. unfold part2e, part2. destruct (last l) as [b|] eqn:Hb; [|cbn; lia].
  destruct (turns_two c ax l b Hcv Hb) as (_ & H2 & H3). pose proof (len2_le c ax l b). lia.
Qed.

(** Cutting one side after the other off a polygon of [k] vertices never leaves more
    than [k + 1]. *)
Definition slim (k : nat) (ax : axis) (c : option Q) (l : list (pt Q)) : Prop :=
  length l ≤ k ∨ ∃ c', c = Some c' ∧ length l ≤ k + 1 ∧ count (far c' ax) l ≤ k - 1.
Lemma slim_length k ax c l : slim k ax c l → length l ≤ k + 1.
Proof. intros [H|(c' & _ & H & _)]; lia. Qed.
Lemma slim_part2 k ax c0 c l : 1 ≤ k → convex l → slim k ax c0 l → (∀ c', c0 = Some c' → (c' < c)%Q) → slim k ax (Some c) (part2e c ax l).
Proof.
  intros Hk Hcv Hs Hc. unfold part2e, part2. destruct (last l) as [b|] eqn:Hb; [|left; cbn; lia].
  destruct (turns_two c ax l b Hcv Hb) as (H1 & H2 & H3). pose proof (len2_le c ax l b) as L1. pose proof (len2_reach c ax l b) as L2.
  pose proof (beyond2 c ax l b) as L3. pose proof (far_ups c ax l b) as L4.
  destruct (decide (ups (far c ax b) (far c ax <$> l) = 0)) as [E|E].
  - left. destruct Hs as [Hs|(c' & -> & Hs & Hm)]; [lia|]. specialize (Hc c' eq_refl).
    assert (count (reach c ax) l ≤ count (far c' ax) l) as L5.
    { apply count_le. intros a Ha. apply far_true. unfold reach in Ha. apply orb_true_iff in Ha as [Ha|Ha]; [apply far_true in Ha|apply touches_true in Ha]; lra. }
    lia.
  - right. exists c. split; [done|]. rewrite L3. destruct Hs as [Hs|(c' & -> & Hs & Hm)]; [lia|]. specialize (Hc c' eq_refl).
    assert (count (reach c ax) l ≤ count (far c' ax) l) as L5.
    { apply count_le. intros a Ha. apply far_true. unfold reach in Ha. apply orb_true_iff in Ha as [Ha|Ha]; [apply far_true in Ha|apply touches_true in Ha]; lra. }
    assert (count (far c ax) l ≤ count (reach c ax) l) as L6 by (apply count_le; intros a Ha; unfold reach; by rewrite Ha). lia.
Qed.

Lemma part1_three c ax l p : convex l → p ∈ l → (on ax p < c)%Q → 3 ≤ length l → 3 ≤ length (part1e c ax l).
Proof.
  intros Hcv Hp Hlt Hl. unfold part1e, part1. destruct (last l) as [b|] eqn:Hb; [|apply last_None in Hb; subst; by apply elem_of_nil in Hp].
  destruct (turns_two c ax l b Hcv Hb) as (H1 & H2 & H3). destruct (len1_ge c ax l b) as [L1 L2].
  destruct (decide (ups (far c ax b) (far c ax <$> l) = 0)) as [E|E].
  - assert (count (λ p, negb (far c ax p)) l = length l) as Ha; [|lia]. apply count_all. intros a Ha.
    assert (far c ax p = false) as Fp by (apply far_false; lra).
    assert (changes (far c ax b) (far c ax <$> l) = 0) as E0 by lia.
    by rewrite (no_change _ _ _ E0 a Ha), <- (no_change _ _ _ E0 p Hp), Fp.
  - pose proof (count_pos (strictly c ax) l p Hp) as Hc. rewrite strictly_true in Hc. specialize (Hc Hlt). lia.
Qed.
Lemma part2_three c ax l p : convex l → p ∈ l → (c < on ax p)%Q → 3 ≤ length l → 3 ≤ length (part2e c ax l).
Proof.
  intros Hcv Hp Hlt Hl. unfold part2e, part2. destruct (last l) as [b|] eqn:Hb; [|apply last_None in Hb; subst; by apply elem_of_nil in Hp].
  destruct (turns_two c ax l b Hcv Hb) as (H1 & H2 & H3). pose proof (len2_ge c ax l b) as L1.
  apply far_true in Hlt. destruct (decide (ups (far c ax b) (far c ax <$> l) = 0)) as [E|E].
  - assert (count (far c ax) l = length l) as Ha; [|lia]. apply count_all. intros a Ha.
    assert (changes (far c ax b) (far c ax <$> l) = 0) as E0 by lia.
    by rewrite (no_change _ _ _ E0 a Ha), <- (no_change _ _ _ E0 p Hp).
  - pose proof (count_pos (far c ax) l p Hp Hlt). lia.
Qed.

(** A hull with a point on one side has a vertex there; no hull is empty. *)
Lemma hull_low c ax l p : in_hull l p → (on ax p < c)%Q → ∃ q, q ∈ l ∧ (on ax q < c)%Q.
Proof.
  intros Hp Hlt. destruct (existsb (λ q, negb (Qle_bool c (on ax q))) l) eqn:E.
  - apply existsb_exists in E as (q & Hq & E). exists q. split; [by apply elem_of_list_In|]. apply negb_true_iff in E.
    apply Qnot_le_lt. intros Hle. apply Qle_bool_iff in Hle. congruence.
  - exfalso. specialize (Hp (nxf ax c)). rewrite ev_nxf in Hp. assert (c - on ax p <= 0)%Q; [|lra]. apply Hp. intros q Hq. rewrite ev_nxf.
    assert (c <= on ax q)%Q; [|lra]. apply Qle_bool_iff. destruct (Qle_bool c (on ax q)) eqn:E'; [done|]. rewrite <- E.
    apply existsb_exists. exists q. split; [by apply elem_of_list_In|]. by rewrite E'.
Qed.
Lemma hull_high c ax l p : in_hull l p → (c < on ax p)%Q → ∃ q, q ∈ l ∧ (c < on ax q)%Q.
Proof.
  intros Hp Hlt. destruct (existsb (far c ax) l) eqn:E.
  - apply existsb_exists in E as (q & Hq & E). exists q. split; [by apply elem_of_list_In|]. by apply far_true.
  - exfalso. specialize (Hp (axf ax c)). rewrite ev_axf in Hp. assert (on ax p - c <= 0)%Q; [|lra]. apply Hp. intros q Hq. rewrite ev_axf.
    assert (on ax q <= c)%Q; [|lra]. apply far_false. destruct (far c ax q) eqn:E'; [|done]. rewrite <- E. symmetry. apply existsb_exists.
    exists q. split; [by apply elem_of_list_In|done].
Qed.
Lemma hull_nonempty l p : in_hull l p → l ≠ [].
Proof.
  intros Hp ->. specialize (Hp (Aff 0 0 0 1)). assert (ev (Aff 0 0 0 1) p <= 0)%Q as H; [apply Hp; intros q Hq; by apply elem_of_nil in Hq|].
  unfold ev in H. cbn in H. lra.
Qed.

(** Any triangle is convex. *)
Lemma triangle_convex (a b c : pt Q) : convex [a; b; c].
Proof. intros g. unfold turns. cbn. by destruct (above g a), (above g b), (above g c); cbn; lia. Qed.
