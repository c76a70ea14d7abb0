(** Clipping a polygon by a line: what [divide_poly] writes, how many vertices, and,
    in exact arithmetic, that the parts are exactly the two sides. *)
From Coq Require Import QArith Lqa.
From Verif Require Import Base ModelRasterize SpecRasterize.
Local Open Scope nat_scope.

(** ** [divide_poly] as a walk around the polygon *)

Fixpoint walk {A B} (f : A → A → list B) (b : A) (l : list A) : list B :=
  match l with [] => [] | a :: l' => f b a ++ walk f a l' end.

Section Walk.
Context {T : Type} (ar : arith T) (off : T) (ax : axis).
Let zero : T := n_of_Z ar 0.
Definition dist (p : pt T) : T := n_sub ar off (on ax p).
Definition crosses (b a : pt T) : bool := negb (eqb (n_le ar zero (dist a)) (n_le ar zero (dist b))).
Definition side1 (b a : pt T) : list (pt T) :=
  if crosses b a then cut_point ar a b (dist a) (dist b) :: (if n_lt ar zero (dist a) then [a] else [])
  else if n_le ar zero (dist a) then [a] else [].
Definition side2 (b a : pt T) : list (pt T) :=
  if crosses b a then cut_point ar a b (dist a) (dist b) ::
    (if n_lt ar zero (dist a) then [] else if n_lt ar (dist a) zero then [a] else [])
  else if n_le ar zero (dist a) then (if negb (n_eq ar (dist a) zero) then [] else [a]) else [a].

Lemma take_put {A} (l l' : list A) n a out : put l n a = Done l' → take n l = out → n < length l → take (S n) l' = out ++ [a] ∧ length l' = length l.
Proof.
  intros H Ht Hn. rewrite put_lt in H by done. injection H as <-. split; [|by rewrite insert_length].
  rewrite (take_S_r _ _ a) by (by rewrite list_lookup_insert). by rewrite take_insert, Ht by done.
Qed.

Lemma divide_step_done inv ds o1 n1 o2 n2 a b va vb out1 out2 :
  inv !! a = Some va → ds !! a = Some (dist va) → inv !! b = Some vb → ds !! b = Some (dist vb) →
  take n1 o1 = out1 → take n2 o2 = out2 →
  n1 + length (side1 vb va) ≤ length o1 → n2 + length (side2 vb va) ≤ length o2 →
  ∃ o1' o2', divide_step ar inv ds a ((o1, n1), (o2, n2), b) =
    Done ((o1', n1 + length (side1 vb va)), (o2', n2 + length (side2 vb va)), a) ∧
    length o1' = length o1 ∧ length o2' = length o2 ∧
    take (n1 + length (side1 vb va)) o1' = out1 ++ side1 vb va ∧ take (n2 + length (side2 vb va)) o2' = out2 ++ side2 vb va.
Proof.
  intros Ha Hda Hb Hdb Ht1 Ht2. unfold divide_step, side1, side2, crosses.
  rewrite (get_some _ _ _ Hda). cbn [obind]. rewrite (get_some _ _ _ Hdb). cbn [obind]. rewrite (get_some _ _ _ Ha). cbn [obind].
  fold zero. destruct (negb (eqb _ _)).
  - rewrite (get_some _ _ _ Hb). cbn [obind]. set (x := cut_point ar va vb (dist va) (dist vb)).
    cbn [length]. intros L1 L2.
    assert (n1 < length o1 ∧ n2 < length o2) as [B1 B2] by lia.
    destruct (put o1 n1 x) as [o1'| |] eqn:E1; [|rewrite put_lt in E1 by done; done..].
    destruct (put o2 n2 x) as [o2'| |] eqn:E2; [|rewrite put_lt in E2 by done; done..]. cbn [obind].
    destruct (take_put _ _ _ _ _ E1 Ht1 B1) as (T1 & M1). destruct (take_put _ _ _ _ _ E2 Ht2 B2) as (T2 & M2).
    destruct (n_lt ar zero (dist va)); cbn [length] in *.
    + assert (S n1 < length o1') as B3 by lia.
      destruct (put o1' (S n1) va) as [o1''| |] eqn:E3; [|rewrite put_lt in E3 by done; done..]. cbn [obind].
      destruct (take_put _ _ _ _ _ E3 T1 B3) as (T3 & M3).
      exists o1'', o2'. replace (n1 + 2) with (S (S n1)) by lia. replace (n2 + 1) with (S n2) by lia.
      split; [done|]. split; [lia|]. split; [done|]. split; [|done]. by rewrite T3, <- app_assoc.
    + destruct (n_lt ar (dist va) zero); cbn [length] in *.
      * assert (S n2 < length o2') as B3 by lia.
        destruct (put o2' (S n2) va) as [o2''| |] eqn:E3; [|rewrite put_lt in E3 by done; done..]. cbn [obind].
        destruct (take_put _ _ _ _ _ E3 T2 B3) as (T3 & M3).
        exists o1', o2''. replace (n2 + 2) with (S (S n2)) by lia. replace (n1 + 1) with (S n1) by lia.
        split; [done|]. split; [lia|]. split; [lia|]. split; [done|]. by rewrite T3, <- app_assoc.
      * exists o1', o2'. replace (n1 + 1) with (S n1) by lia. replace (n2 + 1) with (S n2) by lia. done.
  - destruct (n_le ar zero (dist va)).
    + destruct (negb (n_eq ar (dist va) zero)); cbn [length]; intros L1 L2.
      * assert (n1 < length o1) as B1 by lia.
        destruct (put o1 n1 va) as [o1'| |] eqn:E1; [|rewrite put_lt in E1 by done; done..]. cbn [obind].
        destruct (take_put _ _ _ _ _ E1 Ht1 B1) as (T1 & M1).
        exists o1', o2. replace (n1 + 1) with (S n1) by lia. rewrite Nat.add_0_r, app_nil_r. done.
      * assert (n1 < length o1 ∧ n2 < length o2) as [B1 B2] by lia.
        destruct (put o1 n1 va) as [o1'| |] eqn:E1; [|rewrite put_lt in E1 by done; done..].
        destruct (put o2 n2 va) as [o2'| |] eqn:E2; [|rewrite put_lt in E2 by done; done..]. cbn [obind].
        destruct (take_put _ _ _ _ _ E1 Ht1 B1) as (T1 & M1). destruct (take_put _ _ _ _ _ E2 Ht2 B2) as (T2 & M2).
        exists o1', o2'. replace (n1 + 1) with (S n1) by lia. replace (n2 + 1) with (S n2) by lia. done.
    + cbn [length]; intros L1 L2. assert (n2 < length o2) as B2 by lia.
      destruct (put o2 n2 va) as [o2'| |] eqn:E2; [|rewrite put_lt in E2 by done; done..]. cbn [obind].
      destruct (take_put _ _ _ _ _ E2 Ht2 B2) as (T2 & M2).
      exists o1, o2'. replace (n2 + 1) with (S n2) by lia. rewrite Nat.add_0_r, app_nil_r. done.
Qed.

Lemma divide_loop inv ds l : ∀ i o1 n1 o2 n2 b vb out1 out2,
  (∀ j p, l !! j = Some p → inv !! (i + j) = Some p ∧ ds !! (i + j) = Some (dist p)) →
  inv !! b = Some vb → ds !! b = Some (dist vb) → take n1 o1 = out1 → take n2 o2 = out2 →
  n1 + length (walk side1 vb l) ≤ length o1 → n2 + length (walk side2 vb l) ≤ length o2 →
  ∃ o1' o2' b', foldM (divide_step ar inv ds) (seq i (length l)) ((o1, n1), (o2, n2), b) =
    Done ((o1', n1 + length (walk side1 vb l)), (o2', n2 + length (walk side2 vb l)), b') ∧
    length o1' = length o1 ∧ length o2' = length o2 ∧
    take (n1 + length (walk side1 vb l)) o1' = out1 ++ walk side1 vb l ∧ take (n2 + length (walk side2 vb l)) o2' = out2 ++ walk side2 vb l.
Proof.
  induction l as [|a l IH]; intros i o1 n1 o2 n2 b vb out1 out2 Hl Hb Hdb T1 T2 L1 L2.
  - cbn. exists o1, o2, b. rewrite !Nat.add_0_r, !app_nil_r. done.
  - cbn [length seq foldM walk] in *. rewrite app_length in L1, L2.
    destruct (Hl 0 a eq_refl) as [Ha Hda]. rewrite Nat.add_0_r in Ha, Hda.
    destruct (divide_step_done inv ds o1 n1 o2 n2 i b a vb out1 out2) as (o1' & o2' & -> & M1 & M2 & U1 & U2); [done..|lia|lia|].
    cbn [obind].
    destruct (IH (S i) o1' (n1 + length (side1 vb a)) o2' (n2 + length (side2 vb a)) i a (out1 ++ side1 vb a) (out2 ++ side2 vb a)) as (o1'' & o2'' & b' & E & N1 & N2 & V1 & V2).
    + intros j p Hj. replace (S i + j) with (i + S j) by lia. by apply Hl.
    + done.
    + done.
    + exact U1.
    + exact U2.
    + lia.
    + lia.
    + exists o1'', o2'', b'. rewrite E, !app_length, !Nat.add_assoc. split; [done|]. split; [lia|]. split; [lia|].
      rewrite V1, V2, !app_assoc. done.
Qed.

(** The polygon in a buffer. *)
Definition part1 (l : list (pt T)) : list (pt T) := match last l with Some b => walk side1 b l | None => [] end.
Definition part2 (l : list (pt T)) : list (pt T) := match last l with Some b => walk side2 b l | None => [] end.

Lemma mapM_seq {A} (f : nat → outcome A) (g : nat → option A) m : ∀ i, (∀ j, i ≤ j < i + m → ∃ a, f j = Done a ∧ g j = Some a) →
  ∃ l, mapM_o f (seq i m) = Done l ∧ length l = m ∧ ∀ j, j < m → l !! j = g (i + j).
Proof.
  induction m as [|m IH]; intros i H; [exists []; split; [done|]; split; [done|]; intros j Hj; lia|]. cbn [seq mapM_o]. destruct (H i) as (a & -> & Hg); [lia|]. cbn [obind].
  destruct (IH (S i)) as (l & -> & Hl & Hj); [intros j Hj; apply H; lia|]. cbn [obind]. exists (a :: l). split; [done|]. split; [cbn; lia|].
  intros [|j] Hm; [by rewrite Nat.add_0_r, Hg|]. cbn. rewrite Hj by lia. f_equal. lia.
Qed.

Theorem divide_done inv n o1 n1 o2 n2 :
  0 < n → n ≤ 12 → n ≤ length inv → length (part1 (take n inv)) ≤ length o1 → length (part2 (take n inv)) ≤ length o2 →
  ∃ o1' o2', divide_poly ar inv n o1 n1 o2 n2 off ax = Done (Some ((o1', length (part1 (take n inv))), (o2', length (part2 (take n inv))))) ∧
    length o1' = length o1 ∧ length o2' = length o2 ∧
    take (length (part1 (take n inv))) o1' = part1 (take n inv) ∧ take (length (part2 (take n inv))) o2' = part2 (take n inv).
Proof.
  intros H0 H12 Hn L1 L2. unfold divide_poly. destruct (12 <? n) eqn:E1; [apply Nat.ltb_lt in E1; lia|].
  destruct (n =? 0) eqn:E2; [apply Nat.eqb_eq in E2; lia|].
  destruct (mapM_seq (λ i, let! v := get inv i in Done (n_sub ar off (on ax v))) (λ i, dist <$> inv !! i) n 0) as (ds & -> & Hds & Hj).
  { intros j Hj. destruct (get_lt inv j) as (v & Hg & Hv); [lia|]. rewrite Hg. cbn [obind]. eexists. split; [done|]. by rewrite Hv. }
  cbn [obind]. set (l := take n inv) in *. assert (length l = n) as Hl by (unfold l; rewrite take_length; lia).
  assert (∀ j p, l !! j = Some p → inv !! j = Some p ∧ j < n) as Hlj.
  { intros j p H. unfold l in H. apply lookup_take_Some in H. done. }
  destruct (last l) as [vb|] eqn:Hlast; [|apply last_None in Hlast; rewrite Hlast in Hl; cbn in Hl; lia].
  unfold part1, part2 in *. rewrite Hlast in *. rewrite last_lookup, Hl in Hlast. destruct (Hlj _ _ Hlast) as [Hb _].
  replace (seq 0 n) with (seq 0 (length l)) by (by rewrite Hl). replace (Init.Nat.pred n) with (n - 1) in * by lia.
  destruct (divide_loop inv ds l 0 o1 0 o2 0 (n - 1) vb [] []) as (o1' & o2' & b' & E & M1 & M2 & V1 & V2); try done.
  { intros j p Hjp. cbn. destruct (Hlj j p Hjp) as [H1 H2]. split; [done|]. rewrite Hj by done. cbn. by rewrite H1. }
  { rewrite Hj by lia. cbn. by rewrite Hb. }
  rewrite E. cbn [obind]. exists o1', o2'. done.
Qed.

End Walk.

(** ** Counting changes *)

Definition dlt (b a : bool) : nat := if eqb b a then 0 else 1.
Lemma dlt_tri a b c : dlt a c ≤ dlt a b + dlt b c.
Proof. by destruct a, b, c; cbn; lia. Qed.
Lemma dlt_refl a : dlt a a = 0.
Proof. by destruct a. Qed.
Lemma dlt_sym a b : dlt a b = dlt b a.
Proof. by destruct a, b. Qed.

Definition endof {A} (d : A) (l : list A) : A := foldl (λ _ x, x) d l.
Lemma endof_app {A} (d : A) l1 l2 : endof d (l1 ++ l2) = endof (endof d l1) l2.
Proof. apply foldl_app. Qed.
Lemma last_endof {A} (d : A) l : List.last l d = endof d l.
Proof.
  revert d. induction l as [|a l IH]; intros d; [done|]. change (endof d (a :: l)) with (endof a l). rewrite <- IH.
  destruct l as [|a' l]; [done|]. cbn [List.last]. clear. revert d a a'. induction l as [|x l IH]; intros d a a'; [done|]. cbn [List.last] in *. apply IH.
Qed.
Lemma last_endof_some {A} (d b : A) l : last l = Some b → endof d l = b.
Proof.
  intros H. apply last_Some in H as [l' ->]. by rewrite endof_app.
Qed.
Lemma endof_fmap {A B} (f : A → B) d l : endof (f d) (f <$> l) = f (endof d l).
Proof. revert d. induction l as [|a l IH]; intros d; [done|]. cbn. apply IH. Qed.
Lemma turns_last {A} (F : A → bool) l b : last l = Some b → turns (F <$> l) = changes (F b) (F <$> l).
Proof.
  intros H. unfold turns. rewrite last_endof. f_equal. apply last_endof_some. by rewrite fmap_last, H.
Qed.
Lemma changes_app b l1 l2 : changes b (l1 ++ l2) = changes b l1 + changes (endof b l1) l2.
Proof. revert b. induction l1 as [|a l1 IH]; intros b; [done|]. cbn [app changes]. rewrite IH. change (endof b (a :: l1)) with (endof a l1). lia. Qed.
Lemma changes_tri y b l : changes y l ≤ dlt y b + changes b l.
Proof. destruct l as [|a l]; cbn [changes]; [lia|]. pose proof (dlt_tri y b a). unfold dlt in *. lia. Qed.
Lemma turns_le y l : turns l ≤ changes y l + dlt (endof y l) y.
Proof.
  unfold turns. rewrite last_endof. destruct l as [|a l]; [cbn; lia|]. change (endof false (a :: l)) with (endof y (a :: l)).
  pose proof (changes_tri (endof y (a :: l)) y (a :: l)). lia.
Qed.

(** Putting points between their neighbours and leaving points out adds no change. *)
Lemma walk_changes {A} (F : A → bool) (f : A → A → list A) l : ∀ b y,
  (∀ b a, ∃ x, (F b = F a → F x = F a) ∧ (f b a = [] ∨ f b a = [a] ∨ f b a = [x] ∨ f b a = [x; a])) →
  changes y (F <$> walk f b l) + dlt (endof y (F <$> walk f b l)) (F (endof b l)) ≤ dlt y (F b) + changes (F b) (F <$> l).
Proof.
  induction l as [|a l IH]; intros b y Hf; [cbn; lia|]. cbn [walk]. rewrite fmap_app, changes_app, endof_app.
  change (endof b (a :: l)) with (endof a l).
  specialize (IH a (endof y (F <$> f b a)) Hf). cbn [fmap list_fmap changes]. fold (dlt (F b) (F a)).
  destruct (Hf b a) as (x & Hx & Hb).
  assert (changes y (F <$> f b a) + dlt (endof y (F <$> f b a)) (F a) ≤ dlt y (F b) + dlt (F b) (F a)); [|lia].
  destruct Hb as [->|[->|[->| ->]]]; cbn; [apply dlt_tri|..];
    destruct y, (F b), (F a), (F x); cbn; try lia; specialize (Hx eq_refl); done.
Qed.
Lemma walk_turns {A} (F : A → bool) (f : A → A → list A) l b : last l = Some b →
  (∀ b a, ∃ x, (F b = F a → F x = F a) ∧ (f b a = [] ∨ f b a = [a] ∨ f b a = [x] ∨ f b a = [x; a])) →
  turns (F <$> walk f b l) ≤ turns (F <$> l).
Proof.
  intros Hb Hf. rewrite (turns_last F l b Hb). pose proof (walk_changes F f l b (F b) Hf) as H. rewrite dlt_refl in H.
  rewrite (last_endof_some b b l Hb) in H. pose proof (turns_le (F b) (F <$> walk f b l)). lia.
Qed.

(** ** Total variation *)

Fixpoint tv (b : Z) (l : list Z) : Z := match l with [] => 0 | a :: l' => Z.abs (b - a) + tv a l' end%Z.
Lemma tv_one l : ∀ b u, u ∈ l → (Z.abs (b - u) + Z.abs (u - endof b l) ≤ tv b l)%Z.
Proof.
  induction l as [|a l IH]; intros b u Hu; [by apply elem_of_nil in Hu|]. change (endof b (a :: l)) with (endof a l). cbn [tv].
  assert (∀ b, (Z.abs (b - endof b l) ≤ tv b l)%Z) as H0.
  { clear. induction l as [|a l IH]; intros b; cbn [tv]; [cbn; lia|]. change (endof b (a :: l)) with (endof a l). specialize (IH a). lia. }
  apply elem_of_cons in Hu as [->|Hu]; [specialize (H0 a); lia|]. specialize (IH a u Hu). lia.
Qed.
Lemma tv_two l : ∀ b u v, u ∈ l → v ∈ l → (2 * Z.abs (u - v) ≤ tv b l + Z.abs (endof b l - b))%Z.
Proof.
  induction l as [|a l IH]; intros b u v Hu Hv; [by apply elem_of_nil in Hu|]. change (endof b (a :: l)) with (endof a l). cbn [tv].
  apply elem_of_cons in Hu as [->|Hu]; apply elem_of_cons in Hv as [->|Hv].
  - replace (a - a)%Z with 0%Z by lia.
    assert (∀ b l, (0 ≤ tv b l)%Z) as H0 by (clear; intros b l; revert b; induction l as [|a l IH]; intros b; cbn [tv]; [lia|specialize (IH a); lia]).
    specialize (H0 a l). lia.
  - pose proof (tv_one l a v Hv). lia.
  - pose proof (tv_one l a u Hu). lia.
  - specialize (IH a u v Hu Hv). lia.
Qed.

(** ** Consecutive corners *)

Fixpoint steps {A} (R : A → A → Prop) (b : A) (l : list A) : Prop := match l with [] => True | a :: l' => R b a ∧ steps R a l' end.
Lemma steps_impl {A} (R R' : A → A → Prop) l : ∀ b, (∀ b a, a ∈ l → R b a → R' b a) → steps R b l → steps R' b l.
Proof.
  induction l as [|a l IH]; intros b H; [done|]. cbn. intros [H1 H2]. split; [apply H; [left|done]|].
  apply IH; [intros; apply H; [by right|done]|done].
Qed.
Lemma steps_walk {A B} (f : A → A → list B) (Q : B → Prop) l : ∀ b, (∀ x, x ∈ walk f b l → Q x) ↔ steps (λ b a, ∀ x, x ∈ f b a → Q x) b l.
Proof.
  induction l as [|a l IH]; intros b; cbn.
  - split; [done|]. intros _ x Hx. by apply elem_of_nil in Hx.
  - rewrite <- IH. split.
    + intros H. split; intros x Hx; apply H, elem_of_app; auto.
    + intros [H1 H2] x Hx. apply elem_of_app in Hx as []; auto.
Qed.
Lemma steps_true {A} (R : A → A → Prop) l : ∀ b, (∀ b a, R b a) → steps R b l.
Proof. induction l as [|a l IH]; intros b H; [done|]. split; auto. Qed.
(** What holds of all steps holds of all steps with the start and corners known. *)
Lemma steps_in {A} (R R' : A → A → Prop) (S : A → Prop) l : ∀ b, S b → (∀ a, a ∈ l → S a) → (∀ b a, S b → S a → R b a → R' b a) → steps R b l → steps R' b l.
Proof.
  induction l as [|a l IH]; intros b Hb Hl H; [done|]. cbn. intros [H1 H2]. assert (S a) as Ha by (apply Hl; left).
  split; [by apply H|]. apply IH; [done| |done|done]. intros x Hx. apply Hl. by right.
Qed.
