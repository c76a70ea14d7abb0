(** Code that terminates and may panic only under a given condition. *)
From Verif Require Import Base.
Local Open Scope Z_scope.

(** [m] returns with [Q], or panics and then [B] holds; the fuel never runs out. *)
Definition ends {A} (B : Prop) (m : outcome A) (Q : A → Prop) : Prop :=
  match m with Done a => Q a | Panicked => B | OutOfFuel => False end.

Section ends.
  Context (B : Prop).

  Lemma ends_bind {A C} (m : outcome A) (k : A → outcome C) (R : A → Prop) Q :
    ends B m R → (∀ a, R a → ends B (k a) Q) → ends B (obind m k) Q.
  Proof. destruct m; cbn; intros; [auto|done|done]. Qed.

  Lemma ends_mono {A} (m : outcome A) (R Q : A → Prop) :
    ends B m R → (∀ a, R a → Q a) → ends B m Q.
  Proof. destruct m; cbn; auto. Qed.

  Lemma ends_runs {A} (m : outcome A) Q : runs m Q → ends B m Q.
  Proof. by destruct m. Qed.

  Lemma ends_done {A} (m : outcome A) Q a : ends B m Q → m = Done a → Q a.
  Proof. by intros H ->. Qed.

  Lemma ends_get {A C} (l : list A) i (k : A → outcome C) Q :
    (i < length l)%nat → (∀ a, l !! i = Some a → ends B (k a) Q) → ends B (obind (get l i) k) Q.
  Proof. intros Hi HQ. destruct (get_lt l i Hi) as (a & -> & Ha). cbn. auto. Qed.

  Lemma ends_put {A C} (l : list A) i a (k : list A → outcome C) Q :
    (i < length l)%nat → ends B (k (<[i := a]> l)) Q → ends B (obind (put l i a) k) Q.
  Proof. intros Hi HQ. by rewrite put_lt. Qed.

  Lemma ends_inv {A St} (I : list A → St → Prop) (f : A → St → outcome St) l s :
    I [] s →
    (∀ pre a post s', l = pre ++ a :: post → I pre s' → ends B (f a s') (I (pre ++ [a]))) →
    ends B (foldM f l s) (I l).
  Proof.
    intros H0 Hstep.
    enough (∀ pre post s', l = pre ++ post → I pre s' → ends B (foldM f post s') (I l)) as H
      by (by apply (H [])).
    intros pre post. revert pre. induction post as [|a post IH]; intros pre s' El HI.
    - rewrite app_nil_r in El. by subst.
    - cbn [foldM]. eapply ends_bind; [by eapply Hstep|]. cbn. intros s'' HI'.
      apply (IH (pre ++ [a])); [|done]. by rewrite <-app_assoc.
  Qed.

  (** A state property kept by every iteration. *)
  Lemma ends_keep {A St} (I : St → Prop) (f : A → St → outcome St) l s :
    I s → (∀ a s', a ∈ l → I s' → ends B (f a s') I) → ends B (foldM f l s) I.
  Proof.
    intros H0 Hstep. apply (ends_inv (λ _, I)); [done|].
    intros pre a post s' -> HI. apply Hstep; [set_solver|done].
  Qed.

  Lemma ends_seq_inv {St} (I : nat → St → Prop) (f : nat → St → outcome St) a n s :
    I a s →
    (∀ i s', (a ≤ i < a + n)%nat → I i s' → ends B (f i s') (I (i + 1)%nat)) →
    ends B (foldM f (seq a n) s) (I (a + n)%nat).
  Proof.
    revert a s. induction n as [|n IH]; intros a s H0 Hstep.
    - cbn. by replace (a + 0)%nat with a by lia.
    - cbn [seq foldM]. eapply ends_bind; [apply Hstep; [lia|done]|].
      cbn. intros s' HI. replace (a + S n)%nat with (S a + n)%nat by lia.
      apply IH; [by replace (S a) with (a + 1)%nat by lia|].
      intros i s'' Hi HI'. apply Hstep; [lia|done].
  Qed.

  Lemma ends_cells {St} (I : nat → St → Prop) w h (f : nat → nat → St → outcome St) s :
    I 0%nat s →
    (∀ c s', (c < w * h)%nat → I c s' → ends B (f (c mod w)%nat (c / w)%nat s') (I (c + 1)%nat)) →
    ends B (for_cells w h f s) (I (w * h)%nat).
  Proof.
    intros H0 Hstep. rewrite for_cells_flat. replace (w * h)%nat with (0 + h * w)%nat by lia.
    apply ends_seq_inv; [done|]. intros c s' Hc HI. apply Hstep; [lia|done].
  Qed.

  Lemma ends_mapM {A C} (f : A → outcome C) l (Q : nat → C → Prop) :
    (∀ i a, l !! i = Some a → ends B (f a) (Q i)) →
    ends B (mapM_o f l) (λ l', length l' = length l ∧ ∀ i b, l' !! i = Some b → Q i b).
  Proof.
    revert Q. induction l as [|a l IH]; intros Q H; [done|]. cbn [mapM_o].
    eapply ends_bind; [apply (H 0%nat); done|]. intros b Hb.
    eapply ends_bind; [apply (IH (λ i, Q (S i))); intros i x Hx; by apply (H (S i))|].
    intros bs [Hl HQ]. cbn. split; [by rewrite Hl|]. intros [|i] y; cbn; [by intros [= <-]|apply HQ].
  Qed.
End ends.

Lemma runs_ends {A} (m : outcome A) Q : runs m Q ↔ ends False m Q.
Proof. by destruct m. Qed.
