(** Partial correctness: what holds of a result, if there is one. *)
From Verif Require Import Base FlowProofs.

(** If the code returns, its result satisfies [Q]. *)
Definition gives {A} (m : outcome A) (Q : A → Prop) : Prop := ∀ a, m = Done a → Q a.

Lemma gives_bind {A C} (m : outcome A) (k : A → outcome C) (R : A → Prop) Q :
  gives m R → (∀ a, R a → gives (k a) Q) → gives (obind m k) Q.
Proof. intros Hm Hk c (a & E & E')%obind_done. eapply Hk; [by apply Hm|done]. Qed.
Lemma gives_mono {A} (m : outcome A) (R Q : A → Prop) : gives m R → (∀ a, R a → Q a) → gives m Q.
Proof. intros Hm H a E. by apply H, Hm. Qed.
Lemma gives_ends {A} B (m : outcome A) Q : ends B m Q → gives m Q.
Proof. intros H a ->. done. Qed.
Lemma gives_runs {A} (m : outcome A) Q : runs m Q → gives m Q.
Proof. intros H a ->. done. Qed.
Lemma gives_done {A} (a : A) (Q : A → Prop) : Q a → gives (Done a) Q.
Proof. intros H b [= <-]. done. Qed.
Lemma gives_panic {A} (Q : A → Prop) : gives Panicked Q.
Proof. done. Qed.
Lemma gives_fuel {A} (Q : A → Prop) : gives OutOfFuel Q.
Proof. done. Qed.
Lemma gives_get {A C} (l : list A) i (k : A → outcome C) Q : (∀ a, l !! i = Some a → gives (k a) Q) → gives (obind (get l i) k) Q.
Proof. intros H. eapply gives_bind; [|exact H]. intros a. apply get_done. Qed.
Lemma gives_put {A C} (l : list A) i a (k : list A → outcome C) Q :
  ((i < length l)%nat → gives (k (<[i := a]> l)) Q) → gives (obind (put l i a) k) Q.
Proof. intros H c (l' & [Hi ->]%put_done & E)%obind_done. by apply H. Qed.
Lemma gives_keep {A St} (I : St → Prop) (f : A → St → outcome St) l s :
  I s → (∀ a s', a ∈ l → I s' → gives (f a s') I) → gives (foldM f l s) I.
Proof.
  revert s. induction l as [|a l IH]; intros s Hs Hf; cbn [foldM]; [by apply gives_done|].
  eapply gives_bind; [apply Hf; [left|done]|]. intros s' Hs'. apply IH; [done|]. intros b s'' Hb. apply Hf. by right.
Qed.

Lemma gives_seq {St} (I : nat → St → Prop) (f : nat → St → outcome St) n s : I 0%nat s →
  (∀ j s', (j < n)%nat → I j s' → gives (f j s') (I (S j))) → gives (foldM f (seq 0 n) s) (I n).
Proof.
  intros H0 Hf. assert (∀ k a s, I a s → (a + k <= n)%nat → gives (foldM f (seq a k) s) (I (a + k)%nat)) as H.
  { induction k as [|k IH]; intros a s' Hs Hk; cbn [seq foldM].
    - rewrite Nat.add_0_r. by apply gives_done.
    - eapply gives_bind; [apply Hf; [lia|done]|]. intros s'' Hs''. rewrite Nat.add_succ_r. apply (IH (S a)); [done|lia]. }
  apply (H n 0%nat s H0). lia.
Qed.
Lemma gives_put_end {A} (l : list A) i a (Q : list A → Prop) : ((i < length l)%nat → Q (<[i := a]> l)) → gives (put l i a) Q.
Proof. intros H l' [Hi ->]%put_done. by apply H. Qed.
Lemma gives_inv {A St} (I : list A → St → Prop) (f : A → St → outcome St) l s :
  I [] s → (∀ pre a post s', l = pre ++ a :: post → I pre s' → gives (f a s') (I (pre ++ [a]))) → gives (foldM f l s) (I l).
Proof.
  intros H0 Hstep. enough (∀ pre post s', l = pre ++ post → I pre s' → gives (foldM f post s') (I l)) as H by (by apply (H [])).
  intros pre post. revert pre. induction post as [|a post IH]; intros pre s' El HI.
  - rewrite app_nil_r in El. subst. by apply gives_done.
  - cbn [foldM]. eapply gives_bind; [by eapply Hstep|]. cbn. intros s'' HI'. apply (IH (pre ++ [a])); [|done]. by rewrite <-app_assoc.
Qed.
Lemma gives_cells {St} (I : nat → St → Prop) w h (f : nat → nat → St → outcome St) s :
  I 0%nat s → (∀ c s', (c < w * h)%nat → I c s' → gives (f (c mod w)%nat (c / w)%nat s') (I (S c))) →
  gives (for_cells w h f s) (I (w * h)%nat).
Proof.
  intros H0 Hstep. rewrite for_cells_flat. replace (w * h)%nat with (h * w)%nat by lia.
  apply (gives_seq I (λ c, f (c mod w)%nat (c / w)%nat)); [done|]. intros c s' Hc HI. apply Hstep; [lia|done].
Qed.

Lemma runs_eq {A} (m : outcome A) a (Q : A → Prop) : runs m Q → m = Done a → Q a.
Proof. intros H ->. done. Qed.
