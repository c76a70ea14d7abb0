(** Common vocabulary of the model: outcomes of running Rust code, loops,
    array accesses and machine-integer operations.

    These are modelling devices and do not correspond to a particular place in
    /repo; each says which Rust construct it stands for. *)
From Coq Require Export ZArith Lia ZifyBool.
From stdpp Require Export gmap numbers.
From stdpp Require Export list.

Global Set Default Goal Selector "!".
Ltac Zify.zify_post_hook ::= Z.div_mod_to_equations.

(** ** Outcomes *)

(** Result of running a piece of Rust code: it returns a value, it panics, or
    the model's loop fuel ran out. *)
Inductive outcome (A : Type) : Type :=
| Done (a : A)
| Panicked
| OutOfFuel.
Arguments Done {A} a.
Arguments Panicked {A}.
Arguments OutOfFuel {A}.

Definition obind {A B} (m : outcome A) (k : A → outcome B) : outcome B :=
  match m with
  | Done a => k a
  | Panicked => Panicked
  | OutOfFuel => OutOfFuel
  end.

Notation "'let!' x := m 'in' k" := (obind m (λ x, k))
  (at level 200, x pattern, m at level 100, k at level 200, right associativity,
   format "'[v' 'let!'  x  :=  m  'in'  '/' k ']'").

(** [runs m Q]: the code returns normally, with a result satisfying [Q]. *)
Definition runs {A} (m : outcome A) (Q : A → Prop) : Prop :=
  match m with Done a => Q a | _ => False end.

(** A [for] loop over a list of loop values with mutable state [St]. *)
Fixpoint foldM {A St} (f : A → St → outcome St) (l : list A) (s : St) : outcome St :=
  match l with
  | [] => Done s
  | a :: l' => let! s' := f a s in foldM f l' s'
  end.

(** A fallible map. *)
Fixpoint mapM_o {A B} (f : A → outcome B) (l : list A) : outcome (list B) :=
  match l with
  | [] => Done []
  | a :: l' => let! b := f a in let! bs := mapM_o f l' in Done (b :: bs)
  end.

(** The nested loops [for z in 0..h { for x in 0..w { .. } }]. *)
Definition for_cells {St} (w h : nat) (f : nat → nat → St → outcome St) (s : St)
  : outcome St :=
  foldM (λ z, foldM (λ x, f x z) (seq 0 w)) (seq 0 h) s.

(** ** Arrays: indexing panics when out of bounds. *)
Definition get {A} (l : list A) (i : nat) : outcome A :=
  match l !! i with Some a => Done a | None => Panicked end.
Definition put {A} (l : list A) (i : nat) (a : A) : outcome (list A) :=
  match l !! i with Some _ => Done (<[i := a]> l) | None => Panicked end.
(** [Option::unwrap]. *)
Definition unwrap {A} (o : option A) : outcome A :=
  match o with Some a => Done a | None => Panicked end.

(** ** Machine integers *)
Definition U8_MAX : Z := 255.
Definition U16_MAX : Z := 65535.
Definition U32_MAX : Z := 4294967295.
Definition I32_MAX : Z := 2147483647.
Definition I32_MIN : Z := -2147483648.

(** Checked arithmetic (overflow checks on): panic outside the type. *)
Definition chk (lo hi v : Z) : outcome Z :=
  if (lo <=? v)%Z && (v <=? hi)%Z then Done v else Panicked.
Definition chk_u8 : Z → outcome Z := chk 0 U8_MAX.
Definition chk_u16 : Z → outcome Z := chk 0 U16_MAX.
Definition chk_u32 : Z → outcome Z := chk 0 U32_MAX.
Definition chk_i32 : Z → outcome Z := chk I32_MIN I32_MAX.

(** [as] casts between integer types wrap. *)
Definition wrap_u8 (v : Z) : Z := (v mod 256)%Z.
Definition wrap_u16 (v : Z) : Z := (v mod 65536)%Z.
Definition wrap_u32 (v : Z) : Z := (v mod 4294967296)%Z.
Definition wrap_i16 (v : Z) : Z := ((v + 32768) mod 65536 - 32768)%Z.

(** ** Reasoning about outcomes *)
Lemma runs_bind {A B} (m : outcome A) (k : A → outcome B) (R : A → Prop) Q :
  runs m R → (∀ a, R a → runs (k a) Q) → runs (obind m k) Q.
Proof. destruct m; cbn; intros; [auto|done|done]. Qed.

Lemma runs_mono {A} (m : outcome A) (R Q : A → Prop) :
  runs m R → (∀ a, R a → Q a) → runs m Q.
Proof. destruct m; cbn; auto. Qed.

Lemma runs_done {A} (m : outcome A) Q :
  runs m Q ↔ ∃ a, m = Done a ∧ Q a.
Proof.
  destruct m; cbn; split; try naive_solver.
Qed.

Lemma runs_conj {A} (m : outcome A) (Q R : A → Prop) :
  runs m Q → runs m R → runs m (λ a, Q a ∧ R a).
Proof. destruct m; cbn; auto. Qed.

Lemma obind_done {A B} (m : outcome A) (k : A → outcome B) b :
  obind m k = Done b ↔ ∃ a, m = Done a ∧ k a = Done b.
Proof. destruct m; cbn; naive_solver. Qed.

Lemma obind_assoc {A B C} (m : outcome A) (k : A → outcome B) (k' : B → outcome C) :
  obind (obind m k) k' = obind m (λ a, obind (k a) k').
Proof. by destruct m. Qed.

Lemma obind_ret {A} (m : outcome A) : obind m Done = m.
Proof. by destruct m. Qed.

Lemma obind_ext {A B} (m : outcome A) (k k' : A → outcome B) :
  (∀ a, m = Done a → k a = k' a) → obind m k = obind m k'.
Proof. destruct m; cbn; auto. Qed.

Lemma get_done {A} (l : list A) i a : get l i = Done a ↔ l !! i = Some a.
Proof. unfold get. destruct (l !! i); naive_solver. Qed.

Lemma get_some {A} (l : list A) i a : l !! i = Some a → get l i = Done a.
Proof. apply get_done. Qed.

Lemma put_done {A} (l l' : list A) i a :
  put l i a = Done l' ↔ i < length l ∧ l' = <[i := a]> l.
Proof.
  unfold put. destruct (l !! i) eqn:E.
  - apply lookup_lt_Some in E. naive_solver.
  - apply lookup_ge_None in E. split; [done|]. intros [? _]. lia.
Qed.

Lemma put_lt {A} (l : list A) i a : i < length l → put l i a = Done (<[i := a]> l).
Proof. intros. by apply put_done. Qed.

Lemma get_lt {A} (l : list A) i : i < length l → ∃ a, get l i = Done a ∧ l !! i = Some a.
Proof.
  intros [a Ha]%lookup_lt_is_Some. exists a. by rewrite (get_some _ _ _ Ha).
Qed.

Lemma runs_get {A} (l : list A) i (Q : A → Prop) :
  i < length l → (∀ a, l !! i = Some a → Q a) → runs (get l i) Q.
Proof. intros Hi HQ. destruct (get_lt l i Hi) as (a & -> & Ha). cbn. auto. Qed.

Lemma chk_done lo hi v r : chk lo hi v = Done r ↔ (lo ≤ v ≤ hi)%Z ∧ r = v.
Proof.
  unfold chk. destruct ((lo <=? v)%Z && (v <=? hi)%Z) eqn:E; split.
  - intros [= <-]. lia.
  - intros [_ ->]. done.
  - done.
  - intros [? _]. exfalso. lia.
Qed.

Lemma chk_in lo hi v : (lo ≤ v ≤ hi)%Z → chk lo hi v = Done v.
Proof. intros. by apply chk_done. Qed.

Lemma foldM_app {A St} (f : A → St → outcome St) l1 l2 s :
  foldM f (l1 ++ l2) s = obind (foldM f l1 s) (foldM f l2).
Proof.
  revert s. induction l1 as [|a l1 IH]; intros s; [done|].
  cbn [foldM app]. rewrite obind_assoc. apply obind_ext. intros. apply IH.
Qed.

(** Loop invariant rule: [I] is indexed by the processed prefix. *)
Lemma foldM_inv {A St} (I : list A → St → Prop) (f : A → St → outcome St) l s :
  I [] s →
  (∀ pre a post s', l = pre ++ a :: post → I pre s' →
     runs (f a s') (I (pre ++ [a]))) →
  runs (foldM f l s) (I l).
Proof.
  intros H0 Hstep.
  enough (∀ pre post s', l = pre ++ post → I pre s' →
            runs (foldM f post s') (I l)) as H by (by apply (H [])).
  intros pre post. revert pre. induction post as [|a post IH]; intros pre s' El HI.
  - rewrite app_nil_r in El. by subst.
  - cbn [foldM]. eapply runs_bind; [by eapply Hstep|]. cbn. intros s'' HI'.
    apply (IH (pre ++ [a])); [|done]. by rewrite <-app_assoc.
Qed.

(** Invariant rule for [for i in a..a+n]. *)
Lemma foldM_seq_inv {St} (I : nat → St → Prop) (f : nat → St → outcome St) a n s :
  I a s →
  (∀ i s', a ≤ i < a + n → I i s' → runs (f i s') (I (i + 1))) →
  runs (foldM f (seq a n) s) (I (a + n)).
Proof.
  revert a s. induction n as [|n IH]; intros a s H0 Hstep.
  - cbn. by replace (a + 0) with a by lia.
  - cbn [seq foldM]. eapply runs_bind; [apply Hstep; [lia|done]|].
    cbn. intros s' HI. replace (a + S n) with (S a + n) by lia.
    apply IH; [by replace (S a) with (a + 1) by lia|].
    intros i s'' Hi HI'. apply Hstep; [lia|done].
Qed.

Lemma foldM_ext {A St} (f g : A → St → outcome St) l s :
  (∀ a s', a ∈ l → f a s' = g a s') → foldM f l s = foldM g l s.
Proof.
  revert s. induction l as [|a l IH]; intros s H; [done|].
  cbn [foldM]. rewrite (H a s) by left. apply obind_ext. intros.
  apply IH. intros. apply H. by right.
Qed.

Lemma foldM_map {A B St} (g : A → B) (f : B → St → outcome St) l s :
  foldM f (map g l) s = foldM (λ a, f (g a)) l s.
Proof.
  revert s. induction l as [|a l IH]; intros s; [done|].
  cbn [foldM map]. apply obind_ext. intros. apply IH.
Qed.

Lemma foldM_concat {A St} (f : A → St → outcome St) ll s :
  foldM f (concat ll) s = foldM (λ l, foldM f l) ll s.
Proof.
  revert s. induction ll as [|l ll IH]; intros s; [done|].
  cbn [concat foldM]. rewrite foldM_app. apply obind_ext. intros. apply IH.
Qed.

(** The nested cell loops visit column indices [x + z * w] in increasing order. *)
Lemma for_cells_flat {St} w h (f : nat → nat → St → outcome St) s :
  for_cells w h f s =
  foldM (λ c, f (c mod w) (c / w)) (seq 0 (h * w)) s.
Proof.
  unfold for_cells. revert s. induction h as [|h IH]; intros s; [done|].
  rewrite seq_S, foldM_app.
  replace (S h * w) with (h * w + w) by lia.
  rewrite seq_app, foldM_app, IH. apply obind_ext. intros s' _.
  cbn [foldM]. rewrite obind_ret. cbn [plus].
  replace (seq (h * w) w) with (map (λ x, h * w + x) (seq 0 w)).
  - rewrite foldM_map. apply foldM_ext. intros x s'' Hx.
    apply elem_of_seq in Hx. f_equal.
    + rewrite Nat.add_comm, Nat.mod_add by lia. by rewrite Nat.mod_small by lia.
    + rewrite Nat.add_comm, Nat.div_add by lia. by rewrite Nat.div_small by lia.
  - pose proof (fmap_add_seq (h * w) 0 w) as E. rewrite Nat.add_0_r in E. exact E.
Qed.

(** Invariant rule for the nested cell loops, indexed by the column number. *)
Lemma for_cells_inv {St} (I : nat → St → Prop) w h (f : nat → nat → St → outcome St) s :
  I 0 s →
  (∀ x z s', x < w → z < h → I (x + z * w) s' →
     runs (f x z s') (I (x + z * w + 1))) →
  runs (for_cells w h f s) (I (w * h)).
Proof.
  intros H0 Hstep. rewrite for_cells_flat.
  replace (w * h) with (0 + h * w) by lia.
  apply foldM_seq_inv; [done|]. intros c s' Hc HI.
  assert (w ≠ 0) by lia.
  assert (c = c mod w + c / w * w) as Ec by (rewrite (Nat.div_mod_eq c w) at 1; lia).
  assert (c mod w < w) by (by apply Nat.mod_upper_bound).
  assert (c / w < h) by (apply Nat.div_lt_upper_bound; lia).
  rewrite Ec at 3. apply Hstep; [done|done|]. by rewrite <-Ec.
Qed.

(** [vec![a; n]]. *)
Lemma repeat_lookup {A} (a : A) n i : i < n → repeat a n !! i = Some a.
Proof. revert i. induction n as [|n IH]; intros [|i] H; cbn; [lia|lia|done|]. apply IH. lia. Qed.

Lemma repeat_lookup_Some {A} (a b : A) n i : repeat a n !! i = Some b ↔ b = a ∧ i < n.
Proof.
  split.
  - intros H. pose proof H as Hl%lookup_lt_Some. rewrite repeat_length in Hl.
    rewrite repeat_lookup in H by done. naive_solver.
  - intros [-> H]. by apply repeat_lookup.
Qed.
