(** An abstraction of clipping: what is known of each vertex, and the finitely many
    polygons that an axis-aligned right triangle can become while it is clipped. *)
From Verif Require Import Base ClipProofs.
Local Open Scope nat_scope.

(** Where a vertex lies: before the line, on it, behind it. *)
Inductive sgn : Type := Before | Onto | Behind.
Definition upto (s : sgn) : bool := match s with Behind => false | _ => true end.

Section Sides.
Context {K : Type} (near : K → K) (cut : K → K → K).
(** The new vertex between [b] and [a]; if [b] is on the line it is [b] again. *)
Definition joint (b a : K * sgn) : K := match b.2 with Onto => near b.1 | _ => cut b.1 a.1 end.
Definition a_side1 (b a : K * sgn) : list K :=
  if negb (eqb (upto a.2) (upto b.2)) then joint b a :: (match a.2 with Before => [a.1] | _ => [] end)
  else if upto a.2 then [a.1] else [].
Definition a_side2 (b a : K * sgn) : list K :=
  if negb (eqb (upto a.2) (upto b.2)) then joint b a :: (match a.2 with Behind => [a.1] | _ => [] end)
  else match a.2 with Before => [] | Onto => [near a.1] | Behind => [a.1] end.
Definition a_part1 (l : list (K * sgn)) : list K := match last l with Some b => walk a_side1 b l | None => [] end.
Definition a_part2 (l : list (K * sgn)) : list K := match last l with Some b => walk a_side2 b l | None => [] end.
End Sides.

(** ** Along x *)

(** The x of the side that runs along z, the x of the third corner, some x, or an x
    before the next line. *)
Inductive xkind : Type := XSide | XTip | XAny | XNear.
(** The z of the corner apart from the side along x, the z of that side, or a z before
    the next line. *)
Inductive zkind : Type := ZTip | ZSide | ZNear.
#[global] Instance xkind_eq : EqDecision xkind. Proof. solve_decision. Defined.
#[global] Instance zkind_eq : EqDecision zkind. Proof. solve_decision. Defined.
Definition kind : Type := zkind * xkind.

Definition sgns : list sgn := [Before; Onto; Behind].
(** All ways the vertices of a polygon can lie to the line. *)
Fixpoint x_lies (r c : sgn) (l : list xkind) : list (list (xkind * sgn)) :=
  match l with
  | [] => [[]]
  | k :: l =>
    let rest := x_lies r c l in
    match k with
    | XSide => cons (k, r) <$> rest
    | XTip => cons (k, c) <$> rest
    | XNear => cons (k, Before) <$> rest
    | XAny => (cons (k, Before) <$> rest) ++ (cons (k, Onto) <$> rest) ++ (cons (k, Behind) <$> rest)
    end
  end.
Definition x_near (_ : xkind) : xkind := XNear.
Definition x_cut (_ _ : xkind) : xkind := XNear.

Definition z_lie (a b : sgn) (k : kind) : sgn := match k.1 with ZTip => a | ZSide => b | ZNear => Before end.
Definition z_lies (a b : sgn) (l : list kind) : list (kind * sgn) := (λ k, (k, z_lie a b k)) <$> l.
Definition z_near (k : kind) : kind := (ZNear, k.2).
Definition z_cut (b a : kind) : kind :=
  (ZNear, match b.2, a.2 with XSide, XSide => XSide | XTip, XTip => XTip | _, _ => XAny end).

(** ** The polygons *)

Section Known.
Context {A : Type} `{EqDecision A}.
Definition known (l : list A) (ls : list (list A)) : bool := existsb (λ l', bool_decide (l = l')) ls.
Lemma known_in l ls : known l ls = true → l ∈ ls.
Proof. intros H. apply existsb_exists in H as (l' & Hin & ->%bool_decide_eq_true). by apply elem_of_list_In. Qed.
Definition add_new (l : list A) (ls : list (list A)) : list (list A) := if known l ls then ls else l :: ls.
End Known.

Definition x_next (l : list xkind) : list (list xkind) :=
  flat_map (λ r, flat_map (λ c, a_part2 x_near x_cut <$> x_lies r c l) sgns) sgns.
Definition z_next (l : list kind) : list (list kind) :=
  flat_map (λ a, (λ b, a_part2 z_near z_cut (z_lies a b l)) <$> sgns) sgns.
Definition z_rows (l : list kind) : list (list xkind) :=
  flat_map (λ a, (λ b, snd <$> a_part1 z_near z_cut (z_lies a b l)) <$> sgns) sgns.
(** Follow [next] from the polygons to do, at most [n] times. *)
Fixpoint follow {A} `{EqDecision A} (n : nat) (next : list A → list (list A)) (todo seen : list (list A)) : list (list A) :=
  match n with
  | 0 => seen
  | S n =>
    match todo with
    | [] => seen
    | l :: todo =>
      let new := foldr add_new [] (filter (λ l', known l' seen = false) (next l)) in
      follow n next (new ++ todo) (new ++ seen)
    end
  end.

Definition z_starts : list (list kind) :=
  let a := (ZTip, XSide) in let b := (ZSide, XSide) in let c := (ZSide, XTip) in
  [[a; b; c]; [a; c; b]; [b; a; c]; [b; c; a]; [c; a; b]; [c; b; a]].
Definition z_polys : list (list kind) := Eval vm_compute in follow 100 z_next z_starts z_starts.
Definition x_starts : list (list xkind) := Eval vm_compute in foldr add_new [] (flat_map z_rows z_polys).
Definition x_polys : list (list xkind) := Eval vm_compute in follow 1000 x_next x_starts x_starts.

Definition x_fine (l : list xkind) : bool :=
  forallb (λ r, forallb (λ c, forallb (λ s,
    (length (a_part1 x_near x_cut s) <=? 7) && (length (a_part2 x_near x_cut s) <=? 7) && known (a_part2 x_near x_cut s) x_polys) (x_lies r c l)) sgns) sgns.
Definition z_fine (l : list kind) : bool :=
  forallb (λ a, forallb (λ b, let s := z_lies a b l in
    (length (a_part1 z_near z_cut s) <=? 7) && (length (a_part2 z_near z_cut s) <=? 7) &&
    known (a_part2 z_near z_cut s) z_polys && known (snd <$> a_part1 z_near z_cut s) x_polys) sgns) sgns.

Lemma z_all_fine : forallb z_fine z_polys = true.
Proof. vm_compute. reflexivity. Qed.
Lemma x_all_fine : forallb x_fine x_polys = true.
Proof. vm_compute. reflexivity. Qed.
Lemma starts_known : forallb (λ l, known l z_polys) z_starts = true.
Proof. vm_compute. reflexivity. Qed.

Lemma in_sgns s : In s sgns.
Proof. destruct s; cbn; tauto. Qed.
Lemma z_closed l a b : l ∈ z_polys → let s := z_lies a b l in
  length (a_part1 z_near z_cut s) ≤ 7 ∧ length (a_part2 z_near z_cut s) ≤ 7 ∧ a_part2 z_near z_cut s ∈ z_polys ∧ (snd <$> a_part1 z_near z_cut s) ∈ x_polys.
Proof.
  intros Hl s. pose proof z_all_fine as H. rewrite forallb_forall in H. apply elem_of_list_In in Hl. specialize (H l Hl). unfold z_fine in H.
  rewrite forallb_forall in H. specialize (H a (in_sgns a)). cbn beta in H. rewrite forallb_forall in H. specialize (H b (in_sgns b)). cbn beta zeta in H.
  fold s in H. apply andb_true_iff in H as [H H4%known_in]. apply andb_true_iff in H as [H H3%known_in]. apply andb_true_iff in H as [H1%Nat.leb_le H2%Nat.leb_le]. done.
Qed.
Lemma x_closed l r c s : l ∈ x_polys → s ∈ x_lies r c l →
  length (a_part1 x_near x_cut s) ≤ 7 ∧ length (a_part2 x_near x_cut s) ≤ 7 ∧ a_part2 x_near x_cut s ∈ x_polys.
Proof.
  intros Hl Hs. pose proof x_all_fine as H. rewrite forallb_forall in H. apply elem_of_list_In in Hl. specialize (H l Hl). unfold x_fine in H.
  rewrite forallb_forall in H. specialize (H r (in_sgns r)). cbn beta in H. rewrite forallb_forall in H. specialize (H c (in_sgns c)). cbn beta in H.
  rewrite forallb_forall in H. apply elem_of_list_In in Hs. specialize (H s Hs). cbn beta in H.
  apply andb_true_iff in H as [H H3%known_in]. apply andb_true_iff in H as [H1%Nat.leb_le H2%Nat.leb_le]. done.
Qed.
Lemma z_start l : l ∈ z_starts → l ∈ z_polys.
Proof. intros Hl. pose proof starts_known as H. rewrite forallb_forall in H. apply known_in, H. by apply elem_of_list_In. Qed.

(** A way to lie that is the same for vertices at the same x is among those listed. *)
Lemma x_lies_in r c (l : list (xkind * sgn)) :
  Forall (λ ks, match ks.1 with XSide => ks.2 = r | XTip => ks.2 = c | XNear => ks.2 = Before | XAny => True end) l → l ∈ x_lies r c (fst <$> l).
Proof.
  induction 1 as [|[k s] l Hk _ IH]; [left|]. cbn in Hk |- *. destruct k.
  - subst s. by apply elem_of_list_fmap_1.
  - subst s. by apply elem_of_list_fmap_1.
  - destruct s.
    + apply elem_of_app. left. by apply elem_of_list_fmap_1.
    + apply elem_of_app. right. apply elem_of_app. left. by apply elem_of_list_fmap_1.
    + apply elem_of_app. right. apply elem_of_app. right. by apply elem_of_list_fmap_1.
  - subst s. by apply elem_of_list_fmap_1.
Qed.

(** ** The abstraction follows the walk *)

Lemma walk_sound {A A' C C'} (R : A' → A → Prop) (Q : C' → C → Prop) (f' : A' → A' → list C') (f : A → A → list C) l' l : ∀ b' b,
  (∀ b' b a' a, R b' b → R a' a → Forall2 Q (f' b' a') (f b a)) → R b' b → Forall2 R l' l → Forall2 Q (walk f' b' l') (walk f b l).
Proof.
  intros b' b Hf Hb Hl. revert b' b Hb. induction Hl as [|a' a l' l Ha _ IH]; intros b' b Hb; cbn; [constructor|].
  apply Forall2_app; [by apply Hf|by apply IH].
Qed.
Lemma last_sound {A A'} (R : A' → A → Prop) l' l : Forall2 R l' l → match last l', last l with Some b', Some b => R b' b | None, None => True | _, _ => False end.
Proof.
  induction 1 as [|a' a l' l Ha Hl IH]; [done|]. destruct Hl as [|a2' a2 l2' l2 Ha2 Hl2]; [done|]. exact IH.
Qed.
