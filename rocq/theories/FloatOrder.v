(** The order of [f32] comparisons: [f_lt] is a strict weak order on the values
    that are not NaN. *)
From Verif Require Import Base ModelMath.
From Coq Require Import Floats.SpecFloat.
Local Open Scope Z_scope.

(** Comparable values as triples compared lexicographically. *)
Definition f_rank (x : f32) : option (Z * Z * Z) :=
  match x with
  | S754_zero _ => Some (0, 0, 0)
  | S754_infinity s => Some (if s then -2 else 2, 0, 0)
  | S754_nan => None
  | S754_finite s m e => Some (if s then (-1, - e, - Z.pos m) else (1, e, Z.pos m))
  end.
Definition rank_lt (a b : Z * Z * Z) : Prop :=
  let '(a1, a2, a3) := a in let '(b1, b2, b3) := b in
  a1 < b1 ∨ (a1 = b1 ∧ (a2 < b2 ∨ (a2 = b2 ∧ a3 < b3))).

Lemma f_lt_rank x y : f_lt x y = true ↔ ∃ a b, f_rank x = Some a ∧ f_rank y = Some b ∧ rank_lt a b.
Proof.
  assert (H : f_lt x y = true ↔ match f_rank x, f_rank y with Some a, Some b => rank_lt a b | _, _ => False end).
  { unfold f_lt, SFltb, SFcompare, f_rank, rank_lt.
    destruct x as [s|s| |s m e], y as [s'|s'| |s' m' e']; try (destruct s); try (destruct s'); try (split; [done || lia|done || lia]).
    - destruct (Z.compare_spec e e'); subst; cbn [CompOpp].
      + change (Pos.compare_cont Eq m m') with (Pos.compare m m'). destruct (Pos.compare_spec m m'); cbn [CompOpp]; subst; split; (done || lia).
      + split; (done || lia).
      + split; (done || lia).
    - destruct (Z.compare_spec e e'); subst; cbn [CompOpp].
      + change (Pos.compare_cont Eq m m') with (Pos.compare m m'). destruct (Pos.compare_spec m m'); subst; split; (done || lia).
      + split; (done || lia).
      + split; (done || lia). }
  rewrite H. destruct (f_rank x), (f_rank y); split; try done; try (intros (?&?&?&?&?); by simplify_eq); eauto.
Qed.

Lemma rank_lt_trans a b c : rank_lt a b → rank_lt b c → rank_lt a c.
Proof. destruct a as [[]], b as [[]], c as [[]]. unfold rank_lt. lia. Qed.
Lemma rank_lt_total a b c : rank_lt a c → rank_lt a b ∨ rank_lt b c.
Proof. destruct a as [[]], b as [[]], c as [[]]. unfold rank_lt. lia. Qed.

Lemma f_lt_trans x y z : f_lt x y = true → f_lt y z = true → f_lt x z = true.
Proof.
  rewrite !f_lt_rank. intros (a & b & Ha & Hb & Hab) (b' & c & Hb' & Hc & Hbc). simplify_eq.
  exists a, c. split; [done|]. split; [done|]. by eapply rank_lt_trans.
Qed.
(** Anything comparable lies below the larger or above the smaller. *)
Lemma f_lt_split x y z : is_Some (f_rank y) → f_lt x z = true → f_lt x y = true ∨ f_lt y z = true.
Proof.
  intros [b Hb]. rewrite !f_lt_rank. intros (a & c & Ha & Hc & Hac).
  destruct (rank_lt_total a b c Hac); [left; exists a, b|right; exists b, c]; done.
Qed.
Lemma f_lt_rank_r x y : f_lt x y = true → is_Some (f_rank y).
Proof. rewrite f_lt_rank. intros (a & b & _ & Hb & _). by exists b. Qed.

(** A square is not negative. *)
Definition nonneg (x : f32) : Prop := f_lt x f_zero = false.
Lemma round_sign m e l : nonneg (binary_round_aux 24 128 false m e l).
Proof.
  unfold nonneg, binary_round_aux. destruct (shr_fexp _ _ _ _ _) as [mrs' e']. destruct (shr_fexp _ _ _ _ _) as [mrs'' e''].
  destruct (shr_m mrs''); [done| |done]. by destruct (Z.leb _ _).
Qed.
Lemma f_square_nonneg x : nonneg (f_mul x x).
Proof.
  unfold nonneg. destruct x as [s|s| |s m e]; [by destruct s|by destruct s|done|].
  unfold f_mul, SFmul. rewrite xorb_nilpotent. apply round_sign.
Qed.
