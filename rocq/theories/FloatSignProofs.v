(** Signs of sums, products and quotients. *)
From Coq Require Import Floats.SpecFloat.
From Verif Require Import Base ModelMath FloatOrder.
Local Open Scope Z_scope.

Lemma normalize_pos m e : nonneg (binary_normalize 24 128 (Z.pos m) e false).
Proof. cbn. unfold binary_round. destruct (shl_align _ _ _) as [mz ez]. apply round_sign. Qed.
Lemma nonneg_of_Z z : 0 ≤ z → nonneg (f_of_Z z).
Proof. intros Hz. destruct z as [|p|p]; [done|apply normalize_pos|lia]. Qed.
Lemma nonneg_mul x y : nonneg x → nonneg y → nonneg (f_mul x y).
Proof.
  unfold nonneg. destruct x as [sx|[]| |[] mx ex]; intros Hx; try done; destruct y as [sy|[]| |[] my ey]; intros Hy; try done;
    try (by destruct sx); try (by destruct sy). apply round_sign.
Qed.
Lemma nonneg_add x y : nonneg x → nonneg y → nonneg (f_add x y).
Proof.
  unfold nonneg. destruct x as [sx|[]| |[] mx ex]; intros Hx; try done; destruct y as [sy|[]| |[] my ey]; intros Hy; try done;
    try (by destruct sx); try (by destruct sy); try (by destruct sx, sy).
  unfold f_add, SFadd. unfold cond_Zopp.
  match goal with |- context [binary_normalize _ _ ?z _ _] => destruct z as [|p|p] eqn:E end; [done|apply normalize_pos|].
  exfalso. destruct (shl_align mx ex _), (shl_align my ey _); cbn in E; lia.
Qed.
Lemma nonneg_div x y : nonneg x → f_lt f_zero y = true → nonneg (f_div x y).
Proof.
  unfold nonneg. destruct x as [sx|[]| |[] mx ex]; intros Hx; try done; destruct y as [sy|[]| |[] my ey]; intros Hy; try done;
    try (by destruct sx); try (by destruct sy); try (by destruct sx, sy).
  unfold f_div, SFdiv. destruct (SFdiv_core_binary _ _ _ _ _ _) as [[mz ez] lz]. apply round_sign.
Qed.
Lemma pos_nonneg x : f_lt f_zero x = true → nonneg x.
Proof. by destruct x as [[]|[]| |[] m e]. Qed.
Lemma cast_floor_nonneg lo hi x : lo ≤ 0 ≤ hi → nonneg x → 0 ≤ f_cast f_floor_Z lo hi x.
Proof.
  unfold nonneg. intros H Hx. destruct x as [s|[]| |[] m e]; cbn [f_cast]; unfold sat; try done; [lia|lia|].
  unfold f_floor_Z. assert (0 ≤ (if 0 <=? e then Z.pos m * 2 ^ e else Z.pos m / 2 ^ - e)); [|lia].
  case_match; [apply Z.mul_nonneg_nonneg; [lia|apply Z.pow_nonneg; lia]|apply Z.div_pos; [lia|apply Z.pow_pos_nonneg; lia]].
Qed.
