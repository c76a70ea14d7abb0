(** Bit packing of compact spans. *)
From Verif Require Import Base ModelMath ModelHeightfield ModelCompact.
Local Open Scope Z_scope.

Lemma testbit_wrap32 a n : 0 ≤ n → Z.testbit (wrap_u32 a) n = (n <? 32) && Z.testbit a n.
Proof.
  intros Hn. unfold wrap_u32. change 4294967296 with (2 ^ 32).
  destruct (Z.ltb_spec n 32).
  - by rewrite Z.mod_pow2_bits_low.
  - by rewrite Z.mod_pow2_bits_high by lia.
Qed.

Lemma testbit_63 n : 0 ≤ n → Z.testbit 63 n = (n <? 6).
Proof.
  intros. change 63 with (Z.ones 6). rewrite Z.testbit_ones_nonneg by lia. done.
Qed.

Lemma testbit_set_con data d nb n :
  0 ≤ n → (d < 4)%nat →
  let v := match nb with Some v => v | None => 63 end in
  Z.testbit (set_con_bits data d nb) n =
  if (6 * Z.of_nat d <=? n) && (n <? 6 * Z.of_nat d + 6)
  then Z.testbit v (n - 6 * Z.of_nat d) else Z.testbit data n.
Proof.
  intros Hn Hd v. unfold set_con_bits, NOT_CONNECTED. fold v.
  rewrite Z.lor_spec, Z.ldiff_spec, !testbit_wrap32 by done.
  rewrite !Z.shiftl_spec by done. rewrite Z.land_spec.
  replace (n - Z.of_nat d * 6) with (n - 6 * Z.of_nat d) by lia.
  destruct (Z.leb_spec (6 * Z.of_nat d) n).
  - rewrite testbit_63 by lia. cbn [andb].
    destruct (Z.ltb_spec n (6 * Z.of_nat d + 6)).
    + replace (n <? 32) with true by lia. replace (n - 6 * Z.of_nat d <? 6) with true by lia.
      cbn. by rewrite andb_false_r, andb_true_r.
    + replace (n - 6 * Z.of_nat d <? 6) with false by lia. cbn.
      by rewrite !andb_false_r, andb_true_r, orb_false_r.
  - cbn [andb]. rewrite !(Z.testbit_neg_r _ (n - _)) by lia.
    by rewrite !andb_false_r, andb_true_r, orb_false_r.
Qed.

Lemma testbit_con data d n :
  0 ≤ n → Z.testbit (Z.land (Z.shiftr data (Z.of_nat d * 6)) 63) n =
  (n <? 6) && Z.testbit data (n + 6 * Z.of_nat d).
Proof.
  intros. rewrite Z.land_spec, Z.shiftr_spec, testbit_63 by done.
  by rewrite andb_comm, (Z.mul_comm (Z.of_nat d) 6).
Qed.

Lemma con_raw_same data d nb :
  (d < 4)%nat →
  Z.land (Z.shiftr (set_con_bits data d nb) (Z.of_nat d * 6)) 63 =
  Z.land (match nb with Some v => v | None => 63 end) 63.
Proof.
  intros Hd. apply Z.bits_inj'. intros n Hn.
  rewrite testbit_con, testbit_set_con, Z.land_spec, testbit_63 by lia.
  destruct (Z.ltb_spec n 6); [|by rewrite andb_false_r].
  replace ((6 * Z.of_nat d <=? n + 6 * Z.of_nat d) && (n + 6 * Z.of_nat d <? 6 * Z.of_nat d + 6)) with true by lia.
  rewrite andb_true_r. cbn. f_equal. lia.
Qed.

Lemma con_raw_other data d d' nb :
  (d < 4)%nat → (d' < 4)%nat → d ≠ d' →
  Z.land (Z.shiftr (set_con_bits data d nb) (Z.of_nat d' * 6)) 63 =
  Z.land (Z.shiftr data (Z.of_nat d' * 6)) 63.
Proof.
  intros Hd Hd' Hne. apply Z.bits_inj'. intros n Hn.
  rewrite !testbit_con, testbit_set_con by lia.
  destruct (Z.ltb_spec n 6); [|done].
  replace ((6 * Z.of_nat d <=? n + 6 * Z.of_nat d') && (n + 6 * Z.of_nat d' <? 6 * Z.of_nat d + 6)) with false by lia.
  done.
Qed.

Lemma con_set_none data d : (d < 4)%nat → con_bits (set_con_bits data d None) d = None.
Proof. intros. unfold con_bits, NOT_CONNECTED. rewrite con_raw_same by done. reflexivity. Qed.

(** Values are kept modulo 64. *)
Lemma con_set_wrap data d v :
  (d < 4)%nat → con_bits (set_con_bits data d (Some v)) d =
  if v mod 64 =? 63 then None else Some (v mod 64).
Proof.
  intros Hd. unfold con_bits, NOT_CONNECTED. rewrite con_raw_same by done.
  replace (Z.land v 63) with (v mod 64); [done|].
  change 63 with (Z.ones 6). by rewrite Z.land_ones by lia.
Qed.

Lemma con_set_some data d v :
  (d < 4)%nat → 0 ≤ v < 63 → con_bits (set_con_bits data d (Some v)) d = Some v.
Proof.
  intros Hd Hv. rewrite con_set_wrap by done. rewrite Z.mod_small by lia.
  destruct (Z.eqb_spec v 63); [lia|done].
Qed.

Lemma con_set_other data d d' nb :
  (d < 4)%nat → (d' < 4)%nat → d ≠ d' →
  con_bits (set_con_bits data d nb) d' = con_bits data d'.
Proof. intros. unfold con_bits, NOT_CONNECTED. by rewrite con_raw_other. Qed.

Lemma testbit_height data n : 0 ≤ n →
  Z.testbit (height_bits data) n = (n <? 8) && Z.testbit data (n + 24).
Proof.
  intros. unfold height_bits, wrap_u8. change 256 with (2 ^ 8).
  destruct (Z.ltb_spec n 8).
  - by rewrite Z.mod_pow2_bits_low, Z.shiftr_spec.
  - by rewrite Z.mod_pow2_bits_high by lia.
Qed.

Lemma height_set_con data d nb :
  (d < 4)%nat → height_bits (set_con_bits data d nb) = height_bits data.
Proof.
  intros Hd. apply Z.bits_inj'. intros n Hn. rewrite !testbit_height, testbit_set_con by lia.
  destruct (Z.ltb_spec n 8); [|done].
  replace ((6 * Z.of_nat d <=? n + 24) && (n + 24 <? 6 * Z.of_nat d + 6)) with false by lia. done.
Qed.

Lemma testbit_set_height data h n :
  0 ≤ n → Z.testbit (set_height_bits data h) n =
  if n <? 24 then Z.testbit data n else (n <? 32) && Z.testbit h (n - 24).
Proof.
  intros Hn. unfold set_height_bits. change 16777215 with (Z.ones 24).
  rewrite Z.lor_spec, Z.land_spec, testbit_wrap32, Z.shiftl_spec, Z.testbit_ones_nonneg by lia.
  destruct (Z.ltb_spec n 24).
  - rewrite (Z.testbit_neg_r h) by lia. by rewrite andb_false_r, andb_true_r, orb_false_r.
  - by rewrite andb_false_r.
Qed.

Lemma height_set_height data h : 0 ≤ h ≤ 255 → height_bits (set_height_bits data h) = h.
Proof.
  intros Hh. apply Z.bits_inj'. intros n Hn. rewrite testbit_height, testbit_set_height by lia.
  replace (n + 24 <? 24) with false by lia. replace (n + 24 - 24) with n by lia.
  destruct (Z.ltb_spec n 8).
  - replace (n + 24 <? 32) with true by lia. done.
  - symmetry. cbn. apply Z.bits_above_log2; [lia|].
    destruct (decide (h = 0)) as [->|]; [cbn; lia|].
    apply Z.log2_lt_pow2; [lia|]. apply Z.lt_le_trans with (2 ^ 8); [lia|].
    apply Z.pow_le_mono_r; lia.
Qed.

Lemma con_set_height data h d : (d < 4)%nat → con_bits (set_height_bits data h) d = con_bits data d.
Proof.
  intros Hd. unfold con_bits, NOT_CONNECTED.
  assert (E : Z.land (Z.shiftr (set_height_bits data h) (Z.of_nat d * 6)) 63 =
              Z.land (Z.shiftr data (Z.of_nat d * 6)) 63).
  { apply Z.bits_inj'. intros n Hn. rewrite !testbit_con by lia.
    destruct (Z.ltb_spec n 6); [|done]. rewrite testbit_set_height by lia.
    replace (n + 6 * Z.of_nat d <? 24) with true by lia. done. }
  by rewrite E.
Qed.

Lemma height_range data : 0 ≤ height_bits data ≤ 255.
Proof. unfold height_bits, wrap_u8. lia. Qed.

Lemma con_range data d v : con_bits data d = Some v → 0 ≤ v < 63.
Proof.
  unfold con_bits, NOT_CONNECTED.
  replace (Z.land (Z.shiftr data (Z.of_nat d * 6)) 63) with (Z.shiftr data (Z.of_nat d * 6) mod 64)
    by (change 63 with (Z.ones 6); by rewrite Z.land_ones by lia).
  destruct (Z.eqb_spec (Z.shiftr data (Z.of_nat d * 6) mod 64) 63); [done|].
  intros [= <-]. pose proof (Z.mod_pos_bound (Z.shiftr data (Z.of_nat d * 6)) 64). lia.
Qed.

(** The packed word stays a 32-bit word. *)
Lemma word_bits a : 0 ≤ a → (∀ n, 32 ≤ n → Z.testbit a n = false) → a < 2 ^ 32.
Proof.
  intros Ha Hb. destruct (decide (a = 0)) as [->|]; [lia|].
  apply Z.log2_lt_pow2; [lia|]. destruct (Z.lt_ge_cases (Z.log2 a) 32); [done|].
  exfalso. assert (Z.testbit a (Z.log2 a) = true) by (apply Z.bit_log2; lia).
  rewrite Hb in *; [done|lia].
Qed.

Lemma set_con_word data d nb :
  (d < 4)%nat → 0 ≤ data < 2 ^ 32 → 0 ≤ set_con_bits data d nb < 2 ^ 32.
Proof.
  intros Hd Hr. assert (0 ≤ set_con_bits data d nb) as H0.
  { unfold set_con_bits. apply Z.lor_nonneg. split.
    - apply Z.ldiff_nonneg. lia.
    - unfold wrap_u32. lia. }
  split; [done|]. apply word_bits; [done|]. intros n Hn. rewrite testbit_set_con by lia.
  replace ((6 * Z.of_nat d <=? n) && (n <? 6 * Z.of_nat d + 6)) with false by lia.
  apply Z.bits_above_log2; [lia|]. destruct (decide (data = 0)) as [->|]; [cbn; lia|].
  apply Z.lt_le_trans with 32; [|lia]. apply Z.log2_lt_pow2; lia.
Qed.

Lemma set_height_word data h : 0 ≤ data < 2 ^ 32 → 0 ≤ set_height_bits data h < 2 ^ 32.
Proof.
  intros Hr. assert (0 ≤ set_height_bits data h) as H0.
  { unfold set_height_bits. apply Z.lor_nonneg. split.
    - apply Z.land_nonneg. lia.
    - unfold wrap_u32. lia. }
  split; [done|]. apply word_bits; [done|]. intros n Hn. rewrite testbit_set_height by lia.
  replace (n <? 24) with false by lia. replace (n <? 32) with false by lia. done.
Qed.
