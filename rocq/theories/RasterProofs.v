(** Rasterization of a triangle in exact arithmetic. *)
From Coq Require Import QArith Qround Lqa.
From Verif Require Import Base ModelMath ModelRasterize SpecRasterize ClipProofs ClipExact ClipCount.
Local Open Scope Z_scope.

(** ** Loops *)

Lemma foldE_seq {S} (f : Z → S → outcome (option S)) (I : Z → S → Prop) m : ∀ a i s, I (a + Z.of_nat i) s →
  (∀ k s, a + Z.of_nat i <= k < a + Z.of_nat i + Z.of_nat m → I k s → ∃ s', f k s = Done (Some s') ∧ I (k + 1) s') →
  ∃ s', foldE f ((λ i : nat, a + Z.of_nat i) <$> seq i m) s = Done (Some s') ∧ I (a + Z.of_nat i + Z.of_nat m) s'.
Proof.
  induction m as [|m IH]; intros a i s Hs Hf.
  - exists s. split; [done|]. by rewrite Z.add_0_r.
  - cbn [seq fmap list_fmap foldE]. destruct (Hf (a + Z.of_nat i) s) as (s' & -> & Hs'); [lia|done|]. cbn [obind].
    destruct (IH a (Datatypes.S i) s') as (s'' & E & H'').
    + replace (a + Z.of_nat (Datatypes.S i)) with (a + Z.of_nat i + 1) by lia. done.
    + intros k s0 Hk. apply Hf. lia.
    + exists s''. split; [done|]. by replace (a + Z.of_nat i + Z.of_nat (Datatypes.S m)) with (a + Z.of_nat (Datatypes.S i) + Z.of_nat m) by lia.
Qed.
Lemma foldE_range {S} (f : Z → S → outcome (option S)) (I : Z → S → Prop) a b s : I a s → a <= b + 1 →
  (∀ k s, a <= k <= b → I k s → ∃ s', f k s = Done (Some s') ∧ I (k + 1) s') →
  ∃ s', foldE f (z_range a b) s = Done (Some s') ∧ I (b + 1) s'.
Proof.
  intros Hs Hab Hf. unfold z_range. destruct (foldE_seq f I (Z.to_nat (b - a + 1)) a 0 s) as (s' & E & H).
  - by rewrite Z.add_0_r.
  - intros k s0 Hk. apply Hf. lia.
  - exists s'. split; [done|]. replace (b + 1) with (a + Z.of_nat 0 + Z.of_nat (Z.to_nat (b - a + 1))) by lia. done.
Qed.

(** ** Extents *)

Definition mn : Q → Q → Q := n_min exact_arith.
Definition mx : Q → Q → Q := n_max exact_arith.
Lemma Q_lt_true a b : Q_lt a b = true ↔ (a < b)%Q.
Proof.
  unfold Q_lt. rewrite negb_true_iff. split.
  - intros H. apply Qnot_le_lt. intros Hle. apply Qle_bool_iff in Hle. congruence.
  - intros H. apply not_true_iff_false. intros Hle. apply Qle_bool_iff in Hle. lra.
Qed.
Lemma Q_lt_false a b : Q_lt a b = false ↔ (b <= a)%Q.
Proof. unfold Q_lt. rewrite negb_false_iff. apply Qle_bool_iff. Qed.
Lemma mn_spec a b : (mn a b = a ∨ mn a b = b) ∧ (mn a b <= a)%Q ∧ (mn a b <= b)%Q.
Proof.
  unfold mn. cbn. unfold Q_min. destruct (Q_lt b a) eqn:E; [apply Q_lt_true in E|apply Q_lt_false in E]; (split; [by auto|]); split; lra.
Qed.
Lemma mx_spec a b : (mx a b = a ∨ mx a b = b) ∧ (a <= mx a b)%Q ∧ (b <= mx a b)%Q.
Proof.
  unfold mx. cbn. unfold Q_max. destruct (Q_lt a b) eqn:E; [apply Q_lt_true in E|apply Q_lt_false in E]; (split; [by auto|]); split; lra.
Qed.

Lemma mn_case a b : (mn a b = a ∧ (a <= b)%Q) ∨ (mn a b = b ∧ (b <= a)%Q).
Proof. unfold mn. cbn. unfold Q_min. destruct (Q_lt b a) eqn:E; [apply Q_lt_true in E; right|apply Q_lt_false in E; left]; (split; [done|lra]). Qed.
Lemma mx_case a b : (mx a b = a ∧ (b <= a)%Q) ∨ (mx a b = b ∧ (a <= b)%Q).
Proof. unfold mx. cbn. unfold Q_max. destruct (Q_lt a b) eqn:E; [apply Q_lt_true in E; right|apply Q_lt_false in E; left]; (split; [done|lra]). Qed.

Lemma extent_done (f : pt Q → Q) buf n : (0 < n)%nat → (n <= length buf)%nat →
  ∃ lo hi, extent exact_arith f buf n = Done (lo, hi) ∧ (∀ q, q ∈ take n buf → (lo <= f q <= hi)%Q) ∧
    (∃ q, q ∈ take n buf ∧ f q = lo) ∧ (∃ q, q ∈ take n buf ∧ f q = hi).
Proof.
  intros H0 Hn. unfold extent. destruct (get_lt buf 0) as (v0 & -> & Hv0); [lia|]. cbn [obind].
  assert (∀ m, (m < n)%nat → ∃ lo hi, foldM (λ i '(lo, hi), let! v := get buf i in Done (n_min exact_arith lo (f v), n_max exact_arith hi (f v))) (seq 1 m) (f v0, f v0) = Done (lo, hi) ∧
    (∀ q, q ∈ take (S m) buf → (lo <= f q <= hi)%Q) ∧ (∃ q, q ∈ take (S m) buf ∧ f q = lo) ∧ (∃ q, q ∈ take (S m) buf ∧ f q = hi)) as H.
  { induction m as [|m IH]; intros Hm.
    - exists (f v0), (f v0). rewrite (take_S_r buf 0 v0 Hv0). cbn [take app]. split; [done|]. split; [|split; exists v0; split; [left|done|left|done]].
      intros q Hq. apply elem_of_list_singleton in Hq as ->. split; lra.
    - destruct IH as (lo & hi & E & Hq & (ql & Hql & El) & (qh & Hqh & Eh)); [lia|].
      rewrite seq_S, foldM_app, E. cbn [obind foldM]. destruct (get_lt buf (1 + m)) as (v & -> & Hv); [lia|]. cbn [obind].
      fold (mn lo (f v)) (mx hi (f v)). exists (mn lo (f v)), (mx hi (f v)). split; [done|].
      rewrite (take_S_r buf (S m) v Hv). destruct (mn_spec lo (f v)) as (Hor & Hn1 & Hn2). destruct (mx_spec hi (f v)) as (Hor' & Hx1 & Hx2).
      split; [|split].
      + intros q Hq'. apply elem_of_app in Hq' as [Hq'|Hq']; [specialize (Hq q Hq'); split; lra|]. apply elem_of_list_singleton in Hq' as ->. split; lra.
      + destruct Hor as [->| ->]; [exists ql; split; [apply elem_of_app; by left|done]|exists v; split; [apply elem_of_app; right; left|done]].
      + destruct Hor' as [->| ->]; [exists qh; split; [apply elem_of_app; by left|done]|exists v; split; [apply elem_of_app; right; left|done]]. }
  destruct (H (n - 1)%nat) as (lo & hi & E & R); [lia|]. exists lo, hi. split; [done|]. by replace (S (n - 1)) with n in R by lia.
Qed.

(** ** Heights *)

Lemma floor_le q z : (inject_Z z <= q)%Q → z <= Qfloor q.
Proof. intros H. rewrite <- (Qfloor_Z z). by apply Qfloor_resp_le. Qed.
Lemma ceil_le q z : (q <= inject_Z z)%Q → Qceiling q <= z.
Proof. intros H. rewrite <- (Qceiling_Z z). by apply Qceiling_resp_le. Qed.

Lemma floor_lt q z : (q < inject_Z z)%Q → Qfloor q < z.
Proof. intros H. apply Z.nle_gt. intros Hle. pose proof (Qfloor_le q). assert (inject_Z z <= inject_Z (Qfloor q))%Q by (by rewrite <- Zle_Qle). lra. Qed.
Lemma mul_inv q ch : (0 < ch)%Q → (q * (1 / ch) == q / ch)%Q.
Proof. intros H. field. lra. Qed.
Lemma div_le a b ch : (0 < ch)%Q → (a <= b)%Q → (a / ch <= b / ch)%Q.
Proof. intros H Hab. unfold Qdiv. apply Qmult_le_compat_r; [done|]. apply Qlt_le_weak. by apply Qinv_lt_0_compat. Qed.
Lemma div_lt a b ch : (0 < ch)%Q → (a < b * ch)%Q → (a / ch < b)%Q.
Proof. intros H Hab. apply (Qmult_lt_r _ _ ch); [done|]. assert (a / ch * ch == a)%Q as -> by (field; lra). done. Qed.
Lemma div_0 ch : (0 / ch == 0)%Q.
Proof. unfold Qdiv. ring. Qed.

Section Heights.
Context (g : place Q).
Context (Hch : (0 < pl_ch g)%Q) (Htall : (py (pl_max g) - py (pl_min g) < 65535 * pl_ch g)%Q).

Lemma heights_done buf n : (0 < n)%nat → (n <= length buf)%nat →
  ∃ lo hi, (∀ q, q ∈ take n buf → (lo <= py q <= hi)%Q) ∧ (∃ q, q ∈ take n buf ∧ py q = lo) ∧ (∃ q, q ∈ take n buf ∧ py q = hi) ∧
  ((span_heights exact_arith g buf n = Done None ∧ ¬ ((py (pl_min g) <= hi)%Q ∧ (lo <= py (pl_max g))%Q)) ∨
   ∃ a b, span_heights exact_arith g buf n = Done (Some (a, b)) ∧ grid_heights g lo hi a b ∧ 0 <= a < b ∧ b <= 65535).
Proof.
  intros H0 Hn. destruct (extent_done py buf n H0 Hn) as (lo & hi & E & Hq & Hl & Hh). exists lo, hi. split; [done|]. split; [done|]. split; [done|].
  unfold span_heights. rewrite E. cbn [obind]. cbn [n_sub n_lt n_of_Z exact_arith]. change (inject_Z 0) with 0%Q. change (inject_Z 1) with 1%Q.
  set (bot := py (pl_min g)) in *. set (top := py (pl_max g)) in *. set (ch := pl_ch g) in *.
  destruct (Q_lt (hi - bot) 0 || Q_lt (top - bot) (lo - bot)) eqn:Eo.
  { left. split; [done|]. intros [H1 H2]. apply orb_true_iff in Eo as [Eo|Eo]; apply Q_lt_true in Eo; lra. }
  apply orb_false_iff in Eo as [E1 E2]. apply Q_lt_false in E1, E2. right.
  cbn [n_mul n_div n_floor_i32 n_ceil_i32 exact_arith]. fold (mx (lo - bot) 0) (mn (hi - bot) (top - bot)).
  set (fl := Qfloor (mx (lo - bot) 0 * (1 / ch))). set (ce := Qceiling (mn (hi - bot) (top - bot) * (1 / ch))).
  assert (fl = Z.max 0 (Qfloor ((lo - bot) / ch))) as Ef.
  { unfold fl. rewrite (Qfloor_comp _ _ (mul_inv _ ch Hch)). destruct (mx_case (lo - bot) 0) as [[-> M]|[-> M]].
    - symmetry. apply Z.max_r. apply floor_le. change (inject_Z 0) with 0%Q. rewrite <- (div_0 ch). by apply div_le.
    - rewrite (Qfloor_comp _ _ (div_0 ch)). change (Qfloor 0) with 0. symmetry. apply Z.max_l. change 0 with (Qfloor 0).
      apply Qfloor_resp_le. rewrite <- (div_0 ch). by apply div_le. }
  assert (ce = Z.min (Qceiling ((hi - bot) / ch)) (Qceiling ((top - bot) / ch))) as Ec.
  { unfold ce. rewrite (Qceiling_comp _ _ (mul_inv _ ch Hch)). destruct (mn_case (hi - bot) (top - bot)) as [[-> M]|[-> M]]; symmetry.
    - apply Z.min_l. apply Qceiling_resp_le. by apply div_le.
    - apply Z.min_r. apply Qceiling_resp_le. by apply div_le. }
  assert (fl < 65535) as Hfl.
  { rewrite Ef. apply Z.max_lub_lt; [lia|]. apply floor_lt. apply div_lt; [done|]. change (inject_Z 65535) with 65535%Q. lra. }
  assert (ce <= 65535) as Hce.
  { rewrite Ec. etrans; [apply Z.le_min_r|]. apply ceil_le. apply Qlt_le_weak. apply div_lt; [done|]. change (inject_Z 65535) with 65535%Q. lra. }
  assert (0 <= fl) as Hfl0 by lia.
  unfold clamp_Z. destruct (65535 <? 0) eqn:X; [lia|]. cbn [obind].
  assert (sat 0 65535 (sat (-2147483648) 2147483647 fl) = fl) as -> by (unfold sat; lia).
  destruct (65535 <? fl + 1) eqn:X2; [lia|]. cbn [obind].
  assert (sat (fl + 1) 65535 (sat (-2147483648) 2147483647 ce) = Z.max (fl + 1) ce) as -> by (unfold sat; lia).
  eexists _, _. split; [done|]. split; [|lia]. unfold grid_heights. fold bot top ch. split; [lra|]. split; [lra|]. split; [done|]. by rewrite Ec.
Qed.
End Heights.

(** ** Casting to cells *)

Definition tr (q : Q) : Z := Z.quot (Qnum q) (QDen q).
Lemma tr_pos q : (0 <= q)%Q → 0 <= tr q ∧ (inject_Z (tr q) <= q)%Q ∧ (q < inject_Z (tr q + 1))%Q.
Proof.
  destruct q as [n d]. unfold tr, Qle, Qlt. cbn. intros H. assert (0 <= n) as Hn by lia.
  rewrite Z.quot_div_nonneg by lia. pose proof (Z.div_mod n (Z.pos d)). pose proof (Z.mod_pos_bound n (Z.pos d)).
  assert (0 <= n / Z.pos d) by (apply Z.div_pos; lia). split; [done|]. split; lia.
Qed.
Lemma tr_neg q : (q <= 0)%Q → tr q <= 0 ∧ (inject_Z (tr q - 1) < q)%Q ∧ (q <= inject_Z (tr q))%Q.
Proof.
  destruct q as [n d]. unfold tr, Qle, Qlt. cbn. intros H. assert (n <= 0) as Hn by lia.
  assert (Z.quot n (Z.pos d) = - (- n / Z.pos d)) as ->.
  { rewrite <- (Z.opp_involutive n) at 1. rewrite Z.quot_opp_l by lia. rewrite Z.quot_div_nonneg by lia. done. }
  pose proof (Z.div_mod (- n) (Z.pos d)). pose proof (Z.mod_pos_bound (- n) (Z.pos d)).
  assert (0 <= - n / Z.pos d) by (apply Z.div_pos; lia). split; [lia|]. split; lia.
Qed.

Section Values.
Context (lo cs : Q) (Hcs : (0 < cs)%Q).
Definition val (m : Q) : Q := ((m - lo) * (1 / cs))%Q.
Lemma val_mul m : (val m * cs == m - lo)%Q.
Proof. unfold val. field. lra. Qed.
Lemma line_le k m : (line lo cs k <= m)%Q ↔ (inject_Z k <= val m)%Q.
Proof.
  rewrite <- (Qmult_le_r (inject_Z k) (val m) cs) by done. rewrite val_mul. unfold line. split; intros; lra.
Qed.
Lemma line_lt k m : (line lo cs k < m)%Q ↔ (inject_Z k < val m)%Q.
Proof.
  rewrite <- (Qmult_lt_r (inject_Z k) (val m) cs) by done. rewrite val_mul. unfold line. split; intros; lra.
Qed.
Lemma lt_line k m : (m < line lo cs k)%Q ↔ (val m < inject_Z k)%Q.
Proof.
  rewrite <- (Qmult_lt_r (val m) (inject_Z k) cs) by done. rewrite val_mul. unfold line. split; intros; lra.
Qed.
Lemma val_mono a b : (a <= b)%Q → (val a <= val b)%Q.
Proof. intros H. rewrite <- (Qmult_le_r (val a) (val b) cs) by done. rewrite !val_mul. lra. Qed.
(** The cell of the largest coordinate is at least that of a point above a line. *)
Lemma cell_of_max k p m : 0 <= k → (line lo cs k < p)%Q → (p <= m)%Q → k <= tr (val m).
Proof.
  intros Hk Hp Hm. apply line_lt in Hp. pose proof (val_mono p m Hm) as Hv.
  assert (0 <= inject_Z k)%Q as H0 by (change 0%Q with (inject_Z 0); by rewrite <- Zle_Qle).
  destruct (tr_pos (val m)) as (_ & _ & H); [lra|]. assert (inject_Z k < inject_Z (tr (val m) + 1))%Q as H' by lra. rewrite <- Zlt_Qlt in H'. lia.
Qed.
Lemma cell_of_min k p m : 0 <= k → (p < line lo cs (k + 1))%Q → (m <= p)%Q → tr (val m) <= k.
Proof.
  intros Hk Hp Hm. apply lt_line in Hp. pose proof (val_mono m p Hm) as Hv.
  destruct (Qlt_le_dec (val m) 0) as [Hn|Hn].
  - destruct (tr_neg (val m)); [lra|]. lia.
  - destruct (tr_pos (val m) Hn) as (_ & H & _). assert (inject_Z (tr (val m)) < inject_Z (k + 1))%Q as H' by lra. rewrite <- Zlt_Qlt in H'. lia.
Qed.
(** A positive cell lies below the coordinate. *)
Lemma line_of_cell k m : 1 <= k → k <= tr (val m) → (line lo cs k <= m)%Q.
Proof.
  intros Hk Ht. apply line_le. destruct (Qlt_le_dec (val m) 0) as [Hn|Hn].
  - destruct (tr_neg (val m)); [lra|]. lia.
  - destruct (tr_pos (val m) Hn) as (_ & H & _). assert (inject_Z k <= inject_Z (tr (val m)))%Q by (by rewrite <- Zle_Qle). lra.
Qed.
Lemma line_of_cell0 k m : (lo <= m)%Q → k <= tr (val m) → (line lo cs k <= m)%Q.
Proof.
  intros Hm Ht. apply line_le. assert (0 <= val m)%Q as Hn.
  { change 0%Q with (inject_Z 0). apply line_le. unfold line. change (inject_Z 0) with 0%Q. lra. }
  destruct (tr_pos (val m) Hn) as (_ & H & _). assert (inject_Z k <= inject_Z (tr (val m)))%Q by (by rewrite <- Zle_Qle). lra.
Qed.
End Values.

(** The line as the code computes it. *)
Definition cutl (lo cs : Q) (k : Z) : Q := (lo + inject_Z k * cs + cs)%Q.
Lemma cutl_line lo cs k : (cutl lo cs k == line lo cs (k + 1))%Q.
Proof. unfold cutl, line. rewrite inject_Z_plus. change (inject_Z 1) with 1%Q. ring. Qed.
Lemma cutl_mono lo cs j k : (0 < cs)%Q → j < k → (cutl lo cs j < cutl lo cs k)%Q.
Proof.
  intros Hcs H. unfold cutl. rewrite Zlt_Qlt in H. assert (inject_Z j * cs < inject_Z k * cs)%Q by (by apply Qmult_lt_compat_r). lra.
Qed.

(** ** Regions *)

Definition mean_closed (S : pt Q → Prop) : Prop :=
  ∀ p q r s, S p → S q → (0 <= s <= 1)%Q → (px r == (1 - s) * px p + s * px q)%Q → (py r == (1 - s) * py p + s * py q)%Q → (pz r == (1 - s) * pz p + s * pz q)%Q → S r.
Lemma tri_mean t : mean_closed (in_tri t).
Proof.
  intros p q r s (u & v & w & Hu & Hv & Hw & H1 & Hx & Hy & Hz) (u' & v' & w' & Hu' & Hv' & Hw' & H1' & Hx' & Hy' & Hz') Hs Rx Ry Rz.
  exists ((1 - s) * u + s * u')%Q, ((1 - s) * v + s * v')%Q, ((1 - s) * w + s * w')%Q.
  assert (∀ a b, 0 <= a → 0 <= b → 0 <= (1 - s) * a + s * b)%Q as Hp.
  { intros a b Ha Hb. assert (0 <= (1 - s) * a)%Q by (apply Qmult_le_0_compat; lra). assert (0 <= s * b)%Q by (apply Qmult_le_0_compat; lra). lra. }
  split; [by apply Hp|]. split; [by apply Hp|]. split; [by apply Hp|]. split.
  - assert ((1 - s) * u + s * u' + ((1 - s) * v + s * v') + ((1 - s) * w + s * w') == (1 - s) * (u + v + w) + s * (u' + v' + w'))%Q as -> by ring.
    rewrite H1, H1'. ring.
  - rewrite Rx, Ry, Rz, Hx, Hy, Hz, Hx', Hy', Hz'. split; [ring|]. split; ring.
Qed.
Lemma tri_hull t p : in_tri t p → in_hull [t.1.1; t.1.2; t.2] p.
Proof.
  intros (u & v & w & Hu & Hv & Hw & H1 & Hx & Hy & Hz) g Hg.
  assert (ev g p == u * ev g t.1.1 + v * ev g t.1.2 + w * ev g t.2 + g_d g * (1 - (u + v + w)))%Q as -> by (unfold ev; rewrite Hx, Hy, Hz; ring).
  rewrite H1. assert (ev g t.1.1 <= 0 ∧ ev g t.1.2 <= 0 ∧ ev g t.2 <= 0)%Q as (A & B & C).
  { split; [apply Hg; left|]. split; apply Hg; [right; left|right; right; left]. }
  assert (u * ev g t.1.1 <= 0)%Q by nra. assert (v * ev g t.1.2 <= 0)%Q by nra. assert (w * ev g t.2 <= 0)%Q by nra. lra.
Qed.
Lemma tri_corner t q : q ∈ [t.1.1; t.1.2; t.2] → in_tri t q.
Proof.
  intros Hq. apply elem_of_cons in Hq as [->|Hq]; [|apply elem_of_cons in Hq as [->|Hq]; [|apply elem_of_list_singleton in Hq as ->]].
  - exists 1%Q, 0%Q, 0%Q. repeat split; lra || ring.
  - exists 0%Q, 1%Q, 0%Q. repeat split; lra || ring.
  - exists 0%Q, 0%Q, 1%Q. repeat split; lra || ring.
Qed.

(** [l] is the part of the triangle in the region [Rg]. *)
Definition clip_of (t : tri3) (Rg : pt Q → Prop) (l : list (pt Q)) : Prop :=
  convex l ∧ (∀ q, q ∈ l → in_tri t q ∧ Rg q) ∧ (∀ p, in_tri t p → Rg p → in_hull l p).
Lemma clip_start t : clip_of t (λ _, True) [t.1.1; t.1.2; t.2].
Proof.
  split; [apply triangle_convex|]. split; [intros q Hq; split; [by apply tri_corner|done]|]. intros p Hp _. by apply tri_hull.
Qed.
Lemma clip_part c ax t Rg l : mean_closed Rg → clip_of t Rg l →
  clip_of t (λ p, Rg p ∧ (on ax p <= c)%Q) (part1e c ax l) ∧ clip_of t (λ p, Rg p ∧ (c <= on ax p)%Q) (part2e c ax l).
Proof.
  intros Hm (Hcv & Hv & Hh). destruct (part_convex c ax l Hcv) as [C1 C2].
  destruct (part_closed c ax (λ p, in_tri t p ∧ Rg p) l) as [P1 P2].
  { intros p q r s [Tp Rp] [Tq Rq] Hs Hx Hy Hz. split; [by eapply (tri_mean t p q r s)|by eapply (Hm p q r s)]. }
  { done. }
  split.
  - split; [done|]. split; [intros q Hq; destruct (P1 q Hq) as [[? ?] ?]; done|]. intros p Tp [Rp Hc]. by apply (cut_hull c ax l p Hcv (Hh p Tp Rp)).
  - split; [done|]. split; [intros q Hq; destruct (P2 q Hq) as [[? ?] ?]; done|]. intros p Tp [Rp Hc]. by apply (cut_hull c ax l p Hcv (Hh p Tp Rp)).
Qed.
Lemma clip_ext t Rg Rg' l : (∀ p, Rg p ↔ Rg' p) → clip_of t Rg l → clip_of t Rg' l.
Proof.
  intros H (Hcv & Hv & Hh). split; [done|]. split; [intros q Hq; rewrite <- H; by apply Hv|]. intros p Tp Rp. apply Hh; [done|]. by apply H.
Qed.

Definition ge_opt (o : option Q) (v : Q) : Prop := match o with None => True | Some c => (c <= v)%Q end.
Definition gt_opt (o : option Q) (v : Q) : Prop := match o with None => True | Some c => (c < v)%Q end.
Lemma mean_ge ax o : mean_closed (λ p, ge_opt o (on ax p)).
Proof.
  intros p q r s Hp Hq Hs Hx Hy Hz. destruct o as [c|]; [|done]. cbn in *.
  assert (on ax r == (1 - s) * on ax p + s * on ax q)%Q as -> by (by destruct ax). nra.
Qed.
Lemma mean_le ax c : mean_closed (λ p, on ax p <= c)%Q.
Proof.
  intros p q r s Hp Hq Hs Hx Hy Hz. cbn in *.
  assert (on ax r == (1 - s) * on ax p + s * on ax q)%Q as -> by (by destruct ax). nra.
Qed.
Lemma mean_and S S' : mean_closed S → mean_closed S' → mean_closed (λ p, S p ∧ S' p).
Proof. intros H H' p q r s [] [] Hs Hx Hy Hz. split; [by eapply (H p q r s)|by eapply (H' p q r s)]. Qed.

(** ** Cutting off cell after cell *)

(** What is left of the triangle inside [Rg] beyond the line [o]. *)
Definition stage (t : tri3) (k : nat) (ax : axis) (Rg : pt Q → Prop) (o : option Q) (l : list (pt Q)) : Prop :=
  clip_of t (λ p, Rg p ∧ ge_opt o (on ax p)) l ∧ slim k ax o l ∧ l ≠ [] ∧
  (∀ p, in_tri t p → Rg p → gt_opt o (on ax p) → (3 <= length l)%nat).
Lemma gt_ge o v : gt_opt o v → ge_opt o v.
Proof. destruct o; cbn; [lra|done]. Qed.
Lemma gt_trans o c v : (∀ c', o = Some c' → (c' < c)%Q) → (c <= v)%Q → gt_opt o v.
Proof. intros H Hv. destruct o as [c'|]; [|done]. cbn. specialize (H c' eq_refl). lra. Qed.
Lemma stage_cut t k ax Rg o l c : mean_closed Rg → (1 <= k)%nat → stage t k ax Rg o l → (∀ c', o = Some c' → (c' < c)%Q) →
  (length (part1e c ax l) <= k + 2)%nat ∧ (length (part2e c ax l) <= k + 1)%nat ∧
  clip_of t (λ p, (Rg p ∧ ge_opt o (on ax p)) ∧ (on ax p <= c)%Q) (part1e c ax l) ∧
  (part2e c ax l ≠ [] → stage t k ax Rg (Some c) (part2e c ax l)) ∧
  (∀ p, in_tri t p → Rg p → gt_opt o (on ax p) → (on ax p < c)%Q → (3 <= length (part1e c ax l))%nat) ∧
  (∀ p, in_tri t p → Rg p → (c <= on ax p)%Q → part2e c ax l ≠ []).
Proof.
  intros Hm Hk (Hclip & Hslim & Hne & H3) Hc.
  destruct (clip_part c ax t _ l (mean_and _ _ Hm (mean_ge ax o)) Hclip) as [C1 C2]. pose proof (proj1 Hclip) as Hcv.
  pose proof (slim_part2 k ax o c l Hk Hcv Hslim Hc) as S2.
  pose proof (part1_length c ax l Hcv). pose proof (slim_length _ _ _ _ Hslim). pose proof (slim_length _ _ _ _ S2).
  split; [lia|]. split; [lia|]. split; [done|]. split; [|split].
  - intros Hne2. split; [|split; [done|split; [done|]]].
    + apply (clip_ext t _ _ _ (λ p, conj (λ H, conj (proj1 (proj1 H)) (proj2 H)) (λ H, conj (conj (proj1 H) (gt_ge _ _ (gt_trans o c (on ax p) Hc (proj2 H)))) (proj2 H))) C2).
    + intros p Tp Rp Hgt. cbn in Hgt. assert (gt_opt o (on ax p)) as Hg by (apply (gt_trans o c); [done|lra]).
      destruct (hull_high c ax l p) as (q & Hq & Hqc); [|done|].
      { apply Hclip; [done|]. split; [done|]. by apply gt_ge. }
      apply (part2_three c ax l q); [done|done|done|]. by apply (H3 p).
  - intros p Tp Rp Hg Hlt. destruct (hull_low c ax l p) as (q & Hq & Hqc); [|done|].
    { apply Hclip; [done|]. split; [done|]. by apply gt_ge. }
    apply (part1_three c ax l q); [done|done|done|]. by apply (H3 p).
  - intros p Tp Rp Hle. apply (hull_nonempty _ p). apply C2; [done|]. split; [|done]. split; [done|]. apply gt_ge. by apply (gt_trans o c).
Qed.

Definition low (f : Z → Q) (k0 k : Z) : option Q := if k =? k0 then None else Some (f (k - 1)).
Lemma low_first f k : low f k k = None.
Proof. unfold low. by rewrite Z.eqb_refl. Qed.
Lemma low_next f k0 k : k0 <= k → low f k0 (k + 1) = Some (f k).
Proof. intros H. unfold low. destruct (k + 1 =? k0) eqn:E; [lia|]. by replace (k + 1 - 1) with k by lia. Qed.
Lemma low_cut lo cs k0 k : (0 < cs)%Q → ∀ c', low (cutl lo cs) k0 k = Some c' → (c' < cutl lo cs k)%Q.
Proof. intros H c'. unfold low. destruct (k =? k0); [done|]. intros [= <-]. apply cutl_mono; [done|lia]. Qed.
