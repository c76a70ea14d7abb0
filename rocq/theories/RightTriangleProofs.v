(** Clipping an axis-aligned right triangle in f32 never needs more than seven slots. *)
From Coq Require Import Reals Lra.
From Flocq Require Import Core.Core.
From Verif Require Import Base ModelMath ModelRasterize FloatReal FloatSpotProofs CameraProofs FlowProofs ClipProofs ClipStates FloatClipProofs RasterSafe.
Local Open Scope R_scope.

Lemma fin_zero : fin (f_of_Z 0) ∧ f_R (f_of_Z 0) = 0.
Proof. destruct (f_of_Z_R 0 ltac:(lia)) as [E F]. split; [split; [apply f_of_Z_valid|done]|done]. Qed.

(** ** One line *)

Section Line.
Context (M : R) (HM : 1 <= M) (HMb : 8 * M <= f_big).
Context (L : f32) (FL : fin L) (BL : Rabs (f_R L) <= M) (ax : axis).
Local Notation d := (dist f32_arith L ax).

Definition lie (p : pt f32) : sgn :=
  if Rlt_dec 0 (f_R (d p)) then Before else if Rlt_dec (f_R (d p)) 0 then Behind else Onto.
Definition usable (p : pt f32) : Prop := fin (on ax p) ∧ Rabs (f_R (on ax p)) <= M.

Lemma lie_tests p : usable p →
  n_le f32_arith (n_of_Z f32_arith 0) (d p) = upto (lie p) ∧
  n_lt f32_arith (n_of_Z f32_arith 0) (d p) = match lie p with Before => true | _ => false end ∧
  n_lt f32_arith (d p) (n_of_Z f32_arith 0) = match lie p with Behind => true | _ => false end ∧
  n_eq f32_arith (d p) (n_of_Z f32_arith 0) = match lie p with Onto => true | _ => false end.
Proof.
  intros [Fp Bp]. destruct (dist_ok M HM HMb L FL BL _ Fp Bp) as (Fd & _). destruct fin_zero as [F0 E0].
  change (n_le f32_arith) with f_le. change (n_lt f32_arith) with f_lt. change (n_eq f32_arith) with f_eq. change (n_of_Z f32_arith 0) with (f_of_Z 0).
  change (fin (d p)) in Fd. pose proof (le_iff _ _ F0 Fd) as H1. pose proof (lt_iff _ _ F0 Fd) as H2. pose proof (lt_iff _ _ Fd F0) as H3. pose proof (eq_iff _ _ Fd F0) as H4.
  rewrite E0 in *. unfold lie. destruct (Rlt_dec 0 (f_R (d p))) as [G|G]; [|destruct (Rlt_dec (f_R (d p)) 0) as [G'|G']]; cbn [upto].
  - split; [apply H1; lra|]. split; [apply H2; lra|]. split; apply not_true_iff_false; intros C; [apply H3 in C|apply H4 in C]; lra.
  - split; [apply not_true_iff_false; intros C; apply H1 in C; lra|]. split; [apply not_true_iff_false; intros C; apply H2 in C; lra|].
    split; [apply H3; lra|]. apply not_true_iff_false; intros C; apply H4 in C; lra.
  - split; [apply H1; lra|]. split; [apply not_true_iff_false; intros C; apply H2 in C; lra|].
    split; [apply not_true_iff_false; intros C; apply H3 in C; lra|]. apply H4; lra.
Qed.

Lemma lie_onto p : usable p → lie p = Onto → f_R (d p) = 0 ∧ Rabs (f_R (on ax p) - f_R L) <= 2 * f_u * M.
Proof.
  intros [Fp Bp]. destruct (dist_ok M HM HMb L FL BL _ Fp Bp) as (_ & _ & D & _). change (f_sub L (on ax p)) with (d p) in D. unfold lie.
  destruct (Rlt_dec 0 _); [done|]. destruct (Rlt_dec _ 0); [done|]. intros _. assert (f_R (d p) = 0) as E by lra. split; [done|].
  rewrite E in D. rewrite <-Rabs_Ropp. by replace (- (f_R (on ax p) - f_R L)) with (- (0 - (f_R L - f_R (on ax p)))) by ring; rewrite Rabs_Ropp.
Qed.
Lemma lie_before p : usable p → f_R (on ax p) + 2 * f_u * M < f_R L → lie p = Before.
Proof.
  intros [Fp Bp] H. destruct (dist_ok M HM HMb L FL BL _ Fp Bp) as (_ & _ & D & _). change (f_sub L (on ax p)) with (d p) in D. unfold lie.
  destruct (Rlt_dec 0 _); [done|]. apply Rabs_le_inv in D. lra.
Qed.
Lemma lie_behind p : usable p → f_R L + 2 * f_u * M < f_R (on ax p) → lie p = Behind.
Proof.
  intros [Fp Bp] H. destruct (dist_ok M HM HMb L FL BL _ Fp Bp) as (_ & _ & D & _). change (f_sub L (on ax p)) with (d p) in D. unfold lie.
  apply Rabs_le_inv in D. destruct (Rlt_dec 0 _); [lra|]. destruct (Rlt_dec _ 0); [done|lra].
Qed.
(** How a vertex lies depends only on its coordinate. *)
Lemma lie_same p q : usable p → usable q → f_R (on ax p) = f_R (on ax q) → lie p = lie q.
Proof.
  intros [Fp Bp] [Fq Bq] E. destruct (dist_ok M HM HMb L FL BL _ Fp Bp) as (_ & Ep & _). destruct (dist_ok M HM HMb L FL BL _ Fq Bq) as (_ & Eq & _).
  unfold lie. change (d p) with (f_sub L (on ax p)). change (d q) with (f_sub L (on ax q)). by rewrite Ep, Eq, E.
Qed.
Lemma lie_sides a b : upto (lie a) ≠ upto (lie b) → (0 <= f_R (d b) ∧ f_R (d a) < 0) ∨ (f_R (d b) < 0 ∧ 0 <= f_R (d a)).
Proof.
  unfold lie. intros H. destruct (Rlt_dec 0 (f_R (d a))); [|destruct (Rlt_dec (f_R (d a)) 0)];
    (destruct (Rlt_dec 0 (f_R (d b))); [|destruct (Rlt_dec (f_R (d b)) 0)]); (lra || (exfalso; apply H; reflexivity)).
Qed.

Section Parts.
Context {K : Type} (near : K → K) (cut : K → K → K) (Rel Q1 Q2 : K → pt f32 → Prop).
Context (Husable : ∀ k p, Rel k p → usable p).
Context (Hkeep1 : ∀ k p, Rel k p → lie p ≠ Behind → Q1 k p) (Hkeep2 : ∀ k p, Rel k p → lie p = Behind → Q2 k p).
Context (Hnear : ∀ k p, Rel k p → lie p = Onto → Q2 (near k) p).
Context (Hcut : ∀ kb b ka a, Rel kb b → Rel ka a → upto (lie a) ≠ upto (lie b) →
  let k := joint near cut (kb, lie b) (ka, lie a) in let p := cut_point f32_arith a b (d a) (d b) in Q1 k p ∧ Q2 k p).
Definition follows (ks : K * sgn) (p : pt f32) : Prop := Rel ks.1 p ∧ ks.2 = lie p.

Lemma sides_sound b' b a' a : follows b' b → follows a' a →
  Forall2 Q1 (a_side1 near cut b' a') (side1 f32_arith L ax b a) ∧ Forall2 Q2 (a_side2 near cut b' a') (side2 f32_arith L ax b a).
Proof.
  destruct b' as [kb sb], a' as [ka sa]. intros [Rb Eb] [Ra Ea]. cbn [fst snd] in *. subst sb sa.
  destruct (lie_tests a) as (A1 & A2 & A3 & A4); [by eapply Husable|]. destruct (lie_tests b) as (B1 & _); [by eapply Husable|].
  unfold a_side1, a_side2, side1, side2, crosses. cbn [fst snd]. rewrite A1, A2, A3, A4, B1.
  destruct (eqb (upto (lie a)) (upto (lie b))) eqn:E; cbn [negb].
  - destruct (lie a) eqn:Ela; cbn [upto negb].
    + split; [constructor; [apply Hkeep1; [done|by rewrite Ela]|constructor]|constructor].
    + split; (constructor; [|constructor]); [apply Hkeep1; [done|by rewrite Ela]|by apply Hnear].
    + split; [constructor|]. constructor; [by apply Hkeep2|constructor].
  - apply eqb_false_iff in E. destruct (Hcut kb b ka a Rb Ra E) as [C1 C2]. cbv zeta in C1, C2. destruct (lie a) eqn:Ela.
    + split; (constructor; [done|]); [|constructor]. constructor; [apply Hkeep1; [done|by rewrite Ela]|constructor].
    + split; (constructor; [done|constructor]).
    + split; (constructor; [done|]); [constructor|]. constructor; [by apply Hkeep2|constructor].
Qed.
Lemma parts_sound l' l : Forall2 follows l' l →
  Forall2 Q1 (a_part1 near cut l') (part1 f32_arith L ax l) ∧ Forall2 Q2 (a_part2 near cut l') (part2 f32_arith L ax l).
Proof.
  intros H. pose proof (last_sound _ _ _ H) as Hl. unfold a_part1, a_part2, part1, part2.
  destruct (last l') as [b'|], (last l) as [b|]; [|done|done|split; constructor].
  split; (eapply walk_sound; [|exact Hl|exact H]); intros; by apply sides_sound.
Qed.
Lemma follows_all l' l : Forall2 Rel l' l → Forall2 follows (zip l' (lie <$> l)) l ∧ fst <$> zip l' (lie <$> l) = l'.
Proof.
  induction 1 as [|k p l' l Hk _ [IH1 IH2]]; [split; [constructor|done]|]. cbn. split; [by constructor|]. by f_equal.
Qed.
End Parts.

(** The coordinates of a new vertex. *)
Lemma cut_point_ok a b bx : usable a → usable b → upto (lie a) ≠ upto (lie b) → 1 <= bx <= M →
  let p := cut_point f32_arith a b (d a) (d b) in
  fin (on ax p) ∧ Rabs (f_R (on ax p) - f_R L) <= 26 * f_u * M ∧
  (f_valid (py a) → f_valid (py b) → f_valid (py p)) ∧
  ∀ c : pt f32 → f32, c = px ∨ c = pz → fin (c a) → fin (c b) → Rabs (f_R (c a)) <= bx → Rabs (f_R (c b)) <= bx →
    fin (c p) ∧ Rabs (f_R (c p)) <= bx + 7 * f_u * M ∧ (f_R (c a) = f_R (c b) → f_R (c p) = f_R (c b)) ∧ (lie b = Onto → f_R (c p) = f_R (c b)).
Proof.
  intros [Fa Ba] [Fb Bb] Hab Hbx p. pose proof (lie_sides _ _ Hab) as Hs.
  pose proof (cut1_ok M HM HMb L _ _ FL Fb Fa BL Bb Ba Hs) as Hc.
  pose proof (cut1_line M HM HMb L _ _ FL Fb Fa BL Bb Ba Hs) as Hl.
  pose proof (ratio_ok M HM HMb L _ _ FL Fb Fa BL Bb Ba Hs) as (Fr & _).
  assert (on ax p = cut1 L (on ax b) (on ax a) (on ax b) (on ax a)) as Eon by (destruct ax; done).
  split; [rewrite Eon; apply (Hc _ _ M); try done; lra|].
  split; [by rewrite Eon|]. split.
  { intros Va Vb. change (f_valid (f_add (py b) (f_mul (f_sub (py a) (py b)) (ratio L (on ax b) (on ax a))))).
    apply f_add_valid; [done|]. apply f_mul_valid; [by apply f_sub_valid|apply Fr]. }
  intros c Hcc Fca Fcb Bca Bcb. assert (c p = cut1 L (on ax b) (on ax a) (c b) (c a)) as Ec by (destruct Hcc as [->| ->]; done).
  destruct (Hc (c b) (c a) bx) as (G1 & G2 & G3 & G4 & _); try done. rewrite Ec. split; [done|]. split; [done|]. split; [done|].
  intros Eo. apply G4. apply lie_onto in Eo as [E _]; [exact E|done].
Qed.
End Line.

(** ** The grid *)

Section Grid.
(** The largest coordinate of the scene, and the size of a cell. *)
Context (Bd : R) (HB : 1 <= Bd) (HBb : 64 * Bd <= f_big).
Context (cs : f32) (Fcs : fin cs) (Hcs : Bd / 8192 <= f_R cs).
Local Notation M := (8 * Bd).

Definition grid_line (lo : f32) (n : Z) : f32 := f_add (f_add lo (f_mul (f_of_Z n) cs)) cs.
Definition grid_at (lo : f32) (n : Z) : R := f_R lo + IZR n * f_R cs.

Lemma grid_line_ok lo n w : fin lo → Rabs (f_R lo) <= Bd → (-1 <= n < w)%Z → (1 <= w <= 32767)%Z → IZR w * f_R cs <= 4 * Bd →
  fin (grid_line lo n) ∧ Rabs (f_R (grid_line lo n) - grid_at lo (n + 1)) <= 20 * f_u * Bd ∧ Rabs (f_R (grid_line lo n)) <= 6 * Bd.
Proof.
  intros Flo Blo Hn Hw Hwc. destruct (f_of_Z_R n) as [En Fn]; [lia|]. apply Rabs_le_inv in Blo.
  assert (1 <= IZR w) as W1 by (apply IZR_le; lia). assert (-1 <= IZR n) as N1 by (apply IZR_le; lia).
  assert (IZR n + 1 <= IZR w) as N2. { rewrite <-plus_IZR. apply IZR_le. lia. }
  assert (0 < f_R cs) as C0 by lra. assert (f_R cs <= 4 * Bd) as C4 by nra.
  assert (- f_R cs <= IZR n * f_R cs) as P1 by nra. assert (IZR n * f_R cs + f_R cs <= 4 * Bd) as P2 by nra.
  destruct (mul_ok (f_of_Z n) cs (4 * Bd)) as (F1 & _ & D1); [split; [apply f_of_Z_valid|done]|done|rewrite En; apply Rabs_le; lra|lra|].
  rewrite En in D1. set (p := f_mul (f_of_Z n) cs) in *. apply Rabs_le_inv in D1. pose proof f_u_val as U. 
  destruct (add_ok lo p (6 * Bd)) as (F2 & _ & D2); [done|done|rewrite U in *; apply Rabs_le; lra|lra|].
  set (s := f_add lo p) in *. apply Rabs_le_inv in D2.
  destruct (add_ok s cs (10 * Bd)) as (F3 & _ & D3); [done|done|rewrite U in *; apply Rabs_le; lra|lra|].
  fold p in F3, D3. change (f_add s cs) with (grid_line lo n) in *. apply Rabs_le_inv in D3.
  split; [done|]. unfold grid_at. rewrite plus_IZR. rewrite U in *. split; apply Rabs_le; lra.
Qed.

(** ** Along x *)

Section X.
Context (lo : f32) (Flo : fin lo) (Blo : Rabs (f_R lo) <= Bd) (w : Z) (Hw : (1 <= w <= 32767)%Z) (Hwc : IZR w * f_R cs <= 4 * Bd).
Context (xs xt : f32) (Fxs : fin xs) (Fxt : fin xt) (Bxs : Rabs (f_R xs) <= Bd) (Bxt : Rabs (f_R xt) <= Bd).

Definition x_is (n : Z) (k : xkind) (p : pt f32) : Prop :=
  fin (px p) ∧ Rabs (f_R (px p)) <= M ∧ f_valid (py p) ∧
  match k with XSide => f_R (px p) = f_R xs | XTip => f_R (px p) = f_R xt | XAny => True
  | XNear => Rabs (f_R (px p) - grid_at lo n) <= 228 * f_u * Bd end.

Lemma x_step n l' l : (-1 <= n < w)%Z → l' ∈ x_polys → Forall2 (x_is n) l' l →
  let p1 := part1 f32_arith (grid_line lo n) AxX l in let p2 := part2 f32_arith (grid_line lo n) AxX l in
  (length p1 <= 7)%nat ∧ (length p2 <= 7)%nat ∧ Forall (λ p, f_valid (py p)) p1 ∧ ∃ l2, l2 ∈ x_polys ∧ Forall2 (x_is (n + 1)) l2 p2.
Proof.
  intros Hn Hl' Hl p1 p2. destruct (grid_line_ok lo n w Flo Blo Hn Hw Hwc) as (FL & DL & BL). set (L := grid_line lo n) in *.
  assert (1 <= M) as HM by lra. assert (8 * M <= f_big) as HMb by lra. assert (Rabs (f_R L) <= M) as BL' by lra.
  pose proof (Rabs_le_inv _ _ DL) as DL'. pose proof (Rabs_le_inv _ _ BL) as BL''. pose proof f_u_val as U.
  set (s := zip l' (lie L AxX <$> l)).
  destruct (follows_all L AxX (x_is n) l' l Hl) as [Hs Es]. fold s in Hs, Es.
  assert (∀ k p, x_is n k p → usable M AxX p) as Hus by (intros k p (A & B & _); done).
  destruct (parts_sound M HM HMb L FL BL' AxX x_near x_cut (x_is n) (λ _ p, f_valid (py p)) (x_is (n + 1))) with (l' := s) (l := l) as [H1 H2].
  - exact Hus.
  - intros k p (_ & _ & H & _) _. exact H.
  - intros k p Hp Hlie. pose proof Hp as (A & B & C & D). split; [done|]. split; [done|]. split; [done|]. destruct k; try done. exfalso.
    rewrite (lie_before M HM HMb L FL BL' AxX p) in Hlie; [done|by apply (Hus XNear)|]. apply Rabs_le_inv in D. unfold grid_at in *. rewrite plus_IZR in *. cbn [on]. rewrite U in *. lra.
  - intros k p Hp Hlie. apply (lie_onto M HM HMb L FL BL') in Hlie as [_ H]; [|by eapply Hus]. destruct Hp as (A & B & C & _).
    split; [done|]. split; [done|]. split; [done|]. cbn [x_near]. cbn [on] in H. apply Rabs_le_inv in H. apply Rabs_le. rewrite U in *. lra.
  - intros kb b ka a Hb Ha Hab k p. destruct (cut_point_ok M HM HMb L FL BL' AxX a b M) as (F & G & V & _); [by eapply Hus|by eapply Hus|done|lra|].
    cbv zeta in F, G, V. fold p in F, G, V. cbn [on] in F, G. assert (f_valid (py p)) as Vp by (apply V; [apply Ha|apply Hb]). split; [done|].
    assert (k = XNear) as -> by (unfold k, joint; by destruct (lie L AxX b)). pose proof (Rabs_le_inv _ _ G) as G'.
    split; [done|]. split; [|split; [done|]]; apply Rabs_le; rewrite U in *; lra.
  - exact Hs.
  - set (q := λ x, Pt x f_zero f_zero). assert (∀ x, fin x → Rabs (f_R x) <= Bd → usable M AxX (q x)) as Hq by (intros x Fx Bx; split; [done|cbn; lra]).
    assert (s ∈ x_lies (lie L AxX (q xs)) (lie L AxX (q xt)) l') as Hin.
    { rewrite <-Es. apply x_lies_in. apply Forall_lookup. intros i [k sg] Hi. destruct (Forall2_lookup_l _ _ _ _ _ Hs Hi) as (p & Hp & [Hk Hsg]). cbn [fst snd] in *. subst sg.
      pose proof (Hus _ _ Hk) as Hu. destruct Hk as (A & B & C & D). destruct k; [| |done|].
      - apply (lie_same M HM HMb L FL BL'); [done|by apply Hq|done].
      - apply (lie_same M HM HMb L FL BL'); [done|by apply Hq|done].
      - apply (lie_before M HM HMb L FL BL'); [done|]. apply Rabs_le_inv in D. unfold grid_at in *. rewrite plus_IZR in *. cbn [on]. rewrite U in *. lra. }
    destruct (x_closed _ _ _ _ Hl' Hin) as (N1 & N2 & N3). fold p1 in H1. fold p2 in H2.
    split; [by rewrite <-(Forall2_length _ _ _ H1)|]. split; [by rewrite <-(Forall2_length _ _ _ H2)|]. split; [|by eexists].
    apply Forall_lookup. intros i p Hi. destruct (Forall2_lookup_r _ _ _ _ _ H1 Hi) as (? & _ & H). done.
Qed.

(** ** Along z *)

Context (zlo : f32) (Fzlo : fin zlo) (Bzlo : Rabs (f_R zlo) <= Bd) (h : Z) (Hh : (1 <= h <= 32767)%Z) (Hhc : IZR h * f_R cs <= 4 * Bd).
Context (zs zt : f32) (Fzs : fin zs) (Fzt : fin zt) (Bzs : Rabs (f_R zs) <= Bd) (Bzt : Rabs (f_R zt) <= Bd).

(** Each row adds a little to what is known of x. *)
Definition x_bound (n : Z) : R := Bd + (IZR n + 1) * (56 * f_u * Bd).
Lemma x_bound_ok n : (-1 <= n <= 32767)%Z → Bd <= x_bound n <= 2 * Bd.
Proof.
  intros Hn. unfold x_bound. assert (-1 <= IZR n <= 32767) as N. { split; apply IZR_le; lia. }
  rewrite f_u_val. split; nra.
Qed.
Definition z_is (n : Z) (k : kind) (p : pt f32) : Prop :=
  fin (px p) ∧ Rabs (f_R (px p)) <= x_bound n ∧ fin (pz p) ∧ Rabs (f_R (pz p)) <= M ∧ f_valid (py p) ∧
  match k.2 with XSide => f_R (px p) = f_R xs | XTip => f_R (px p) = f_R xt | XAny => True | XNear => False end ∧
  match k.1 with ZTip => f_R (pz p) = f_R zt | ZSide => f_R (pz p) = f_R zs
  | ZNear => Rabs (f_R (pz p) - grid_at zlo n) <= 228 * f_u * Bd end.

Lemma z_step n l' l : (-1 <= n < h)%Z → l' ∈ z_polys → Forall2 (z_is n) l' l →
  let L := grid_line zlo n in let p1 := part1 f32_arith L AxZ l in let p2 := part2 f32_arith L AxZ l in
  (length p1 <= 7)%nat ∧ (length p2 <= 7)%nat ∧ (∃ lx, lx ∈ x_polys ∧ ∀ m, Forall2 (x_is m) lx p1) ∧
  (∃ l2, l2 ∈ z_polys ∧ Forall2 (z_is (n + 1)) l2 p2) ∧
  ∀ p, p ∈ l → f_R L + 16 * f_u * Bd < f_R (pz p) → p ∈ p2.
Proof.
  intros Hn Hl' Hl L p1 p2. destruct (grid_line_ok zlo n h Fzlo Bzlo Hn Hh Hhc) as (FL & DL & BL). fold L in FL, DL, BL.
  assert (1 <= M) as HM by lra. assert (8 * M <= f_big) as HMb by lra. assert (Rabs (f_R L) <= M) as BL' by lra.
  pose proof (Rabs_le_inv _ _ DL) as DL'. pose proof (Rabs_le_inv _ _ BL) as BL''. pose proof f_u_val as U.
  destruct (x_bound_ok n) as [X1 X2]; [lia|]. destruct (x_bound_ok (n + 1)) as [X3 X4]; [lia|].
  assert (x_bound (n + 1) = x_bound n + 7 * f_u * M) as EX. { unfold x_bound. rewrite plus_IZR. ring. }
  assert (x_bound n <= x_bound (n + 1)) as X5. { rewrite EX, U. lra. }
  set (s := zip l' (lie L AxZ <$> l)).
  destruct (follows_all L AxZ (z_is n) l' l Hl) as [Hs Es]. fold s in Hs, Es.
  assert (∀ k p, z_is n k p → usable M AxZ p) as Hus by (intros k p (_ & _ & A & B & _); done).
  assert (∀ k p, z_is n k p → k.1 = ZNear → lie L AxZ p = Before) as Hbef.
  { intros k p Hp Hk. apply (lie_before M HM HMb L FL BL'); [by eapply Hus|]. destruct Hp as (_ & _ & _ & _ & _ & _ & D). rewrite Hk in D.
    apply Rabs_le_inv in D. unfold grid_at in *. rewrite plus_IZR in *. cbn [on]. rewrite U in *. lra. }
  assert (∀ k p, z_is n k p → ∀ m, x_is m k.2 p) as Hx.
  { intros k p (A & B & _ & _ & C & D & _) m. split; [done|]. split; [lra|]. split; [done|]. by destruct k.2. }
  destruct (parts_sound M HM HMb L FL BL' AxZ z_near z_cut (z_is n) (λ k p, ∀ m, x_is m k.2 p) (z_is (n + 1))) with (l' := s) (l := l) as [H1 H2].
  - exact Hus.
  - intros k p Hp _. by apply Hx.
  - intros k p Hp Hlie. pose proof (Hbef k p Hp) as Hb. destruct Hp as (A & B & C & D & E & F & G).
    split; [done|]. split; [lra|]. split; [done|]. split; [done|]. split; [done|]. split; [done|].
    destruct k as [[| |] kx]; try done. specialize (Hb eq_refl). rewrite Hb in Hlie. done.
  - intros k p Hp Hlie. apply (lie_onto M HM HMb L FL BL') in Hlie as [_ H]; [|by eapply Hus]. destruct Hp as (A & B & C & D & E & F & G).
    split; [done|]. split; [lra|]. split; [done|]. split; [done|]. split; [done|]. split; [done|].
    cbn [z_near fst]. cbn [on] in H. apply Rabs_le_inv in H. apply Rabs_le. rewrite U in *. lra.
  - intros kb b ka a Hb Ha Hab k p. destruct (cut_point_ok M HM HMb L FL BL' AxZ a b (x_bound n)) as (F & G & V & C); [by eapply Hus|by eapply Hus|done|lra|].
    cbv zeta in F, G, V, C. fold p in F, G, V, C. cbn [on] in F, G.
    pose proof Ha as (A1 & A2 & A3 & A4 & A5 & A6 & A7). pose proof Hb as (B1 & B2 & B3 & B4 & B5 & B6 & B7).
    specialize (V A5 B5). destruct (C px (or_introl eq_refl) A1 B1 A2 B2) as (C1 & C2 & C3 & C4). clear C.
    assert (z_is (n + 1) k p) as Hk.
    { split; [done|]. split; [by rewrite EX|]. split; [done|]. split; [apply Rabs_le; apply Rabs_le_inv in G; rewrite U in *; lra|]. split; [done|]. split.
      - unfold k, joint. cbn [fst snd]. destruct (lie L AxZ b) eqn:Elb; [|rewrite (C4 eq_refl); exact B6|];
          unfold z_cut; cbn [snd]; destruct (kb.2), (ka.2); try done; rewrite C3; congruence.
      - assert (k.1 = ZNear) as -> by (unfold k, joint; by destruct (snd (kb, lie L AxZ b))).
        apply Rabs_le. apply Rabs_le_inv in G. rewrite U in *. lra. }
    split; [|done]. intros m. destruct Hk as (D1 & D2 & _ & _ & D5 & D6 & _). split; [done|]. split; [lra|]. split; [done|]. by destruct k.2.
  - exact Hs.
  - set (q := λ z, Pt f_zero f_zero z). assert (∀ z, fin z → Rabs (f_R z) <= Bd → usable M AxZ (q z)) as Hq by (intros z Fz Bz; split; [done|cbn; lra]).
    assert (s = z_lies (lie L AxZ (q zt)) (lie L AxZ (q zs)) l') as Hin.
    { rewrite <-Es. unfold z_lies. rewrite <-list_fmap_compose. rewrite <-(list_fmap_id s) at 1. apply list_fmap_ext. intros i [k sg] Hi.
      destruct (Forall2_lookup_l _ _ _ _ _ Hs Hi) as (p & Hp & [Hk Hsg]). cbn [fst snd] in *. subst sg. cbn. f_equal.
      pose proof (Hus _ _ Hk) as Hu. pose proof (Hbef _ _ Hk) as Hbk. destruct Hk as (_ & _ & A & B & _ & _ & D). unfold z_lie. destruct k as [[| |] kx]; cbn [fst] in *.
      - apply (lie_same M HM HMb L FL BL'); [done|by apply Hq|done].
      - apply (lie_same M HM HMb L FL BL'); [done|by apply Hq|done].
      - by apply Hbk. }
    destruct (z_closed _ (lie L AxZ (q zt)) (lie L AxZ (q zs)) Hl') as (N1 & N2 & N3 & N4). rewrite <-Hin in N1, N2, N3, N4. fold p1 in H1. fold p2 in H2.
    split; [by rewrite <-(Forall2_length _ _ _ H1)|]. split; [by rewrite <-(Forall2_length _ _ _ H2)|]. split; [|split].
    + eexists. split; [exact N4|]. intros m. apply Forall2_fmap_l. eapply Forall2_impl; [exact H1|]. cbn. intros k p H. apply H.
    + eexists. split; [exact N3|exact H2].
    + intros p Hp Hbeh. apply elem_of_list_lookup in Hp as [i Hi]. destruct (Forall2_lookup_r _ _ _ _ _ Hl Hi) as (k & _ & Hk).
      assert (lie L AxZ p = Behind) as Elp. { apply (lie_behind M HM HMb L FL BL'); [by eapply Hus|]. cbn [on]. rewrite U in *. lra. }
      destruct (lie_tests M HM HMb L FL BL' AxZ p) as (T1 & T2 & T3 & T4); [by eapply Hus|]. rewrite Elp in T1, T2, T3, T4. cbn [upto] in T1.
      assert (∀ b l, p ∈ l → p ∈ walk (side2 f32_arith L AxZ) b l) as Hwalk.
      { clear -T1 T2 T3. intros b l. revert b. induction l as [|a l IH]; intros b Hp; [by apply elem_of_nil in Hp|]. cbn [walk]. apply elem_of_app.
        apply elem_of_cons in Hp as [<-|Hp]; [left|right; by apply IH].
        unfold side2. rewrite T1, T2, T3. destruct (crosses _ _ _ _ _); [right; left|left]. }
      unfold p2, part2. destruct (last l) as [b|] eqn:El; [|apply last_None in El; subst l; done]. apply Hwalk. by apply elem_of_list_lookup_2 in Hi.
Qed.
End X.
End Grid.
