(** The loops over rows and cells of [rasterize_triangle] in exact arithmetic. *)
From Coq Require Import QArith Qround Lqa.
From Verif Require Import Base ModelMath ModelRasterize SpecRasterize ClipProofs ClipExact ClipCount RasterProofs.
Local Open Scope Z_scope.

Section Loops.
Context (g : place Q) (t : tri3) (w h : Z).
Context (Hcs : (0 < pl_cs g)%Q) (Hch : (0 < pl_ch g)%Q) (Htall : (py (pl_max g) - py (pl_min g) < 65535 * pl_ch g)%Q).
Context (Hw : 1 <= w <= 32767) (Hh : 1 <= h <= 32767).
Local Notation spans := (list (Z * Z * Z * Z)).
Local Notation xc := (cutl (px (pl_min g)) (pl_cs g)).
Local Notation zc := (cutl (pz (pl_min g)) (pl_cs g)).
Local Notation xl := (line (px (pl_min g)) (pl_cs g)).
Local Notation zl := (line (pz (pl_min g)) (pl_cs g)).

Definition okx (x : Z) : Prop := 1 <= x ∨ ∀ p, in_tri t p → (px (pl_min g) <= px p)%Q.
Definition okz (z : Z) : Prop := 1 <= z ∨ ∀ p, in_tri t p → (pz (pl_min g) <= pz p)%Q.
Definition entry_ok (e : Z * Z * Z * Z) : Prop :=
  let '(x, z, a, b) := e in
  0 <= x < w ∧ 0 <= z < h ∧ 0 <= a < b ∧ b <= 65535 ∧
  (okx x → okz z → ∃ lo hi, heights_over g t x z lo hi ∧ grid_heights g lo hi a b).
(** Cells are visited row by row. *)
Definition before (x z x' z' : Z) : Prop := z < z' ∨ (z = z' ∧ x < x').
Definition so_far (x z : Z) (s : spans) : Prop :=
  (∀ e, e ∈ s → entry_ok e ∧ before e.1.1.1 e.1.1.2 x z) ∧
  (∀ x' z', 0 <= x' < w → 0 <= z' < h → before x' z' x z → meets_cell g t x' z' → ∃ a b, (x', z', a, b) ∈ s) ∧
  NoDup (fst ∘ fst <$> s).

Lemma before_trans x z x' z' x'' z'' : before x z x' z' → before x' z' x'' z'' → before x z x'' z''.
Proof. unfold before. lia. Qed.
(** Advancing over cells that need no span. *)
Lemma so_far_skip x z x' z' s : so_far x z s → before x z x' z' ∨ (x, z) = (x', z') →
  (∀ x0 z0, 0 <= x0 < w → 0 <= z0 < h → before x0 z0 x' z' → ¬ before x0 z0 x z → ¬ meets_cell g t x0 z0) → so_far x' z' s.
Proof.
  intros (H1 & H2 & H3) Hb Hn. split; [|split; [|done]].
  - intros e He. destruct (H1 e He) as [Hok Hbe]. split; [done|]. destruct Hb as [Hb|[= <- <-]]; [|done]. by eapply before_trans.
  - intros x0 z0 Hx Hz Hb0 Hm. assert (before x0 z0 x z ∨ ¬ before x0 z0 x z) as [Hd|Hd] by (unfold before; lia).
    + by apply H2.
    + exfalso. by apply (Hn x0 z0).
Qed.
Lemma so_far_add x z a b s : so_far x z s → entry_ok (x, z, a, b) → so_far (x + 1) z (s ++ [(x, z, a, b)]).
Proof.
  intros (H1 & H2 & H3) He. split; [|split].
  - intros e Hin. apply elem_of_app in Hin as [Hin|Hin].
    + destruct (H1 e Hin) as [? ?]. split; [done|]. unfold before in *. lia.
    + apply elem_of_list_singleton in Hin as ->. split; [done|]. cbn. unfold before. lia.
  - intros x0 z0 Hx Hz Hb Hm. assert (before x0 z0 x z ∨ (x0 = x ∧ z0 = z)) as [Hd|[-> ->]] by (unfold before in *; lia).
    + destruct (H2 x0 z0 Hx Hz Hd Hm) as (a' & b' & ?). exists a', b'. apply elem_of_app. by left.
    + exists a, b. apply elem_of_app. right. by apply elem_of_list_singleton.
  - rewrite fmap_app. apply NoDup_app. split; [done|]. split; [|apply NoDup_singleton].
    intros c Hc Hc'. apply elem_of_list_fmap in Hc as (e & -> & Hin). apply elem_of_list_singleton in Hc'. destruct (H1 e Hin) as [_ Hb].
    cbn in Hc'. rewrite Hc' in Hb. cbn in Hb. unfold before in Hb. lia.
Qed.

(** One cell with the polygon [P] over it. *)
Lemma so_far_cell x z s buf n : so_far x z s → 0 <= x < w → 0 <= z < h → (3 <= n)%nat → (n <= length buf)%nat →
  (okx x → okz z → ∀ lo hi, (∀ q, q ∈ take n buf → (lo <= py q <= hi)%Q) → (∃ q, q ∈ take n buf ∧ py q = lo) → (∃ q, q ∈ take n buf ∧ py q = hi) →
    heights_over g t x z lo hi) →
  (∀ p, in_tri t p → in_cell g x z p → meets_cell g t x z → in_hull (take n buf) p) →
  ∃ r s', span_heights exact_arith g buf n = Done r ∧ match r with Some (a, b) => emit_list x z a b s | None => Done (Some s) end = Done (Some s') ∧ so_far (x + 1) z s'.
Proof.
  intros Hs Hx Hz H3 Hn Ho Hm. destruct (heights_done g Hch Htall buf n) as (lo & hi & Hq & Hl & Hhi & Hcase); [lia|done|].
  destruct Hcase as [[E Hno]|(a & b & E & Hg & Hab & Hb)]; rewrite E.
  - exists None, s. split; [done|]. split; [done|]. apply (so_far_skip x z); [done|left; unfold before; lia|].
    intros x0 z0 Hx0 Hz0 Hb Hnb Hmeet. assert (x0 = x ∧ z0 = z) as [-> ->] by (unfold before in *; lia).
    apply Hno. destruct Hmeet as (Hi & (p & Tp & Cp & Hp) & (p' & Tp' & Cp' & Hp')).
    assert (∀ p, in_tri t p → in_cell g x z p → (lo <= py p <= hi)%Q) as Hr.
    { intros r Tr Cr. assert (in_hull (take n buf) r) as Hr by (apply Hm; [done|done|]; split; [done|]; split; eauto).
      split.
      - specialize (Hr (Aff 0 (-1) 0 lo)). unfold ev in Hr. cbn in Hr. assert (0 * px r + -1 * py r + 0 * pz r + lo <= 0)%Q; [|lra].
        apply Hr. intros q Hin. specialize (Hq q Hin). lra.
      - specialize (Hr (Aff 0 1 0 (- hi))). unfold ev in Hr. cbn in Hr. assert (0 * px r + 1 * py r + 0 * pz r + - hi <= 0)%Q; [|lra].
        apply Hr. intros q Hin. specialize (Hq q Hin). lra. }
    specialize (Hr p Tp Cp) as R1. specialize (Hr p' Tp' Cp') as R2. split; lra.
  - exists (Some (a, b)), (s ++ [(x, z, a, b)]). split; [done|]. split; [done|]. apply so_far_add; [done|].
    split; [done|]. split; [done|]. split; [lia|]. split; [lia|]. intros H1 H2. exists lo, hi. split; [|done]. by apply Ho.
Qed.

(** ** A row *)

Section Row.
Context (z : Z) (Hz : 0 <= z < h).
(** [Rg] is the row: above [zlow], which is the lower side of the row or, in the
    first row, nothing. *)
Context (zlow : option Q).
Context (Hzlow : zlow = Some (zc (z - 1)) ∨ zlow = None ∧ (okz z → ∀ p, in_tri t p → (zl z <= pz p)%Q)).
Definition Rw (p : pt Q) : Prop := (True ∧ ge_opt zlow (pz p)) ∧ (pz p <= zc z)%Q.
Context (W : list (pt Q)) (HW : clip_of t Rw W) (HW3 : (3 <= length W <= 5)%nat).
Context (mnx mxx : Q) (Hext : ∀ q, q ∈ W → (mnx <= px q <= mxx)%Q) (Hmax : ∃ q, q ∈ W ∧ px q = mxx).
Local Notation vx := (val (px (pl_min g)) (pl_cs g)).
Context (x0 x1 : Z) (Hx0 : x0 = Z.max (-1) (tr (vx mnx))) (Hx0w : x0 <= w - 1) (Hx1 : x1 = Z.max 0 (Z.min (w - 1) (tr (vx mxx)))) .

Lemma Rw_mean : mean_closed Rw.
Proof.
  apply mean_and; [apply mean_and; [done|]|].
  - exact (mean_ge AxZ zlow).
  - exact (mean_le AxZ (zc z)).
Qed.
Lemma row_px p : in_tri t p → Rw p → (mnx <= px p <= mxx)%Q.
Proof.
  intros Tp Rp. pose proof (proj2 (proj2 HW) p Tp Rp) as Hp. split; apply Qnot_lt_le; intros Hlt.
  - destruct (hull_low mnx AxX W p Hp Hlt) as (q & Hq & Hql). cbn in Hql. specialize (Hext q Hq). lra.
  - destruct (hull_high mxx AxX W p Hp Hlt) as (q & Hq & Hql). cbn in Hql. specialize (Hext q Hq). lra.
Qed.
Lemma cell_row x p : in_cell g x z p → Rw p.
Proof.
  intros [_ [H1 H2]]. split; [split; [done|]|].
  - destruct Hzlow as [->|[-> _]]; [|done]. cbn. rewrite cutl_line. by replace (z - 1 + 1) with z by lia.
  - by rewrite cutl_line.
Qed.
Lemma row_cell p : okz z → in_tri t p → Rw p → (zl z <= pz p <= zl (z + 1))%Q.
Proof.
  intros Ho Tp [[_ H1] H2]. rewrite cutl_line in H2. split; [|done]. destruct Hzlow as [->|[-> Hl]]; [|by apply Hl].
  cbn in H1. rewrite cutl_line in H1. by replace (z - 1 + 1) with z in H1 by lia.
Qed.
Lemma inside_in x z' p : inside_cell g x z' p → in_cell g x z' p.
Proof. intros [[] []]. split; split; lra. Qed.

Definition phantom (x : Z) (nv2 nv : nat) : Prop :=
  nv2 = 0%nat ∧ x = 0 ∧ x0 = -1 ∧ (nv <= 7)%nat ∧ ∀ p, in_tri t p → Rw p → (px p < xl 0)%Q.
Definition cell_inv (x : Z) (st : list (pt Q) * nat * (list (pt Q) * nat) * list (pt Q) * spans) : Prop :=
  let '((row, nv2), (p1, nv), p2, s) := st in
  length row = 7%nat ∧ length p1 = 7%nat ∧ length p2 = 7%nat ∧ (nv2 <= 7)%nat ∧ so_far x z s ∧
  (x <= x1 → stage t 5 AxX Rw (low xc x0 x) (take nv2 row) ∨ phantom x nv2 nv).

Lemma cell_ok x st : x0 <= x <= x1 → cell_inv x st → ∃ st', cell_step exact_arith emit_list g z x st = Done (Some st') ∧ cell_inv (x + 1) st'.
Proof.
  destruct st as [[[[row nv2] [p1 nv]] p2] s]. intros Hx (L1 & L2 & L3 & Ln & Hs & Hcase). specialize (Hcase ltac:(lia)).
  unfold cell_step. cbn [n_add n_mul n_of_Z exact_arith]. change (px (pl_min g) + inject_Z x * pl_cs g + pl_cs g)%Q with (xc x).
  assert (0 <= x → x < w) as Hxw by (intros; lia).
  destruct Hcase as [Hst|Hph].
  - destruct (stage_cut t 5 AxX Rw (low xc x0 x) (take nv2 row) (xc x) Rw_mean ltac:(lia) Hst (low_cut _ _ x0 x Hcs)) as (N1 & N2 & C1 & S2 & T1 & T2).
    destruct Hst as (Hclip & Hslim & Hne & _). assert (0 < nv2)%nat as Hnv by (destruct nv2; [done|lia]).
    destruct (divide_done exact_arith (xc x) AxX row nv2 p1 nv p2 nv2) as (o1 & o2 & -> & M1 & M2 & K1 & K2); [lia|lia|lia| | |].
    { change (part1 exact_arith (xc x) AxX (take nv2 row)) with (part1e (xc x) AxX (take nv2 row)). lia. }
    { change (part2 exact_arith (xc x) AxX (take nv2 row)) with (part2e (xc x) AxX (take nv2 row)). lia. }
    change (part1 exact_arith (xc x) AxX (take nv2 row)) with (part1e (xc x) AxX (take nv2 row)) in *.
    change (part2 exact_arith (xc x) AxX (take nv2 row)) with (part2e (xc x) AxX (take nv2 row)) in *.
    set (P1 := part1e (xc x) AxX (take nv2 row)) in *. set (P2 := part2e (xc x) AxX (take nv2 row)) in *. cbn [obind].
    assert (∀ s', so_far (x + 1) z s' → cell_inv (x + 1) (o2, length P2, (o1, length P1), row, s')) as Hnext.
    { intros s' Hs'. split; [lia|]. split; [lia|]. split; [lia|]. split; [lia|]. split; [done|]. intros Hx'. rewrite K2.
      rewrite low_next by lia. destruct (decide (P2 = [])) as [E|E]; [|left; by apply S2]. right.
      assert (x + 1 = 0) as E0.
      { destruct (decide (1 <= x + 1)) as [Hge|]; [|lia]. exfalso. destruct Hmax as (q & Hq & Eq).
        destruct (proj1 (proj2 HW) q Hq) as [Tq Rq]. apply (T2 q Tq Rq); [|done]. cbn. rewrite cutl_line, Eq.
        apply line_of_cell; [done|lia|lia]. }
      split; [by rewrite E|]. split; [done|]. split; [lia|]. split; [lia|]. intros p Tp Rp. apply Qnot_le_lt. intros Hle.
      apply (T2 p Tp Rp); [|done]. cbn. rewrite cutl_line. by rewrite E0. }
    destruct ((length P1 <? 3)%nat || (x <? 0)) eqn:E.
    + eexists. split; [done|]. apply Hnext. apply (so_far_skip x z); [done|left; unfold before; lia|].
      intros x' z' Hx' Hz' Hb Hnb ((p & Tp & Ip & _) & _). assert (x' = x ∧ z' = z) as [-> ->] by (unfold before in *; lia).
      assert (3 <= length P1)%nat; [|lia]. apply (T1 p Tp).
      * apply (cell_row x). by apply inside_in.
      * destruct Ip as [[Hl Hr] _]. unfold low. destruct (x =? x0); [done|]. cbn. rewrite cutl_line. by replace (x - 1 + 1) with x by lia.
      * destruct Ip as [[Hl Hr] _]. cbn. by rewrite cutl_line.
    + destruct (so_far_cell x z s o1 (length P1) Hs ltac:(lia) Hz ltac:(lia) ltac:(lia)) as (r & s' & -> & Es & Hs').
      * rewrite K1. intros Ox Oz lo hi Hq Hl Hhi.
        assert (∀ q, q ∈ P1 → in_tri t q ∧ in_cell g x z q) as Hin.
        { intros q Hin. destruct (proj1 (proj2 C1) q Hin) as [Tq [[Rq Hge] Hle]]. split; [done|]. split; [|by apply row_cell]. cbn in Hle, Hge. rewrite cutl_line in Hle.
          split; [|done]. unfold low in Hge. destruct (x =? x0) eqn:Ex.
          - apply Z.eqb_eq in Ex. destruct (decide (1 <= x)).
            + apply Qle_trans with mnx; [|by apply row_px]. apply line_of_cell; [done|done|lia].
            + destruct Ox as [Ox|Ox]; [lia|]. assert (x = 0) as -> by lia. unfold line. change (inject_Z 0) with 0%Q. specialize (Ox q Tq). lra.
          - cbn in Hge. rewrite cutl_line in Hge. by replace (x - 1 + 1) with x in Hge by lia. }
        split; [|split].
        -- intros p Tp Cp. assert (in_hull P1 p) as Hp.
           { apply C1; [done|]. split; [split|].
             - by apply (cell_row x).
             - destruct Cp as [[Hl' _] _]. unfold low. destruct (x =? x0); [done|]. cbn. rewrite cutl_line. by replace (x - 1 + 1) with x by lia.
             - destruct Cp as [[_ Hr'] _]. cbn. by rewrite cutl_line. }
           split.
           ++ specialize (Hp (Aff 0 (-1) 0 lo)). unfold ev in Hp. cbn in Hp. assert (0 * px p + -1 * py p + 0 * pz p + lo <= 0)%Q; [|lra].
              apply Hp. intros q Hin'. specialize (Hq q Hin'). lra.
           ++ specialize (Hp (Aff 0 1 0 (- hi))). unfold ev in Hp. cbn in Hp. assert (0 * px p + 1 * py p + 0 * pz p + - hi <= 0)%Q; [|lra].
              apply Hp. intros q Hin'. specialize (Hq q Hin'). lra.
        -- destruct Hl as (q & Hq' & Eq). exists q. destruct (Hin q Hq'). split; [done|]. split; [done|]. by rewrite Eq.
        -- destruct Hhi as (q & Hq' & Eq). exists q. destruct (Hin q Hq'). split; [done|]. split; [done|]. by rewrite Eq.
      * rewrite K1. intros p Tp Cp _. apply C1; [done|]. split; [split|].
        -- by apply (cell_row x).
        -- destruct Cp as [[Hl' _] _]. unfold low. destruct (x =? x0); [done|]. cbn. rewrite cutl_line. by replace (x - 1 + 1) with x by lia.
        -- destruct Cp as [[_ Hr'] _]. cbn. by rewrite cutl_line.
      * cbn [obind]. destruct r as [[a b]|].
        -- rewrite Es. cbn [obind]. eexists. split; [done|]. by apply Hnext.
        -- eexists. split; [done|]. injection Es as ->. by apply Hnext.
  - destruct Hph as (-> & Ex & Ex0 & Hnv & Hout). subst x. change (divide_poly exact_arith row 0 p1 nv p2 0 (xc 0) AxX) with (Done (Some ((p1, nv), (p2, 0%nat)))). cbn [obind].
    assert (tr (vx mxx) <= 0) as Ht.
    { destruct (decide (1 <= tr (vx mxx))) as [Hge|]; [|lia]. exfalso. destruct Hmax as (q & Hq & Eq).
      destruct (proj1 (proj2 HW) q Hq) as [Tq Rq]. specialize (Hout q Tq Rq). rewrite Eq in Hout.
      pose proof (line_of_cell (px (pl_min g)) (pl_cs g) Hcs 1 mxx ltac:(lia) Hge) as Hl. unfold line in *. change (inject_Z 0) with 0%Q in *. change (inject_Z 1) with 1%Q in *. lra. }
    assert (∀ s', so_far (0 + 1) z s' → cell_inv (0 + 1) (p2, 0%nat, (p1, nv), row, s')) as Hnext.
    { intros s' Hs'. split; [done|]. split; [done|]. split; [done|]. split; [lia|]. split; [done|]. lia. }
    destruct ((nv <? 3)%nat || (0 <? 0)) eqn:E.
    + eexists. split; [done|]. apply Hnext. apply (so_far_skip 0 z); [done|left; unfold before; lia|].
      intros x' z' Hx' Hz' Hb Hnb ((p & Tp & Ip & _) & _). assert (x' = 0 ∧ z' = z) as [-> ->] by (unfold before in *; lia).
      specialize (Hout p Tp (cell_row 0 p (inside_in 0 z p Ip))). destruct Ip as [[Hl _] _]. lra.
    + destruct (so_far_cell 0 z s p1 nv Hs ltac:(lia) Hz ltac:(lia) ltac:(lia)) as (r & s' & -> & Es & Hs').
      * intros [Ox|Ox]; [lia|]. exfalso. destruct Hmax as (q & Hq & Eq). destruct (proj1 (proj2 HW) q Hq) as [Tq Rq].
        specialize (Ox q Tq). specialize (Hout q Tq Rq). unfold line in Hout. change (inject_Z 0) with 0%Q in Hout. lra.
      * intros p Tp Cp _. exfalso. specialize (Hout p Tp (cell_row 0 p Cp)). destruct Cp as [[Hl _] _]. lra.
      * cbn [obind]. destruct r as [[a b]|].
        -- rewrite Es. cbn [obind]. eexists. split; [done|]. by apply Hnext.
        -- eexists. split; [done|]. injection Es as ->. by apply Hnext.
Qed.
End Row.

(** ** All rows *)

Lemma mean_between a b c u v w' : (0 <= u → 0 <= v → 0 <= w' → u + v + w' == 1 →
  mn (mn a b) c <= u * a + v * b + w' * c <= mx (mx a b) c)%Q.
Proof.
  intros Hu Hv Hw' H1. destruct (mn_spec (mn a b) c) as (_ & A1 & A2). destruct (mn_spec a b) as (_ & A3 & A4).
  destruct (mx_spec (mx a b) c) as (_ & B1 & B2). destruct (mx_spec a b) as (_ & B3 & B4).
  set (m := mn (mn a b) c) in *. set (M := mx (mx a b) c) in *.
  assert (m <= a ∧ m <= b ∧ a <= M ∧ b <= M)%Q as (C1 & C2 & C3 & C4).
  { repeat split; first [by eapply Qle_trans; [exact A1|] | by eapply Qle_trans; [|exact B1]]. }
  assert (∀ k x y, 0 <= k → x <= y → k * x <= k * y)%Q as Hk by (intros; nra).
  pose proof (Hk u _ _ Hu C1). pose proof (Hk v _ _ Hv C2). pose proof (Hk w' _ _ Hw' A2).
  pose proof (Hk u _ _ Hu C3). pose proof (Hk v _ _ Hv C4). pose proof (Hk w' _ _ Hw' B2).
  assert (m == u * m + v * m + w' * m)%Q as Em by (rewrite <- !Qmult_plus_distr_l, H1; ring).
  assert (M == u * M + v * M + w' * M)%Q as EM by (rewrite <- !Qmult_plus_distr_l, H1; ring).
  split; [rewrite Em|rewrite EM]; lra.
Qed.
Lemma tri_box p : in_tri t p →
  (px (tri_min exact_arith t) <= px p <= px (tri_max exact_arith t))%Q ∧
  (py (tri_min exact_arith t) <= py p <= py (tri_max exact_arith t))%Q ∧
  (pz (tri_min exact_arith t) <= pz p <= pz (tri_max exact_arith t))%Q.
Proof.
  intros (u & v & w' & Hu & Hv & Hw' & H1 & -> & -> & ->). unfold tri_min, tri_max, p_map2. cbn [px py pz n_vmin n_vmax exact_arith].
  split; [|split]; by apply mean_between.
Qed.
Lemma tri_z p : in_tri t p → (pz (tri_min exact_arith t) <= pz p <= pz (tri_max exact_arith t))%Q.
Proof. intros Tp. by apply tri_box. Qed.
Lemma meets_box x z : 0 <= x → 0 <= z → meets_cell g t x z → intersects exact_arith g (tri_min exact_arith t) (tri_max exact_arith t) = true.
Proof.
  intros Hx Hz ((p & Tp & [[I1 _] [I2 _]] & I3 & I4) & (q & Tq & _ & Hq) & (r & Tr & _ & Hr)).
  destruct (tri_box p Tp) as (P1 & _ & P3). destruct (tri_box q Tq) as (_ & Q2 & _). destruct (tri_box r Tr) as (_ & R2 & _).
  assert (∀ k, 0 <= k → (0 <= inject_Z k * pl_cs g)%Q) as Hk.
  { intros k Hk. apply Qmult_le_0_compat; [|lra]. change 0%Q with (inject_Z 0). by rewrite <- Zle_Qle. }
  pose proof (Hk x Hx). pose proof (Hk z Hz). unfold line in I1, I2. clear Hk.
  unfold intersects, p_le. cbn [n_le exact_arith]. rewrite !andb_true_iff, !Qle_bool_iff. repeat split; lra.
Qed.
Lemma tri_z_max : ∃ q, in_tri t q ∧ pz q = pz (tri_max exact_arith t).
Proof.
  unfold tri_max, p_map2. cbn [pz n_vmax exact_arith].
  change (Q_max (Q_max (pz t.1.1) (pz t.1.2)) (pz t.2)) with (mx (mx (pz t.1.1) (pz t.1.2)) (pz t.2)).
  destruct (mx_spec (mx (pz t.1.1) (pz t.1.2)) (pz t.2)) as ([->| ->] & _).
  - destruct (mx_spec (pz t.1.1) (pz t.1.2)) as ([->| ->] & _); eexists; (split; [apply tri_corner|done]); set_solver.
  - eexists; (split; [apply tri_corner|done]); set_solver.
Qed.

Section Rows.
Local Notation vx := (val (px (pl_min g)) (pl_cs g)).
Local Notation vz := (val (pz (pl_min g)) (pl_cs g)).
Local Notation mnz := (pz (tri_min exact_arith t)).
Local Notation mxz := (pz (tri_max exact_arith t)).
Context (Hbox : (pz (pl_min g) <= mxz)%Q).
Context (z0 z1 : Z) (Hz0 : z0 = Z.max (-1) (Z.min (h - 1) (tr (vz mnz)))) (Hz1 : z1 = Z.max 0 (Z.min (h - 1) (tr (vz mxz)))).

Definition row_inv (z : Z) (st : list (pt Q) * nat * (list (pt Q) * nat) * (list (pt Q) * list (pt Q)) * spans) : Prop :=
  let '((tri, nvt), (row, nvr), (p1, p2), s) := st in
  length tri = 7%nat ∧ length row = 7%nat ∧ length p1 = 7%nat ∧ length p2 = 7%nat ∧ (nvt <= 7)%nat ∧ so_far (-1) z s ∧
  (z <= z1 → stage t 3 AxZ (λ _, True) (low zc z0 z) (take nvt tri)).

Lemma row_ok z st : z0 <= z <= z1 → row_inv z st → ∃ st', row_step exact_arith emit_list g w z st = Done (Some st') ∧ row_inv (z + 1) st'.
Proof.
  destruct st as [[[[tri nvt] [row nvr]] [p1 p2]] s]. intros Hz (L1 & L2 & L3 & L4 & Ln & Hs & Hst). specialize (Hst ltac:(lia)).
  unfold row_step. cbn [n_add n_mul n_of_Z exact_arith]. change (pz (pl_min g) + inject_Z z * pl_cs g + pl_cs g)%Q with (zc z).
  destruct (stage_cut t 3 AxZ (λ _, True) (low zc z0 z) (take nvt tri) (zc z) ltac:(done) ltac:(lia) Hst (low_cut _ _ z0 z Hcs)) as (N1 & N2 & C1 & S2 & T1 & T2).
  destruct Hst as (Hclip & Hslim & Hne & _). assert (0 < nvt)%nat as Hnv by (destruct nvt; [done|lia]).
  destruct (divide_done exact_arith (zc z) AxZ tri nvt row nvr p1 nvt) as (o1 & o2 & -> & M1 & M2 & K1 & K2); [lia|lia|lia| | |].
  { change (part1 exact_arith (zc z) AxZ (take nvt tri)) with (part1e (zc z) AxZ (take nvt tri)). lia. }
  { change (part2 exact_arith (zc z) AxZ (take nvt tri)) with (part2e (zc z) AxZ (take nvt tri)). lia. }
  change (part1 exact_arith (zc z) AxZ (take nvt tri)) with (part1e (zc z) AxZ (take nvt tri)) in *.
  change (part2 exact_arith (zc z) AxZ (take nvt tri)) with (part2e (zc z) AxZ (take nvt tri)) in *.
  set (P1 := part1e (zc z) AxZ (take nvt tri)) in *. set (P2 := part2e (zc z) AxZ (take nvt tri)) in *. cbn [obind].
  assert (∀ row' p1' p2' s', length row' = 7%nat → length p1' = 7%nat → length p2' = 7%nat → so_far (-1) (z + 1) s' →
    row_inv (z + 1) (o2, length P2, (row', length P1), (p1', p2'), s')) as Hnext.
  { intros row' p1' p2' s' A1 A2 A3 Hs'. split; [lia|]. split; [lia|]. split; [lia|]. split; [lia|]. split; [lia|]. split; [done|]. intros Hz'. rewrite K2.
    rewrite low_next by lia. apply S2. destruct tri_z_max as (q & Tq & Eq). apply (T2 q Tq I). cbn. rewrite cutl_line, Eq.
    apply line_of_cell0; [done|done|]. pose proof (cell_of_max (pz (pl_min g)) (pl_cs g) Hcs) as Hc.
    assert (0 <= tr (vz mxz)); [|lia]. apply tr_pos. change 0%Q with (inject_Z 0). apply line_le; [done|]. unfold line. change (inject_Z 0) with 0%Q. lra. }
  assert (∀ x p, inside_cell g x z p → Rw z (low zc z0 z) p) as HinR.
  { intros x p [_ [H1 H2]]. split; [split; [done|]|].
    - unfold low. destruct (z =? z0); [done|]. cbn. rewrite cutl_line. replace (z - 1 + 1) with z by lia. lra.
    - rewrite cutl_line. lra. }
  destruct ((length P1 <? 3)%nat || (z <? 0)) eqn:E.
  { eexists. split; [done|]. apply Hnext; [lia|lia|lia|]. apply (so_far_skip (-1) z); [done|left; unfold before; lia|].
    intros x' z' Hx' Hz' Hb Hnb ((p & Tp & Ip & _) & _). assert (z' = z) as -> by (unfold before in *; lia).
    assert (3 <= length P1)%nat; [|lia]. apply (T1 p Tp I).
    - destruct Ip as [_ [Hl Hr]]. unfold low. destruct (z =? z0); [done|]. cbn. rewrite cutl_line. by replace (z - 1 + 1) with z by lia.
    - destruct Ip as [_ [Hl Hr]]. cbn. by rewrite cutl_line. }
  assert (3 <= length P1)%nat as H3 by lia. assert (0 <= z) as Hz0' by lia.
  destruct (extent_done px o1 (length P1)) as (mnx & mxx & -> & Hext & Hmin & Hmax); [lia|lia|]. rewrite K1 in Hext, Hmin, Hmax. cbn [obind].
  cbn [n_to_i16 n_sub n_div n_of_Z exact_arith]. change (inject_Z 1) with 1%Q.
  change ((mnx - px (pl_min g)) * (1 / pl_cs g))%Q with (vx mnx). change ((mxx - px (pl_min g)) * (1 / pl_cs g))%Q with (vx mxx).
  fold (tr (vx mnx)) (tr (vx mxx)).
  assert (∀ p, in_tri t p → Rw z (low zc z0 z) p → (mnx <= px p <= mxx)%Q) as Hpx.
  { intros p Tp Rp. by apply (row_px z (low zc z0 z) P1 C1 mnx mxx Hext). }
  assert (∀ x p, 0 <= x < w → in_tri t p → inside_cell g x z p → tr (vx mnx) <= x <= tr (vx mxx)) as Hxr.
  { intros x p Hx Tp Ip. destruct (Hpx p Tp (HinR x p Ip)) as [A1 A2]. destruct Ip as [[I1 I2] _]. split.
    - apply (cell_of_min (px (pl_min g)) (pl_cs g) Hcs x (px p)); [lia|done|done].
    - apply (cell_of_max (px (pl_min g)) (pl_cs g) Hcs x (px p)); [lia|done|done]. }
  destruct ((sat (-32768) 32767 (tr (vx mxx)) <? 0) || (w <=? sat (-32768) 32767 (tr (vx mnx)))) eqn:Eo.
  { eexists. split; [done|]. apply Hnext; [lia|lia|lia|]. apply (so_far_skip (-1) z); [done|left; unfold before; lia|].
    intros x' z' Hx' Hz' Hb Hnb ((p & Tp & Ip & _) & _). assert (z' = z) as -> by (unfold before in *; lia).
    specialize (Hxr x' p Hx' Tp Ip). unfold sat in Eo. lia. }
  apply orb_false_iff in Eo as [Eo1 Eo2]. unfold sat in Eo1, Eo2.
  rewrite chk_in by lia. cbn [obind]. unfold clamp_Z. destruct (w - 1 <? -1) eqn:F1; [lia|]. destruct (w - 1 <? 0) eqn:F2; [lia|]. cbn [obind].
  set (x0 := sat (-1) (w - 1) (sat (-32768) 32767 (tr (vx mnx)))). set (x1 := sat 0 (w - 1) (sat (-32768) 32767 (tr (vx mxx)))).
  assert (x0 = Z.max (-1) (tr (vx mnx))) as Ex0 by (unfold x0, sat; lia).
  assert (x1 = Z.max 0 (Z.min (w - 1) (tr (vx mxx)))) as Ex1 by (unfold x1, sat; lia).
  assert (x0 <= w - 1) as Hx0w by (unfold x0, sat; lia).
  assert (tr (vx mnx) <= tr (vx mxx)) as Hmono.
  { destruct Hmin as (q & Hq & Eq). assert (mnx <= mxx)%Q as Hle by (specialize (Hext q Hq); lra).
    pose proof (val_mono (px (pl_min g)) (pl_cs g) Hcs _ _ Hle) as Hv. destruct (Qlt_le_dec (vx mxx) 0) as [Hn|Hn].
    - destruct (tr_neg (vx mnx)) as (A1 & A2 & A3); [lra|]. destruct (tr_neg (vx mxx)) as (B1 & B2 & B3); [lra|].
      assert (inject_Z (tr (vx mnx) - 1) < inject_Z (tr (vx mxx)))%Q as HH by lra. rewrite <- Zlt_Qlt in HH. lia.
    - destruct (tr_pos (vx mxx) Hn) as (A1 & A2 & A3). destruct (Qlt_le_dec (vx mnx) 0) as [Hm|Hm].
      + destruct (tr_neg (vx mnx)); [lra|]. lia.
      + destruct (tr_pos (vx mnx) Hm) as (B1 & B2 & B3). assert (inject_Z (tr (vx mnx)) < inject_Z (tr (vx mxx) + 1))%Q as HH by lra. rewrite <- Zlt_Qlt in HH. lia. }
  assert (low zc z0 z = Some (zc (z - 1)) ∨ low zc z0 z = None ∧ (okz z → ∀ p, in_tri t p → (zl z <= pz p)%Q)) as Hzl.
  { unfold low. destruct (z =? z0) eqn:Ez; [right|by left]. split; [done|]. apply Z.eqb_eq in Ez. intros Ho p Tp.
    destruct (decide (1 <= z)) as [Hge|Hlt].
    - apply Qle_trans with mnz; [|by apply tri_z]. apply line_of_cell; [done|done|lia].
    - destruct Ho as [Ho|Ho]; [lia|]. assert (z = 0) as -> by lia. unfold line. change (inject_Z 0) with 0%Q. specialize (Ho p Tp). lra. }
  destruct (foldE_range (cell_step exact_arith emit_list g z) (cell_inv z (low zc z0 z) x0 x1) x0 x1 (o1, length P1, (tri, 0%nat), p2, s)) as (st' & -> & Hst').
  - split; [lia|]. split; [lia|]. split; [lia|]. split; [lia|]. split.
    + assert (-1 <= x0) as Hx0m by lia. apply (so_far_skip (-1) z); [done|unfold before; destruct (decide (-1 = x0)) as [<-|]; [by right|left; lia]|].
      intros x' z' Hx' Hz' Hb Hnb ((p & Tp & Ip & _) & _). assert (z' = z ∧ x' < x0) as [-> Hlt] by (unfold before in *; lia).
      specialize (Hxr x' p Hx' Tp Ip). lia.
    + intros _. left. rewrite K1, low_first. split; [|split; [|split]].
      * apply (clip_ext t _ _ _ (λ p, conj (λ H, conj H I) (λ H, proj1 H)) C1).
      * left. lia.
      * intros EP. rewrite EP in H3. cbn in H3. lia.
      * intros; lia.
  - lia.
  - intros x st Hx Hi. apply (cell_ok z ltac:(lia) (low zc z0 z) Hzl P1 C1 ltac:(lia) mnx mxx Hext Hmax x0 x1 Ex0 Hx0w Ex1 x st Hx Hi).
  - cbn [obind]. destruct st' as [[[[row' nv2'] [p1' nv']] p2'] s']. destruct Hst' as (A1 & A2 & A3 & A4 & Hs' & _).
    eexists. split; [done|]. apply Hnext; [done|done|done|]. apply (so_far_skip (x1 + 1) z); [done|left; unfold before; lia|].
    intros x' z' Hx' Hz' Hb Hnb ((p & Tp & Ip & _) & _). assert (z' = z ∧ x1 < x') as [-> Hlt] by (unfold before in *; lia).
    specialize (Hxr x' p Hx' Tp Ip). lia.
Qed.
End Rows.

Theorem rasterize_ok : ∃ s, rasterize_exact w h g t = Done (Some s) ∧
  (∀ e, e ∈ s → entry_ok e) ∧
  (∀ x z, 0 <= x < w → 0 <= z < h → meets_cell g t x z → ∃ a b, (x, z, a, b) ∈ s) ∧
  NoDup (fst ∘ fst <$> s).
Proof.
  unfold rasterize_exact, rasterize_tri. destruct (intersects exact_arith g (tri_min exact_arith t) (tri_max exact_arith t)) eqn:Ei; cbn [negb].
  2:{ exists []. split; [done|]. split; [intros e He; by apply elem_of_nil in He|]. split; [|apply NoDup_nil_2].
    intros x z Hx Hz Hm. pose proof (meets_box x z ltac:(lia) ltac:(lia) Hm). congruence. }
  set (vz := val (pz (pl_min g)) (pl_cs g)). set (mnz := pz (tri_min exact_arith t)). set (mxz := pz (tri_max exact_arith t)).
  assert (pz (pl_min g) <= mxz)%Q as Hbox.
  { unfold intersects, p_le in Ei. cbn [n_le exact_arith] in Ei. apply andb_true_iff in Ei as [Ei _]. apply andb_true_iff in Ei as [_ Ei]. by apply Qle_bool_iff. }
  assert (wrap_i16 w = w) as Ew by (unfold wrap_i16; rewrite Z.mod_small by lia; lia).
  assert (wrap_i16 h = h) as Eh by (unfold wrap_i16; rewrite Z.mod_small by lia; lia).
  rewrite Ew, Eh. rewrite chk_in by lia. cbn [obind]. unfold clamp_Z. destruct (h - 1 <? -1) eqn:F1; [lia|]. destruct (h - 1 <? 0) eqn:F2; [lia|]. cbn [obind].
  cbn [n_to_i16 n_sub n_div n_mul n_of_Z exact_arith]. change (inject_Z 1) with 1%Q. change (inject_Z 0) with 0%Q.
  change ((mnz - pz (pl_min g)) * (1 / pl_cs g))%Q with (vz mnz). change ((mxz - pz (pl_min g)) * (1 / pl_cs g))%Q with (vz mxz).
  fold (tr (vz mnz)) (tr (vz mxz)).
  set (z0 := sat (-1) (h - 1) (sat (-32768) 32767 (tr (vz mnz)))). set (z1 := sat 0 (h - 1) (sat (-32768) 32767 (tr (vz mxz)))).
  assert (z0 = Z.max (-1) (Z.min (h - 1) (tr (vz mnz)))) as Ez0 by (unfold z0, sat; lia).
  assert (z1 = Z.max 0 (Z.min (h - 1) (tr (vz mxz)))) as Ez1 by (unfold z1, sat; lia).
  assert (0 <= tr (vz mxz)) as Hpos.
  { apply tr_pos. change 0%Q with (inject_Z 0). apply line_le; [done|]. unfold line. change (inject_Z 0) with 0%Q. lra. }
  assert (mnz <= mxz)%Q as Hle.
  { destruct (tri_z (t.1.1)); [apply tri_corner; left|]. unfold mnz, mxz. lra. }
  assert (tr (vz mnz) <= tr (vz mxz)) as Hmono.
  { pose proof (val_mono (pz (pl_min g)) (pl_cs g) Hcs _ _ Hle) as Hv. fold vz in Hv. assert (0 <= vz mxz)%Q as Hn.
    { change 0%Q with (inject_Z 0). apply line_le; [done|]. unfold line. change (inject_Z 0) with 0%Q. lra. }
    destruct (tr_pos (vz mxz) Hn) as (A1 & A2 & A3). destruct (Qlt_le_dec (vz mnz) 0) as [Hm|Hm].
    - destruct (tr_neg (vz mnz)); [lra|]. lia.
    - destruct (tr_pos (vz mnz) Hm) as (B1 & B2 & B3). assert (inject_Z (tr (vz mnz)) < inject_Z (tr (vz mxz) + 1))%Q as HH by lra. rewrite <- Zlt_Qlt in HH. lia. }
  assert (∀ x z p, 0 <= z < h → in_tri t p → inside_cell g x z p → z0 <= z <= z1) as Hzr.
  { intros x z p Hz Tp Ip. destruct (tri_z p Tp) as [A1 A2]. destruct Ip as [_ [I1 I2]].
    pose proof (cell_of_min (pz (pl_min g)) (pl_cs g) Hcs z (pz p) mnz ltac:(lia) I2 A1) as R1. pose proof (cell_of_max (pz (pl_min g)) (pl_cs g) Hcs z (pz p) mxz ltac:(lia) I1 A2) as R2.
    fold vz in R1, R2. lia. }
  destruct (foldE_range (row_step exact_arith emit_list g w) (row_inv z0 z1) z0 z1
    ([t.1.1; t.1.2; t.2] ++ repeat (Pt 0%Q 0%Q 0%Q) 4, 3%nat, (repeat (Pt 0%Q 0%Q 0%Q) 7, 0%nat), (repeat (Pt 0%Q 0%Q 0%Q) 7, repeat (Pt 0%Q 0%Q 0%Q) 7), [])) as (st' & E & Hst').
  - split; [done|]. split; [done|]. split; [done|]. split; [done|]. split; [lia|]. split.
    + split; [intros e He; by apply elem_of_nil in He|]. split; [|apply NoDup_nil_2]. intros x z Hx Hz Hb ((p & Tp & Ip & _) & _).
      specialize (Hzr x z p Hz Tp Ip). unfold before in Hb. lia.
    + intros _. rewrite low_first. change (take 3 ([t.1.1; t.1.2; t.2] ++ repeat (Pt 0%Q 0%Q 0%Q) 4)) with [t.1.1; t.1.2; t.2].
      split; [|split; [|split; [done|]]].
      * apply (clip_ext t _ _ _ (λ p, conj (λ H, conj H I) (λ H, proj1 H)) (clip_start t)).
      * left. cbn. lia.
      * intros; cbn; lia.
  - lia.
  - intros z st Hz Hi. apply (row_ok Hbox z0 z1 Ez0 Ez1 z st Hz Hi).
  - rewrite E. cbn [obind]. destruct st' as [[[[tri nvt] [row nvr]] [p1 p2]] s]. destruct Hst' as (_ & _ & _ & _ & _ & (H1 & H2 & H3) & _).
    exists s. split; [done|]. split; [intros e He; by apply H1|]. split; [|done]. intros x z Hx Hz Hm. apply H2; [done|done| |done].
    destruct Hm as ((p & Tp & Ip & _) & _). specialize (Hzr x z p Hz Tp Ip). unfold before. lia.
Qed.
End Loops.
