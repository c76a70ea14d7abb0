(** Rasterizing a triangle inserts the same spans whatever the heightfield holds. *)
From Verif Require Import Base ModelMath ModelTriMesh ModelHeightfield ModelRasterize RasterSafe.
Local Open Scope Z_scope.

Lemma foldE_rel {A S1 S2} (f1 : A → S1 → outcome (option S1)) (f2 : A → S2 → outcome (option S2)) (R : S1 → S2 → Prop) l :
  (∀ a s1 s2 s1', a ∈ l → R s1 s2 → f1 a s1 = Done (Some s1') → ∃ s2', f2 a s2 = Done (Some s2') ∧ R s1' s2') →
  ∀ s1 s2 s1', R s1 s2 → foldE f1 l s1 = Done (Some s1') → ∃ s2', foldE f2 l s2 = Done (Some s2') ∧ R s1' s2'.
Proof.
  induction l as [|a l IH]; intros Hf s1 s2 s1' Hr; cbn [foldE]. { intros [= <-]. by exists s2. }
  intros (r & Er & H)%obind_done. destruct r as [s|]; [|done]. destruct (Hf a s1 s2 s) as (t & -> & Ht); [left|done|done|].
  cbn [obind]. apply (IH (λ b u1 u2 u1' Hb, Hf b u1 u2 u1' (elem_of_list_further _ _ _ Hb)) s t); done.
Qed.

Section Rel.
Context {T : Type} (ar : arith T).
Context {S1 S2 : Type} (e1 : Z → Z → Z → Z → S1 → outcome (option S1)) (e2 : Z → Z → Z → Z → S2 → outcome (option S2)) (R : S1 → S2 → Prop) (w h : Z).
Context (He : ∀ x z a b s1 s2 s1', 0 <= x < w → 0 <= z < h → 0 <= a < b → b <= 65535 → R s1 s2 → e1 x z a b s1 = Done (Some s1') →
  ∃ s2', e2 x z a b s2 = Done (Some s2') ∧ R s1' s2').

Definition pair_rel {B} (p1 : B * S1) (p2 : B * S2) : Prop := p1.1 = p2.1 ∧ R p1.2 p2.2.
Lemma cell_rel g z x st1 st2 st1' : 0 <= z < h → x < w → pair_rel st1 st2 → cell_step ar e1 g z x st1 = Done (Some st1') →
  ∃ st2', cell_step ar e2 g z x st2 = Done (Some st2') ∧ pair_rel st1' st2'.
Proof.
  destruct st1 as [[[[row nv2] [p1 nv]] p2] s1]. destruct st2 as [b2 s2]. intros Hz Hx [E Hr]. cbn [fst snd] in E, Hr. subst b2. unfold cell_step.
  intros (r & -> & H)%obind_done. cbn [obind]. destruct r as [[[o1 n1] [o2 n2]]|]; [|done].
  destruct ((n1 <? 3)%nat || (x <? 0)) eqn:Et. { injection H as <-. eexists. split; [done|]. done. }
  apply obind_done in H as (hs & Eh & H). rewrite Eh. cbn [obind]. destruct hs as [[a b]|].
  - pose proof (heights_safe ar g o1 n1) as Hs. rewrite Eh in Hs. destruct (Hs a b eq_refl) as [? ?].
    apply obind_done in H as (r & Er & H). destruct r as [s1'|]; [|done]. injection H as <-.
    apply orb_false_iff in Et as [_ Hx0]. destruct (He x z a b s1 s2 s1') as (s2' & -> & Hr'); [lia|done|done|done|done|done|].
    cbn [obind]. eexists. split; [done|]. done.
  - injection H as <-. eexists. split; [done|]. done.
Qed.
Lemma row_rel g z st1 st2 st1' : z < h → pair_rel st1 st2 → row_step ar e1 g w z st1 = Done (Some st1') →
  ∃ st2', row_step ar e2 g w z st2 = Done (Some st2') ∧ pair_rel st1' st2'.
Proof.
  destruct st1 as [[[[tri nvt] [row nvr]] [p1 p2]] s1]. destruct st2 as [b2 s2]. intros Hz [E Hr]. cbn [fst snd] in E, Hr. subst b2. unfold row_step.
  intros (r & -> & H)%obind_done. cbn [obind]. destruct r as [[[o1 n1] [o2 n2]]|]; [|done].
  destruct ((n1 <? 3)%nat || (z <? 0)) eqn:Et. { injection H as <-. eexists. split; [done|]. done. }
  apply obind_done in H as ([mn mx] & -> & H). cbn [obind]. cbv zeta in H |- *. destruct ((_ <? 0) || (w <=? _)). { injection H as <-. eexists. split; [done|]. done. }
  apply obind_done in H as (wm & Ewm & H). rewrite Ewm. cbn [obind]. apply obind_done in H as (x0 & E0 & H). rewrite E0. cbn [obind].
  apply obind_done in H as (x1 & E1 & H). rewrite E1. cbn [obind]. apply obind_done in H as (r & Er & H).
  destruct r as [st|]; [|done]. apply orb_false_iff in Et as [_ Hz0].
  assert (x1 < w) as Hx1. { unfold chk in Ewm. destruct (_ && _); [|done]. injection Ewm as <-. unfold clamp_Z in E1. destruct (w - 1 <? 0) eqn:E; [done|]. injection E1 as <-. apply Z.ltb_ge in E. unfold sat. lia. }
  assert (pair_rel (o1, n1, (tri, 0%nat), p2, s1) (o1, n1, (tri, 0%nat), p2, s2)) as H0 by done.
  destruct (foldE_rel (cell_step ar e1 g z) (cell_step ar e2 g z) pair_rel (z_range x0 x1)) with (2 := H0) (3 := Er) as (st2 & E2 & Hst).
  { intros x t1 t2 t1' Hx Ht Ec. apply z_range_in in Hx. eapply cell_rel; [lia|lia|done|done]. }
  rewrite E2. cbn [obind]. destruct st as [[[[row' nv2'] [p1' nv']] p2'] s1']. destruct st2 as [b2 s2']. destruct Hst as [Eb Hr']. cbn [fst snd] in Eb, Hr'. subst b2.
  injection H as <-. eexists. split; [done|]. done.
Qed.
End Rel.

Lemma rasterize_rel {T} (ar : arith T) {S1 S2} (e1 : Z → Z → Z → Z → S1 → outcome (option S1)) (e2 : Z → Z → Z → Z → S2 → outcome (option S2)) (R : S1 → S2 → Prop) width height g t s1 s2 s1' :
  (∀ x z a b s1 s2 s1', 0 <= x < wrap_i16 width → 0 <= z < wrap_i16 height → 0 <= a < b → b <= 65535 → R s1 s2 → e1 x z a b s1 = Done (Some s1') →
    ∃ s2', e2 x z a b s2 = Done (Some s2') ∧ R s1' s2') →
  R s1 s2 → rasterize_tri ar e1 width height g t s1 = Done (Some s1') → ∃ s2', rasterize_tri ar e2 width height g t s2 = Done (Some s2') ∧ R s1' s2'.
Proof.
  intros He Hr. unfold rasterize_tri. destruct (negb _). { intros [= <-]. by exists s2. }
  intros (hm & Ehm & H)%obind_done. rewrite Ehm. cbn [obind]. apply obind_done in H as (z0 & E0 & H). rewrite E0. cbn [obind].
  apply obind_done in H as (z1 & E1 & H). rewrite E1. cbn [obind]. apply obind_done in H as (r & Er & H). destruct r as [st|]; [|done].
  assert (z1 < wrap_i16 height) as Hz1. { unfold chk in Ehm. destruct (_ && _); [|done]. injection Ehm as <-. unfold clamp_Z in E1. destruct (wrap_i16 height - 1 <? 0) eqn:E; [done|]. injection E1 as <-. apply Z.ltb_ge in E. unfold sat. lia. }
  match type of Er with foldE _ _ (?b, s1) = _ => assert (pair_rel R (b, s1) (b, s2)) as H0 by done end.
  destruct (foldE_rel (row_step ar e1 g (wrap_i16 width)) (row_step ar e2 g (wrap_i16 width)) (pair_rel R) (z_range z0 z1)) with (2 := H0) (3 := Er) as (st2 & E2 & Hst).
  { intros z t1 t2 t1' Hz Ht Ec. apply z_range_in in Hz. eapply (row_rel ar e1 e2 R (wrap_i16 width) (wrap_i16 height)); [done|lia|done|done]. }
  rewrite E2. cbn [obind]. destruct st as [[[b1 b2] b3] s1'']. destruct st2 as [c s2'']. destruct Hst as [Eb Hr']. cbn [fst snd] in Eb, Hr'. subst c. injection H as <-. by exists s2''.
Qed.
