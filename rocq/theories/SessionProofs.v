(** Invariants of an editor session. *)
From Verif Require Import Base ModelMath ModelHeightfield ModelContours ModelPoly ModelTriMesh ModelDetail SpecPoly ModelExport
  ModelView SpecView SpecSession ViewProofs ExportProofs.
Local Open Scope Z_scope.

Lemma upd_same f g b : upd f g b g = b.
Proof. unfold upd. by rewrite decide_True. Qed.
Lemma upd_other f g g' b : g' ≠ g → upd f g b g' = f g'.
Proof. intros. unfold upd. by rewrite decide_False. Qed.

Lemma affector_lines_ok t : Forall (λ i : Z * Z * Z, Forall (λ j, 0 <= j < Z.of_nat (length (tm_verts t))) [i.1.1; i.1.2; i.2]) (tm_idx t) →
  ∃ l, affector_lines (affector_mesh t) = Done l ∧ affector_picture (TM (tm_verts t) (tm_idx t) (repeat 0 (length (tm_idx t)))) l.
Proof.
  intros H. unfold affector_lines. rewrite affector_trip. cbn [unwrap obind tm_verts tm_idx]. unfold affector_picture. cbn [tm_verts tm_idx].
  set (f := λ i : Z * Z * Z, _).
  destruct (mapM_o_rel f (λ i l, ∃ q, placed (λ i p, tm_verts t !! Z.to_nat i = Some p) i q ∧ around (tri_list q) l) (tm_idx t)) as (ls & E & HF).
  { eapply Forall_impl; [exact H|]. intros [[a b] c] Hi. cbn [fst snd] in Hi. repeat rewrite Forall_cons in Hi. destruct Hi as (Ha & Hb & Hc & _).
    destruct (lookup_lt_is_Some_2 (tm_verts t) (Z.to_nat a)) as [pa Ea]; [lia|].
    destruct (lookup_lt_is_Some_2 (tm_verts t) (Z.to_nat b)) as [pb Eb]; [lia|].
    destruct (lookup_lt_is_Some_2 (tm_verts t) (Z.to_nat c)) as [pc Ec]; [lia|].
    exists [pa; pb; pc; pa]. split.
    { unfold f. cbn [mapM_o fst snd]. unfold get. by rewrite Ea, Eb, Ec. }
    exists (pa, pb, pc). split; [done|]. by exists pa, [pb; pc]. }
  exists ls. split; [exact E|]. clear E H f. induction HF as [|i l is ls (q & Hq & Hl) _ (ts & IH1 & IH2)]; [exists []; split; constructor|].
  exists (q :: ts). by split; constructor.
Qed.

(** The invariant; [ok]: a checkbox was clicked after the latest load. *)
Record inv (ok : bool) (s : session) : Prop := {
  iv_mesh : ∀ n, ses_mesh s = Some n → drawable n;
  iv_affs : Forall (λ a, ∃ t, trimesh_of a.1 = Some t ∧ ∃ l, affector_lines a.1 = Done l ∧ affector_picture t l) (ses_affs s);
  iv_p_off : ses_on s GPoly = false → ses_toff s GPoly = false → blank (ses_poly s);
  iv_p_none : ses_mesh s = None → blank (ses_poly s);
  iv_p_on : ok = true → ses_on s GPoly = true → ses_new s GPoly = false → ses_ton s GPoly = false → ∀ n, ses_mesh s = Some n → shows_poly n.1 (ses_poly s);
  iv_d_off : ses_on s GDetail = false → ses_toff s GDetail = false → blank (ses_detail s);
  iv_d_none : ses_mesh s = None → blank (ses_detail s);
  iv_d_on : ok = true → ses_on s GDetail = true → ses_new s GDetail = false → ses_ton s GDetail = false → ∀ n, ses_mesh s = Some n → shows_detail n.2 (ses_detail s);
  iv_a_off : ses_on s GAffector = false → ses_toff s GAffector = false → Forall (λ a, a.2 = []) (ses_affs s);
  iv_a_on : ok = true → ses_on s GAffector = true → ses_ton s GAffector = false → Forall (λ a, ∃ t, trimesh_of a.1 = Some t ∧ affector_picture t a.2) (ses_affs s);
  iv_v_off : ok = true → ses_on s GVisual = false → ses_toff s GVisual = false → Forall (λ v, v.2 = false) (ses_vis s);
  iv_v_on : ses_on s GVisual = true → ses_ton s GVisual = false → Forall (λ v, v.2 = true) (ses_vis s)
}.

(** What a system leaves alone, and what it achieves. *)
Record ran (ok : bool) (y : sys) (s s' : session) : Prop := {
  rn_on : ses_on s' = ses_on s;
  rn_mesh : ses_mesh s' = ses_mesh s;
  rn_inv : inv ok s';
  rn_keep_p : y ≠ SDraw GPoly → y ≠ SHide GPoly → ses_poly s' = ses_poly s;
  rn_keep_d : y ≠ SDraw GDetail → y ≠ SHide GDetail → ses_detail s' = ses_detail s;
  rn_keep_a : y ≠ SDraw GAffector → y ≠ SHide GAffector → ses_affs s' = ses_affs s;
  rn_keep_v : y ≠ SDraw GVisual → y ≠ SHide GVisual → ses_vis s' = ses_vis s;
  (** a drawing system does nothing while its box is not ticked, a hiding one while it is *)
  rn_idle_on : ∀ g, y = SDraw g → ses_on s g = false → ses_poly s' = ses_poly s ∧ ses_detail s' = ses_detail s ∧ ses_affs s' = ses_affs s ∧ ses_vis s' = ses_vis s;
  rn_idle_off : ∀ g, y = SHide g → ses_on s g = true → ses_poly s' = ses_poly s ∧ ses_detail s' = ses_detail s ∧ ses_affs s' = ses_affs s ∧ ses_vis s' = ses_vis s;
  rn_draw_p : ok = true → y = SDraw GPoly → ses_on s GPoly = true → ∀ n, ses_mesh s = Some n → shows_poly n.1 (ses_poly s');
  rn_draw_d : ok = true → y = SDraw GDetail → ses_on s GDetail = true → ∀ n, ses_mesh s = Some n → shows_detail n.2 (ses_detail s');
  rn_draw_a : ok = true → y = SDraw GAffector → ses_on s GAffector = true → Forall (λ a, ∃ t, trimesh_of a.1 = Some t ∧ affector_picture t a.2) (ses_affs s');
  rn_draw_v : y = SDraw GVisual → ses_on s GVisual = true → Forall (λ v, v.2 = true) (ses_vis s');
  rn_hide_p : y = SHide GPoly → ses_on s GPoly = false → blank (ses_poly s');
  rn_hide_d : y = SHide GDetail → ses_on s GDetail = false → blank (ses_detail s');
  rn_hide_a : y = SHide GAffector → ses_on s GAffector = false → Forall (λ a, a.2 = []) (ses_affs s');
  rn_hide_v : ok = true → y = SHide GVisual → ses_on s GVisual = false → Forall (λ v, v.2 = false) (ses_vis s')
}.

Ltac simp_s := cbn [ses_on ses_mesh ses_new ses_ton ses_toff ses_poly ses_detail ses_affs ses_vis set_poly set_detail set_affs set_vis seen_new seen_on seen_off] in *.
Ltac simp_u := repeat first [rewrite upd_same in *|rewrite upd_other in * by done].

(** Closes the fields that do not change. *)
Ltac fin := split; simp_s; try done; try congruence; try match goal with |- inv _ _ => split; simp_s; simp_u; try done; try congruence end; intros; simp_u; try congruence; auto 10.

Lemma draw_affs (l : list (bmesh * list (list vec3))) :
  Forall (λ a, ∃ t, trimesh_of a.1 = Some t ∧ ∃ l, affector_lines a.1 = Done l ∧ affector_picture t l) l →
  ∃ l', mapM_o (λ a : bmesh * list (list vec3), let! ls := affector_lines a.1 in Done (a.1, ls)) l = Done l' ∧
    Forall (λ a, ∃ t, trimesh_of a.1 = Some t ∧ affector_picture t a.2) l' ∧
    Forall (λ a, ∃ t, trimesh_of a.1 = Some t ∧ ∃ l, affector_lines a.1 = Done l ∧ affector_picture t l) l'.
Proof.
  induction 1 as [|a l (t & Et & ls & El & Hl) _ (l' & E & H1 & H2)]; [exists []; split; [done|]; split; constructor|].
  exists ((a.1, ls) :: l'). cbn [mapM_o]. rewrite El. cbn [obind]. rewrite E. cbn [obind]. split; [done|]. split; constructor; try done; cbn; eauto 10.
Qed.
Lemma hide_affs (l : list (bmesh * list (list vec3))) :
  Forall (λ a, ∃ t, trimesh_of a.1 = Some t ∧ ∃ l, affector_lines a.1 = Done l ∧ affector_picture t l) l →
  let l' := (λ a : bmesh * list (list vec3), (a.1, [] : list (list vec3))) <$> l in
  Forall (λ a, a.2 = []) l' ∧
  Forall (λ a, ∃ t, trimesh_of a.1 = Some t ∧ ∃ l, affector_lines a.1 = Done l ∧ affector_picture t l) l'.
Proof. intros H l'. split; apply Forall_fmap; [by apply Forall_true|exact H]. Qed.

Lemma run_ran ok y s : inv ok s → ∃ s', run_sys y s = Done s' ∧ ran ok y s s'.
Proof.
  intros [Im Ia Ip0 Ipn Ip1 Id0 Idn Id1 Ia0 Ia1 Iv0 Iv1]. destruct y as [[]|[]]; cbn [run_sys].
  - (* draw visual *)
    destruct (ses_ton s GVisual) eqn:Et, (ses_on s GVisual) eqn:Eo; cbn [andb]; eexists; (split; [reflexivity|]); split; simp_s; try done; try (split; simp_s; simp_u; try done).
    all: try (intros; apply Forall_fmap; by apply Forall_true). all: try (intros g [= <-]; congruence). all: try congruence. all: try (intros; by apply Iv1).
    all: intros; simp_u; try congruence; auto.
  - (* draw affector *)
    destruct (draw_affs _ Ia) as (l' & El & Hl1 & Hl2).
    destruct (ses_ton s GAffector) eqn:Et, (ses_on s GAffector) eqn:Eo; cbn [andb]; simp_s; try rewrite El; cbn [obind];
      eexists; (split; [reflexivity|]); split; simp_s; try done; try (split; simp_s; simp_u; try done).
    all: try (intros g [= <-]; congruence). all: try congruence. all: intros; simp_u; try congruence; auto.
  - (* draw poly *)
    unfold mesh_condition. case_eq (ses_mesh s); [intros n Em|intros Em; eexists; split; [reflexivity|]; fin].
    destruct (ses_on s GPoly) eqn:Eo; cbn [negb].
    2:{ eexists; split; [reflexivity|]. fin. }
    destruct (Im n Em) as [(l & sf & El & Es & Hp) _].
    destruct (ses_new s GPoly) eqn:En.
    { cbn [ses_mesh seen_new]. rewrite Em. unfold draw_view. rewrite El. cbn [obind]. rewrite Es. cbn [obind]. eexists. split; [reflexivity|].
      assert (shows_poly n.1 (Vw true l (Some sf))) as Hs by (split; [done|by exists sf]).
      fin. }
    rewrite andb_true_r. destruct (ses_ton s GPoly) eqn:Et; cbn [ses_mesh seen_new seen_on]; try rewrite Em.
    { unfold draw_view. rewrite El. cbn [obind]. rewrite Es. cbn [obind]. eexists. split; [reflexivity|].
      assert (shows_poly n.1 (Vw true l (Some sf))) as Hs by (split; [done|by exists sf]).
      fin. }
    eexists. split; [reflexivity|].
    fin.
  - (* draw detail *)
    unfold mesh_condition. case_eq (ses_mesh s); [intros n Em|intros Em; eexists; split; [reflexivity|]; fin].
    destruct (ses_on s GDetail) eqn:Eo; cbn [negb].
    2:{ eexists; split; [reflexivity|]. fin. }
    destruct (Im n Em) as [_ (l & sf & El & Es & Hp)].
    destruct (ses_new s GDetail) eqn:En.
    { cbn [ses_mesh seen_new]. rewrite Em. unfold draw_view. rewrite El. cbn [obind]. rewrite Es. cbn [obind]. eexists. split; [reflexivity|].
      assert (shows_detail n.2 (Vw true l (Some sf))) as Hs by (split; [done|by exists sf]).
      fin. }
    rewrite andb_true_r. destruct (ses_ton s GDetail) eqn:Et; cbn [ses_mesh seen_new seen_on]; try rewrite Em.
    { unfold draw_view. rewrite El. cbn [obind]. rewrite Es. cbn [obind]. eexists. split; [reflexivity|].
      assert (shows_detail n.2 (Vw true l (Some sf))) as Hs by (split; [done|by exists sf]).
      fin. }
    eexists. split; [reflexivity|].
    fin.
  - (* hide visual *)
    destruct (ses_toff s GVisual) eqn:Et, (ses_on s GVisual) eqn:Eo; cbn [andb negb]; eexists; (split; [reflexivity|]); split; simp_s; try done; try (split; simp_s; simp_u; try done).
    all: try (intros; apply Forall_fmap; by apply Forall_true). all: try (intros g [= <-]; congruence). all: try congruence.
    all: intros; simp_u; try congruence; auto.
  - (* hide affector *)
    destruct (hide_affs _ Ia) as [Hl1 Hl2].
    destruct (ses_toff s GAffector) eqn:Et, (ses_on s GAffector) eqn:Eo; cbn [andb negb]; simp_s;
      eexists; (split; [reflexivity|]); split; simp_s; try done; try (split; simp_s; simp_u; try done).
    all: try (intros g [= <-]; congruence). all: try congruence. all: intros; simp_u; try congruence; auto.
  - (* hide poly *)
    destruct (ses_toff s GPoly) eqn:Et, (ses_on s GPoly) eqn:Eo; cbn [andb negb]; simp_s;
      eexists; (split; [reflexivity|]); fin.
  - (* hide detail *)
    destruct (ses_toff s GDetail) eqn:Et, (ses_on s GDetail) eqn:Eo; cbn [andb negb]; simp_s;
      eexists; (split; [reflexivity|]); fin.
Qed.

(** One event; loading a scene makes the screen differ until the next click. *)
Definition after (e : event) (ok : bool) : bool := match e with EToggle _ => true | ELoad _ => false | _ => ok end.
Lemma event_inv e ok s : sound e → inv ok s → ∃ s', handle_event e s = Done s' ∧ inv (after e ok) s'.
Proof.
  intros He Hi. destruct e as [g|n|r|y]; cbn [handle_event after].
  - destruct Hi as [Im Ia Ip0 Ipn Ip1 Id0 Idn Id1 Ia0 Ia1 Iv0 Iv1]. eexists. split; [reflexivity|]. split; simp_s; try done.
  - destruct Hi as [Im Ia Ip0 Ipn Ip1 Id0 Idn Id1 Ia0 Ia1 Iv0 Iv1]. eexists. split; [reflexivity|]. split; simp_s; try done.
    by intros n0 [= <-].
  - destruct Hi as [Im Ia Ip0 Ipn Ip1 Id0 Idn Id1 Ia0 Ia1 Iv0 Iv1]. eexists. split; [reflexivity|]. split; simp_s; try done.
    + apply Forall_fmap. eapply Forall_impl; [exact He|]. intros [tf t] Ht. cbn in Ht |- *. eexists. split; [apply affector_trip|].
      destruct (affector_lines_ok t Ht) as (l & El & Hl). by exists l.
    + intros H1 H2. destruct (Ip0 H1 H2). by split.
    + intros H1. destruct (Ipn H1). by split.
    + intros H1 H2. destruct (Id0 H1 H2). by split.
    + intros H1. destruct (Idn H1). by split.
    + intros _ _. apply Forall_fmap. by apply Forall_true.
    + intros _ _. apply Forall_fmap. by apply Forall_true.
  - destruct (run_ran ok y s Hi) as (s' & E & HR). exists s'. split; [done|]. apply HR.
Qed.
Lemma history_inv es ok s : Forall (sound) es → inv ok s → ∃ s', history es s = Done s' ∧ inv (foldl (λ b e, after e b) ok es) s'.
Proof.
  unfold history. revert ok s. induction es as [|e es IH]; intros ok s H Hi; [by exists s|].
  apply Forall_cons in H as [He H]. destruct (event_inv e ok s He Hi) as (s1 & E1 & H1). cbn [foldM foldl]. rewrite E1. cbn [obind]. by apply IH.
Qed.
Lemma inv_start : inv true session0.
Proof. split; cbn; try done; constructor. Qed.

(** Whether a click followed the latest load. *)
Lemma after_clicked es : clicked es → foldl (λ b e, after e b) true es = true.
Proof.
  induction es as [|e es IH] using rev_ind; intros H; [done|]. rewrite foldl_app. cbn [foldl]. destruct e as [g|n|r|y]; cbn [after].
  - done.
  - apply IH. intros h1 r h2 E. destruct (H h1 r (h2 ++ [EBuild n])) as [g Hg]; [by rewrite E, <-app_assoc|].
    exists g. apply elem_of_app in Hg as [Hg|Hg]; [done|]. by apply elem_of_list_singleton in Hg.
  - destruct (H es r []) as [g Hg]; [done|]. by apply elem_of_nil in Hg.
  - apply IH. intros h1 r h2 E. destruct (H h1 r (h2 ++ [ERun y])) as [g Hg]; [by rewrite E, <-app_assoc|].
    exists g. apply elem_of_app in Hg as [Hg|Hg]; [done|]. by apply elem_of_list_singleton in Hg.
Qed.

(** What the systems that ran have achieved. *)
Record achieved (ys : list sys) (s : session) : Prop := {
  ad_p_on : SDraw GPoly ∈ ys → ses_on s GPoly = true → ∀ n, ses_mesh s = Some n → shows_poly n.1 (ses_poly s);
  ad_p_off : SHide GPoly ∈ ys → ses_on s GPoly = false → blank (ses_poly s);
  ad_d_on : SDraw GDetail ∈ ys → ses_on s GDetail = true → ∀ n, ses_mesh s = Some n → shows_detail n.2 (ses_detail s);
  ad_d_off : SHide GDetail ∈ ys → ses_on s GDetail = false → blank (ses_detail s);
  ad_a_on : SDraw GAffector ∈ ys → ses_on s GAffector = true → Forall (λ a, ∃ t, trimesh_of a.1 = Some t ∧ affector_picture t a.2) (ses_affs s);
  ad_a_off : SHide GAffector ∈ ys → ses_on s GAffector = false → Forall (λ a, a.2 = []) (ses_affs s);
  ad_v_on : SDraw GVisual ∈ ys → ses_on s GVisual = true → Forall (λ v, v.2 = true) (ses_vis s);
  ad_v_off : SHide GVisual ∈ ys → ses_on s GVisual = false → Forall (λ v, v.2 = false) (ses_vis s)
}.
Global Instance sys_dec : EqDecision sys.
Proof. solve_decision. Defined.
Lemma achieved_step ys y s s' : achieved ys s → ran true y s s' → achieved (ys ++ [y]) s'.
Proof.
  intros A R. destruct A, R. split; rewrite ?rn_on0, ?rn_mesh0; intros Hin Ho; intros; apply elem_of_app in Hin as [Hin|Hin%elem_of_list_singleton]; try subst y; auto.
  - destruct (decide (y = SDraw GPoly)) as [->|N1]; [auto|]. destruct (decide (y = SHide GPoly)) as [->|N2]; [destruct (rn_idle_off0 GPoly eq_refl Ho) as (-> & _); auto|]. rewrite rn_keep_p0 by done. auto.
  - destruct (decide (y = SHide GPoly)) as [->|N1]; [auto|]. destruct (decide (y = SDraw GPoly)) as [->|N2]; [destruct (rn_idle_on0 GPoly eq_refl Ho) as (-> & _); auto|]. rewrite rn_keep_p0 by done. auto.
  - destruct (decide (y = SDraw GDetail)) as [->|N1]; [auto|]. destruct (decide (y = SHide GDetail)) as [->|N2]; [destruct (rn_idle_off0 GDetail eq_refl Ho) as (_ & -> & _); auto|]. rewrite rn_keep_d0 by done. auto.
  - destruct (decide (y = SHide GDetail)) as [->|N1]; [auto|]. destruct (decide (y = SDraw GDetail)) as [->|N2]; [destruct (rn_idle_on0 GDetail eq_refl Ho) as (_ & -> & _); auto|]. rewrite rn_keep_d0 by done. auto.
  - destruct (decide (y = SDraw GAffector)) as [->|N1]; [auto|]. destruct (decide (y = SHide GAffector)) as [->|N2]; [destruct (rn_idle_off0 GAffector eq_refl Ho) as (_ & _ & -> & _); auto|]. rewrite rn_keep_a0 by done. auto.
  - destruct (decide (y = SHide GAffector)) as [->|N1]; [auto|]. destruct (decide (y = SDraw GAffector)) as [->|N2]; [destruct (rn_idle_on0 GAffector eq_refl Ho) as (_ & _ & -> & _); auto|]. rewrite rn_keep_a0 by done. auto.
  - destruct (decide (y = SDraw GVisual)) as [->|N1]; [auto|]. destruct (decide (y = SHide GVisual)) as [->|N2]; [destruct (rn_idle_off0 GVisual eq_refl Ho) as (_ & _ & _ & ->); auto|]. rewrite rn_keep_v0 by done. auto.
  - destruct (decide (y = SHide GVisual)) as [->|N1]; [auto|]. destruct (decide (y = SDraw GVisual)) as [->|N2]; [destruct (rn_idle_on0 GVisual eq_refl Ho) as (_ & _ & _ & ->); auto|]. rewrite rn_keep_v0 by done. auto.
Qed.
Lemma frame_achieved ys s : inv true s → ∃ s', history (ERun <$> ys) s = Done s' ∧ inv true s' ∧ achieved ys s' ∧ ses_on s' = ses_on s ∧ ses_mesh s' = ses_mesh s.
Proof.
  intros Hi. induction ys as [|y ys IH] using rev_ind.
  - exists s. split; [done|]. split; [done|]. split; [split; intros H; by apply elem_of_nil in H|done].
  - destruct IH as (s1 & E1 & H1 & A1 & O1 & M1). destruct (run_ran true y s1 H1) as (s2 & E2 & R2). exists s2.
    unfold history in *. rewrite fmap_app, foldM_app, E1. cbn [fmap list_fmap foldM handle_event obind]. rewrite E2. cbn [obind]. split; [done|].
    split; [apply R2|]. split; [by apply (achieved_step _ _ s1)|]. split; [rewrite <-O1; apply R2|rewrite <-M1; apply R2].
Qed.
Lemma achieved_chosen ys s : inv true s → achieved ys s → frame ys → as_chosen s.
Proof.
  intros Hi A F. destruct A. split.
  - destruct (ses_on s GPoly) eqn:Eo; [apply ad_p_on0|apply ad_p_off0]; try done; apply F.
  - destruct (ses_on s GDetail) eqn:Eo; [apply ad_d_on0|apply ad_d_off0]; try done; apply F.
  - intros Hm. split; [by apply (iv_p_none _ _ Hi)|by apply (iv_d_none _ _ Hi)].
  - destruct (ses_on s GAffector) eqn:Eo; [apply ad_a_on0|apply ad_a_off0]; try done; apply F.
  - destruct (ses_on s GVisual) eqn:Eo; [apply ad_v_on0|apply ad_v_off0]; try done; apply F.
Qed.
