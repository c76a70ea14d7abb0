(** Theorems for property C86: the editor's camera. *)
From Coq Require Import Reals Lra.
From Verif Require Import Base ModelMath ModelCamera FloatReal CameraProofs.
Local Open Scope Z_scope.

(** ** Specification *)

(** Whether the user has grabbed the camera after some frames: the toggle key went
    down an odd number of times, or the mouse button is held (it went down and did not
    come up since). *)
Definition toggled_by (is : list input) : bool := Nat.odd (length (filter (λ i, i_toggle i = true) is)).
Definition held_by (is : list input) : Prop := ∃ a i b, is = a ++ i :: b ∧ i_press i = true ∧ i_release i = false ∧ Forall (λ j, i_release j = false) b.
Definition grabbed (is : list input) : Prop := toggled_by is = true ∨ held_by is.

(** A window whose cursor is free, and one whose cursor is caught. *)
Definition free : cursor := Cursor false true.
Definition caught : cursor := Cursor true false.

(** Finite numbers, as the input devices send. *)
Definition finite_f32 (x : f32) : Prop := f_valid x ∧ FloatReal.f_finite x.

Section camera.
Context {Q : Type} (q_forward q_right : Q → vec3) (q_angles : Q → f32 * f32) (q_turn : f32 → f32 → Q).
Notation cam := (camera Q).
Notation step := (frame q_forward q_right q_angles q_turn).
Notation session := (frames q_forward q_right q_angles q_turn).

(** The editor has just started. *)
Definition started (k : cam) : Prop :=
  k_ctl k = default_controller ∧ k_toggled k = false ∧ k_held k = false ∧ Forall (λ w, w = free) (k_cursors k).

(** ** The grab *)

Lemma held_snoc is i : held_by (is ++ [i]) ↔ i_release i = false ∧ (i_press i = true ∨ held_by is).
Proof.
  split.
  - intros (a & j & b & E & Hp & Hr & Hb). destruct b as [|x b' _] using rev_ind.
    + apply app_inj_tail in E as [-> ->]. tauto.
    + rewrite app_comm_cons, app_assoc in E. apply app_inj_tail in E as [-> ->]. apply Forall_app in Hb as [Hb Hx]. apply Forall_inv in Hx.
      split; [done|]. right. by exists a, j, b'.
  - intros [Hr [Hp|(a & j & b & -> & Hp & Hr' & Hb)]].
    + exists is, i, []. done.
    + exists a, j, (b ++ [i]). split; [by rewrite <-app_assoc|]. split; [done|]. split; [done|]. apply Forall_app. split; [done|]. by constructor.
Qed.
Lemma toggled_snoc is i : toggled_by (is ++ [i]) = xorb (toggled_by is) (i_toggle i).
Proof.
  unfold toggled_by. rewrite filter_app, app_length. destruct (i_toggle i) eqn:E.
  - rewrite filter_cons_True by done. cbn. rewrite Nat.add_1_r, Nat.odd_succ, <-Nat.negb_odd. by destruct (Nat.odd _).
  - rewrite filter_cons_False by (by rewrite E). cbn. rewrite Nat.add_0_r. by destruct (Nat.odd _).
Qed.

(** What a frame does to the flags, the cursors and the settings. *)
Lemma frames_snoc is i k : session (is ++ [i]) k = step i (session is k).
Proof. unfold frames. by rewrite fold_left_app. Qed.
Definition flags_after (i : input) (k : cam) : bool * bool := (xorb (k_toggled k) (i_toggle i), negb (i_release i) && (i_press i || k_held k)).
Definition event (i : input) : bool := i_toggle i || i_press i || i_release i.
Lemma step_flags i k : c_enabled (k_ctl k) = true →
  k_toggled (step i k) = (flags_after i k).1 ∧ k_held (step i k) = (flags_after i k).2 ∧ c_enabled (k_ctl (step i k)) = true ∧
  k_cursors (step i k) = (if event i then grab_cursors i ((flags_after i k).2 || (flags_after i k).1) (k_cursors k) else k_cursors k).
Proof.
  intros He. unfold frame, flags_after, event. assert (c_enabled (initialize q_angles k) = true) as ->. { unfold initialize. by destruct (c_init _). }
  cbn [negb]. unfold grab_flags. destruct (i_toggle i), (i_press i), (i_release i), (k_toggled k), (k_held k); cbn -[grab_cursors f_eq];
    match goal with |- context [if ?b then _ else _] => destruct b end; done.
Qed.
Lemma step_rest i k : c_enabled (k_ctl k) = true →
  k_ctl (step i k) = Ctl true true (c_sens (k_ctl k)) (scrolled i (k_ctl k)) (f_mul (scrolled i (k_ctl k)) (f_of_Z 3)) (c_factor (k_ctl k)) (c_friction (k_ctl k))
    (c_pitch (k_ctl (step i k))) (c_yaw (k_ctl (step i k)))
    (velocity (if (flags_after i k).2 || (flags_after i k).1 then axis_input i else v_zero)
       (if i_run i then f_mul (scrolled i (k_ctl k)) (f_of_Z 3) else scrolled i (k_ctl k)) (c_friction (k_ctl k)) (c_vel (k_ctl k))) ∧
  k_pos (step i k) = moved q_forward q_right (i_dt i) (c_vel (k_ctl (step i k))) (k_rot k) (k_pos k).
Proof.
  intros He.
  assert (∃ c, initialize q_angles k = c ∧ c_enabled c = true ∧ c_sens c = c_sens (k_ctl k) ∧ c_walk c = c_walk (k_ctl k) ∧ c_factor c = c_factor (k_ctl k) ∧
    c_friction c = c_friction (k_ctl k) ∧ c_vel c = c_vel (k_ctl k)) as (c & Ei & E0 & E1 & E2 & E3 & E4 & E5).
  { unfold initialize. destruct (c_init _); eexists; (split; [reflexivity|]); cbn; tauto. }
  assert (scrolled i c = scrolled i (k_ctl k)) as Es by (unfold scrolled; by rewrite E2, E3).
  unfold frame, flags_after. rewrite Ei, E0. cbn [negb]. unfold grab_flags. rewrite <-E1, <-E3, <-E4, <-E5, <-Es.
  destruct (i_toggle i), (i_press i), (i_release i), (k_toggled k), (k_held k); cbn -[grab_cursors f_eq velocity moved scrolled axis_input f_mul f_of_Z v_zero];
    match goal with |- context [if negb ?b && _ then _ else _] => destruct b | |- _ => idtac end; done.
Qed.

Lemma session_flags is k : started k → c_enabled (k_ctl (session is k)) = true ∧ k_toggled (session is k) = toggled_by is ∧ (k_held (session is k) = true ↔ held_by is) ∧
  (¬ grabbed is → Forall (λ w, w = free) (k_cursors (session is k))).
Proof.
  intros (Se & St & Sh & Sc). assert (c_enabled (k_ctl k) = true) as Se' by (by rewrite Se). clear Se. induction is as [|i is (IE & IT & IH & IC)] using rev_ind.
  - cbn. split; [done|]. split; [done|]. split; [|done]. rewrite Sh. split; [done|]. intros (a & j & b & E & _). by destruct a.
  - rewrite frames_snoc. destruct (step_flags i (session is k) IE) as (A & B & C & D). split; [done|].
    assert (k_toggled (step i (session is k)) = toggled_by (is ++ [i])) as Et by (rewrite A, toggled_snoc; cbn; by rewrite IT).
    assert (k_held (step i (session is k)) = true ↔ held_by (is ++ [i])) as Eh.
    { rewrite B, held_snoc. cbn. rewrite andb_true_iff, negb_true_iff, orb_true_iff, IH. done. }
    split; [done|]. split; [done|]. intros Hg. rewrite D. destruct (event i) eqn:Ev.
    + assert (((flags_after i (session is k)).2 || (flags_after i (session is k)).1) = false) as ->.
      { rewrite <-A, <-B, Et. apply orb_false_iff. split; [|by apply not_true_iff_false; intros ?; apply Hg; left].
        apply not_true_iff_false. intros H. apply Hg. right. by apply Eh. }
      unfold grab_cursors. apply Forall_lookup. intros n w Hw. rewrite list_lookup_imap in Hw. by destruct (k_cursors _ !! n); inversion Hw.
    + apply IC. intros Hg'. apply Hg. unfold event in Ev. apply orb_false_iff in Ev as [Ev Er]. apply orb_false_iff in Ev as [Etg Ep].
      destruct Hg' as [Hg'|Hg'].
      * left. by rewrite toggled_snoc, Hg', Etg.
      * right. apply held_snoc. tauto.
Qed.
Lemma session_grab is k i : started k →
  ((flags_after i (session is k)).2 || (flags_after i (session is k)).1) = true ↔ grabbed (is ++ [i]).
Proof.
  intros Hs. destruct (session_flags is k Hs) as (E & T & H & _). unfold flags_after, grabbed. rewrite toggled_snoc, held_snoc. cbn.
  rewrite T, orb_true_iff, andb_true_iff, negb_true_iff, orb_true_iff, H. tauto.
Qed.

(** While the user has not grabbed the camera, no cursor is locked or hidden. *)
Theorem C86_cursor_is_freed is k : started k → ¬ grabbed is → Forall (λ w, w = free) (k_cursors (session is k)).
Proof. intros Hs Hg. by apply (session_flags is k Hs). Qed.

(** In the frame of a key or button event that leaves the camera grabbed, the cursor
    is caught in every window that has the focus. *)
Theorem C86_cursor_is_caught is i k n w : started k → grabbed (is ++ [i]) → event i = true →
  k_cursors (session (is ++ [i]) k) !! n = Some w → i_focus i n = true → w = caught.
Proof.
  intros Hs Hg He Hw Hf. rewrite frames_snoc in Hw. destruct (session_flags is k Hs) as (E & _). destruct (step_flags i (session is k) E) as (_ & _ & _ & D).
  rewrite D, He in Hw. rewrite (proj2 (session_grab is k i Hs) Hg) in Hw. unfold grab_cursors in Hw. rewrite list_lookup_imap in Hw.
  destruct (k_cursors (session is k) !! n); [|done]. cbn in Hw. rewrite Hf in Hw. by inversion Hw.
Qed.

(** ** Rest *)

Lemma session_settings is k : started k → let c := k_ctl (session is k) in
  c_sens c = c_sens default_controller ∧ c_factor c = c_factor default_controller ∧ c_friction c = f_half.
Proof.
  intros Hs. induction is as [|i is (I1 & I2 & I3)] using rev_ind.
  - destruct Hs as (Hk & _). cbn. by rewrite Hk.
  - cbn. rewrite frames_snoc. destruct (session_flags is k Hs) as (E & _). destruct (step_rest i (session is k) E) as [-> _]. done.
Qed.
(** A frame without a grab. *)
Lemma coasting is i k : started k → ¬ grabbed (is ++ [i]) →
  (∃ sp, c_vel (k_ctl (session (is ++ [i]) k)) = velocity v_zero sp f_half (c_vel (k_ctl (session is k)))) ∧
  k_pos (session (is ++ [i]) k) = moved q_forward q_right (i_dt i) (c_vel (k_ctl (session (is ++ [i]) k))) (k_rot (session is k)) (k_pos (session is k)) ∧
  k_rot (session (is ++ [i]) k) = k_rot (session is k).
Proof.
  intros Hs Hg. rewrite frames_snoc. destruct (session_flags is k Hs) as (E & _). destruct (step_rest i (session is k) E) as [C P].
  assert (((flags_after i (session is k)).2 || (flags_after i (session is k)).1) = false) as Hf.
  { apply not_true_iff_false. intros H. by apply Hg, (session_grab is k i Hs). }
  rewrite Hf in C. destruct (session_settings is k Hs) as (_ & _ & Ef). rewrite Ef in C. split; [|split; [done|]].
  - rewrite C. cbn [c_vel]. by eexists.
  - unfold frame. destruct (negb _); [done|]. unfold flags_after in Hf. unfold grab_flags.
    destruct (i_toggle i), (i_press i), (i_release i), (k_toggled (session is k)), (k_held (session is k)); try done; cbn -[f_eq f_zero]; by rewrite andb_false_r.
Qed.

(** A camera at rest that is not grabbed ignores all keys and the mouse. *)
Theorem C86_needs_grab is i k : started k → ¬ grabbed (is ++ [i]) → c_vel (k_ctl (session is k)) = v_zero →
  k_pos (session (is ++ [i]) k) = k_pos (session is k) ∧ k_rot (session (is ++ [i]) k) = k_rot (session is k) ∧
  c_vel (k_ctl (session (is ++ [i]) k)) = v_zero.
Proof.
  intros Hs Hg Hv. destruct (coasting is i k Hs Hg) as ([sp Ev] & Ep & Er). rewrite Hv in Ev.
  assert (velocity v_zero sp f_half v_zero = v_zero) as Ez. { unfold velocity. change (negb (v_eq v_zero v_zero)) with false. rewrite rest_factor. vm_compute. reflexivity. }
  rewrite Ez in Ev. rewrite Ev in Ep. done.
Qed.

(** A frame in which no time passes does not move the camera. *)
Definition finite3 (v : vec3) : Prop := FloatReal.f_finite (v_x v) ∧ FloatReal.f_finite (v_y v) ∧ FloatReal.f_finite (v_z v).
Definition naught (x : f32) : Prop := ∃ s, x = S754_zero s.
Lemma mul_by_zero x y : FloatReal.f_finite x → naught y → naught (f_mul x y).
Proof. intros Hx [s ->]. destruct x; try done; unfold f_mul; cbn; eexists; reflexivity. Qed.
Lemma add_of_zeros x y : naught x → naught y → naught (f_add x y).
Proof. intros [s ->] [t ->]. unfold f_add. cbn. destruct s, t; eexists; reflexivity. Qed.
Lemma add_zero_eq x y : FloatReal.f_finite x → naught y → f_eq (f_add x y) x = true.
Proof.
  intros Hx [t ->]. destruct x as [s|s| |s m e]; try done.
  - unfold f_add. cbn. by destruct s, t.
  - unfold f_add. cbn. unfold f_eq, SFeqb, SFcompare. destruct s; by rewrite Z.compare_refl, Pos.compare_refl.
Qed.
Theorem C86_no_time i k : i_dt i = f_zero → finite3 (k_pos k) → finite3 (c_vel (k_ctl (step i k))) →
  finite3 (q_right (k_rot k)) → finite3 (q_forward (k_rot k)) → v_eq (k_pos (step i k)) (k_pos k) = true.
Proof.
  intros Hdt Hp Hv Hr Hf.
  assert (v_eq (k_pos k) (k_pos k) = true) as Hsame.
  { assert (∀ x, FloatReal.f_finite x → f_eq x x = true) as H.
    { intros [s|s| |s m e]; try done. intros _. unfold f_eq, SFeqb, SFcompare. destruct s; by rewrite Z.compare_refl, Pos.compare_refl. }
    destruct Hp as (? & ? & ?). unfold v_eq. by rewrite !H. }
  unfold frame in *. destruct (c_enabled (initialize q_angles k)); cbn [negb] in *; [|exact Hsame].
  destruct (grab_flags i (k_toggled k) (k_held k)) as [[t hd] ch].
  assert (∀ v, finite3 v → v_eq (moved q_forward q_right (i_dt i) v (k_rot k) (k_pos k)) (k_pos k) = true) as Hm.
  { intros v (Vx & Vy & Vz). unfold moved. destruct (negb (v_eq v v_zero)); [|exact Hsame].
    rewrite Hdt. assert (naught f_zero) as Z0 by by eexists.
    assert (∀ u x, finite3 u → FloatReal.f_finite x → naught (v_x (v_scale u (f_mul x f_zero))) ∧ naught (v_y (v_scale u (f_mul x f_zero))) ∧ naught (v_z (v_scale u (f_mul x f_zero)))) as Hs.
    { intros u x (? & ? & ?) Hx. pose proof (mul_by_zero x f_zero Hx Z0). unfold v_scale. cbn [v_x v_y v_z]. split_and!; by apply mul_by_zero. }
    destruct (Hs _ _ Hr Vx) as (A1 & A2 & A3). destruct (Hs (V3 f_zero (f_of_Z 1) f_zero) _ ltac:(done) Vy) as (B1 & B2 & B3).
    destruct (Hs _ _ Hf Vz) as (C1 & C2 & C3). destruct Hp as (P1 & P2 & P3).
    unfold v_eq, v_add. cbn [v_x v_y v_z].
    rewrite !add_zero_eq; [done|done|by repeat apply add_of_zeros|done|by repeat apply add_of_zeros|done|by repeat apply add_of_zeros]. }
  destruct (negb (f_eq (i_mx i) f_zero && f_eq (i_my i) f_zero) && (hd || t)); cbn [k_pos k_ctl c_vel] in *; apply Hm, Hv.
Qed.

(** Once it is let go, the camera keeps turning no further, and after at most 139
    frames it stands still for good. *)
Theorem C86_comes_to_rest is js k : started k → (139 <= length js)%nat →
  finite_f32 (v_x (c_vel (k_ctl (session is k)))) → finite_f32 (v_y (c_vel (k_ctl (session is k)))) → finite_f32 (v_z (c_vel (k_ctl (session is k)))) →
  (∀ a b, js = a ++ b → a ≠ [] → ¬ grabbed (is ++ a)) →
  k_rot (session (is ++ js) k) = k_rot (session is k) ∧ c_vel (k_ctl (session (is ++ js) k)) = v_zero ∧
  ∀ ls, (∀ a b, ls = a ++ b → a ≠ [] → ¬ grabbed (is ++ js ++ a)) → k_pos (session (is ++ js ++ ls) k) = k_pos (session (is ++ js) k).
Proof.
  intros Hs Hl Fx Fy Fz Hg.
  assert (∀ n, (n <= length js)%nat → slow (Z.max (-11) (128 - Z.of_nat n)) (c_vel (k_ctl (session (is ++ take n js) k))) ∧
    k_rot (session (is ++ take n js) k) = k_rot (session is k) ∧ ((139 <= n)%nat → c_vel (k_ctl (session (is ++ take n js) k)) = v_zero)) as H.
  { induction n as [|n IH]; intros Hn.
    - rewrite take_0, app_nil_r. split; [|split; [done|lia]]. intros x Hx.
      assert (finite_f32 x) as [V F]. { by destruct Hx as [->|[->| ->]]. }
      split; [done|]. split; [done|]. apply Rlt_le. exact (f_R_max x V).
    - destruct IH as (I1 & I2 & I3); [lia|]. destruct (lookup_lt_is_Some_2 js n ltac:(lia)) as [i Hi].
      rewrite (take_S_r _ _ _ Hi), app_assoc.
      assert (¬ grabbed ((is ++ take n js) ++ [i])) as Hgn.
      { rewrite <-app_assoc, <-(take_S_r _ _ _ Hi). apply (Hg _ (drop (S n) js)); [by rewrite take_drop|]. clear -Hn. destruct js; [cbn in Hn; lia|done]. }
      destruct (coasting (is ++ take n js) i k Hs Hgn) as ([sp Ev] & _ & Er). rewrite Ev, Er. split; [|split; [done|]].
      + destruct (decide (n < 138)%nat) as [Hs'|Hs'].
        * eapply slow_mono; [|apply coast_slow; [|exact I1]]; lia.
        * replace (velocity _ _ _ _) with v_zero; [apply slow_zero|]. symmetry. apply coast_stops. eapply slow_mono; [|exact I1]. lia.
      + intros Hn'. apply coast_stops. eapply slow_mono; [|exact I1]. lia. }
  destruct (H (length js) (le_n _)) as (_ & Hr & Hv). rewrite firstn_all in Hr, Hv. specialize (Hv Hl). split; [done|]. split; [done|].
  assert (∀ ls, (∀ a b, ls = a ++ b → a ≠ [] → ¬ grabbed (is ++ js ++ a)) → k_pos (session (is ++ js ++ ls) k) = k_pos (session (is ++ js) k) ∧ c_vel (k_ctl (session (is ++ js ++ ls) k)) = v_zero) as Hall; [|intros ls Hls; by apply Hall].
  induction ls as [|i ls IH] using rev_ind; intros Hls; [by rewrite app_nil_r|].
  destruct IH as [P V]. { intros a b -> Ha. apply (Hls a (b ++ [i])); [by rewrite app_assoc|done]. }
  rewrite !app_assoc in *. assert (¬ grabbed ((is ++ js ++ ls) ++ [i])) as Hgi.
  { rewrite <-!app_assoc. apply (Hls _ []); [by rewrite app_nil_r|]. by destruct ls. }
  rewrite !app_assoc in Hgi. destruct (C86_needs_grab ((is ++ js) ++ ls) i k Hs Hgi V) as (A & _ & C). split; [by rewrite A|done].
Qed.

(** ** Looking *)

Definition level (x : f32) : Prop := f_le minus_half_pi x = true ∧ f_le x half_pi = true.
Lemma level_finite x : level x → FloatReal.f_finite x.
Proof. intros [A B]. destruct x as [[]|[]| |]; try done. Qed.
Lemma look_level i c : c_sens c = c_sens default_controller → f_valid (c_pitch c) → level (c_pitch c) → finite_f32 (i_my i) →
  f_valid (look_pitch i c) ∧ level (look_pitch i c).
Proof.
  intros Es V L [Vm Fm]. unfold look_pitch. rewrite Es.
  assert (f_valid radians_per_dot ∧ FloatReal.f_finite radians_per_dot ∧ f_R radians_per_dot ≠ 0%R) as (R1 & R2 & R3).
  { split; [by vm_compute|]. split; [by vm_compute|]. assert (radians_per_dot = S754_finite false 11930465 (-31)) as -> by (by vm_compute).
    unfold f_R. pose proof (powerRZ_lt 2%R (-31) ltac:(lra)). intros E0. apply Rmult_integral in E0 as [E0|E0]; [apply eq_IZR in E0; lia|lra]. }
  assert (f_valid (c_sens default_controller) ∧ FloatReal.f_finite (c_sens default_controller) ∧ f_R (c_sens default_controller) ≠ 0%R) as (S1 & S2 & S3).
  { destruct f_half_ok as (A & B & C). split; [done|]. split; [done|]. change (c_sens default_controller) with f_half. rewrite C. lra. }
  assert (f_num (f_mul (f_mul (i_my i) radians_per_dot) (c_sens default_controller))) as N1.
  { apply f_mul_num; [by apply f_mul_valid|done| |done|done]. apply f_mul_num; try done. by apply finite_num. }
  assert (f_valid (f_mul (f_mul (i_my i) radians_per_dot) (c_sens default_controller))) as V1 by (apply f_mul_valid; [by apply f_mul_valid|done]).
  set (d := f_mul (f_mul (i_my i) radians_per_dot) (c_sens default_controller)) in *. split.
  - unfold f_clamp. assert (f_valid (f_sub (c_pitch c) d)) by (by apply f_sub_valid). destruct (f_lt _ minus_half_pi); destruct (f_lt half_pi _); done.
  - apply clamp_range; [done|done| |done]. apply f_sub_num; try done. by apply level_finite.
Qed.

(** The camera never looks beyond straight up or down, if it does not at the start. *)
Theorem C86_pitch is k : started k → f_valid (q_angles (k_rot k)).2 → level (q_angles (k_rot k)).2 →
  Forall (λ i, finite_f32 (i_my i)) is → level (c_pitch (k_ctl (session is k))).
Proof.
  intros Hs Hv Hl Hi.
  assert (f_valid (c_pitch (initialize q_angles (session is k))) ∧ level (c_pitch (initialize q_angles (session is k))) ∧ level (c_pitch (k_ctl (session is k)))) as (_ & _ & H); [|done].
  induction is as [|i is IH] using rev_ind.
  - cbn. unfold initialize. destruct Hs as (-> & _). split; [exact Hv|]. split; [exact Hl|]. by vm_compute.
  - apply Forall_app in Hi as [Hi Hi1]. apply Forall_inv in Hi1. destruct (IH Hi) as (V & L & _). rewrite frames_snoc.
    destruct (session_flags is k Hs) as (E & _). destruct (session_settings is k Hs) as (Es & _).
    assert (c_enabled (initialize q_angles (session is k)) = true ∧ c_sens (initialize q_angles (session is k)) = c_sens default_controller) as [Ee Es'].
    { unfold initialize. by destruct (c_init _). }
    destruct (look_level i _ Es' V L Hi1) as [V' L'].
    assert (c_init (k_ctl (step i (session is k))) = true) as Ei. { by destruct (step_rest i (session is k) E) as [-> _]. }
    assert (c_pitch (k_ctl (step i (session is k))) = look_pitch i (initialize q_angles (session is k)) ∨ c_pitch (k_ctl (step i (session is k))) = c_pitch (initialize q_angles (session is k))) as Hp.
    { unfold frame. rewrite Ee. cbn [negb]. destruct (grab_flags i _ _) as [[t h] ch]. destruct (_ && _); cbn; tauto. }
    unfold initialize at 1 2. rewrite Ei. by destruct Hp as [-> | ->].
Qed.

(** ** Speed *)

(** The running speed that a controller is given has no effect: it is always three
    times the walking speed. *)
Theorem C86_run_speed_ignored i k r : c_enabled (k_ctl k) = true →
  let c := k_ctl k in
  let k' := Cam (k_pos k) (k_rot k) (Ctl (c_enabled c) (c_init c) (c_sens c) (c_walk c) r (c_factor c) (c_friction c) (c_pitch c) (c_yaw c) (c_vel c))
    (k_toggled k) (k_held k) (k_cursors k) in
  step i k' = step i k ∧ c_run (k_ctl (step i k)) = f_mul (c_walk (k_ctl (step i k))) (f_of_Z 3).
Proof.
  intros He c k'. split; [|by destruct (step_rest i k He) as [-> _]].
  subst k' c. destruct k as [pos rot [en ini sens walk run fac fr pitch yaw vel] t h ws]. cbn in He. subst en. by destruct ini.
Qed.

(** The keys give the velocity: along each axis the difference of its two keys, with the
    same factor for all axes, which is 1 if there is only one. *)
Definition net (plus minus : bool) : Z := Z.b2z plus - Z.b2z minus.
Definition keys_down (i : input) : Z := Z.abs (net (i_right i) (i_left i)) + Z.abs (net (i_up i) (i_down i)) + Z.abs (net (i_forward i) (i_back i)).
Definition diag (n : Z) : bool → f32 :=
  if n =? 1 then λ s, S754_finite s 8388608 (-23) else if n =? 2 then λ s, S754_finite s 11863283 (-24) else λ s, S754_finite s 9686330 (-24).
Lemma axis_normal i : keys_down i ≠ 0 →
  v_eq (axis_input i) v_zero = false ∧
  let unit d := match d with 0 => f_zero | Z.pos _ => diag (keys_down i) false | Z.neg _ => diag (keys_down i) true end in
  v_normalize (axis_input i) = V3 (unit (net (i_right i) (i_left i))) (unit (net (i_up i) (i_down i))) (unit (net (i_forward i) (i_back i))).
Proof.
  unfold axis_input, keys_down. destruct (i_right i), (i_left i), (i_up i), (i_down i), (i_forward i), (i_back i);
    vm_compute; intros E; first [exfalso; apply E; reflexivity|split; reflexivity].
Qed.
Lemma axis_none i : keys_down i = 0 → v_eq (axis_input i) v_zero = true.
Proof.
  unfold axis_input, keys_down. destruct (i_right i), (i_left i), (i_up i), (i_down i), (i_forward i), (i_back i);
    vm_compute; intros E; first [discriminate E|reflexivity].
Qed.
Lemma diag_R n s : f_valid (diag n s) ∧ FloatReal.f_finite (diag n s) ∧ (/ 2 <= f_R (diag n false) <= 1)%R ∧ (n = 1 → f_R (diag n false) = 1%R) ∧ f_R (diag n true) = (- f_R (diag n false))%R.
Proof.
  unfold diag. destruct (Z.eqb_spec n 1) as [->|H1]; [|destruct (Z.eqb_spec n 2) as [->|H2]];
    (split; [by destruct s|]); (split; [done|]); unfold f_R, powerRZ; change (Pos.to_nat 23) with 23%nat; change (Pos.to_nat 24) with 24%nat; cbn [Rpow_def.pow];
    (split; [lra|]); (split; [intros ?; try lia; lra|]); lra.
Qed.
Theorem C86_keys is i k : started k → grabbed (is ++ [i]) → keys_down i ≠ 0 →
  let c := k_ctl (session (is ++ [i]) k) in
  let speed := if i_run i then c_run c else c_walk c in
  finite_f32 speed →
  ∃ f, (/ 2 <= f <= 1)%R ∧ (keys_down i = 1 → f = 1%R) ∧
    f_R (v_x (c_vel c)) = (IZR (net (i_right i) (i_left i)) * rnd (f * f_R speed))%R ∧
    f_R (v_y (c_vel c)) = (IZR (net (i_up i) (i_down i)) * rnd (f * f_R speed))%R ∧
    f_R (v_z (c_vel c)) = (IZR (net (i_forward i) (i_back i)) * rnd (f * f_R speed))%R.
Proof.
  intros Hs Hg Hk c speed [Vs Fs]. subst c. rewrite frames_snoc in *. destruct (session_flags is k Hs) as (E & _). destruct (step_rest i (session is k) E) as [C _].
  rewrite (proj2 (session_grab is k i Hs) Hg) in C.
  assert (speed = (if i_run i then f_mul (scrolled i (k_ctl (session is k))) (f_of_Z 3) else scrolled i (k_ctl (session is k)))) as Esp.
  { subst speed. rewrite frames_snoc, C. done. }
  rewrite <-Esp in C. clearbody speed. rewrite C. cbn [c_vel]. destruct (axis_normal i Hk) as [Hz Hn]. unfold velocity. rewrite Hz. cbn [negb]. rewrite Hn. unfold v_scale. cbn [v_x v_y v_z].
  exists (f_R (diag (keys_down i) false)). destruct (diag_R (keys_down i) false) as (A & B & D & F & G). destruct (diag_R (keys_down i) true) as (A' & B' & _). split; [done|]. split; [done|].
  assert (∀ b, let d := net b in ∀ b', f_R (f_mul (match d b' with 0 => f_zero | Z.pos _ => diag (keys_down i) false | Z.neg _ => diag (keys_down i) true end) speed) =
    (IZR (d b') * rnd (f_R (diag (keys_down i) false) * f_R speed))%R) as H; [|split; [apply H|split; apply H]].
  intros b d b'. subst d. destruct b, b'; [change (net true true) with 0|change (net true false) with 1|change (net false true) with (-1)|change (net false false) with 0]; cbv beta iota.
  - transitivity 0%R; [by destruct speed|by rewrite Rmult_0_l].
  - destruct (f_mul_shrink speed (diag (keys_down i) false)) as [E1 _]; try done. { rewrite Rabs_pos_eq; lra. } rewrite f_mul_comm, E1, (Rmult_comm (f_R speed)). by rewrite Rmult_1_l.
  - destruct (f_mul_shrink speed (diag (keys_down i) true)) as [E1 _]; try done. { rewrite G, Rabs_Ropp, Rabs_pos_eq; lra. } rewrite f_mul_comm, E1, G.
    replace (f_R speed * - f_R (diag (keys_down i) false))%R with (- (f_R (diag (keys_down i) false) * f_R speed))%R by lra. rewrite rnd_opp. lra.
  - transitivity 0%R; [by destruct speed|by rewrite Rmult_0_l].
Qed.
(** Keys that cancel out are as good as none. *)
Theorem C86_keys_cancel is i k : started k → keys_down i = 0 → c_vel (k_ctl (session is k)) = v_zero →
  k_pos (session (is ++ [i]) k) = k_pos (session is k) ∧ c_vel (k_ctl (session (is ++ [i]) k)) = v_zero.
Proof.
  intros Hs Hk Hv. rewrite frames_snoc. destruct (session_flags is k Hs) as (E & _). destruct (step_rest i (session is k) E) as [C P].
  destruct (session_settings is k Hs) as (_ & _ & Ef). rewrite Ef, Hv in C.
  assert (c_vel (k_ctl (step i (session is k))) = v_zero) as Ev.
  { rewrite C. cbn [c_vel]. assert (v_eq (if (flags_after i (session is k)).2 || (flags_after i (session is k)).1 then axis_input i else v_zero) v_zero = true) as Hz.
    { destruct (_ || _); [by apply axis_none|reflexivity]. }
    unfold velocity. rewrite Hz. cbn [negb]. rewrite rest_factor. vm_compute. reflexivity. }
  rewrite P, Ev. done.
Qed.

(** With a walking speed of zero, no scrolling brings it back, and the camera cannot be
    moved any more. *)
Definition is_zero (x : f32) : Prop := ∃ s, x = S754_zero s.
Definition stuck (k : cam) : Prop :=
  is_zero (c_walk (k_ctl k)) ∧ is_zero (v_x (c_vel (k_ctl k))) ∧ is_zero (v_y (c_vel (k_ctl k))) ∧ is_zero (v_z (c_vel (k_ctl k))).
Lemma zero_mul_l s y : FloatReal.f_finite y → is_zero (f_mul (S754_zero s) y). Proof. destruct y; try done; by eexists. Qed.
Lemma zero_mul_r s y : FloatReal.f_finite y → is_zero (f_mul y (S754_zero s)). Proof. destruct y; try done; by eexists. Qed.
Lemma zero_add x y : is_zero x → is_zero y → is_zero (f_add x y). Proof. intros [[] ->] [[] ->]; by eexists. Qed.
Lemma scroll_finite i : finite_f32 (i_scroll i) → FloatReal.f_finite (f_mul (scroll_amount i) (c_factor default_controller)).
Proof.
  intros [V F].
  assert (∀ x, f_valid x → FloatReal.f_finite x → FloatReal.f_finite (f_mul (f_add f_zero x) (c_factor default_controller))) as H.
  { intros x Vx Fx. assert (f_R f_zero + f_R x = f_R x)%R as Ez by (cbn; lra).
    destruct (f_add_R f_zero x) as [E1 F1]; [done|done|done|done| |].
    { rewrite Ez, f_R_format by done. by apply f_R_max. }
    apply f_mul_shrink; [by apply f_add_valid|by vm_compute|done|by vm_compute|].
    assert (c_factor default_controller = S754_finite false 13421773 (-27)) as -> by (by vm_compute). unfold f_R.
    assert (powerRZ 2 (-27) <= / 134217728)%R as Hp. { unfold powerRZ. change (Pos.to_nat 27) with 27%nat. cbn [Rpow_def.pow]. lra. }
    pose proof (powerRZ_lt 2%R (-27) ltac:(lra)). rewrite Rabs_pos_eq; lra. }
  unfold scroll_amount. destruct (i_pixels i); [|by apply H]. apply H; [by apply f_div_valid|].
  assert (f_valid (f_of_Z 16) ∧ f_R (f_of_Z 16) = 16%R) as [V16 E16].
  { split; [by vm_compute|]. assert (f_of_Z 16 = S754_finite false 8388608 (-19)) as -> by (by vm_compute). unfold f_R, powerRZ.
    change (Pos.to_nat 19) with 19%nat. cbn [Rpow_def.pow]. lra. }
  apply f_div_R; [done|done|done|rewrite E16; lra|]. apply Rle_lt_trans with (Rabs (f_R (i_scroll i))); [|by apply f_R_max].
  apply rnd_abs_le; [by apply f_R_abs_format|]. rewrite E16. unfold Rdiv. rewrite Rabs_mult. rewrite (Rabs_pos_eq (/ 16)%R) by lra.
  pose proof (Rabs_pos (f_R (i_scroll i))). lra.
Qed.
Lemma axis_finite i : v_eq (axis_input i) v_zero = false →
  FloatReal.f_finite (v_x (v_normalize (axis_input i))) ∧ FloatReal.f_finite (v_y (v_normalize (axis_input i))) ∧ FloatReal.f_finite (v_z (v_normalize (axis_input i))).
Proof.
  unfold axis_input. destruct (i_right i), (i_left i), (i_up i), (i_down i), (i_forward i), (i_back i); vm_compute; intros E; first [discriminate E|tauto].
Qed.
Lemma stuck_step i k : c_enabled (k_ctl k) = true → c_factor (k_ctl k) = c_factor default_controller → c_friction (k_ctl k) = f_half → stuck k → finite_f32 (i_scroll i) →
  stuck (step i k) ∧ k_pos (step i k) = k_pos k.
Proof.
  intros He Ef Er (W & X & Y & Z) Hi. destruct (step_rest i k He) as [C P].
  assert (is_zero (scrolled i (k_ctl k))) as Hw.
  { unfold scrolled. apply zero_add; [done|]. destruct W as [s ->]. apply zero_mul_r. rewrite Ef. by apply scroll_finite. }
  assert (is_zero (if i_run i then f_mul (scrolled i (k_ctl k)) (f_of_Z 3) else scrolled i (k_ctl k))) as Hsp.
  { destruct (i_run i); [|done]. destruct Hw as [s ->]. by apply zero_mul_l. }
  set (sp := if i_run i then _ else _) in *. set (ax := if (flags_after i k).2 || (flags_after i k).1 then axis_input i else v_zero) in *.
  assert (is_zero (v_x (velocity ax sp f_half (c_vel (k_ctl k)))) ∧ is_zero (v_y (velocity ax sp f_half (c_vel (k_ctl k)))) ∧ is_zero (v_z (velocity ax sp f_half (c_vel (k_ctl k))))) as (Vx & Vy & Vz).
  { destruct Hsp as [ss ->]. unfold velocity. destruct (v_eq ax v_zero) eqn:Ea; cbn [negb].
    - rewrite rest_factor. destruct (f_lt _ _); [repeat split; by eexists|]. destruct X as [sx EX], Y as [sy EY], Z as [sz EZ]. unfold v_scale. cbn [v_x v_y v_z]. rewrite EX, EY, EZ.
      repeat split; by apply zero_mul_l.
    - assert (FloatReal.f_finite (v_x (v_normalize ax)) ∧ FloatReal.f_finite (v_y (v_normalize ax)) ∧ FloatReal.f_finite (v_z (v_normalize ax))) as (A & B & D).
      { subst ax. destruct ((flags_after i k).2 || (flags_after i k).1); [by apply axis_finite|]. vm_compute in Ea. discriminate Ea. }
      unfold v_scale at 1 2 3. cbn [v_x v_y v_z]. split; [by apply zero_mul_r|]. split; by apply zero_mul_r. }
  rewrite Er in C. split.
  - unfold stuck. rewrite C. cbn [c_walk c_vel]. done.
  - rewrite P, C. cbn [c_vel]. unfold moved. assert (v_eq (velocity ax sp f_half (c_vel (k_ctl k))) v_zero = true) as ->; [|done].
    unfold v_eq. destruct Vx as [? ->], Vy as [? ->], Vz as [? ->]. done.
Qed.

(** Scrolling down ten lines in one frame makes the speed zero, and from then on no
    scrolling brings it back, and no keys move the camera. *)
Definition scroll_down (n : Z) : input :=
  Input (f_of_me 1 (-6)) false (f_of_Z (- n)) f_zero f_zero false false false false false false false false false false (λ _, true).
Theorem C86_scrolling_adjusts_speed_refuted k : started k →
  ∀ is, Forall (λ i, finite_f32 (i_scroll i)) is → k_pos (session (scroll_down 10 :: is) k) = k_pos k.
Proof.
  intros Hs.
  assert (stuck (session [scroll_down 10] k) ∧ k_pos (session [scroll_down 10] k) = k_pos k) as [H0 H1].
  { destruct Hs as (Hk & Ht & Hh & _). destruct (step_rest (scroll_down 10) k) as [C P]; [by rewrite Hk|].
    unfold flags_after in C. rewrite Ht, Hh, Hk in C. cbn [i_toggle i_release i_press scroll_down xorb negb andb orb fst snd] in C. change (session [scroll_down 10] k) with (step (scroll_down 10) k). split.
    - unfold stuck. rewrite C. repeat split; (eexists; vm_compute; reflexivity).
    - rewrite P, C. reflexivity. }
  intros is Hi. change (scroll_down 10 :: is) with ([scroll_down 10] ++ is).
  assert (stuck (session ([scroll_down 10] ++ is) k) ∧ k_pos (session ([scroll_down 10] ++ is) k) = k_pos k) as [_ H]; [|done].
  induction is as [|i is IH] using rev_ind; [done|]. apply Forall_app in Hi as [Hi Hi1]. apply Forall_inv in Hi1. destruct (IH Hi) as [I1 I2].
  rewrite app_assoc, frames_snoc. destruct (session_flags ([scroll_down 10] ++ is) k Hs) as (E & _). destruct (session_settings ([scroll_down 10] ++ is) k Hs) as (_ & E1 & E2).
  destruct (stuck_step i _ E E1 E2 I1 Hi1) as [A B]. split; [done|]. by rewrite B.
Qed.
End camera.

(** ** Witnesses *)

(** A camera that looks along -z and cannot turn. *)
Definition cam0 : camera unit := Cam v_zero () default_controller false false [free].
Notation run0 := (frames (λ _, V3 f_zero f_zero (f_of_Z (-1))) (λ _, V3 (f_of_Z 1) f_zero f_zero) (λ _, (f_zero, f_zero)) (λ _ _, ())).
Definition hold_forward (focus : bool) : input :=
  Input (f_of_me 1 (-6)) false f_zero f_zero f_zero true false false false false false false false true false (λ _, focus).

(** After scrolling down more than ten lines at once, the key for forward moves back. *)
Theorem C86_forward_is_forward_refuted :
  f_lt (v_z (k_pos (run0 [hold_forward true] cam0))) f_zero = true ∧
  f_lt f_zero (v_z (k_pos (run0 [scroll_down 20; hold_forward true] cam0))) = true.
Proof. by vm_compute. Qed.

(** A press in a window without the focus moves the camera and leaves the cursor
    visible. *)
Theorem C86_grab_hides_cursor_refuted : grabbed [hold_forward false] ∧ k_cursors (run0 [hold_forward false] cam0) = [free] ∧
  f_lt (v_z (k_pos (run0 [hold_forward false] cam0))) f_zero = true.
Proof. split; [right; by exists [], (hold_forward false), []|]. by vm_compute. Qed.

Definition let_go : input :=
  Input (f_of_me 1 (-6)) false f_zero (f_of_Z 5) (f_of_Z 5) true false false false false false false false false true (λ _, true).
Definition look_up : input :=
  Input (f_of_me 1 (-6)) false f_zero (f_of_Z 5) (f_of_Z (-100000)) false false false false false false false false false false (λ _, true).
Example C86_ex : started cam0 ∧ grabbed [hold_forward true; look_up] ∧ ¬ grabbed [hold_forward true; look_up; let_go] ∧
  k_cursors (run0 [hold_forward true; look_up] cam0) = [caught] ∧
  k_cursors (run0 [hold_forward true; look_up; let_go] cam0) = [free] ∧
  c_pitch (k_ctl (run0 [hold_forward true; look_up] cam0)) = half_pi ∧
  c_vel (k_ctl (run0 [hold_forward true; look_up; let_go] cam0)) ≠ v_zero ∧
  c_vel (k_ctl (run0 ([hold_forward true; look_up; let_go] ++ repeat look_up 20) cam0)) = v_zero.
Proof.
  split; [split; [done|]; split; [done|]; split; [done|]; by constructor|].
  split; [right; exists [], (hold_forward true), [look_up]; split; [done|]; split; [done|]; split; [done|]; by constructor|].
  split.
  - intros [H|H]; [done|]. apply (held_snoc [hold_forward true; look_up] let_go) in H. by destruct H.
  - vm_compute. done.
Qed.

(** One frame of 1/64 s with a single key. *)
Definition one_key (right left_ up down forward back run : bool) : input :=
  Input (f_of_me 1 (-6)) false f_zero f_zero f_zero forward back right left_ up down run true false false (λ _, true).
Example C86_moves_ex : let f n := f_of_me n (-6) in
  k_pos (run0 [one_key true false false false false false false] cam0) = V3 (f 15) f_zero f_zero ∧
  k_pos (run0 [one_key false true false false false false false] cam0) = V3 (f (-15)) f_zero f_zero ∧
  k_pos (run0 [one_key false false true false false false false] cam0) = V3 f_zero (f 15) f_zero ∧
  k_pos (run0 [one_key false false false true false false true] cam0) = V3 f_zero (f (-45)) f_zero ∧
  k_pos (run0 [one_key true true false false true false true] cam0) = V3 f_zero f_zero (f (-45)) ∧
  k_pos (run0 [one_key false false true true false true false] cam0) = V3 f_zero f_zero (f 15).
Proof. vm_compute. repeat (split; [reflexivity|]). reflexivity. Qed.

(** No time passes while the forward key is down: there is a velocity, and no motion. *)
Example C86_no_time_ex : let k := run0 [Input f_zero false f_zero f_zero f_zero true false false false false false false true false false (λ _, true)] cam0 in
  finite3 (c_vel (k_ctl k)) ∧ c_vel (k_ctl k) ≠ v_zero ∧ k_pos k = v_zero.
Proof. cbn zeta. split; [by vm_compute|]. split; [|by vm_compute]. vm_compute. discriminate. Qed.

Print Assumptions C86_cursor_is_freed.
Print Assumptions C86_cursor_is_caught.
Print Assumptions C86_needs_grab.
Print Assumptions C86_no_time.
Print Assumptions C86_comes_to_rest.
Print Assumptions C86_pitch.
Print Assumptions C86_keys.
Print Assumptions C86_keys_cancel.
Print Assumptions C86_run_speed_ignored.
Print Assumptions C86_scrolling_adjusts_speed_refuted.
Print Assumptions C86_forward_is_forward_refuted.
Print Assumptions C86_grab_hides_cursor_refuted.
