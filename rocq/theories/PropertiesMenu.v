(** The editor's buttons and its dialog: C90. *)
From Verif Require Import Base ModelView ModelMenu SpecMenu.

(** With at most one click per frame the buttons do what they should: no two dialogs are
    ever open, both buttons of the dialog close it, only Load fetches a scene, and
    nothing below an open dialog reacts. *)
Lemma one_click_from u l u' : length (ui_modals u) ≤ 1 → Forall (λ ws, length ws ≤ 1) l → frames u l u' →
  length (ui_modals u') ≤ 1 ∧ pressing (bool_decide (ui_modals u ≠ []), ui_log u) (concat l) (bool_decide (ui_modals u' ≠ []), ui_log u').
Proof.
  intros Hu Hl H. induction H as [u|u ws u' l u'' [Hhit ->] _ IH]; [split; [done|constructor]|].
  apply Forall_cons in Hl as [Hw Hl]. destruct ws as [|w [|w' ws]]; cbn in Hw; [by apply IH| |lia].
  apply Forall_cons in Hhit as [Hh _]. cbn [foldl] in *.
  assert (length (ui_modals (clicked u w)) ≤ 1 ∧ pressable (bool_decide (ui_modals u ≠ [])) w ∧
    press (bool_decide (ui_modals u ≠ []), ui_log u) w = (bool_decide (ui_modals (clicked u w) ≠ []), ui_log (clicked u w))) as (H1 & H2 & H3).
  { destruct w as [| |g|e|e]; cbn [hit] in Hh.
    - cbn. rewrite Hh. cbn. done.
    - cbn. rewrite Hh. cbn. split; [lia|done].
    - cbn. rewrite Hh. cbn. split; [lia|done].
    - cbn. rewrite bool_decide_true by done. unfold close_modal. destruct (ui_modals u) as [|x [|y r]]; cbn in *; [by apply elem_of_nil in Hh| |lia].
      split; [lia|]. done.
    - cbn. rewrite bool_decide_true by done. unfold close_modal. destruct (ui_modals u) as [|x [|y r]]; cbn in *; [by apply elem_of_nil in Hh| |lia].
      split; [lia|]. done. }
  destruct (IH H1 Hl) as [I1 I2]. split; [done|]. cbn [concat app]. econstructor; [exact H2|]. by rewrite H3.
Qed.
Theorem C90_dialog l u : Forall (λ ws, length ws ≤ 1) l → frames ui_start l u →
  length (ui_modals u) ≤ 1 ∧ pressing (false, []) (concat l) (bool_decide (ui_modals u ≠ []), ui_log u).
Proof. intros Hl H. apply (one_click_from ui_start); [cbn; lia|done|done]. Qed.

(** Any clicks in the frame of an open dialog close it, and fetch at most one scene. *)
Theorem C90_loads_once u e w ws u' : ui_modals u = [e] → frame u (w :: ws) u' →
  ui_modals u' = [] ∧ ui_log u' = ui_log u ++ (if bool_decide (is_load w) then [FFetch] else []).
Proof.
  intros Eu [Hh ->]. apply Forall_cons in Hh as [Hw Hws]. cbn [foldl].
  assert (ui_modals (clicked u w) = [] ∧ ui_log (clicked u w) = ui_log u ++ (if bool_decide (is_load w) then [FFetch] else [])) as [H1 <-].
  { destruct w as [| |g|x|x]; cbn [hit] in Hw; try congruence; cbn; (rewrite bool_decide_true by done); unfold close_modal; rewrite Eu; cbn; [by rewrite app_nil_r|done]. }
  assert (∀ ws v, ui_modals v = [] → Forall (hit u) ws → foldl clicked v ws = v) as Hrest.
  { clear -Eu. induction ws as [|w ws IH]; intros v Hv Hws; [done|]. apply Forall_cons in Hws as [Hw Hws]. cbn [foldl].
    replace (clicked v w) with v; [by apply IH|].
    destruct w as [| |g|x|x]; cbn [hit] in Hw; try congruence; cbn; rewrite Hv; by rewrite bool_decide_false by apply not_elem_of_nil. }
  by rewrite Hrest.
Qed.

(** Once two dialogs are open, they stay open whatever is clicked, and only Load does
    anything. *)
Theorem C90_two_dialogs_stay u l u' : 2 ≤ length (ui_modals u) → frames u l u' →
  ui_modals u' = ui_modals u ∧ ui_log u' = ui_log u ++ ((λ _, FFetch) <$> filter is_load (concat l)).
Proof.
  intros Hu H. induction H as [u|u ws u' l u'' [Hhit ->] _ IH]; [by rewrite app_nil_r|].
  assert (∀ ws v, ui_modals v = ui_modals u → Forall (hit u) ws →
    ui_modals (foldl clicked v ws) = ui_modals u ∧ ui_log (foldl clicked v ws) = ui_log v ++ ((λ _, FFetch) <$> filter is_load ws)) as Hf.
  { clear -Hu. induction ws as [|w ws IH]; intros v Hv Hws; [by rewrite app_nil_r|]. apply Forall_cons in Hws as [Hw Hws]. cbn [foldl].
    destruct w as [| |g|x|x]; cbn [hit] in Hw.
    - rewrite Hw in Hu. cbn in Hu. lia.
    - rewrite Hw in Hu. cbn in Hu. lia.
    - rewrite Hw in Hu. cbn in Hu. lia.
    - rewrite filter_cons_False by (cbn; tauto). replace (clicked v (WClose x)) with v; [by apply IH|]. cbn. rewrite Hv, bool_decide_true by done. unfold close_modal. rewrite Hv.
      destruct (ui_modals u) as [|a [|b r]]; cbn in Hu; [lia|lia|done].
    - rewrite filter_cons_True by done. cbn [fmap list_fmap].
      assert (ui_modals (clicked v (WLoad x)) = ui_modals u ∧ ui_log (clicked v (WLoad x)) = ui_log v ++ [FFetch]) as [E1 E2].
      { cbn. rewrite Hv, bool_decide_true by done. cbn. unfold close_modal. rewrite Hv.
        destruct (ui_modals u) as [|a [|b r]] eqn:E; cbn in Hu; [lia|lia|]. by rewrite Hv. }
      destruct (IH (clicked v (WLoad x)) E1 Hws) as [I1 I2]. split; [done|]. rewrite I2, E2, <-app_assoc. done. }
  destruct (Hf ws u eq_refl Hhit) as [F1 F2]. rewrite F1 in IH. destruct (IH Hu) as [I1 I2]. split; [done|].
  cbn [concat]. by rewrite I2, F2, filter_app, fmap_app, app_assoc.
Qed.

(** Two clicks on Load Scene in one frame open two dialogs. From then on no click
    closes one, builds a navmesh or changes what is shown. *)
Theorem C90_dialog_refuted : ∃ u, frames ui_start [[WLoadScene; WLoadScene]] u ∧ length (ui_modals u) = 2 ∧
  ∀ l u', frames u l u' → length (ui_modals u') = 2 ∧ Forall (λ f, f = FFetch) (ui_log u').
Proof.
  exists (foldl clicked ui_start [WLoadScene; WLoadScene]). split; [|split; [done|]].
  - econstructor; [|constructor]. split; [|done]. by do 2 (constructor; [done|]).
  - intros l u' H. destruct (C90_two_dialogs_stay (foldl clicked ui_start [WLoadScene; WLoadScene]) l u' (le_n 2) H) as [-> ->]. split; [done|]. cbn. apply Forall_fmap. by apply Forall_true.
Qed.

(** A run of the editor: a dialog is closed, another loads a scene, which is built. *)
Example C90_ex : ∃ u, frames ui_start [[WLoadScene]; [WClose 0]; []; [WLoadScene]; [WLoad 1]; [WBox GPoly]; [WBuild]] u ∧
  ui_modals u = [] ∧ ui_log u = [FFetch; FToggle GPoly; FBuild].
Proof.
  eexists. split.
  { do 7 (eapply frames_cons; [split; [|reflexivity]; repeat (constructor; [first [reflexivity|cbn; set_solver]|]); constructor|]). constructor. }
  done.
Qed.
Example C90_once_ex : frame (Ui 1 [0] []) [WLoad 0; WLoad 0; WClose 0] (Ui 1 [] [FFetch]).
Proof. split; [|reflexivity]. repeat (constructor; [cbn; set_solver|]). constructor. Qed.

Print Assumptions C90_dialog.
Print Assumptions C90_loads_once.
Print Assumptions C90_two_dialogs_stay.
Print Assumptions C90_dialog_refuted.
