(** Model of the buttons of crates/bevy_rerecast_editor/src/ui.rs and of the "Load
    Scene" dialog. Layout, colours and texts are left out. *)
From Verif Require Import Base ModelHeightfield ModelContours ModelPoly ModelTriMesh ModelDetail ModelExport ModelView.

(** ui.rs:48-49, 60-66, 125, 138: what can be clicked. A button of the dialog belongs to
    the dialog entity that it was spawned with. *)
Inductive widget : Type := WLoadScene | WBuild | WBox (g : gizmo) | WClose (e : nat) | WLoad (e : nat).
(** ui.rs:89-91 [trigger(BuildNavmesh)], 202-208 [toggle], 173-176
    [trigger(GetNavmeshInput)]. *)
Inductive effect : Type := FBuild | FToggle (g : gizmo) | FFetch.

(** The entities with [LoadSceneModal] (ui.rs:86-87), a fresh entity, and what was
    triggered so far. *)
Record ui : Type := Ui { ui_next : nat; ui_modals : list nat; ui_log : list effect }.
(** ui.rs:18-83 [spawn_ui]. *)
Definition ui_start : ui := Ui 0 [] [].

(** ui.rs:93-150 [spawn_load_scene_modal]. *)
Definition spawn_modal (u : ui) : ui := Ui (S (ui_next u)) (ui_modals u ++ [ui_next u]) (ui_log u).
Definition trigger (f : effect) (u : ui) : ui := Ui (ui_next u) (ui_modals u) (ui_log u ++ [f]).
(** ui.rs:181-187 [close_modal]. [Single] fails unless exactly one entity matches;
    bevy then skips the observer (main.rs:17-19 only makes it warn). *)
Definition close_modal (u : ui) : ui :=
  match ui_modals u with
  | [e] => Ui (ui_next u) [] (ui_log u)
  | _ => u
  end.

(** The observers of a click (ui.rs:89-91, 93, 173-176, 189-191, 202-208). Those of a
    despawned button are gone. *)
Definition clicked (u : ui) (w : widget) : ui :=
  match w with
  | WLoadScene => spawn_modal u
  | WBuild => trigger FBuild u
  | WBox g => trigger (FToggle g) u
  | WClose e => if bool_decide (e ∈ ui_modals u) then close_modal u else u
  | WLoad e => if bool_decide (e ∈ ui_modals u) then trigger FFetch (close_modal u) else u
  end.

(** ui.rs:97-111: the backdrop fills the window and blocks what is below it. What the
    pointers are over is found once per frame. Simplification: which of several dialogs
    is in front is left open. *)
Definition hit (u : ui) (w : widget) : Prop :=
  match w with
  | WLoadScene | WBuild | WBox _ => ui_modals u = []
  | WClose e | WLoad e => e ∈ ui_modals u
  end.
(** The clicks of one frame, one after the other. *)
Definition frame (u : ui) (ws : list widget) (u' : ui) : Prop := Forall (hit u) ws ∧ u' = foldl clicked u ws.
Inductive frames : ui → list (list widget) → ui → Prop :=
  | frames_nil u : frames u [] u
  | frames_cons u ws u' l u'' : frame u ws u' → frames u' l u'' → frames u (ws :: l) u''.
