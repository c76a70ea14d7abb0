(** What the buttons of the editor should do. *)
From Verif Require Import Base ModelView ModelMenu.

(** A dialog is open or not. *)
Definition press (s : bool * list effect) (w : widget) : bool * list effect :=
  match w with
  | WLoadScene => (true, s.2)
  | WBuild => (s.1, s.2 ++ [FBuild])
  | WBox g => (s.1, s.2 ++ [FToggle g])
  | WClose _ => (false, s.2)
  | WLoad _ => (false, s.2 ++ [FFetch])
  end.
(** The same with the buttons that can be pressed: those of the dialog if it is open,
    and otherwise the others. *)
Definition pressable (is_open : bool) (w : widget) : Prop := match w with WClose _ | WLoad _ => is_open = true | _ => is_open = false end.
Inductive pressing : bool * list effect → list widget → bool * list effect → Prop :=
  | pressing_nil s : pressing s [] s
  | pressing_cons s w l s' : pressable s.1 w → pressing (press s w) l s' → pressing s (w :: l) s'.


Definition is_load (w : widget) : Prop := match w with WLoad _ => True | _ => False end.
#[global] Instance is_load_dec w : Decision (is_load w).
Proof. destruct w; apply _. Defined.
