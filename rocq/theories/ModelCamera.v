(** Model of the editor's camera (crates/bevy_rerecast_editor/src/camera/).

    Rotations are any type with the four operations the code uses of them: the axes
    of [Transform], reading Euler angles and building a rotation from them. Not
    modelled: the environment maps and lights that [setup] spawns, [Display], windows
    that open or close, and the case of no camera or several cameras (the editor
    spawns exactly one), in which the system does nothing. *)
From Verif Require Import Base ModelMath.
Local Open Scope Z_scope.

(** camera_controller.rs:28 [RADIANS_PER_DOT]. *)
Definition radians_per_dot : f32 := f_div (f_of_Z 1) (f_of_Z 180).
(** [std::f32::consts::PI], and half of it as in camera_controller.rs:255. *)
Definition f_pi : f32 := f_of_me 13176795 (-22).
Definition half_pi : f32 := f_div f_pi (f_of_Z 2).
Definition minus_half_pi : f32 := f_div (SFopp f_pi) (f_of_Z 2).
(** The literal [1e-6]. *)
Definition f_1e6 : f32 := f_of_me 8796093 (-43).

(** [f32::clamp] for bounds in the right order. *)
Definition f_clamp (lo hi x : f32) : f32 :=
  let x := if f_lt x lo then lo else x in
  if f_lt hi x then hi else x.

(** glam's [Vec3] operations. *)
Definition v_add (a b : vec3) : vec3 := V3 (f_add (v_x a) (v_x b)) (f_add (v_y a) (v_y b)) (f_add (v_z a) (v_z b)).
Definition v_scale (a : vec3) (s : f32) : vec3 := V3 (f_mul (v_x a) s) (f_mul (v_y a) s) (f_mul (v_z a) s).
Definition v_length2 (a : vec3) : f32 :=
  f_add (f_add (f_mul (v_x a) (v_x a)) (f_mul (v_y a) (v_y a))) (f_mul (v_z a) (v_z a)).
Definition v_normalize (a : vec3) : vec3 := v_scale a (f_div (f_of_Z 1) (f_sqrt (v_length2 a))).
Definition v_eq (a b : vec3) : bool := f_eq (v_x a) (v_x b) && f_eq (v_y a) (v_y b) && f_eq (v_z a) (v_z b).

(** camera_controller.rs:31-73 [CameraController], without the key bindings: the input
    below says which of the bound keys are down. *)
Record controller : Type := Ctl {
  c_enabled : bool;
  c_init : bool;
  c_sens : f32;
  c_walk : f32;
  c_run : f32;
  c_factor : f32;
  c_friction : f32;
  c_pitch : f32;
  c_yaw : f32;
  c_vel : vec3
}.

(** camera_controller.rs:75-99 [CameraController::default]. *)
Definition default_controller : controller :=
  Ctl true false (f_of_me 1 (-1)) (f_of_Z 15) (f_of_Z 45) (f_div (f_of_Z 1) (f_of_Z 10)) (f_of_me 1 (-1)) f_zero f_zero v_zero.

(** What one frame brings: the time step, the scroll (lines, or pixels if [i_pixels]),
    the mouse motion, the keys that are down, the key and button events, and which of
    the windows have the focus. *)
Record input : Type := Input {
  i_dt : f32;
  i_pixels : bool;
  i_scroll : f32;
  i_mx : f32;
  i_my : f32;
  i_forward : bool; i_back : bool; i_right : bool; i_left : bool; i_up : bool; i_down : bool;
  i_run : bool;
  i_toggle : bool;       (* just_pressed of the key that toggles the grab *)
  i_press : bool;        (* just_pressed of the mouse button *)
  i_release : bool;      (* just_released of the mouse button *)
  i_focus : nat → bool
}.

(** A window's cursor options. *)
Record cursor : Type := Cursor { cu_locked : bool; cu_visible : bool }.

(** camera_controller.rs:156-162: the scroll in lines. *)
Definition scroll_amount (i : input) : f32 :=
  f_add f_zero (if i_pixels i then f_div (i_scroll i) (f_of_Z 16) else i_scroll i).

(** camera_controller.rs:163: the new walking speed. *)
Definition scrolled (i : input) (c : controller) : f32 :=
  f_add (c_walk c) (f_mul (f_mul (scroll_amount i) (c_factor c)) (c_walk c)).

(** camera_controller.rs:166-185: the axes of the keys that are down. *)
Definition key_axis (plus minus : bool) : f32 :=
  let a := if plus then f_add f_zero (f_of_Z 1) else f_zero in
  if minus then f_sub a (f_of_Z 1) else a.
Definition axis_input (i : input) : vec3 :=
  V3 (key_axis (i_right i) (i_left i)) (key_axis (i_up i) (i_down i)) (key_axis (i_forward i) (i_back i)).

(** camera_controller.rs:187-199: the two grab flags, and whether one was set. *)
Definition grab_flags (i : input) (toggled held : bool) : bool * bool * bool :=
  let '(toggled, change) := if i_toggle i then (negb toggled, true) else (toggled, false) in
  let '(held, change) := if i_press i then (true, true) else (held, change) in
  let '(held, change) := if i_release i then (false, true) else (held, change) in
  (toggled, held, change).

(** camera_controller.rs:206-220: the velocity. *)
Definition velocity (axis : vec3) (speed : f32) (friction : f32) (v : vec3) : vec3 :=
  if negb (v_eq axis v_zero) then v_scale (v_normalize axis) speed
  else
    let v := v_scale v (f_sub (f_of_Z 1) (f_clamp f_zero (f_of_Z 1) friction)) in
    if f_lt (v_length2 v) f_1e6 then v_zero else v.

(** camera_controller.rs:233-247: the cursors of all windows. *)
Definition grab_cursors (i : input) (grab : bool) (ws : list cursor) : list cursor :=
  imap (λ n w, if grab then if i_focus i n then Cursor true false else w else Cursor false true) ws.

Section Camera.
Context {Q : Type} (q_forward q_right : Q → vec3) (q_angles : Q → f32 * f32) (q_turn : f32 → f32 → Q).

(** The camera's transform, its controller, the two [Local] flags of the system and
    the windows' cursors. *)
Record camera : Type := Cam {
  k_pos : vec3;
  k_rot : Q;
  k_ctl : controller;
  k_toggled : bool;
  k_held : bool;
  k_cursors : list cursor
}.

(** camera_controller.rs:145-151: at first the angles are read from the transform. *)
Definition initialize (k : camera) : controller :=
  let c := k_ctl k in
  if c_init c then c
  else Ctl (c_enabled c) true (c_sens c) (c_walk c) (c_run c) (c_factor c) (c_friction c)
    (q_angles (k_rot k)).2 (q_angles (k_rot k)).1 (c_vel c).

(** camera_controller.rs:222-229: the camera moves with its velocity. *)
Definition moved (dt : f32) (v : vec3) (rot : Q) (pos : vec3) : vec3 :=
  if negb (v_eq v v_zero) then
    v_add pos (v_add (v_add (v_scale (q_right rot) (f_mul (v_x v) dt)) (v_scale (V3 f_zero (f_of_Z 1) f_zero) (f_mul (v_y v) dt)))
      (v_scale (q_forward rot) (f_mul (v_z v) dt)))
  else pos.

(** camera_controller.rs:253-257: the angles after a motion of the mouse. *)
Definition look_pitch (i : input) (c : controller) : f32 :=
  f_clamp minus_half_pi half_pi (f_sub (c_pitch c) (f_mul (f_mul (i_my i) radians_per_dot) (c_sens c))).
Definition look_yaw (i : input) (c : controller) : f32 :=
  f_sub (c_yaw c) (f_mul (f_mul (i_mx i) radians_per_dot) (c_sens c)).

(** camera_controller.rs:128-260 [run_camera_controller]: one frame. *)
Definition frame (i : input) (k : camera) : camera :=
  let c := initialize k in
  if negb (c_enabled c) then Cam (k_pos k) (k_rot k) c (k_toggled k) (k_held k) (k_cursors k)
  else
    let walk := scrolled i c in
    let run := f_mul walk (f_of_Z 3) in
    let '(toggled, held, change) := grab_flags i (k_toggled k) (k_held k) in
    let grab := held || toggled in
    let axis := if negb grab then v_zero else axis_input i in
    let v := velocity axis (if i_run i then run else walk) (c_friction c) (c_vel c) in
    let pos := moved (i_dt i) v (k_rot k) (k_pos k) in
    let ws := if change then grab_cursors i grab (k_cursors k) else k_cursors k in
    if negb (f_eq (i_mx i) f_zero && f_eq (i_my i) f_zero) && grab then
      let pitch := look_pitch i c in
      let yaw := look_yaw i c in
      Cam pos (q_turn yaw pitch) (Ctl true true (c_sens c) walk run (c_factor c) (c_friction c) pitch yaw v) toggled held ws
    else Cam pos (k_rot k) (Ctl true true (c_sens c) walk run (c_factor c) (c_friction c) (c_pitch c) (c_yaw c) v) toggled held ws.

(** The frames of a session, in order. *)
Definition frames (is : list input) (k : camera) : camera := fold_left (λ k i, frame i k) is k.
End Camera.
Arguments Cam {Q}. Arguments k_pos {Q}. Arguments k_rot {Q}. Arguments k_ctl {Q}. Arguments k_toggled {Q}. Arguments k_held {Q}. Arguments k_cursors {Q}.
Arguments camera : clear implicits.
