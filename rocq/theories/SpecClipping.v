(** Scenes that rasterization can take: what is asked of the field and of a triangle. *)
From Coq Require Import Reals.
From Verif Require Import Base ModelMath FloatReal ModelHeightfield ModelRasterize.
Local Open Scope R_scope.

(** A finite number of at most [B]. *)
Definition fits (B : R) (x : f32) : Prop := f_valid x ∧ FloatReal.f_finite x ∧ Rabs (f_R x) <= B.
Definition fits3 (B : R) (v : vec3) : Prop := fits B (v_x v) ∧ fits B (v_y v) ∧ fits B (v_z v).

(** No coordinate of the box exceeds [B]; its cells are at least 1/8192 of that and not
    larger, and at least half that high. *)
Record box_fits (B : R) (g : geo) : Prop := {
  bf_large : 1 <= B <= 2 ^ 100;
  bf_min : fits3 B (g_min g);
  bf_max : fits3 B (g_max g);
  bf_cs : fits B (g_cs g) ∧ B / 8192 <= f_R (g_cs g);
  bf_ch : fits B (g_ch g) ∧ B / 16384 <= f_R (g_ch g)
}.
(** The field of such a box, at least one cell each way and not much larger than it. *)
Record field_fits (B : R) (hf : hfield) : Prop := {
  ff_box : box_fits B (hf_geo hf);
  ff_w : (1 <= Z.of_nat (hf_w hf) <= 32767)%Z;
  ff_h : (1 <= Z.of_nat (hf_h hf) <= 32767)%Z;
  ff_wide : INR (hf_w hf) * f_R (g_cs (hf_geo hf)) <= 4 * B;
  ff_deep : INR (hf_h hf) * f_R (g_cs (hf_geo hf)) <= 4 * B
}.

(** The corners of a triangle in the code's numbers. *)
Definition has_corners (t : vec3 * vec3 * vec3) (a b c : vec3) : Prop := Permutation [a; b; c] [t.1.1; t.1.2; t.2].
(** Seen from above, a triangle with one side along z and one along x. *)
Definition right_angled (t : vec3 * vec3 * vec3) : Prop :=
  ∃ a b c, has_corners t a b c ∧ f_R (v_x a) = f_R (v_x b) ∧ f_R (v_z b) = f_R (v_z c).
Definition triangle_fits (B : R) (t : vec3 * vec3 * vec3) : Prop := fits3 B t.1.1 ∧ fits3 B t.1.2 ∧ fits3 B t.2.
(** The end of a triangle toward larger z. *)
Definition far_end (t : vec3 * vec3 * vec3) : R := Rmax (Rmax (f_R (v_z t.1.1)) (f_R (v_z t.1.2))) (f_R (v_z t.2)).
(** It is not within a sixteenth of a cell of the line where one of [rows] rows begins. *)
Definition ends_clear (g : geo) (rows : nat) (z : R) : Prop :=
  ∀ k, (k < rows)%nat → f_R (g_cs g) / 16 <= Rabs (z - (f_R (v_z (g_min g)) + INR k * f_R (g_cs g))).

Definition tri_pts (t : vec3 * vec3 * vec3) : pt f32 * pt f32 * pt f32 := (pt_of t.1.1, pt_of t.1.2, pt_of t.2).
