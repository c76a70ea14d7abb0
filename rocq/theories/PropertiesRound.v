(** Further theorems for property C48: triangles that end on a grid line, with the
    code's own numbers. *)
From Coq Require Import QArith Lqa.
From Verif Require Import Base ModelMath ModelHeightfield ModelRasterize SpecRasterize.
Local Open Scope Z_scope.

(** The rational number a finite float stands for. *)
Definition Q_of (x : f32) : Q :=
  match x with
  | S754_finite s m e =>
    let n := if s then Z.neg m else Z.pos m in
    (if (0 <=? e)%Z then inject_Z (n * 2 ^ e) else n # Z.to_pos (2 ^ (- e)))%Q
  | _ => 0%Q
  end.
Definition pt_Q (p : pt f32) : pt Q := Pt (Q_of (px p)) (Q_of (py p)) (Q_of (pz p)).
Definition tri_Q (t : pt f32 * pt f32 * pt f32) : tri3 := (pt_Q t.1.1, pt_Q t.1.2, pt_Q t.2).
Definition place_Q (g : place f32) : place Q := Place (pt_Q (pl_min g)) (pt_Q (pl_max g)) (Q_of (pl_cs g)) (Q_of (pl_ch g)).

(** A number of tenths, as the literal in the source of a program. *)
Definition tenths (n : Z) : f32 := f_div (f_of_Z n) (f_of_Z 10).

(** A point is less than [d] away from the cell, in x and in z. *)
Definition near_cell (d : Q) (g : place Q) (x z : Z) (p : pt Q) : Prop :=
  (line (px (pl_min g)) (pl_cs g) x - d < px p < line (px (pl_min g)) (pl_cs g) (x + 1) + d ∧
   line (pz (pl_min g)) (pl_cs g) z - d < pz p < line (pz (pl_min g)) (pl_cs g) (z + 1) + d)%Q.

(** A field of 20 by 20 cells of size 0.3 and height 0.2. *)
Definition thirds : geo := Geo v_zero (V3 (tenths 60) (tenths 100) (tenths 60)) (tenths 3) (tenths 2).

(** The span that the field holds at a cell after the triangle. *)
Definition span_left (g : geo) (t : pt f32 * pt f32 * pt f32) (x z : nat) : option (Z * Z) :=
  match build_heightfield g with
  | Done (Some hf) =>
    match rasterize_triangle hf t 63 1 with
    | Done (Some hf') => match span_at hf' x z with Done (Some s) => Some (s_min s, s_max s) | _ => None end
    | _ => None
    end
  | _ => None
  end.
Lemma span_left_some g t x z a b : span_left g t x z = Some (a, b) → ∃ hf hf' s, build_heightfield g = Done (Some hf) ∧
  rasterize_triangle hf t 63 1 = Done (Some hf') ∧ span_at hf' x z = Done (Some s) ∧ s_min s = a ∧ s_max s = b.
Proof.
  unfold span_left. destruct (build_heightfield g) as [[hf|]| |] eqn:E1; [|discriminate..].
  destruct (rasterize_triangle hf t 63 1) as [[hf'|]| |] eqn:E2; [|discriminate..].
  destruct (span_at hf' x z) as [[s|]| |] eqn:E3; [|discriminate..]. intros E. injection E as <- <-. exists hf, hf', s. split; [reflexivity|]. split; [assumption|]. split; [assumption|]. split; reflexivity.
Qed.

(** A triangle whose far corner is on the grid line z = 5.1. The quotient by the cell
    size rounds to 17, so row 17 is visited, but the line itself rounds to more than
    5.1, so that nothing is left of the triangle after row 16. The division of an
    empty polygon writes nothing, and the polygon in the row buffer is inserted once
    more. *)
Definition far_corner : pt f32 * pt f32 * pt f32 :=
  (Pt (tenths 55) (tenths 29) (tenths 37), Pt (tenths 15) (tenths 13) (tenths 38), Pt (tenths 8) (tenths 3) (tenths 51)).
Theorem C48_far_row_f32_refuted : ∃ hf hf' s, build_heightfield thirds = Done (Some hf) ∧
  rasterize_triangle hf far_corner 63 1 = Done (Some hf') ∧
  span_at hf' 5 17 = Done (Some s) ∧ s_min s = 3 ∧ s_max s = 5 ∧
  ¬ ∃ p, in_tri (tri_Q far_corner) p ∧ near_cell (1#10) (place_Q (place_of thirds)) 5 17 p.
Proof.
  assert (span_left thirds far_corner 5 17 = Some (3, 5)) as E by (vm_compute; reflexivity).
  apply span_left_some in E. destruct E as (hf & hf' & s & E1 & E2 & E3 & E4 & E5).
  exists hf, hf', s. split; [exact E1|]. split; [exact E2|]. split; [exact E3|]. split; [exact E4|]. split; [exact E5|]. clear.
  intros (p & (u & v & w & Hu & Hv & Hw & H1 & Hx & Hy & Hz) & [[Cx _] [Cz _]]).
  let t := eval vm_compute in (tri_Q far_corner) in assert ((tri_Q far_corner) = t) as Et by (vm_compute; reflexivity).
  let g := eval vm_compute in (place_Q (place_of thirds)) in assert ((place_Q (place_of thirds)) = g) as Eg by (vm_compute; reflexivity).
  rewrite Et in *. rewrite Eg in *. unfold line in *. cbn [px py pz fst snd pl_min pl_max pl_cs] in *. change (inject_Z 5) with 5%Q in *. change (inject_Z 17) with 17%Q in *. lra.
Qed.

(** The same in a row: a corner on the line x = 5.1 makes the span of the cell before
    it appear in the cell behind it, with the heights of that cell. The triangle has
    no point in the cell, and within a twentieth of it no point as high as 1.5. *)
Definition far_side : pt f32 * pt f32 * pt f32 :=
  (Pt (tenths 10) (tenths 90) (tenths 10), Pt (tenths 51) (tenths 10) (tenths 20), Pt (tenths 20) (tenths 90) (tenths 30)).
Theorem C48_far_column_f32_refuted : ∃ hf hf' s, build_heightfield thirds = Done (Some hf) ∧
  rasterize_triangle hf far_side 63 1 = Done (Some hf') ∧
  span_at hf' 17 6 = Done (Some s) ∧ s_min s = 5 ∧ s_max s = 9 ∧
  (¬ ∃ p, in_tri (tri_Q far_side) p ∧ in_cell (place_Q (place_of thirds)) 17 6 p) ∧
  (∀ p, in_tri (tri_Q far_side) p → near_cell (1#20) (place_Q (place_of thirds)) 17 6 p → (py p < 15#10)%Q).
Proof.
  assert (span_left thirds far_side 17 6 = Some (5, 9)) as E by (vm_compute; reflexivity).
  apply span_left_some in E. destruct E as (hf & hf' & s & E1 & E2 & E3 & E4 & E5).
  exists hf, hf', s. split; [exact E1|]. split; [exact E2|]. split; [exact E3|]. split; [exact E4|]. split; [exact E5|]. clear. split.
  - intros (p & (u & v & w & Hu & Hv & Hw & H1 & Hx & Hy & Hz) & [[Cx _] [Cz _]]).
    let t := eval vm_compute in (tri_Q far_side) in assert ((tri_Q far_side) = t) as Et by (vm_compute; reflexivity).
    let g := eval vm_compute in (place_Q (place_of thirds)) in assert ((place_Q (place_of thirds)) = g) as Eg by (vm_compute; reflexivity).
    rewrite Et in *. rewrite Eg in *. unfold line in *. cbn [px py pz fst snd pl_min pl_max pl_cs] in *. change (inject_Z 17) with 17%Q in *. change (inject_Z 6) with 6%Q in *. lra.
  - intros p (u & v & w & Hu & Hv & Hw & H1 & Hx & Hy & Hz) [[Cx _] [Cz _]].
    let t := eval vm_compute in (tri_Q far_side) in assert ((tri_Q far_side) = t) as Et by (vm_compute; reflexivity).
    let g := eval vm_compute in (place_Q (place_of thirds)) in assert ((place_Q (place_of thirds)) = g) as Eg by (vm_compute; reflexivity).
    rewrite Et in *. rewrite Eg in *. unfold line in *. cbn [px py pz fst snd pl_min pl_max pl_cs] in *. change (inject_Z 17) with 17%Q in *. change (inject_Z 6) with 6%Q in *. lra.
Qed.

Print Assumptions C48_far_row_f32_refuted.
Print Assumptions C48_far_column_f32_refuted.
