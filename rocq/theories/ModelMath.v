(** Model of crates/rerecast/src/math.rs: direction tables, cyclic indices, and
    the f32 operations the crate uses. *)
From Coq Require Export Floats.SpecFloat.
From Verif Require Import Base.

(** ** Directions *)

(** math.rs:142-145 [dir_offset_x]. Directions are [nat]; the code masks with 3. *)
Definition dir_offset_x (d : nat) : Z :=
  match (d mod 4)%nat with 0%nat => (-1)%Z | 1%nat => 0%Z | 2%nat => 1%Z | _ => 0%Z end.

(** math.rs:154-157 [dir_offset_z]. *)
Definition dir_offset_z (d : nat) : Z :=
  match (d mod 4)%nat with 0%nat => 0%Z | 1%nat => 1%Z | 2%nat => 0%Z | _ => (-1)%Z end.

(** math.rs:160-163 [dir_offset]: table lookup, panics outside the table. A
    negative index cast to [usize] is huge, hence out of range too. *)
Definition dir_offset (ox oz : Z) : outcome Z :=
  let i := ((oz + 1) * 2 + ox)%Z in
  if (i <? 0)%Z then Panicked
  else get [3; 0; -1; 2; 1]%Z (Z.to_nat i).

(** math.rs:165-173 [prev] and [next]. Modulo by zero panics. *)
Definition prev_idx (i n : nat) : outcome nat :=
  match n with O => Panicked | _ => Done ((i + n - 1) mod n) end.
Definition next_idx (i n : nat) : outcome nat :=
  match n with O => Panicked | _ => Done ((i + 1) mod n) end.

(** ** f32

    IEEE-754 binary32 with round to nearest even, from the standard library's
    [SpecFloat] with 24 bits of precision. Simplification: a single NaN. *)
Definition f32 : Type := spec_float.
Definition f_add : f32 → f32 → f32 := SFadd 24 128.
Definition f_sub : f32 → f32 → f32 := SFsub 24 128.
Definition f_mul : f32 → f32 → f32 := SFmul 24 128.
Definition f_div : f32 → f32 → f32 := SFdiv 24 128.
Definition f_sqrt : f32 → f32 := SFsqrt 24 128.
Definition f_lt : f32 → f32 → bool := SFltb.
Definition f_le : f32 → f32 → bool := SFleb.
Definition f_eq : f32 → f32 → bool := SFeqb.
(** Integer to f32 conversion ([as f32]), and [m * 2^e] rounded. *)
Definition f_of_Z (z : Z) : f32 := binary_normalize 24 128 z 0 false.
Definition f_of_me (m e : Z) : f32 := binary_normalize 24 128 m e false.

(** The value of a finite float rounded toward zero, down and up. *)
Definition f_trunc_Z (s : bool) (m : positive) (e : Z) : Z :=
  let a := if (0 <=? e)%Z then (Z.pos m * 2 ^ e)%Z else (Z.pos m / 2 ^ (- e))%Z in
  if s then (- a)%Z else a.
Definition f_floor_Z (s : bool) (m : positive) (e : Z) : Z :=
  let v := if s then Z.neg m else Z.pos m in
  if (0 <=? e)%Z then (v * 2 ^ e)%Z else (v / 2 ^ (- e))%Z.
Definition f_ceil_Z (s : bool) (m : positive) (e : Z) : Z :=
  (- f_floor_Z (negb s) m e)%Z.

Definition sat (lo hi v : Z) : Z := Z.max lo (Z.min hi v).

(** Rust float-to-int [as] casts: NaN gives 0, infinities and out-of-range
    values saturate, other values round with [r] (truncation for a plain cast,
    floor/ceil for [x.floor() as _] / [x.ceil() as _], whose float results are
    exact integers). *)
Definition f_cast (r : bool → positive → Z → Z) (lo hi : Z) (x : f32) : Z :=
  match x with
  | S754_zero _ => sat lo hi 0
  | S754_infinity false => hi
  | S754_infinity true => lo
  | S754_nan => 0
  | S754_finite s m e => sat lo hi (r s m e)
  end.
Definition f_to_u16 : f32 → Z := f_cast f_trunc_Z 0 65535.
Definition f_to_i16 : f32 → Z := f_cast f_trunc_Z (-32768) 32767.
Definition f_to_i32 : f32 → Z := f_cast f_trunc_Z (-2147483648) 2147483647.
Definition f_to_u128 : f32 → Z := f_cast f_trunc_Z 0 (2 ^ 128 - 1).

Record vec3 : Type := V3 { v_x : f32; v_y : f32; v_z : f32 }.
Definition f_zero : f32 := S754_zero false.
Definition v_zero : vec3 := V3 f_zero f_zero f_zero.

(** World placement shared by heightfields and compact heightfields
    (heightfield.rs:63-67: [aabb], [cell_size], [cell_height]). *)
Record geo : Type := Geo {
  g_min : vec3;
  g_max : vec3;
  g_cs : f32;
  g_ch : f32
}.
Definition geo0 : geo := Geo v_zero v_zero (f_of_Z 1) (f_of_Z 1).
