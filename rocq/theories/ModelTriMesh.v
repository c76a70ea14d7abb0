(** Model of crates/rerecast/src/trimesh.rs, the parts of math.rs that it uses,
    crates/avian_rerecast/src/collider_to_trimesh.rs and
    crates/bevy_rerecast_core/src/mesh.rs. *)
From Verif Require Import Base ModelMath ModelHeightfield.
Local Open Scope Z_scope.

(** trimesh.rs:13-25 [TriMesh]; indices are [u32] triples. *)
Record trimesh : Type := TM {
  tm_verts : list vec3;
  tm_idx : list (Z * Z * Z);
  tm_areas : list Z
}.
Definition tm_default : trimesh := TM [] [] [].

(** trimesh.rs:35: [i + next_vertex_index] on all three components; [u32]
    addition panics on overflow. *)
Definition shift_idx (n : Z) (t : Z * Z * Z) : outcome (Z * Z * Z) :=
  let! a := chk_u32 (t.1.1 + n) in
  let! b := chk_u32 (t.1.2 + n) in
  let! c := chk_u32 (t.2 + n) in
  Done (a, b, c).

(** trimesh.rs:30-39 [TriMesh::extend]. *)
Definition extend (a b : trimesh) : outcome trimesh :=
  if 4294967295 <? Z.of_nat (length (tm_verts a)) then Panicked
  else
    let n := Z.of_nat (length (tm_verts a)) in
    let! idx := mapM_o (shift_idx n) (tm_idx b) in
    Done (TM (tm_verts a ++ tm_verts b) (tm_idx a ++ idx) (tm_areas a ++ tm_areas b)).

(** ** Vectors (glam [Vec3A], SSE2 implementation) *)

Definition v_sub (a b : vec3) : vec3 := V3 (f_sub (v_x a) (v_x b)) (f_sub (v_y a) (v_y b)) (f_sub (v_z a) (v_z b)).
Definition v_add (a b : vec3) : vec3 := V3 (f_add (v_x a) (v_x b)) (f_add (v_y a) (v_y b)) (f_add (v_z a) (v_z b)).
Definition v_scale (a : vec3) (s : f32) : vec3 := V3 (f_mul (v_x a) s) (f_mul (v_y a) s) (f_mul (v_z a) s).
Definition v_cross (a b : vec3) : vec3 :=
  V3 (f_sub (f_mul (v_y a) (v_z b)) (f_mul (v_z a) (v_y b)))
     (f_sub (f_mul (v_z a) (v_x b)) (f_mul (v_x a) (v_z b)))
     (f_sub (f_mul (v_x a) (v_y b)) (f_mul (v_y a) (v_x b))).
Definition v_dot (a b : vec3) : f32 :=
  f_add (f_add (f_mul (v_x a) (v_x b)) (f_mul (v_y a) (v_y b))) (f_mul (v_z a) (v_z b)).
Definition f_finite (x : f32) : bool := match x with S754_zero _ | S754_finite _ _ _ => true | _ => false end.
Definition f_one : f32 := f_of_Z 1.
(** glam [normalize_or_zero]: multiply by the reciprocal length if that is finite
    and positive. *)
Definition v_normalize_or_zero (a : vec3) : vec3 :=
  let r := f_div f_one (f_sqrt (v_dot a a)) in
  if f_finite r && f_lt f_zero r then v_scale a r else v_zero.

(** math.rs:102-112 [TriangleIndices::normal]. *)
Definition vert (vs : list vec3) (i : Z) : outcome vec3 := get vs (Z.to_nat i).
Definition tri_normal (vs : list vec3) (t : Z * Z * Z) : outcome vec3 :=
  let! a := vert vs t.1.1 in
  let! b := vert vs t.1.2 in
  let! c := vert vs t.2 in
  Done (v_normalize_or_zero (v_cross (v_sub b a) (v_sub c a))).

(** trimesh.rs:54-63 [TriMesh::mark_walkable_triangles]. The cosine of the
    threshold comes from the platform's libm and is an argument here. *)
Definition mark_walkable (m : trimesh) (cos_thr : f32) : outcome trimesh :=
  let! areas := foldM (λ '(i, t) areas,
    let! n := tri_normal (tm_verts m) t in
    if f_lt cos_thr (v_y n) then put areas i DEFAULT_WALKABLE else Done areas)
    (imap (λ i t, (i, t)) (tm_idx m)) (tm_areas m) in
  Done (TM (tm_verts m) (tm_idx m) areas).

(** glam [Vec3A::min] and [max] on SSE2 ([minps], [maxps]): the second operand if
    the comparison fails, so also if either is NaN. *)
Definition f_min (a b : f32) : f32 := if f_lt a b then a else b.
Definition f_max (a b : f32) : f32 := if f_lt b a then a else b.
Definition v_min (a b : vec3) : vec3 := V3 (f_min (v_x a) (v_x b)) (f_min (v_y a) (v_y b)) (f_min (v_z a) (v_z b)).
Definition v_max (a b : vec3) : vec3 := V3 (f_max (v_x a) (v_x b)) (f_max (v_y a) (v_y b)) (f_max (v_z a) (v_z b)).
(** [f32::MAX] is [(2^24 - 1) * 2^104]. *)
Definition F32_MAX : f32 := S754_finite false 16777215 104.
Definition F32_MIN : f32 := S754_finite true 16777215 104.
Definition v_splat (x : f32) : vec3 := V3 x x x.

(** trimesh.rs:43-45 [compute_aabb], math.rs:36-52 [Aabb3d::from_verts]. *)
Definition aabb_of (vs : list vec3) : option (vec3 * vec3) :=
  match vs with
  | [] => None
  | _ => Some (foldl v_min (v_splat F32_MAX) vs, foldl v_max (v_splat F32_MIN) vs)
  end.

(** ** collider_to_trimesh.rs *)

(** bevy [Isometry3d] and its action on points: rotation by a unit quaternion,
    then translation. Rotation as in glam [Quat::mul_vec3a]. *)
Record quat : Type := Qt { q_v : vec3; q_w : f32 }.
Record iso : Type := Iso { is_rot : quat; is_trans : vec3 }.
Definition rotate (q : quat) (v : vec3) : vec3 :=
  let b := q_v q in
  let b2 := v_dot b b in
  v_add (v_add (v_scale v (f_sub (f_mul (q_w q) (q_w q)) b2)) (v_scale b (f_mul (v_dot v b) (f_of_Z 2))))
        (v_scale (v_cross b v) (f_mul (q_w q) (f_of_Z 2))).
Definition act (i : iso) (v : vec3) : vec3 := v_add (rotate (is_rot i) v) (is_trans i).

(** collider_to_trimesh.rs:116-120 [apply_isometry]. *)
Definition apply_isometry (m : trimesh) (i : iso) : trimesh := TM (act i <$> tm_verts m) (tm_idx m) (tm_areas m).

(** collider_to_trimesh.rs:43-90 [shape_to_trimesh], after parry has produced
    vertices and indices; unsupported shapes are [None]. parry's tessellation is
    not modelled. *)
Definition shape_mesh (s : option (list vec3 * list (Z * Z * Z))) : option trimesh :=
  '(vs, idx) ← s; Some (TM vs idx (repeat NOT_WALKABLE (length idx))).

(** collider_to_trimesh.rs:92-113 [compound_trimesh]. *)
Definition compound_trimesh (parts : list (iso * option (list vec3 * list (Z * Z * Z)))) : outcome trimesh :=
  foldM (λ '(i, s) acc,
    match shape_mesh s with
    | None => Done acc
    | Some m => extend (apply_isometry acc i) m
    end) parts tm_default.

(** ** mesh.rs *)

(** bevy_rerecast_core/src/mesh.rs:47-69 [TriMesh::from_mesh]. A bevy mesh is its
    topology test, its positions if they are [Float32x3], and its indices if it
    has any. *)
Fixpoint chunks3 (l : list Z) : list (Z * Z * Z) :=
  match l with a :: b :: c :: l' => (a, b, c) :: chunks3 l' | _ => [] end.
Definition from_mesh (triangle_list : bool) (positions : option (list vec3)) (indices : option (list Z)) : option trimesh :=
  if negb triangle_list then None
  else
    vs ← positions;
    is ← indices;
    if (length is mod 3 =? 0)%nat
    then Some (TM vs (chunks3 is) (repeat NOT_WALKABLE (length (chunks3 is))))
    else None.
