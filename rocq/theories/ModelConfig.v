(** Model of crates/rerecast/src/config.rs. *)
From Verif Require Import Base ModelMath.
Local Open Scope Z_scope.

(** config.rs:199-249 [NavmeshConfigBuilder]. The fields are private and have no
    setters, so outside the crate only the default is available; the model allows
    all values. Contour flags are the two booleans of [build_contours]. *)
Record cfg_builder : Type := CfgB {
  cb_cs : f32;
  cb_ch : f32;
  cb_height : f32;
  cb_radius : f32;
  cb_climb : f32;
  cb_slope : f32;
  cb_min_size : f32;
  cb_merge_size : f32;
  cb_edge_len : f32;
  cb_edge_err : f32;
  cb_verts : f32;
  cb_sample_dist : f32;
  cb_sample_err : f32;
  cb_tile : Z;
  cb_min : vec3;
  cb_max : vec3;
  cb_wall : bool;
  cb_areas : bool;
  cb_tiling : bool
}.

(** config.rs:22-195 [NavmeshConfig]. *)
Record cfg : Type := Cfg {
  cf_width : Z;
  cf_depth : Z;
  cf_tile : Z;
  cf_border : Z;
  cf_cs : f32;
  cf_ch : f32;
  cf_min : vec3;
  cf_max : vec3;
  cf_slope : f32;
  cf_wh : Z;
  cf_climb : Z;
  cf_radius : Z;
  cf_edge_len : Z;
  cf_edge_err : f32;
  cf_min_area : Z;
  cf_merge_area : Z;
  cf_nvp : Z;
  cf_sample_dist : f32;
  cf_sample_err : f32;
  cf_wall : bool;
  cf_areas : bool
}.

(** The f32 constants 0.3, 0.2, 0.6, 0.9, 1.3 and 1/2. *)
Definition c_0_3 : f32 := S754_finite false 10066330 (-25).
Definition c_0_2 : f32 := S754_finite false 13421773 (-26).
Definition c_0_6 : f32 := S754_finite false 10066330 (-24).
Definition c_0_9 : f32 := S754_finite false 15099494 (-24).
Definition c_1_3 : f32 := S754_finite false 10905190 (-23).
Definition c_half : f32 := S754_finite false 8388608 (-24).
(** core [f32::to_radians]: multiplication with the f32 quotient PI / 180. *)
Definition c_pi : f32 := S754_finite false 13176795 (-22).
Definition f_to_radians (x : f32) : f32 := f_mul x (f_div c_pi (f_of_Z 180)).

(** config.rs:253-275 [Default for NavmeshConfigBuilder]; math.rs [Aabb3d::default]
    is zero, contours.rs:659-663: the default flag is TESSELLATE_SOLID_WALL_EDGES. *)
Definition cb_default : cfg_builder :=
  CfgB c_0_3 c_0_2 (f_of_Z 2) c_0_6 c_0_9 (f_to_radians (f_of_Z 45)) (f_of_Z 8) (f_of_Z 20) (f_of_Z 12) c_1_3
    (f_of_Z 6) (f_of_Z 6) (f_of_Z 1) 32 v_zero v_zero true false false.

(** [x.ceil() as u16], [x.floor() as u16]. *)
Definition f_ceil_u16 : f32 → Z := f_cast f_ceil_Z 0 65535.
Definition f_floor_u16 : f32 → Z := f_cast f_floor_Z 0 65535.

(** config.rs:285-294: the size of the field along one axis. *)
Definition field_size (b : cfg_builder) (border : Z) (lo hi : f32) : outcome Z :=
  if cb_tiling b then
    let! pad := chk_u16 (border * 2) in
    chk_u16 (cb_tile b + pad)
  else Done (f_to_u16 (f_add (f_div (f_sub hi lo) (cb_cs b)) c_half)).

(** config.rs:279-316 [NavmeshConfigBuilder::build]. *)
Definition build_config (b : cfg_builder) : outcome cfg :=
  let radius := f_ceil_u16 (f_div (cb_radius b) (cb_cs b)) in
  let! border := chk_u16 (radius + 3) in
  let! width := field_size b border (v_x (cb_min b)) (v_x (cb_max b)) in
  let! depth := field_size b border (v_z (cb_min b)) (v_z (cb_max b)) in
  Done (Cfg width depth (cb_tile b) border (cb_cs b) (cb_ch b) (cb_min b) (cb_max b) (cb_slope b)
    (f_ceil_u16 (f_div (cb_height b) (cb_ch b)))
    (f_floor_u16 (f_div (cb_climb b) (cb_ch b)))
    radius
    (f_to_u16 (f_div (cb_edge_len b) (cb_cs b)))
    (cb_edge_err b)
    (f_to_u16 (f_mul (cb_min_size b) (cb_min_size b)))
    (f_to_u16 (f_mul (cb_merge_size b) (cb_merge_size b)))
    (f_to_u16 (cb_verts b))
    (if f_lt (cb_sample_dist b) c_0_9 then f_zero else f_mul (cb_cs b) (cb_sample_dist b))
    (f_mul (cb_ch b) (cb_sample_err b))
    (cb_wall b) (cb_areas b)).
