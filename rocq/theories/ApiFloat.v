(** The engines behind the 16-bit and the f32 methods of Scaler
    (/repo/src/scaler.rs 967-1004 `impl ScalingF32`, resize_plane_f32; 1018-1118
    `impl ScalingU16`), portable code path. *)
From Coq Require Import ZArith List Bool.
From Verif Require Import Base ImageStore FixedPoint Dispatch FloatConv Resize F32 Weights Sampler Api Alpha.
Import ListNotations.

(** /repo/src/mlaf.rs 31-62: `mlaf(acc, a, b)` is chosen when the crate is compiled:
    one rounding with the fma target feature (31-45), two roundings without (47-62). *)
Inductive mlaf_kind := Fused | Unfused.
Definition mlaf (k : mlaf_kind) (acc a b : f32) : f32 :=
  match k with Fused => ffma a b acc | Unfused => fadd acc (fmul a b) end.

(** `u16 as f32` (AsPrimitive). *)
Definition u16_as_f32 (v : Z) : f32 := fZ v 0.

(** MixedStorage<u16> for f32, mixed_storage.rs 50-56:
    `self.ceil().max(0.).min(((1 << bit_depth) - 1) as f32) as u16`. *)
Definition to_mixed_u16 (depth : nat) (x : f32) : Z :=
  f_to_int 0 65535 (fmin (fmax (fceil x) f0) (fZ (2 ^ Z.of_nat depth - 1) 0)).

(** The kernels for one sample type: cast, conversion back. *)
Definition float_hpass_u16 (k : mlaf_kind) (N depth : nat) :=
  fhpass f0 fmul (mlaf k) u16_as_f32 (to_mixed_u16 depth) N.
Definition float_vpass_u16 (k : mlaf_kind) (N depth : nat) :=
  fvpass f0 fmul (mlaf k) u16_as_f32 (to_mixed_u16 depth) N.

(** convolve_horizontal_dispatch_u16 / convolve_vertical_dispatch_u16,
    dispatch_group_u16.rs 47-156 and 158-312: `destination.bit_depth > 12` selects the
    floating point kernels, otherwise fixed point with maxv = (1 << bit_depth) - 1. *)
Definition hconv_u16 (k : mlaf_kind) (N : nat) (fw : fweights f32) (pool : pool_t) (im into : image Z)
  : outcome (image Z) :=
  if 12 <? bit_depth into then float_hpass_u16 k N (bit_depth into) fw pool im into
  else hpass quant_i16 N (max_colors (bit_depth into)) fw pool im into.
Definition vconv_u16 (k : mlaf_kind) (N : nat) (fw : fweights f32) (pool : pool_t) (im into : image Z)
  : outcome (image Z) :=
  if 12 <? bit_depth into then float_vpass_u16 k N (bit_depth into) fw pool im into
  else vpass quant_i16 N (max_colors (bit_depth into)) fw pool im into.

Definition engine_u16 (k : mlaf_kind) (L : libm) (f : resampling_function) (N : nat) pre unpre need : engine Z f32 :=
  mkEngine 0%Z true (wants_nearest f) nearest_coord (generate_weights (resampling_filter L f))
    (vconv_u16 k N) (hconv_u16 k N) pre unpre need.

(** resize_plane_u16 (N = 1), resize_cbcr_u16 (2), resize_rgb_u16 (3): generic_resize. *)
Definition resize_u16 (k : mlaf_kind) (L : libm) (f : resampling_function) (N : nat) (pool : pool_t)
  (store into : image Z) : callres Z :=
  generic_resize N (engine_u16 k L f N no_premul no_unpremul no_alpha) pool store into.

(** resize_rgba_u16: generic_resize_with_alpha. *)
Definition rgba_engine_u16 (k : mlaf_kind) (L : libm) (f : resampling_function) : engine Z f32 :=
  engine_u16 k L f 4 premul_u16 unpremul_u16 alpha_needed_u16.
Definition resize_rgba_u16 (k : mlaf_kind) (L : libm) (f : resampling_function) (pool : pool_t) (premultiply : bool)
  (store into : image Z) : callres Z :=
  generic_resize_with_alpha 4 (rgba_engine_u16 k L f) pool premultiply store into.

(** f32 images: samples are the accumulators, `to_mixed` is the identity
    (mixed_storage.rs 76-82). *)
Definition engine_f32 (k : mlaf_kind) (L : libm) (f : resampling_function) (N : nat) pre unpre need : engine f32 f32 :=
  mkEngine f0 false (wants_nearest f) nearest_coord (generate_weights (resampling_filter L f))
    (fvpass f0 fmul (mlaf k) (fun v : f32 => v) (fun v : f32 => v) N)
    (fhpass f0 fmul (mlaf k) (fun v : f32 => v) (fun v : f32 => v) N) pre unpre need.

Definition resize_f32 (k : mlaf_kind) (L : libm) (f : resampling_function) (N : nat) (pool : pool_t)
  (store into : image f32) : callres f32 :=
  generic_resize N (engine_f32 k L f N (fun _ _ _ => Panic) (fun _ _ => Panic) (fun _ => Panic)) pool store into.
Definition rgba_engine_f32 (k : mlaf_kind) (L : libm) (f : resampling_function) : engine f32 f32 :=
  engine_f32 k L f 4 premul_f32 unpremul_f32 alpha_needed_f32.
Definition resize_rgba_f32 (k : mlaf_kind) (L : libm) (f : resampling_function) (pool : pool_t) (premultiply : bool)
  (store into : image f32) : callres f32 :=
  generic_resize_with_alpha 4 (rgba_engine_f32 k L f) pool premultiply store into.
