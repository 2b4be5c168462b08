(** f16 images, feature `nightly_f16` (/repo/src/f16.rs, dispatch_group_f16.rs,
    alpha_handle_f16.rs, scaler_f16.rs), portable code path.

    The SSE and AVX2 kernels and alpha code installed by the cfg blocks of f16.rs and
    alpha_handle_f16.rs are modelled in X86F16.v and X86AlphaF16.v; the NEON ones are not.
    (The horizontal kernels of one- and two-channel images, f16.rs 442-466 and 538-562, are the portable ones on every machine.) *)
From Coq Require Import ZArith List Bool.
From Flocq Require Import Core.Core IEEE754.BinarySingleNaN.
From Verif Require Import Base ImageStore FixedPoint Dispatch FloatConv Resize F32 Weights Sampler Api Alpha ApiFloat.
Import ListNotations.

(** core::f16: IEEE-754 binary16 (one NaN). *)
Definition f16 : Type := binary_float 11 16.
Definition h0 : f16 := B754_zero false.

(** `x as f32` of an f16 (exact) and `x as f16` of an f32 (to nearest, ties to even). *)
Definition as_f32 (x : f16) : f32 :=
  match x with
  | B754_zero s => B754_zero s
  | B754_infinity s => B754_infinity s
  | B754_nan => B754_nan
  | B754_finite s m e _ => binary_normalize 24 128 eq_refl eq_refl mode_NE (cond_Zopp s (Zpos m)) e s
  end.
Definition as_f16 (x : f32) : f16 :=
  match x with
  | B754_zero s => B754_zero s
  | B754_infinity s => B754_infinity s
  | B754_nan => B754_nan
  | B754_finite s m e _ => binary_normalize 11 16 eq_refl eq_refl mode_NE (cond_Zopp s (Zpos m)) e s
  end.

(** convolve_horizontal_rgba_4_row_f16, f16.rs 69-91: the four source rows are widened into a
    transient buffer, convolved into a transient buffer of zeros as long as the four
    destination rows, and all of that buffer is narrowed into the destination. *)
Definition hrow4_f16 (k : mlaf_kind) (N : nat) (fw : fweights f32) (src : list f16) (ss : nat) (dst : list f16) (ds : nat)
  : outcome (list f16) :=
  t <- frow_handler_4 f0 fmul (mlaf k) (fun v : f32 => v) (fun v : f32 => v) N (map as_f32 src) ss
         (repeat f0 (length dst)) ds fw ;;
  Done (map as_f16 t).
(** convolve_horizontal_rgb_native_row_f16, f16.rs 93-111. *)
Definition hrow1_f16 (k : mlaf_kind) (N : nat) (fw : fweights f32) (src dst : list f16) : outcome (list f16) :=
  t <- frow_handler f0 fmul (mlaf k) (fun v : f32 => v) (fun v : f32 => v) N (map as_f32 src) (repeat f0 (length dst)) fw ;;
  Done (map as_f16 t).
(** convolve_vertical_rgb_native_row_f16, f16.rs 199-220. *)
Definition vcol_f16 (k : mlaf_kind) (b : fbound) (src dst : list f16) (ss : nat) (w : list f32) : outcome (list f16) :=
  t <- fcolumn_handler f0 fmul (mlaf k) (fun v : f32 => v) (fun v : f32 => v) b (map as_f32 src) (repeat f0 (length dst)) ss w ;;
  Done (map as_f16 t).

(** convolve_horizontal_dispatch_f16, dispatch_group_f16.rs 99-213 (dispatcher_4_rows is Some
    in all four impls), with PasshroughWeightsConverter. *)
Definition hconv_f16 (k : mlaf_kind) (N : nat) (fw : fweights f32) (pool : pool_t) (im into : image f16) : outcome (image f16) :=
  horizontal_dispatch N (hrow4_f16 k N fw) (hrow1_f16 k N fw) pool im into.
(** convolve_vertical_dispatch_f16, dispatch_group_f16.rs 39-96. *)
Definition vconv_f16 (k : mlaf_kind) (N : nat) (fw : fweights f32) (pool : pool_t) (im into : image f16) : outcome (image f16) :=
  vertical_dispatch N (vcol_f16 k) (bounds fw) (aligned_size fw) (weights fw) pool im into.

(** premultiply_pixel_f16_row 67-82 and unpremultiply_pixel_f16_row 45-64, alpha_handle_f16.rs. *)
Definition premul_px_f16 (r g b a : f16) : list f16 :=
  let a' := as_f32 a in
  [as_f16 (fmul (as_f32 r) a'); as_f16 (fmul (as_f32 g) a'); as_f16 (fmul (as_f32 b) a'); as_f16 a'].
Definition unpremul_px_f16 (r g b a : f16) : list f16 :=
  if feqb (as_f32 a) f0 then [as_f16 f0; as_f16 f0; as_f16 f0; a]
  else let s := fdiv f1 (as_f32 a) in
       [as_f16 (fmul (as_f32 r) s); as_f16 (fmul (as_f32 g) s); as_f16 (fmul (as_f32 b) s); a].
(** premultiply_alpha_rgba_impl_f16 84-108, unpremultiply_alpha_rgba_impl_f16 110-128 (row
    drivers as for the other sample types, Alpha.v). *)
Definition premul_f16 (pool : pool_t) (im into : image f16) : outcome (image f16) :=
  b <- premul_rows (px_row premul_px_f16) (width im * 4) (stride_of 4 into) (stride_of 4 im) pool (buf im) (buf into) ;;
  Done (set_buf into b).
Definition unpremul_f16 (pool : pool_t) (im : image f16) : outcome (image f16) :=
  b <- unpremul_rows (px_row_in_place unpremul_px_f16) (width im * 4) (stride_of 4 im) pool (buf im) ;;
  Done (set_buf im b).

(** The Scaler passes for f16; image_store.rs 204-209: no bit depth required; 697-699:
    is_alpha_premultiplication_needed is the constant `true`. *)
Definition engine_f16 (k : mlaf_kind) (L : libm) (f : resampling_function) (N : nat) pre unpre need : engine f16 f32 :=
  mkEngine h0 false (wants_nearest f) nearest_coord (generate_weights (resampling_filter L f))
    (vconv_f16 k N) (hconv_f16 k N) pre unpre need.

(** resize_plane_f16 (N = 1), resize_cbcr_f16 (2), resize_rgb_f16 (3), scaler_f16.rs 71-152. *)
Definition resize_f16 (k : mlaf_kind) (L : libm) (f : resampling_function) (N : nat) (pool : pool_t)
  (store into : image f16) : callres f16 :=
  generic_resize N (engine_f16 k L f N (fun _ _ _ => Panic) (fun _ _ => Panic) (fun _ => Panic)) pool store into.
(** resize_rgba_f16, scaler_f16.rs 62-69. *)
Definition rgba_engine_f16 (k : mlaf_kind) (L : libm) (f : resampling_function) : engine f16 f32 :=
  engine_f16 k L f 4 premul_f16 unpremul_f16 (fun _ => Done true).
Definition resize_rgba_f16 (k : mlaf_kind) (L : libm) (f : resampling_function) (pool : pool_t) (premultiply : bool)
  (store into : image f16) : callres f16 :=
  generic_resize_with_alpha 4 (rgba_engine_f16 k L f) pool premultiply store into.
