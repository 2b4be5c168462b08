(** Model of the colour space scalers, /repo/src/colors/*.rs (feature "colorspaces", on by
    default): LabScaler, LuvScaler, LChScaler, XYZScaler, OklabScaler, JzazbzScaler,
    SigmoidalScaler, LinearScaler and LinearApproxScaler, portable code path.

    The arithmetic of the conversions lives in another crate (colorutils_rs), whose source
    is not part of /repo.  It is a parameter of the model: the record [colorutils] holds,
    for each function of that crate used here, what it does to one pixel, and [convert] says
    in which order it visits the rows, as its signature documents it: row y of the source
    starts at y * src_stride, row y of the destination at y * dst_stride, each row has
    [width] pixels and there are [height] rows. *)
From Coq Require Import ZArith List Bool.
From Verif Require Import Base ImageStore Dispatch Resize F32 Weights Sampler Api Alpha ApiRgba ApiFloat.
Import ListNotations.

(** The functions imported at the top of each file of /repo/src/colors, one pixel at a time:
    a list of 3 or 4 samples to a list of as many samples.  The matrices SRGB_TO_XYZ_D65 and
    XYZ_TO_SRGB_D65 are always the same and are not arguments. *)
Record colorutils := mkColorutils {
  transfer : Type;
  srgb : transfer;
  (** lab_scaler.rs 34-37 *)
  rgb_to_lab : transfer -> list Z -> list f32;
  lab_to_srgb : list f32 -> list Z;
  rgba_to_lab_with_alpha : transfer -> list Z -> list f32;
  lab_with_alpha_to_rgba : transfer -> list f32 -> list Z;
  (** luv_scaler.rs 30-33 *)
  rgb_to_luv : transfer -> list Z -> list f32;
  luv_to_rgb : transfer -> list f32 -> list Z;
  rgba_to_luv_with_alpha : transfer -> list Z -> list f32;
  luv_with_alpha_to_rgba : transfer -> list f32 -> list Z;
  (** lch_scaler.rs 30-33 *)
  rgb_to_lch : transfer -> list Z -> list f32;
  lch_to_rgb : transfer -> list f32 -> list Z;
  rgba_to_lch_with_alpha : transfer -> list Z -> list f32;
  lch_with_alpha_to_rgba : transfer -> list f32 -> list Z;
  (** xyz_scaler.rs 30-33 *)
  srgb_to_xyz : list Z -> list f32;
  xyz_to_srgb : list f32 -> list Z;
  rgba_to_xyz_with_alpha : transfer -> list Z -> list f32;
  xyz_with_alpha_to_rgba : transfer -> list f32 -> list Z;
  (** oklab_scaler.rs 29 *)
  rgb_to_oklab : transfer -> list Z -> list f32;
  oklab_to_rgb : transfer -> list f32 -> list Z;
  rgba_to_oklab : transfer -> list Z -> list f32;
  oklab_to_rgba : transfer -> list f32 -> list Z;
  (** jzazbz_scaler.rs 29-31; the f32 is the display luminance *)
  rgb_to_jzazbz : f32 -> transfer -> list Z -> list f32;
  jzazbz_to_rgb : f32 -> transfer -> list f32 -> list Z;
  rgba_to_jzazbz : f32 -> transfer -> list Z -> list f32;
  jzazbz_to_rgba : f32 -> transfer -> list f32 -> list Z;
  (** sigmoidal_scaler.rs 34 *)
  rgb_to_sigmoidal : list Z -> list f32;
  sigmoidal_to_rgb : list f32 -> list Z;
  rgba_to_sigmoidal : list Z -> list f32;
  sigmoidal_to_rgba : list f32 -> list Z;
  (** linear_precise_scaler.rs 34-36 *)
  rgb_to_linear : transfer -> list Z -> list f32;
  linear_to_rgb : transfer -> list f32 -> list Z;
  rgba_to_linear : transfer -> list Z -> list f32;
  linear_to_rgba : transfer -> list f32 -> list Z;
  (** linear_scaler.rs 30-32 *)
  rgb_to_linear_u8 : transfer -> list Z -> list Z;
  linear_u8_to_rgb : transfer -> list Z -> list Z;
  rgba_to_linear_u8 : transfer -> list Z -> list Z;
  linear_u8_to_rgba : transfer -> list Z -> list Z
}.

(** `a as u32` and u32 multiplication in a release build. *)
Definition as_u32 (a : nat) : nat := N.to_nat (N.of_nat a mod 2 ^ 32).
Definition u32_mul (a b : nat) : nat := N.to_nat ((N.of_nat a * N.of_nat b) mod 2 ^ 32).

(** One call of a conversion function; strides are counted in samples.  A row outside one
    of the buffers is [Panic]. *)
Definition convert {A B} (N : nat) (px : list A -> list B)
  (src : list A) (src_stride : nat) (dst : list B) (dst_stride w h : nat) : outcome (list B) :=
  foldM (fun d y =>
    row <- slice src (y * src_stride) (y * src_stride + w * N) ;;
    _ <- slice d (y * dst_stride) (y * dst_stride + w * N) ;;
    Done (splice d (y * dst_stride) (concat (map px (chunks_exact N row)))))
  (seq 0 h) dst.

(** `width as u32 * COMPONENTS as u32`: the stride passed for an 8-bit buffer. *)
Definition byte_stride (N w : nat) : nat := u32_mul (as_u32 w) N.
(** `width as u32 * COMPONENTS as u32 * size_of::<f32>() as u32`, in samples again: the
    stride passed for an f32 buffer. *)
Definition float_stride (N w : nat) : nat := u32_mul (u32_mul (as_u32 w) N) 4 / 4.

(** The body shared by the eighteen methods, e.g. lab_scaler.rs 103-174 (resize_rgb) and
    xyz_scaler.rs 141-218 (resize_rgba): the checks, the copy when the size does not change,
    conversion of the source with row stride width * N (never store.stride), the resize of
    the converted image into a freshly allocated one, and conversion back with row stride
    width * N (never into.stride).
    [mstride] is the stride of the intermediate buffers, [inner] the method of the inner
    Scaler.  The checks are textually those of scaler.rs 584-601 without the bit depth. *)
Definition colour_resize {M} (N : nat) (zero : M) (mstride : nat -> nat)
  (fwd : list Z -> list M) (bwd : list M -> list Z) (inner : image M -> image M -> callres M)
  (store into : image Z) : callres Z :=
  try (checks N false store into) into (fun _ =>
  if (width store =? width into) && (height store =? height into) then
    try (copied_to_mut N store into) into (fun into' => Returned Ok into')
  else
    let target := repeat zero (wmul (wmul (width store) (height store)) N) in
    try (from_slice N target (width store) (height store)) into (fun lab_store =>
    try (convert N fwd (buf store) (byte_stride N (width store)) (buf lab_store) (mstride (width lab_store))
           (as_u32 (width lab_store)) (as_u32 (height lab_store))) into (fun target =>
    let new_immutable := mkImage target N (width store) (height store) (wmul (width store) N) (bit_depth into) in
    match inner new_immutable (alloc_with_depth zero N (width into) (height into) 0) with
    | Panicked => Panicked
    | Returned (Err e) _ => Returned (Err e) into
    | Returned Ok new_store =>
      try (convert N bwd (buf new_store) (mstride (width new_store)) (buf into) (byte_stride N (width into))
             (as_u32 (width new_store)) (as_u32 (height new_store))) into (fun b =>
      Returned Ok (set_buf into b))
    end))).

(** The variant of LabScaler, LChScaler and JzazbzScaler for RGBA, e.g. lab_scaler.rs 52-88
    and 176-210: the intermediate image is built by a helper without from_slice, keeps the
    bit depth of the source, and the result is written with the stride of the intermediate
    image (which has the width of [into]). *)
Definition colour_resize_helper {M} (N : nat) (zero : M) (mstride : nat -> nat)
  (fwd : list Z -> list M) (bwd : list M -> list Z) (inner : image M -> image M -> callres M)
  (store into : image Z) : callres Z :=
  try (checks N false store into) into (fun _ =>
  if (width store =? width into) && (height store =? height into) then
    try (copied_to_mut N store into) into (fun into' => Returned Ok into')
  else
    let source_slice := repeat zero (wmul (wmul N (width store)) (height store)) in
    try (convert N fwd (buf store) (byte_stride N (width store)) source_slice (mstride (width store))
           (as_u32 (width store)) (as_u32 (height store))) into (fun source_slice =>
    let lab_store := mkImage source_slice N (width store) (height store) (wmul (width store) N) (bit_depth store) in
    match inner lab_store (alloc_with_depth zero N (width into) (height into) 0) with
    | Panicked => Panicked
    | Returned (Err e) _ => Returned (Err e) into
    | Returned Ok new_store =>
      try (convert N bwd (buf new_store) (mstride (width new_store)) (buf into) (byte_stride N (width new_store))
             (as_u32 (width new_store)) (as_u32 (height new_store))) into (fun b =>
      Returned Ok (set_buf into b))
    end)).

(** The eight scalers that work on f32 components, with their public parameters. *)
Inductive colour_scaler (C : colorutils) :=
| LabScaler | LuvScaler | LChScaler | XYZScaler
| OklabScaler (t : transfer C)
| JzazbzScaler (luminance : f32) (t : transfer C)
| SigmoidalScaler
| LinearScaler (t : transfer C).
Arguments LabScaler {C}. Arguments LuvScaler {C}. Arguments LChScaler {C}. Arguments XYZScaler {C}.
Arguments OklabScaler {C}. Arguments JzazbzScaler {C}. Arguments SigmoidalScaler {C}. Arguments LinearScaler {C}.

Section Calls.
Variable C : colorutils.
Variables (k : mlaf_kind) (L : libm) (f : resampling_function) (pool : pool_t).

Definition via_rgb (fwd : list Z -> list f32) (bwd : list f32 -> list Z) : image Z -> image Z -> callres Z :=
  colour_resize 3 f0 (float_stride 3) fwd bwd (resize_f32 k L f 3 pool).
Definition via_rgba (fwd : list Z -> list f32) (bwd : list f32 -> list Z) (premultiply : bool)
  : image Z -> image Z -> callres Z :=
  colour_resize 4 f0 (float_stride 4) fwd bwd (resize_rgba_f32 k L f pool premultiply).
Definition via_rgba_helper (fwd : list Z -> list f32) (bwd : list f32 -> list Z) (premultiply : bool)
  : image Z -> image Z -> callres Z :=
  colour_resize_helper 4 f0 (float_stride 4) fwd bwd (resize_rgba_f32 k L f pool premultiply).

(** Scaling::resize_rgb of the eight scalers: lab_scaler.rs 103-174, luv_scaler.rs 67-143,
    lch_scaler.rs 104-180, xyz_scaler.rs 67-139, oklab_scaler.rs 67-141,
    jzazbz_scaler.rs 117-190, sigmoidal_scaler.rs 63-135, linear_precise_scaler.rs 80-154. *)
Definition colour_resize_rgb (s : colour_scaler C) : image Z -> image Z -> callres Z :=
  match s with
  | LabScaler => via_rgb (rgb_to_lab C (srgb C)) (lab_to_srgb C)
  | LuvScaler => via_rgb (rgb_to_luv C (srgb C)) (luv_to_rgb C (srgb C))
  | LChScaler => via_rgb (rgb_to_lch C (srgb C)) (lch_to_rgb C (srgb C))
  | XYZScaler => via_rgb (srgb_to_xyz C) (xyz_to_srgb C)
  | OklabScaler t => via_rgb (rgb_to_oklab C t) (oklab_to_rgb C t)
  | JzazbzScaler l t => via_rgb (rgb_to_jzazbz C l t) (jzazbz_to_rgb C l t)
  | SigmoidalScaler => via_rgb (rgb_to_sigmoidal C) (sigmoidal_to_rgb C)
  | LinearScaler t => via_rgb (rgb_to_linear C t) (linear_to_rgb C t)
  end.

(** Scaling::resize_rgba: lab_scaler.rs 176-210, luv_scaler.rs 145-223, lch_scaler.rs
    182-216, xyz_scaler.rs 141-219, oklab_scaler.rs 143-219, jzazbz_scaler.rs 192-226,
    sigmoidal_scaler.rs 137-211, linear_precise_scaler.rs 156-230.  The last one passes
    TransferFunction::Srgb (lines 199 and 225) and never reads self.transfer_function. *)
Definition colour_resize_rgba (s : colour_scaler C) (premultiply : bool) : image Z -> image Z -> callres Z :=
  match s with
  | LabScaler => via_rgba_helper (rgba_to_lab_with_alpha C (srgb C)) (lab_with_alpha_to_rgba C (srgb C)) premultiply
  | LuvScaler => via_rgba (rgba_to_luv_with_alpha C (srgb C)) (luv_with_alpha_to_rgba C (srgb C)) premultiply
  | LChScaler => via_rgba_helper (rgba_to_lch_with_alpha C (srgb C)) (lch_with_alpha_to_rgba C (srgb C)) premultiply
  | XYZScaler => via_rgba (rgba_to_xyz_with_alpha C (srgb C)) (xyz_with_alpha_to_rgba C (srgb C)) premultiply
  | OklabScaler t => via_rgba (rgba_to_oklab C t) (oklab_to_rgba C t) premultiply
  | JzazbzScaler l t => via_rgba_helper (rgba_to_jzazbz C l t) (jzazbz_to_rgba C l t) premultiply
  | SigmoidalScaler => via_rgba (rgba_to_sigmoidal C) (sigmoidal_to_rgba C) premultiply
  | LinearScaler _ => via_rgba (rgba_to_linear C (srgb C)) (linear_to_rgba C (srgb C)) premultiply
  end.

(** LinearApproxScaler::resize_rgb (linear_scaler.rs 80-154) and ::resize_rgba (156-232):
    8-bit linear components. *)
Definition approx_resize_rgb (t : transfer C) : image Z -> image Z -> callres Z :=
  colour_resize 3 0%Z (byte_stride 3) (rgb_to_linear_u8 C t) (linear_u8_to_rgb C t) (resize_u8 L f 3 pool).
Definition approx_resize_rgba (t : transfer C) (premultiply : bool) : image Z -> image Z -> callres Z :=
  colour_resize 4 0%Z (byte_stride 4) (rgba_to_linear_u8 C t) (linear_u8_to_rgba C t) (resize_rgba_u8 L f pool premultiply).

(** Scaling::resize_cbcr8 of all nine scalers: `unimplemented!()`, e.g. lab_scaler.rs 95-101. *)
Definition colour_resize_cbcr8 (store into : image Z) : callres Z := Panicked.
End Calls.
