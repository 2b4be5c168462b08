(** Kernel selection of the 8-bit passes on x86-64 with the default features
    (sse, avx; not nightly_avx512): /repo/src/{plane_u8,cbcr8,rgb_u8,rgba_u8}.rs, and the
    scaler built on it. *)
From Coq Require Import ZArith List Bool.
From Verif Require Import Base ImageStore FixedPoint Dispatch Resize F32 Weights Sampler Api Alpha
  Simd X86Vertical X86VerticalLp X86Horizontal.
Import ListNotations.

(** What `is_x86_feature_detected!` reports. *)
Record cpu := mkCpu { sse41 : bool; avx2 : bool }.
(** WorkloadStrategy, /repo/src/scaler.rs (the default is PreferSpeed). *)
Inductive strategy := PreferQuality | PreferSpeed.
Definition speed (s : strategy) : bool := match s with PreferSpeed => true | PreferQuality => false end.

(** `a as f32 / b as f32 < 8.` *)
Definition factor_below_8 (a b : nat) : bool := fltb (fdiv (f_of_nat a) (f_of_nat b)) (fZ 8 0).

Inductive hkernel := HPortable | HPlaneSse | HPlaneHrs | HCbCrHrs | HRgbSse | HRgbAvx
  | HRgbaSse | HRgbaSseLb | HRgbaAvxLb.
Inductive vkernel := VPortable | VSse | VSseLp | VAvx | VAvxLp.

(** The instruction set a kernel is compiled for (`#[target_feature(enable = ...)]`). *)
Definition h_runs_on (c : cpu) (k : hkernel) : bool :=
  match k with
  | HPortable => true
  | HRgbAvx | HRgbaAvxLb => avx2 c
  | _ => sse41 c
  end.
Definition v_runs_on (c : cpu) (k : vkernel) : bool :=
  match k with VPortable => true | VSse | VSseLp => sse41 c | VAvx | VAvxLp => avx2 c end.

(** plane_u8.rs 50-124: the factor is computed from the heights. *)
Definition plane_hkernel (c : cpu) (s : strategy) (src_h dst_h : nat) : hkernel :=
  if sse41 c then if factor_below_8 src_h dst_h && speed s then HPlaneHrs else HPlaneSse else HPortable.
(** cbcr8.rs 45-99. *)
Definition cbcr_hkernel (c : cpu) (s : strategy) (src_w dst_w : nat) : hkernel :=
  if sse41 c && factor_below_8 src_w dst_w && speed s then HCbCrHrs else HPortable.
(** rgb_u8.rs 48-117. *)
Definition rgb_hkernel (c : cpu) : hkernel :=
  if avx2 c then HRgbAvx else if sse41 c then HRgbSse else HPortable.
(** rgba_u8.rs 56-138; note `||` in the test for the AVX2 kernel (line 117). *)
Definition rgba_hkernel (c : cpu) (s : strategy) (src_w dst_w : nat) : hkernel :=
  let low := factor_below_8 src_w dst_w in
  let k := if sse41 c then if low && speed s then HRgbaSseLb else HRgbaSse else HPortable in
  if (avx2 c || low) && speed s then HRgbaAvxLb else k.
Definition select_h (N : nat) (c : cpu) (s : strategy) (im into : image Z) : hkernel :=
  match N with
  | 1 => plane_hkernel c s (height im) (height into)
  | 2 => cbcr_hkernel c s (width im) (width into)
  | 3 => rgb_hkernel c
  | _ => rgba_hkernel c s (width im) (width into)
  end.
(** The same code in all four files, e.g. rgba_u8.rs 141-225. *)
Definition select_v (c : cpu) (s : strategy) (im into : image Z) : vkernel :=
  let low := factor_below_8 (height im) (height into) && speed s in
  let k := if sse41 c then if low then VSseLp else VSse else VPortable in
  if avx2 c then if low then VAvxLp else VAvx else k.

Definition h_pixel (k : hkernel) : pixel_fn :=
  match k with
  | HPortable => fun _ _ _ => Panic (* not used *)
  | HPlaneSse => plane_sse
  | HPlaneHrs => plane_sse_hrs
  | HCbCrHrs => cbcr_sse_hrs
  | HRgbSse => rgb_sse
  | HRgbAvx => rgb_avx
  | HRgbaSse => rgba_sse
  | HRgbaSseLb => rgba_sse_lb
  | HRgbaAvxLb => rgba_avx_lb
  end.
Definition run_h1 (N : nat) (k : hkernel) (fw : fweights Z) (src dst : list Z) : outcome (list Z) :=
  match k with HPortable => row_handler N 255 src dst fw | _ => hrow N (h_pixel k) src dst fw end.
Definition run_h4 (N : nat) (k : hkernel) (fw : fweights Z) (src : list Z) (ss : nat) (dst : list Z) (ds : nat)
  : outcome (list Z) :=
  match k with HPortable => row_handler_4 N 255 src ss dst ds fw | _ => hrow4 N (h_pixel k) src ss dst ds fw end.
Definition run_v (k : vkernel) : fbound -> list Z -> list Z -> nat -> list Z -> outcome (list Z) :=
  match k with
  | VPortable => column_handler 255
  | VSse => vertical_sse_row
  | VSseLp => vertical_sse_row_lp
  | VAvx => vertical_avx_row
  | VAvxLp => vertical_avx_row_lp
  end.

(** convolve_horizontal / convolve_vertical.  Running a kernel whose instructions the
    processor lacks is undefined behaviour (an illegal instruction trap); it is [Panic] here. *)
Definition x86_hpass (c : cpu) (s : strategy) (N : nat) (fw : fweights f32) (pool : pool_t) (im into : image Z)
  : outcome (image Z) :=
  let k := select_h N c s im into in
  if negb (h_runs_on c k) then Panic else
  approx <- numerical_approximation quant_i16 0 fw ;;
  horizontal_dispatch N (run_h4 N k approx) (run_h1 N k approx) pool im into.
Definition x86_vpass (c : cpu) (s : strategy) (N : nat) (fw : fweights f32) (pool : pool_t) (im into : image Z)
  : outcome (image Z) :=
  let k := select_v c s im into in
  if negb (v_runs_on c k) then Panic else
  approx <- numerical_approximation quant_i16 0 fw ;;
  vertical_dispatch N (run_v k) (bounds fw) (aligned_size fw) (weights approx) pool im into.

Definition x86_engine (c : cpu) (s : strategy) (L : libm) (f : resampling_function) (N : nat)
  pre unpre need : engine Z f32 :=
  mkEngine 0%Z false (wants_nearest f) nearest_coord (generate_weights (resampling_filter L f))
    (x86_vpass c s N) (x86_hpass c s N) pre unpre need.

(** Scaler::resize_plane, resize_cbcr8, resize_rgb (N = 1, 2, 3) on x86-64, and resize_rgba
    with premultiply_alpha off (N = 4; see with_alpha_off). *)
Definition resize_u8_x86 (c : cpu) (s : strategy) (L : libm) (f : resampling_function) (N : nat)
  (pool : pool_t) (store into : image Z) : callres Z :=
  if N =? 4 then
    generic_resize_with_alpha N (x86_engine c s L f N no_premul no_unpremul no_alpha) pool false store into
  else generic_resize N (x86_engine c s L f N no_premul no_unpremul no_alpha) pool store into.
