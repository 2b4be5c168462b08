(** Model of the x86 vector kernels for f16 images:
    /repo/src/sse/{vertical_f16,rgba_f16,rgb_f16,f16_utils}.rs,
    /repo/src/avx2/{vertical_f16,rgba_f16}.rs and the kernel selection of /repo/src/f16.rs.

    Registers of floats are lists of lanes as in X86Float.v.  The kernels load f16 samples,
    widen every lane, and narrow every lane before storing; a load followed by the widening
    of each lane is the load from the row with every sample widened, which is how it is
    written here.

    Simplifications: the four-row kernels keep four accumulators that see the same weights
    and are never combined, so they are the one-pixel function applied to each of the four
    rows; the narrowing of a lane that is not stored is left out. *)
From Coq Require Import ZArith List Bool.
From Flocq Require Import Core.Core IEEE754.BinarySingleNaN.
From Verif Require Import Base ImageStore FixedPoint Dispatch FloatConv Resize F32 Weights Sampler Api Alpha ApiFloat
  X86Dispatch X86Float F16 CApi CApiF16.
Import ListNotations.

(** ** Conversions without F16C, sse/f16_utils.rs *)
(** One lane of _mm_cvtph_ps_fallback, 99-140. *)
Definition up_bits (h : Z) : Z :=
  let exp := (h / 2 ^ 10 mod 32)%Z in
  let mantissa := (h mod 2 ^ 10 * 2 ^ 13)%Z in
  (* exponent field of the mantissa as a float (exact, below 2^24) *)
  let v := (if mantissa =? 0 then 0 else 127 + Z.log2 mantissa)%Z in
  let j1 := (if 2 ^ 15 <=? h then 2 ^ 31 else 0)%Z in
  let is_exp_zero := (exp =? 0)%Z in
  let j2 := (if is_exp_zero then 0 else Z.lor ((exp + 112) * 2 ^ 23) mantissa)%Z in
  let pvm := (((v - 37) * 2 ^ 23) mod 2 ^ 32)%Z in
  let vgm := Z.land ((mantissa * 2 ^ ((150 - v) mod 32)) mod 2 ^ 32)%Z 8380416 in
  let j3 := if is_exp_zero && negb (mantissa =? 0)%Z then Z.lor pvm vgm else 0%Z in
  Z.lor (Z.lor j1 j2) j3.
(** One lane of _mm_cvtps_ph_fallback, 145-189. *)
Definition down_bits (w : Z) : Z :=
  let b := ((w + 4096) mod 2 ^ 32)%Z in
  let e := (b / 2 ^ 23 mod 256)%Z in
  let m := (b mod 2 ^ 23)%Z in
  let j1 := (if 112 <? e then Z.lor (Z.land ((e - 112) * 2 ^ 10) 31744) (m / 2 ^ 13) else 0)%Z in
  let v2 := (((8384512 + m) / 2 ^ ((125 - e) mod 32) + 1) / 2)%Z in
  let j2 := (if (e <? 113) && (101 <? e) then v2 else 0)%Z in
  let sat := (if 143 <? e then 32767 else 0)%Z in
  Z.min (Z.lor (Z.lor j1 j2) sat) 65535.
Definition up_fallback (x : f16) : f32 := f32_of_bits (up_bits (f16_bits x)).
Definition down_fallback (v : f32) : f16 := f16_of_bits (down_bits (f32_bits v)).

(** What `is_x86_feature_detected!` reports. *)
Record hcpu := mkHcpu { hbase : cpu; hfma : bool; f16c : bool }.
(** _mm_cvtph_psx::<F16C> and _mm_cvtps_phx::<F16C>, sse/f16_utils.rs 197-224; the
    instructions of F16C are exact widening and rounding to nearest even. *)
Definition cvt_up (c : hcpu) : f16 -> f32 := if f16c c then as_f32 else up_fallback.
Definition cvt_down (c : hcpu) : f32 -> f16 := if f16c c then as_f16 else down_fallback.

Section Rows.
Local Open Scope nat_scope.
(** The stores at the end of the kernels. *)
Definition store16 (dst : list f16) (off : nat) (v : list f16) : outcome (list f16) :=
  if off + length v <=? length dst then Done (splice dst off v) else Panic.

Variables (up : f16 -> f32) (down : f32 -> f16).
(** ** Vertical: one part of [m] registers of [lanes] lanes.  sse/vertical_f16.rs 40-70 (one
    lane), 72-101 (lanes 4, m 1), 103-154 (4, 4), 156-191 (4, 2); avx2/vertical_f16.rs 38-74
    (one lane), 76-104 (4, 1), 106-158 (8, 4), 160-197 (8, 2). *)
Definition vpart16 (fma : bool) (src : list f16) (src_stride : nat) (filter : list f32) (b : fbound)
  (lanes m : nat) (dst : list f16) (px : nat) : outcome (list f16) :=
  stores <- foldM
    (fun (stores : list mf) j =>
       w <- idx filter j ;;
       let p := src_stride * (bstart b + j) + px in
       rows <- seqM (map (fun i => loadf lanes (map up src) (p + lanes * i)) (seq 0 m)) ;;
       Done (map (fun sr => vfma fma (fst sr) (snd sr) (set1_ps lanes w)) (combine stores rows)))
    (seq 0 (bsize b)) (repeat (zero_ps lanes) m) ;;
  foldM (fun dst (is_ : nat * mf) => store16 dst (px + lanes * fst is_) (map down (snd is_))) (combine (seq 0 m) stores) dst.
(** convolve_vertical_sse_row_f16_impl, sse/vertical_f16.rs 266-339. *)
Definition vertical_sse_f16 (fma : bool) (b : fbound) (src dst : list f16) (ss : nat) (w : list f32) : outcome (list f16) :=
  let total := length dst in
  '(cx, dst) <- while_tiles total 16 16 total (fun d cx => vpart16 fma src ss w b 4 4 d cx) 0 dst ;;
  '(cx, dst) <- while_tiles total 8 8 total (fun d cx => vpart16 fma src ss w b 4 2 d cx) cx dst ;;
  '(cx, dst) <- while_tiles total 4 4 total (fun d cx => vpart16 fma src ss w b 4 1 d cx) cx dst ;;
  '(_, dst) <- while_tiles total 1 0 total (fun d cx => vpart16 fma src ss w b 1 1 d cx) cx dst ;;
  Done dst.
(** convolve_vertical_avx_row_f16_impl, avx2/vertical_f16.rs 248-315. *)
Definition vertical_avx_f16 (fma : bool) (b : fbound) (src dst : list f16) (ss : nat) (w : list f32) : outcome (list f16) :=
  let total := length dst in
  '(cx, dst) <- while_tiles total 32 32 total (fun d cx => vpart16 fma src ss w b 8 4 d cx) 0 dst ;;
  '(cx, dst) <- while_tiles total 16 16 total (fun d cx => vpart16 fma src ss w b 8 2 d cx) cx dst ;;
  '(cx, dst) <- while_tiles total 4 4 total (fun d cx => vpart16 fma src ss w b 4 1 d cx) cx dst ;;
  '(_, dst) <- while_tiles total 1 0 total (fun d cx => vpart16 fma src ss w b 1 1 d cx) cx dst ;;
  Done dst.

(** ** Horizontal: the pixel functions have the taps, loads and order of the f32 ones
    (X86Float.v): sse/rgba_f16.rs 42-101 with the loops 213-260 and 406-520 as rgba_sse_f32;
    avx2/rgba_f16.rs 39-114 with 194-251 and 365-508 as rgba_avx_f32; sse/rgb_f16.rs 40-145
    with 260-307 and 461-574 as rgb_sse_f32 (there the last pixel of a part leaves 0 in the
    lane that is not stored, here a repeated sample, which changes nothing that is stored). *)
(** `for x in 0..dst_width` of the one-row kernels. *)
Definition hrow16 (cn : nat) (pixel : fpixel) (dst_width : nat) (src dst : list f16) (fw : fweights f32) : outcome (list f16) :=
  foldM (fun dst x =>
    b <- idx (bounds fw) x ;;
    w <- slice_from (weights fw) (x * aligned_size fw) ;;
    v <- pixel (map up src) b w ;;
    store16 dst (x * cn) (map down v)) (seq 0 dst_width) dst.
(** The four-row kernels. *)
Definition hrow16_4 (cn : nat) (pixel : fpixel) (dst_width : nat) (src : list f16) (src_stride : nat)
  (dst : list f16) (dst_stride : nat) (fw : fweights f32) : outcome (list f16) :=
  foldM (fun dst x =>
    b <- idx (bounds fw) x ;;
    w <- slice_from (weights fw) (x * aligned_size fw) ;;
    src1 <- slice_from src src_stride ;;
    src2 <- slice_from src (src_stride * 2) ;;
    src3 <- slice_from src (src_stride * 3) ;;
    v0 <- pixel (map up src) b w ;; v1 <- pixel (map up src1) b w ;; v2 <- pixel (map up src2) b w ;; v3 <- pixel (map up src3) b w ;;
    dst <- store16 dst (x * cn) (map down v0) ;;
    dst <- store16 dst (x * cn + dst_stride) (map down v1) ;;
    dst <- store16 dst (x * cn + dst_stride * 2) (map down v2) ;;
    store16 dst (x * cn + dst_stride * 3) (map down v3)) (seq 0 dst_width) dst.
End Rows.

(** ** Kernel selection, f16.rs *)
(** Horizontal, the same for one row and for four: 160-183 (RGBA), 342-360 (RGB); none for
    one and two channels (442-466, 538-562). *)
Definition f16_pixel (c : hcpu) (N : nat) : option fpixel :=
  let sse := sse41 (hbase c) in let avx := avx2 (hbase c) && f16c c in
  match N with
  | 3 => if sse then Some (rgb_sse_f32 (f16c c && hfma c)) else None
  | 4 => if avx then Some (rgba_avx_f32 (hfma c)) else if sse then Some (rgba_sse_f32 false) else None
  | _ => None
  end.
Definition x86_hconv_f16 (k : mlaf_kind) (c : hcpu) (N : nat) (fw : fweights f32) (pool : pool_t) (im into : image f16)
  : outcome (image f16) :=
  horizontal_dispatch N
    (fun src ss dst ds =>
       match f16_pixel c N with
       | Some px => hrow16_4 (cvt_up c) (cvt_down c) N px (width into) src ss dst ds fw
       | None => hrow4_f16 k N fw src ss dst ds
       end)
    (fun src dst =>
       match f16_pixel c N with
       | Some px => hrow16 (cvt_up c) (cvt_down c) N px (width into) src dst fw
       | None => hrow1_f16 k N fw src dst
       end)
    pool im into.
(** Vertical, the same in all four impls, e.g. 259-280. *)
Definition f16_column (k : mlaf_kind) (c : hcpu) : fbound -> list f16 -> list f16 -> nat -> list f32 -> outcome (list f16) :=
  if avx2 (hbase c) && f16c c then vertical_avx_f16 as_f32 as_f16 (hfma c)
  else if sse41 (hbase c) then vertical_sse_f16 (cvt_up c) (cvt_down c) false
  else vcol_f16 k.
Definition x86_vconv_f16 (k : mlaf_kind) (c : hcpu) (N : nat) (fw : fweights f32) (pool : pool_t) (im into : image f16)
  : outcome (image f16) :=
  vertical_dispatch N (f16_column k c) (bounds fw) (aligned_size fw) (weights fw) pool im into.

Definition x86_engine_f16 (k : mlaf_kind) (c : hcpu) (L : libm) (f : resampling_function) (N : nat) pre unpre need : engine f16 f32 :=
  mkEngine h0 false (wants_nearest f) nearest_coord (generate_weights (resampling_filter L f))
    (x86_vconv_f16 k c N) (x86_hconv_f16 k c N) pre unpre need.

(** resize_plane_f16 (N = 1), resize_cbcr_f16 (2), resize_rgb_f16 (3) on x86-64; N = 4 is
    resize_rgba_f16 with premultiply_alpha off. *)
Definition resize_f16_x86 (k : mlaf_kind) (c : hcpu) (L : libm) (f : resampling_function) (N : nat) (pool : pool_t)
  (store into : image f16) : callres f16 :=
  if N =? 4 then
    generic_resize_with_alpha N (x86_engine_f16 k c L f N (fun _ _ _ => Panic) (fun _ _ => Panic) (fun _ => Panic)) pool false store into
  else generic_resize N (x86_engine_f16 k c L f N (fun _ _ _ => Panic) (fun _ _ => Panic) (fun _ => Panic)) pool store into.
