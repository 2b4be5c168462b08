(** Model of the x86 vector kernels for f32 images:
    /repo/src/sse/{vertical_f32,rgba_f32,rgb_f32,plane_f32}.rs,
    /repo/src/avx2/{vertical_f32,rgba_f32}.rs and the macros of sse/routines.rs and
    avx2/routines.rs, and of the kernel selection in
    /repo/src/{plane_f32,cbcr_f32,rgb_f32,rgba_f32}.rs.

    A register of floats is the list of its lanes, lowest address first (4 lanes for
    __m128, 8 for __m256).  Operations are lane-wise; this is part of the trusted reading
    of the intrinsics.

    Simplification: the four-row kernels keep four accumulators (store_0..store_3) that see
    the same weights and are never combined, so they are modelled as the one-pixel function
    applied to each of the four rows in turn. *)
From Coq Require Import ZArith List Bool.
From Verif Require Import Base ImageStore FixedPoint Dispatch FloatConv Resize F32 Weights Sampler Api Alpha ApiFloat
  X86Dispatch.
Import ListNotations.
Local Open Scope nat_scope.

Definition mf := list f32.
Fixpoint fzip (f : f32 -> f32 -> f32) (a b : mf) : mf :=
  match a, b with x :: a', y :: b' => f x y :: fzip f a' b' | _, _ => [] end.
Fixpoint fzip3 (f : f32 -> f32 -> f32 -> f32) (a b c : mf) : mf :=
  match a, b, c with x :: a', y :: b', z :: c' => f x y z :: fzip3 f a' b' c' | _, _, _ => [] end.

(** _mm_prefer_fma_ps::<FMA>(a, b, c), sse/utils.rs 37-48, and _mm256_fma_ps::<FMA>,
    avx2/utils.rs 36-47: b * c + a with one rounding or with two. *)
Definition prefer_fma (fma : bool) (a b c : f32) : f32 := if fma then ffma b c a else fadd (fmul b c) a.
Definition vfma (fma : bool) : mf -> mf -> mf -> mf := fzip3 (prefer_fma fma).
Definition add_ps : mf -> mf -> mf := fzip fadd.
(** setzero_ps, set1_ps / load1_ps / shuffle_ps of one lane. *)
Definition zero_ps (n : nat) : mf := repeat f0 n.
Definition set1_ps (n : nat) (x : f32) : mf := repeat x n.
(** loadu_ps and the element-wise reads through get_unchecked / read_unaligned: outside the
    slice it is undefined behaviour in the code and [Panic] here. *)
Definition loadf (n : nat) (mem : list f32) (off : nat) : outcome mf :=
  if off + n <=? length mem then Done (firstn n (skipn off mem)) else Panic.
(** storeu_ps and the partial stores of rgb_f32.rs, plane_f32.rs. *)
Definition storef (dst : list f32) (off : nat) (v : mf) : outcome (list f32) :=
  if off + length v <=? length dst then Done (splice dst off v) else Panic.

(** ** Vertical *)
Section Vertical.
Variables (fma : bool) (src : list f32) (src_stride : nat) (filter : list f32) (b : fbound).

(** One part: [m] registers of [lanes] lanes.  sse/vertical_f32.rs 38-83 (lanes 4, m 6),
    85-120 (4, 4), 122-150 (4, 2), 152-180 (4, 1), 182-210 (one lane, load_ss);
    avx2/vertical_f32.rs 37-74 (lanes 8, m 4), 76-106 (8, 2), 108-134 (8, 1),
    136-165 (one lane). *)
Definition vpart (lanes m : nat) (dst : list f32) (px : nat) : outcome (list f32) :=
  stores <- foldM
    (fun (stores : list mf) j =>
       w <- idx filter j ;;
       let p := src_stride * (bstart b + j) + px in
       rows <- seqM (map (fun i => loadf lanes src (p + lanes * i)) (seq 0 m)) ;;
       Done (map (fun sr => vfma fma (fst sr) (snd sr) (set1_ps lanes w)) (combine stores rows)))
    (seq 0 (bsize b)) (repeat (zero_ps lanes) m) ;;
  foldM (fun dst (is_ : nat * mf) => storef dst (px + lanes * fst is_) (snd is_)) (combine (seq 0 m) stores) dst.
End Vertical.

(** convolve_vertical_rgb_sse_row_f32, sse/vertical_f32.rs 212-345. *)
Definition vertical_sse_f32 (fma : bool) (b : fbound) (src dst : list f32) (ss : nat) (w : list f32) : outcome (list f32) :=
  let total := length dst in
  '(cx, dst) <- while_tiles total 24 24 total (fun d cx => vpart fma src ss w b 4 6 d cx) 0 dst ;;
  '(cx, dst) <- while_tiles total 16 16 total (fun d cx => vpart fma src ss w b 4 4 d cx) cx dst ;;
  '(cx, dst) <- while_tiles total 8 8 total (fun d cx => vpart fma src ss w b 4 2 d cx) cx dst ;;
  '(cx, dst) <- while_tiles total 4 4 total (fun d cx => vpart fma src ss w b 4 1 d cx) cx dst ;;
  '(_, dst) <- while_tiles total 1 0 total (fun d cx => vpart fma src ss w b 1 1 d cx) cx dst ;;
  Done dst.
(** convolve_vertical_avx_row_f32, avx2/vertical_f32.rs 167-280. *)
Definition vertical_avx_f32 (fma : bool) (b : fbound) (src dst : list f32) (ss : nat) (w : list f32) : outcome (list f32) :=
  let total := length dst in
  '(cx, dst) <- while_tiles total 32 32 total (fun d cx => vpart fma src ss w b 8 4 d cx) 0 dst ;;
  '(cx, dst) <- while_tiles total 16 16 total (fun d cx => vpart fma src ss w b 8 2 d cx) cx dst ;;
  '(cx, dst) <- while_tiles total 8 8 total (fun d cx => vpart fma src ss w b 8 1 d cx) cx dst ;;
  '(_, dst) <- while_tiles total 1 0 total (fun d cx => vpart fma src ss w b 1 1 d cx) cx dst ;;
  Done dst.

(** ** Horizontal *)
(** What a kernel computes for one destination pixel: row, bounds, weights from
    filter_offset on. *)
Definition fpixel := list f32 -> fbound -> list f32 -> outcome (list f32).

(** `for x in 0..dst_width` of the one-row kernels: sse/rgba_f32.rs 113-178,
    rgb_f32.rs 173-236, plane_f32.rs 163-229, avx2/rgba_f32.rs 446-531. *)
Definition fhrow (cn : nat) (pixel : fpixel) (dst_width : nat) (src dst : list f32) (fw : fweights f32)
  : outcome (list f32) :=
  foldM (fun dst x =>
    b <- idx (bounds fw) x ;;
    w <- slice_from (weights fw) (x * aligned_size fw) ;;
    v <- pixel src b w ;;
    storef dst (x * cn) v) (seq 0 dst_width) dst.
(** The four-row kernels: sse/rgba_f32.rs 283-454, rgb_f32.rs 308-484, plane_f32.rs 319-460,
    avx2/rgba_f32.rs 183-370. *)
Definition fhrow4 (cn : nat) (pixel : fpixel) (dst_width : nat) (src : list f32) (src_stride : nat)
  (dst : list f32) (dst_stride : nat) (fw : fweights f32) : outcome (list f32) :=
  foldM (fun dst x =>
    b <- idx (bounds fw) x ;;
    w <- slice_from (weights fw) (x * aligned_size fw) ;;
    src1 <- slice_from src src_stride ;;
    src2 <- slice_from src (src_stride * 2) ;;
    src3 <- slice_from src (src_stride * 3) ;;
    v0 <- pixel src b w ;; v1 <- pixel src1 b w ;; v2 <- pixel src2 b w ;; v3 <- pixel src3 b w ;;
    dst <- storef dst (x * cn) v0 ;;
    dst <- storef dst (x * cn + dst_stride) v1 ;;
    dst <- storef dst (x * cn + dst_stride * 2) v2 ;;
    storef dst (x * cn + dst_stride * 3) v3) (seq 0 dst_width) dst.

(** `while jx + slack < bounds.size { ...; jx += step }` *)
Definition ftaps {S} (b : fbound) (step slack : nat) (body : S -> nat -> outcome S) (jx : nat) (s : S)
  : outcome (nat * S) := while_tiles (bsize b) step slack (bsize b) body jx s.

(** *** RGBA, SSE: sse/rgba_f32.rs 37-48 (one), 180-203 (4 taps), 205-221 (2 taps). *)
Definition rgba_sse_f32 (fma : bool) : fpixel := fun src b ws =>
  let at_ jx := (bstart b + jx) * 4 in
  '(jx, s) <- ftaps b 4 4 (fun s jx =>
     w0 <- idx ws jx ;; w1 <- idx ws (jx + 1) ;; w2 <- idx ws (jx + 2) ;; w3 <- idx ws (jx + 3) ;;
     p0 <- loadf 4 src (at_ jx) ;; p1 <- loadf 4 src (at_ jx + 4) ;;
     p2 <- loadf 4 src (at_ jx + 8) ;; p3 <- loadf 4 src (at_ jx + 12) ;;
     let s := vfma fma s p0 (set1_ps 4 w0) in
     let s := vfma fma s p1 (set1_ps 4 w1) in
     let s := vfma fma s p2 (set1_ps 4 w2) in
     Done (vfma fma s p3 (set1_ps 4 w3))) 0 (zero_ps 4) ;;
  '(jx, s) <- ftaps b 2 2 (fun s jx =>
     w0 <- idx ws jx ;; w1 <- idx ws (jx + 1) ;;
     p0 <- loadf 4 src (at_ jx) ;; p1 <- loadf 4 src (at_ jx + 4) ;;
     let s := vfma fma s p0 (set1_ps 4 w0) in
     Done (vfma fma s p1 (set1_ps 4 w1))) jx s ;;
  '(_, s) <- ftaps b 1 0 (fun s jx =>
     w0 <- idx ws jx ;;
     p0 <- loadf 4 src (at_ jx) ;;
     Done (vfma fma s p0 (set1_ps 4 w0))) jx s ;;
  Done s.

(** *** RGB, SSE: sse/rgb_f32.rs 37-63 (4 taps), 65-89 (2 taps), 91-107 (one).  The last
    pixel of every part is read lane by lane, with 0 in the fourth lane. *)
Definition rgb_sse_f32 (fma : bool) : fpixel := fun src b ws =>
  let at_ jx := (bstart b + jx) * 3 in
  '(jx, s) <- ftaps b 4 4 (fun s jx =>
     w0 <- idx ws jx ;; w1 <- idx ws (jx + 1) ;; w2 <- idx ws (jx + 2) ;; w3 <- idx ws (jx + 3) ;;
     p0 <- loadf 4 src (at_ jx) ;; p1 <- loadf 4 src (at_ jx + 3) ;;
     p2 <- loadf 4 src (at_ jx + 6) ;; p3 <- loadf 3 src (at_ jx + 9) ;;
     let s := vfma fma s p0 (set1_ps 4 w0) in
     let s := vfma fma s p1 (set1_ps 4 w1) in
     let s := vfma fma s p2 (set1_ps 4 w2) in
     Done (vfma fma s (p3 ++ [f0]) (set1_ps 4 w3))) 0 (zero_ps 4) ;;
  '(jx, s) <- ftaps b 2 2 (fun s jx =>
     w0 <- idx ws jx ;; w1 <- idx ws (jx + 1) ;;
     p0 <- loadf 4 src (at_ jx) ;; p1 <- loadf 3 src (at_ jx + 3) ;;
     let s := vfma fma s p0 (set1_ps 4 w0) in
     Done (vfma fma s (p1 ++ [f0]) (set1_ps 4 w1))) jx s ;;
  '(_, s) <- ftaps b 1 0 (fun s jx =>
     w0 <- idx ws jx ;;
     p0 <- loadf 3 src (at_ jx) ;;
     Done (vfma fma s (p0 ++ [f0]) (set1_ps 4 w0))) jx s ;;
  Done (firstn 3 s).

(** *** One channel, SSE: sse/plane_f32.rs *)
(** _mm_hsum_ps, sse/utils.rs 140-147. *)
Definition movehdup (v : mf) : mf := [nth 1 v f0; nth 1 v f0; nth 3 v f0; nth 3 v f0].
(** _mm_movehl_ps(a, b): the upper halves of b, a. *)
Definition movehl (a b : mf) : mf := skipn 2 b ++ skipn 2 a.
Definition hsum_ps (v : mf) : f32 :=
  let shuf := movehdup v in
  let sums := add_ps v shuf in
  let shuf := movehl shuf sums in
  fadd (nth 0 sums f0) (nth 0 shuf f0).

(** Lines 37-100 (the macros), 163-229 and 319-460.  [step16] is the advance of the loop
    over 16 taps: `jx += 8` in the one-row kernel (line 184), `jx += 16` in the four-row
    kernel (line 358). *)
Definition plane_sse_f32 (fma : bool) (step16 : nat) : fpixel := fun src b ws =>
  let at_ jx := bstart b + jx in
  '(jx, s) <- ftaps b step16 16 (fun s jx =>
     w0 <- loadf 4 ws jx ;; w1 <- loadf 4 ws (jx + 4) ;; w2 <- loadf 4 ws (jx + 8) ;; w3 <- loadf 4 ws (jx + 12) ;;
     p0 <- loadf 4 src (at_ jx) ;; p1 <- loadf 4 src (at_ jx + 4) ;;
     p2 <- loadf 4 src (at_ jx + 8) ;; p3 <- loadf 4 src (at_ jx + 12) ;;
     Done (vfma fma (vfma fma (vfma fma (vfma fma s p0 w0) p1 w1) p2 w2) p3 w3)) 0 (zero_ps 4) ;;
  '(jx, s) <- ftaps b 8 8 (fun s jx =>
     w0 <- loadf 4 ws jx ;; w1 <- loadf 4 ws (jx + 4) ;;
     p0 <- loadf 4 src (at_ jx) ;; p1 <- loadf 4 src (at_ jx + 4) ;;
     Done (vfma fma (vfma fma s p0 w0) p1 w1)) jx s ;;
  '(jx, s) <- ftaps b 4 4 (fun s jx =>
     w0 <- loadf 4 ws jx ;;
     p0 <- loadf 4 src (at_ jx) ;;
     Done (vfma fma s p0 w0)) jx s ;;
  '(jx, s) <- ftaps b 2 2 (fun s jx =>
     w0 <- loadf 2 ws jx ;;
     p0 <- loadf 2 src (at_ jx) ;;
     Done (vfma fma s (p0 ++ [f0; f0]) (w0 ++ [f0; f0]))) jx s ;;
  '(_, s) <- ftaps b 1 0 (fun s jx =>
     w0 <- idx ws jx ;;
     p0 <- idx src (at_ jx) ;;
     Done (vfma fma s [p0; f0; f0; f0] (set1_ps 4 w0))) jx s ;;
  Done [hsum_ps s].

(** *** RGBA, AVX2: avx2/rgba_f32.rs 37-53 (one), 55-72 (4 taps), 74-98 (8 taps),
    100-114 (2 taps); avx_combine_ps(lo, hi) is lo ++ hi. *)
Definition pair_ps (a b : f32) : mf := set1_ps 4 a ++ set1_ps 4 b.
Definition rgba_avx_f32 (fma : bool) : fpixel := fun src b ws =>
  let at_ jx := (bstart b + jx) * 4 in
  '(jx, s) <- ftaps b 8 8 (fun s jx =>
     u <- loadf 4 ws jx ;; v <- loadf 4 ws (jx + 4) ;;
     let lane l i := nth i l f0 in
     p0 <- loadf 8 src (at_ jx) ;; p1 <- loadf 8 src (at_ jx + 8) ;;
     p2 <- loadf 8 src (at_ jx + 16) ;; p3 <- loadf 8 src (at_ jx + 24) ;;
     let s := vfma fma s p0 (pair_ps (lane u 0) (lane u 1)) in
     let s := vfma fma s p1 (pair_ps (lane u 2) (lane u 3)) in
     let s := vfma fma s p2 (pair_ps (lane v 0) (lane v 1)) in
     Done (vfma fma s p3 (pair_ps (lane v 2) (lane v 3)))) 0 (zero_ps 8) ;;
  '(jx, s) <- ftaps b 4 4 (fun s jx =>
     u <- loadf 4 ws jx ;;
     let lane l i := nth i l f0 in
     p0 <- loadf 8 src (at_ jx) ;; p1 <- loadf 8 src (at_ jx + 8) ;;
     let s := vfma fma s p0 (pair_ps (lane u 0) (lane u 1)) in
     Done (vfma fma s p1 (pair_ps (lane u 2) (lane u 3)))) jx s ;;
  '(jx, s) <- ftaps b 2 2 (fun s jx =>
     w0 <- idx ws jx ;; w1 <- idx ws (jx + 1) ;;
     p0 <- loadf 8 src (at_ jx) ;;
     Done (vfma fma s p0 (pair_ps w0 w1))) jx s ;;
  '(_, s) <- ftaps b 1 0 (fun s jx =>
     w0 <- idx ws jx ;;
     p0 <- loadf 4 src (at_ jx) ;;
     Done (vfma fma s (p0 ++ zero_ps 4) (set1_ps 8 w0))) jx s ;;
  Done (add_ps (firstn 4 s) (skipn 4 s)).

(** ** Kernel selection *)
(** What `is_x86_feature_detected!` reports: [cpu] (sse4.1, avx2) and fma. *)
Record fcpu := mkFcpu { base_cpu : cpu; has_fma : bool }.

(** One row at a time: plane_f32.rs 50-90, cbcr_f32.rs 45-70, rgb_f32.rs 54-96,
    rgba_f32.rs 48-96.  convolve_horizontal_rgba_avx_row_one_f32_fma (avx2/rgba_f32.rs
    428-443) calls the implementation with FMA = false. *)
Definition f32_pixel_1 (c : fcpu) (N : nat) : option fpixel :=
  let sse := sse41 (base_cpu c) in let avx := avx2 (base_cpu c) in
  match N with
  | 1 => if sse then Some (plane_sse_f32 (has_fma c) 8) else None
  | 3 => if sse then Some (rgb_sse_f32 (has_fma c)) else None
  | 4 => if avx then Some (rgba_avx_f32 false) else if sse then Some (rgba_sse_f32 false) else None
  | _ => None
  end.
(** Four rows at a time. *)
Definition f32_pixel_4 (c : fcpu) (N : nat) : option fpixel :=
  let sse := sse41 (base_cpu c) in let avx := avx2 (base_cpu c) in
  match N with
  | 1 => if sse then Some (plane_sse_f32 (has_fma c) 16) else None
  | 3 => if sse then Some (rgb_sse_f32 (has_fma c)) else None
  | 4 => if avx then Some (rgba_avx_f32 (has_fma c)) else if sse then Some (rgba_sse_f32 false) else None
  | _ => None
  end.

Definition ident (v : f32) : f32 := v.
(** convolve_horizontal_dispatch_f32, dispatch_group_f32.rs 96-214, with the selected kernels.
    [k] is how the portable code was compiled (mlaf.rs). *)
Definition x86_fhpass (k : mlaf_kind) (c : fcpu) (N : nat) (fw : fweights f32) (pool : pool_t) (im into : image f32)
  : outcome (image f32) :=
  horizontal_dispatch N
    (fun src ss dst ds =>
       match f32_pixel_4 c N with
       | Some px => fhrow4 N px (width into) src ss dst ds fw
       | None => frow_handler_4 f0 fmul (mlaf k) ident ident N src ss dst ds fw
       end)
    (fun src dst =>
       match f32_pixel_1 c N with
       | Some px => fhrow N px (width into) src dst fw
       | None => frow_handler f0 fmul (mlaf k) ident ident N src dst fw
       end)
    pool im into.

(** The same in all four files, e.g. rgba_f32.rs 98-134. *)
Definition f32_column (k : mlaf_kind) (c : fcpu) : fbound -> list f32 -> list f32 -> nat -> list f32 -> outcome (list f32) :=
  if avx2 (base_cpu c) then vertical_avx_f32 (has_fma c)
  else if sse41 (base_cpu c) then vertical_sse_f32 false
  else fcolumn_handler f0 fmul (mlaf k) ident ident.
Definition x86_fvpass (k : mlaf_kind) (c : fcpu) (N : nat) (fw : fweights f32) (pool : pool_t) (im into : image f32)
  : outcome (image f32) :=
  vertical_dispatch N (f32_column k c) (bounds fw) (aligned_size fw) (weights fw) pool im into.

Definition x86_engine_f32 (k : mlaf_kind) (c : fcpu) (L : libm) (f : resampling_function) (N : nat) pre unpre need
  : engine f32 f32 :=
  mkEngine f0 false (wants_nearest f) nearest_coord (generate_weights (resampling_filter L f))
    (x86_fvpass k c N) (x86_fhpass k c N) pre unpre need.

(** Scaler::resize_plane_f32 (N = 1), resize_cbcr_f32 (2), resize_rgb_f32 (3) on x86-64; N = 4 is
    resize_rgba_f32 with premultiply_alpha off (see with_alpha_off). *)
Definition resize_f32_x86 (k : mlaf_kind) (c : fcpu) (L : libm) (f : resampling_function) (N : nat) (pool : pool_t)
  (store into : image f32) : callres f32 :=
  if N =? 4 then
    generic_resize_with_alpha N (x86_engine_f32 k c L f N (fun _ _ _ => Panic) (fun _ _ => Panic) (fun _ => Panic)) pool false store into
  else generic_resize N (x86_engine_f32 k c L f N (fun _ _ _ => Panic) (fun _ _ => Panic) (fun _ => Panic)) pool store into.
