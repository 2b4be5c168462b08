(** The f32 alpha code of x86-64: /repo/src/sse/alpha_f32.rs, /repo/src/avx2/alpha_f32.rs, the
    (de)interleaving helpers of sse/utils.rs 50-85 and avx2/utils.rs 121-168, 227-267, and the
    dispatch of /repo/src/alpha_handle_f32.rs 125-189.  The scan for varying alpha of f32 images has no vector
    version (image_store.rs 674-676). *)
From Coq Require Import ZArith List Bool.
From Verif Require Import Base ImageStore FixedPoint Dispatch Resize F32 FloatConv Weights Sampler Api Alpha ApiFloat X86Dispatch X86Float.
Import ListNotations.
Local Open Scope nat_scope.

(** ** Intrinsics on four lanes; a 256-bit register is the pair of its halves. *)
Definition nthf (v : mf) (i : nat) : f32 := nth i v f0.
Definition unpacklo_ps (a b : mf) : mf := [nthf a 0; nthf b 0; nthf a 1; nthf b 1].
Definition unpackhi_ps (a b : mf) : mf := [nthf a 2; nthf b 2; nthf a 3; nthf b 3].
(** _mm256_unpacklo_epi64, _mm256_unpackhi_epi64 on one half, seen as 32-bit lanes. *)
Definition unpacklo_64 (a b : mf) : mf := [nthf a 0; nthf a 1; nthf b 0; nthf b 1].
Definition unpackhi_64 (a b : mf) : mf := [nthf a 2; nthf a 3; nthf b 2; nthf b 3].
Definition mf256 := (mf * mf)%type.
Definition on_halves (f : mf -> mf -> mf) (a b : mf256) : mf256 := (f (fst a) (fst b), f (snd a) (snd b)).
(** _mm256_permute2x128_si256::<32> and ::<49>. *)
Definition permute_32 (a b : mf256) : mf256 := (fst a, fst b).
Definition permute_49 (a b : mf256) : mf256 := (snd a, snd b).
Definition mulf_ps (a b : mf) : mf := fzip fmul a b.
Definition div_ps (a b : mf) : mf := fzip fdiv a b.
(** _mm_cmpeq_ps: all ones where the lanes compare equal (false for NaN). *)
Definition cmpeq_ps (a b : mf) : list bool := map (fun p => feqb (fst p) (snd p)) (combine a b).
(** _mm_blendv_ps(a, b, mask): the lane of [b] where the mask is set. *)
Fixpoint blendv_ps (a b : mf) (mask : list bool) : mf :=
  match a, b, mask with
  | x :: a', y :: b', m :: mask' => (if m then y else x) :: blendv_ps a' b' mask'
  | _, _, _ => []
  end.
Definition load256f (mem : list f32) (off : nat) : outcome mf256 :=
  lo <- loadf 4 mem off ;; hi <- loadf 4 mem (off + 4) ;; Done (lo, hi).
Definition floats256 (v : mf256) : list f32 := fst v ++ snd v.

(** ** Helpers *)
(** sse_deinterleave_rgba_ps, sse/utils.rs 50-66. *)
Definition deinterleave_ps (v0 v1 v2 v3 : mf) : mf * mf * mf * mf :=
  let t02lo := unpacklo_ps v0 v2 in
  let t13lo := unpacklo_ps v1 v3 in
  let t02hi := unpackhi_ps v0 v2 in
  let t13hi := unpackhi_ps v1 v3 in
  (unpacklo_ps t02lo t13lo, unpackhi_ps t02lo t13lo, unpacklo_ps t02hi t13hi, unpackhi_ps t02hi t13hi).
(** sse_interleave_rgba_ps, sse/utils.rs 68-85. *)
Definition interleave_ps (v0 v1 v2 v3 : mf) : mf * mf * mf * mf :=
  let u0 := unpacklo_ps v0 v2 in
  let u1 := unpacklo_ps v1 v3 in
  let u2 := unpackhi_ps v0 v2 in
  let u3 := unpackhi_ps v1 v3 in
  (unpacklo_ps u0 u1, unpackhi_ps u0 u1, unpacklo_ps u2 u3, unpackhi_ps u2 u3).
(** avx_deinterleave_rgba_epi32, avx2/utils.rs 121-143. *)
Definition deinterleave_256 (p0 p1 p2 p3 : mf256) : mf256 * mf256 * mf256 * mf256 :=
  let p01l := on_halves unpacklo_ps p0 p1 in
  let p01h := on_halves unpackhi_ps p0 p1 in
  let p23l := on_halves unpacklo_ps p2 p3 in
  let p23h := on_halves unpackhi_ps p2 p3 in
  let pll := permute_32 p01l p23l in
  let plh := permute_49 p01l p23l in
  let phl := permute_32 p01h p23h in
  let phh := permute_49 p01h p23h in
  (on_halves unpacklo_ps pll plh, on_halves unpackhi_ps pll plh, on_halves unpacklo_ps phl phh, on_halves unpackhi_ps phl phh).
(** avx_interleave_rgba_epi32, avx2/utils.rs 145-168. *)
Definition interleave_256 (p0 p1 p2 p3 : mf256) : mf256 * mf256 * mf256 * mf256 :=
  let bg0 := on_halves unpacklo_ps p0 p1 in
  let bg1 := on_halves unpackhi_ps p0 p1 in
  let ra0 := on_halves unpacklo_ps p2 p3 in
  let ra1 := on_halves unpackhi_ps p2 p3 in
  let bgra0_ := on_halves unpacklo_64 bg0 ra0 in
  let bgra1_ := on_halves unpackhi_64 bg0 ra0 in
  let bgra2_ := on_halves unpacklo_64 bg1 ra1 in
  let bgra3_ := on_halves unpackhi_64 bg1 ra1 in
  (permute_32 bgra0_ bgra1_, permute_32 bgra2_ bgra3_, permute_49 bgra0_ bgra1_, permute_49 bgra2_ bgra3_).
(** sse_unpremultiply_row_f32, sse/alpha_f32.rs 40-45, and half of avx_unpremultiply_row_f32,
    avx2/alpha_f32.rs 42-47. *)
Definition unpremul_ps (x a : mf) : mf := blendv_ps (div_ps x a) (zero_ps 4) (cmpeq_ps a (zero_ps 4)).

(** ** Blocks.  The four stores are written as one; [plane] is applied to each colour plane. *)
(** sse/alpha_f32.rs 62-82 and 129-147: four pixels. *)
Definition sse_block (plane : mf -> mf -> mf) (dst src : list f32) : outcome (list f32) :=
  v0 <- loadf 4 src 0 ;; v1 <- loadf 4 src 4 ;; v2 <- loadf 4 src 8 ;; v3 <- loadf 4 src 12 ;;
  let '(rrr, ggg, bbb, aaa) := deinterleave_ps v0 v1 v2 v3 in
  let '(o0, o1, o2, o3) := interleave_ps (plane rrr aaa) (plane ggg aaa) (plane bbb aaa) aaa in
  storef dst 0 (o0 ++ o1 ++ o2 ++ o3).
(** avx2/alpha_f32.rs 65-85 and 134-155: eight pixels. *)
Definition avx_block (plane : mf -> mf -> mf) (dst src : list f32) : outcome (list f32) :=
  v0 <- load256f src 0 ;; v1 <- load256f src 8 ;; v2 <- load256f src 16 ;; v3 <- load256f src 24 ;;
  let '(rrr, ggg, bbb, aaa) := deinterleave_256 v0 v1 v2 v3 in
  let pl := on_halves plane in
  let '(o0, o1, o2, o3) := interleave_256 (pl rrr aaa) (pl ggg aaa) (pl bbb aaa) aaa in
  storef dst 0 (floats256 o0 ++ floats256 o1 ++ floats256 o2 ++ floats256 o3).

(** Rows: whole blocks, then the remaining pixels one by one:
    sse_premultiply_alpha_rgba_f32_row_impl, sse/alpha_f32.rs 125-153, and
    avx_premultiply_alpha_rgba_f32_row_impl, avx2/alpha_f32.rs 128-162. *)
Definition premul_row_blocks (blk : nat) (block : (mf -> mf -> mf) -> list f32 -> list f32 -> outcome (list f32)) (dst src : list f32)
  : outcome (list f32) :=
  ds' <- zip_mut (block mulf_ps) (chunks_exact blk dst) (chunks_exact blk src) ;;
  rem' <- px_row premul_px_f32 (chunks_rem blk dst) (chunks_rem blk src) ;;
  Done (unchunk ds' rem').
(** sse_unpremultiply_alpha_rgba_f32_row_impl, sse/alpha_f32.rs 59-87, and
    avx_unpremultiply_alpha_rgba_f32_row_impl, avx2/alpha_f32.rs 61-91. *)
Definition unpremul_row_blocks (blk : nat) (block : (mf -> mf -> mf) -> list f32 -> list f32 -> outcome (list f32)) (b : list f32)
  : outcome (list f32) :=
  let cs := chunks_exact blk b in
  cs' <- zip_mut (fun d (_ : nat) => block unpremul_ps d d) cs (seq 0 (length cs)) ;;
  rem' <- px_row_in_place unpremul_px_f32 (chunks_rem blk b) ;;
  Done (unchunk cs' rem').

(** ** Dispatch: premultiply_alpha_rgba_f32 and unpremultiply_alpha_rgba_f32,
    alpha_handle_f32.rs 125-189; the row loops are those of the portable code. *)
Definition premul_f32_x86 (c : cpu) (pool : pool_t) (im into : image f32) : outcome (image f32) :=
  let row := if avx2 c then premul_row_blocks 32 avx_block else if sse41 c then premul_row_blocks 16 sse_block
             else px_row premul_px_f32 in
  b <- premul_rows row (width im * 4) (stride_of 4 into) (stride_of 4 im) pool (buf im) (buf into) ;;
  Done (set_buf into b).
Definition unpremul_f32_x86 (c : cpu) (pool : pool_t) (im : image f32) : outcome (image f32) :=
  let row := if avx2 c then unpremul_row_blocks 32 avx_block else if sse41 c then unpremul_row_blocks 16 sse_block
             else px_row_in_place unpremul_px_f32 in
  b <- unpremul_rows row (width im * 4) (stride_of 4 im) pool (buf im) ;;
  Done (set_buf im b).
(** Scaler::resize_rgba_f32 on x86-64. *)
Definition resize_rgba_f32_x86 (k : mlaf_kind) (c : fcpu) (L : libm) (f : resampling_function) (pool : pool_t) (premultiply : bool)
  (store into : image f32) : callres f32 :=
  generic_resize_with_alpha 4 (x86_engine_f32 k c L f 4 (premul_f32_x86 (base_cpu c)) (unpremul_f32_x86 (base_cpu c)) alpha_needed_f32)
    pool premultiply store into.
