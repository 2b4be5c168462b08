(** The f16 alpha code of x86-64: /repo/src/sse/alpha_f16.rs, /repo/src/avx2/alpha_f16.rs, the
    (de)interleaving helpers of sse/utils.rs 155-199 and avx2/utils.rs 171-225 on f16 lanes, and the
    dispatch of /repo/src/alpha_handle_f16.rs 130-203.  There is no scan for varying alpha of
    f16 images (image_store.rs 697-699). *)
From Coq Require Import ZArith List Bool.
From Verif Require Import Base ImageStore FixedPoint Dispatch Resize F32 FloatConv Weights Sampler Api Alpha ApiFloat X86Dispatch X86Float X86AlphaF32 F16 X86F16.
Import ListNotations.
Local Open Scope nat_scope.

(** ** Eight f16 lanes; a 256-bit register is the pair of its halves. *)
Notation mh := (list f16).
Definition nthh (v : mh) (i : nat) : f16 := nth i v h0.
(** _mm_unpacklo_epi16, _mm_unpackhi_epi16. *)
Definition unpacklo_h (a b : mh) : mh := [nthh a 0; nthh b 0; nthh a 1; nthh b 1; nthh a 2; nthh b 2; nthh a 3; nthh b 3].
Definition unpackhi_h (a b : mh) : mh := [nthh a 4; nthh b 4; nthh a 5; nthh b 5; nthh a 6; nthh b 6; nthh a 7; nthh b 7].
(** _mm256_unpacklo_epi32, _mm256_unpackhi_epi32 on one half, seen as 16-bit lanes. *)
Definition unpacklo_h2 (a b : mh) : mh := [nthh a 0; nthh a 1; nthh b 0; nthh b 1; nthh a 2; nthh a 3; nthh b 2; nthh b 3].
Definition unpackhi_h2 (a b : mh) : mh := [nthh a 4; nthh a 5; nthh b 4; nthh b 5; nthh a 6; nthh a 7; nthh b 6; nthh b 7].
Definition mh256 := (mh * mh)%type.
Definition halves_h (f : mh -> mh -> mh) (a b : mh256) : mh256 := (f (fst a) (fst b), f (snd a) (snd b)).
(** _mm256_permute2x128_si256::<32> and ::<49>. *)
Definition permute32_h (a b : mh256) : mh256 := (fst a, fst b).
Definition permute49_h (a b : mh256) : mh256 := (snd a, snd b).
Definition load16 (mem : list f16) (off : nat) : outcome mh :=
  if off + 8 <=? length mem then Done (firstn 8 (skipn off mem)) else Panic.
Definition load16_256 (mem : list f16) (off : nat) : outcome mh256 :=
  lo <- load16 mem off ;; hi <- load16 mem (off + 8) ;; Done (lo, hi).
Definition halves256 (v : mh256) : list f16 := fst v ++ snd v.

(** sse_deinterleave_rgba_epi16, sse/utils.rs 155-176. *)
Definition deinterleave_h (rgba0 rgba1 rgba2 rgba3 : mh) : mh * mh * mh * mh :=
  let v0 := unpacklo_h rgba0 rgba2 in
  let v1 := unpackhi_h rgba0 rgba2 in
  let v2 := unpacklo_h rgba1 rgba3 in
  let v3 := unpackhi_h rgba1 rgba3 in
  let u0 := unpacklo_h v0 v2 in
  let u1 := unpacklo_h v1 v3 in
  let u2 := unpackhi_h v0 v2 in
  let u3 := unpackhi_h v1 v3 in
  (unpacklo_h u0 u1, unpackhi_h u0 u1, unpacklo_h u2 u3, unpackhi_h u2 u3).
(** sse_interleave_rgba_epi16, sse/utils.rs 180-199. *)
Definition interleave_h (a b c d : mh) : mh * mh * mh * mh :=
  let u0 := unpacklo_h a c in
  let u1 := unpackhi_h a c in
  let u2 := unpacklo_h b d in
  let u3 := unpackhi_h b d in
  (unpacklo_h u0 u2, unpackhi_h u0 u2, unpacklo_h u1 u3, unpackhi_h u1 u3).
(** avx_deinterleave_rgba_epi16, avx2/utils.rs 195-225; the table moves the 16-bit lanes
    0 4 1 5 2 6 3 7 of each half. *)
Definition spread_h (v : mh) : mh := map (nthh v) [0; 4; 1; 5; 2; 6; 3; 7].
Definition deinterleave_h256 (a b c d : mh256) : mh256 * mh256 * mh256 * mh256 :=
  let sh (v : mh256) := (spread_h (fst v), spread_h (snd v)) in
  let p0 := sh a in let p1 := sh b in let p2 := sh c in let p3 := sh d in
  let p01l := halves_h unpacklo_h2 p0 p1 in
  let p01h := halves_h unpackhi_h2 p0 p1 in
  let p23l := halves_h unpacklo_h2 p2 p3 in
  let p23h := halves_h unpackhi_h2 p2 p3 in
  let pll := permute32_h p01l p23l in
  let plh := permute49_h p01l p23l in
  let phl := permute32_h p01h p23h in
  let phh := permute49_h p01h p23h in
  (halves_h unpacklo_h2 pll plh, halves_h unpackhi_h2 pll plh, halves_h unpacklo_h2 phl phh, halves_h unpackhi_h2 phl phh).
(** avx_interleave_rgba_epi16, avx2/utils.rs 171-192. *)
Definition interleave_h256 (a b c d : mh256) : mh256 * mh256 * mh256 * mh256 :=
  let bg0 := halves_h unpacklo_h a b in
  let bg1 := halves_h unpackhi_h a b in
  let ra0 := halves_h unpacklo_h c d in
  let ra1 := halves_h unpackhi_h c d in
  let bgra0_ := halves_h unpacklo_h2 bg0 ra0 in
  let bgra1_ := halves_h unpackhi_h2 bg0 ra0 in
  let bgra2_ := halves_h unpacklo_h2 bg1 ra1 in
  let bgra3_ := halves_h unpackhi_h2 bg1 ra1 in
  (permute32_h bgra0_ bgra1_, permute32_h bgra2_ bgra3_, permute49_h bgra0_ bgra1_, permute49_h bgra2_ bgra3_).

(** ** Arithmetic on a plane of colours [x] and the alphas [a], in f32 *)
(** sse/alpha_f16.rs 104-121, avx2/alpha_f16.rs 72-90: the products. *)
Definition mul_plane (x a : mf) : mf := mulf_ps x a.
(** sse/alpha_f16.rs 226-270, avx2/alpha_f16.rs 173-217: the products again (the portable code
    divides here), and zero where alpha is zero. *)
Definition unmul_plane (x a : mf) : mf := blendv_ps (mulf_ps x a) (zero_ps (length a)) (cmpeq_ps a (zero_ps (length a))).

Section Blocks.
Variables (up : f16 -> f32) (down : f32 -> f16) (plane : mf -> mf -> mf).
(** Eight lanes converted in two groups of four (sse/alpha_f16.rs 104-127), ... *)
Definition two_fours (x a : mh) : mh :=
  map down (plane (map up (firstn 4 x)) (map up (firstn 4 a))) ++ map down (plane (map up (skipn 4 x)) (map up (skipn 4 a))).
(** ... or at once (one half of avx2/alpha_f16.rs 72-102). *)
Definition eight (x a : mh) : mh := map down (plane (map up x) (map up a)).
(** sse/alpha_f16.rs 96-135 and 218-284: eight pixels. *)
Definition sse_block_h (dst src : list f16) : outcome (list f16) :=
  v0 <- load16 src 0 ;; v1 <- load16 src 8 ;; v2 <- load16 src 16 ;; v3 <- load16 src 24 ;;
  let '(r, g, b, a) := deinterleave_h v0 v1 v2 v3 in
  let '(o0, o1, o2, o3) := interleave_h (two_fours r a) (two_fours g a) (two_fours b a) a in
  store16 dst 0 (o0 ++ o1 ++ o2 ++ o3).
(** avx2/alpha_f16.rs 61-109 and 165-237: sixteen pixels. *)
Definition avx_block_h (dst src : list f16) : outcome (list f16) :=
  v0 <- load16_256 src 0 ;; v1 <- load16_256 src 16 ;; v2 <- load16_256 src 32 ;; v3 <- load16_256 src 48 ;;
  let '(r, g, b, a) := deinterleave_h256 v0 v1 v2 v3 in
  let '(o0, o1, o2, o3) := interleave_h256 (halves_h eight r a) (halves_h eight g a) (halves_h eight b a) a in
  store16 dst 0 (halves256 o0 ++ halves256 o1 ++ halves256 o2 ++ halves256 o3).
End Blocks.

(** Rows: whole blocks, then the remaining pixels with the portable code:
    sse_premultiply_alpha_rgba_row_f16_impl, sse/alpha_f16.rs 92-141, and
    avx_premultiply_alpha_rgba_f16_row_impl, avx2/alpha_f16.rs 57-115. *)
Definition premul_row_h (blk : nat) (block : list f16 -> list f16 -> outcome (list f16)) (dst src : list f16) : outcome (list f16) :=
  ds' <- zip_mut block (chunks_exact blk dst) (chunks_exact blk src) ;;
  rem' <- px_row premul_px_f16 (chunks_rem blk dst) (chunks_rem blk src) ;;
  Done (unchunk ds' rem').
(** sse_unpremultiply_alpha_rgba_f16_row_impl, sse/alpha_f16.rs 215-289, and
    avx_unpremultiply_alpha_rgba_f16_row_impl, avx2/alpha_f16.rs 162-242. *)
Definition unpremul_row_h (blk : nat) (block : list f16 -> list f16 -> outcome (list f16)) (b : list f16) : outcome (list f16) :=
  let cs := chunks_exact blk b in
  cs' <- zip_mut (fun d (_ : nat) => block d d) cs (seq 0 (length cs)) ;;
  rem' <- px_row_in_place unpremul_px_f16 (chunks_rem blk b) ;;
  Done (unchunk cs' rem').

(** ** Dispatch: premultiply_alpha_rgba_f16 and unpremultiply_alpha_rgba_f16,
    alpha_handle_f16.rs 130-203; sse/alpha_f16.rs 41-59 and 176-190 choose the conversions.  The row
    loops are those of the portable code. *)
Definition premul_row_f16 (c : hcpu) : list f16 -> list f16 -> outcome (list f16) :=
  if avx2 (hbase c) && f16c c then premul_row_h 64 (avx_block_h as_f32 as_f16 mul_plane)
  else if sse41 (hbase c) then premul_row_h 32 (sse_block_h (cvt_up c) (cvt_down c) mul_plane)
  else px_row premul_px_f16.
Definition unpremul_row_f16 (c : hcpu) : list f16 -> outcome (list f16) :=
  if avx2 (hbase c) && f16c c then unpremul_row_h 64 (avx_block_h as_f32 as_f16 unmul_plane)
  else if sse41 (hbase c) then unpremul_row_h 32 (sse_block_h (cvt_up c) (cvt_down c) unmul_plane)
  else px_row_in_place unpremul_px_f16.
Definition premul_f16_x86 (c : hcpu) (pool : pool_t) (im into : image f16) : outcome (image f16) :=
  b <- premul_rows (premul_row_f16 c) (width im * 4) (stride_of 4 into) (stride_of 4 im) pool (buf im) (buf into) ;;
  Done (set_buf into b).
Definition unpremul_f16_x86 (c : hcpu) (pool : pool_t) (im : image f16) : outcome (image f16) :=
  b <- unpremul_rows (unpremul_row_f16 c) (width im * 4) (stride_of 4 im) pool (buf im) ;;
  Done (set_buf im b).
(** Scaler::resize_rgba_f16 on x86-64. *)
Definition resize_rgba_f16_x86 (k : mlaf_kind) (c : hcpu) (L : libm) (f : resampling_function) (pool : pool_t) (premultiply : bool)
  (store into : image f16) : callres f16 :=
  generic_resize_with_alpha 4 (x86_engine_f16 k c L f 4 (premul_f16_x86 c) (unpremul_f16_x86 c) (fun _ => Done true))
    pool premultiply store into.
