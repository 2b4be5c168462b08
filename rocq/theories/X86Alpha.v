(** The 8-bit alpha code of x86-64: /repo/src/sse/alpha_u8.rs, /repo/src/avx2/alpha_u8.rs,
    /repo/src/sse/check_alpha.rs, /repo/src/avx2/check_alpha.rs (8-bit halves), the
    (de)interleaving helpers of sse/utils.rs and avx2/utils.rs, and the dispatch of
    /repo/src/alpha_handle_u8.rs 136-225 and /repo/src/image_store.rs 526-598. *)
From Coq Require Import ZArith List Bool.
From Flocq Require Import Core.Core IEEE754.BinarySingleNaN.
From Verif Require Import Base ImageStore Dispatch Resize F32 Weights Sampler Alpha Simd X86Dispatch.
Import ListNotations.
Local Open Scope Z_scope.

(** ** Further intrinsics, with the conventions of Simd.v.  A register of four f32 is the
    list of its lanes. *)
Definition xor_si128 (a b : m128) : m128 := zipw Z.lxor a b.
Definition cmpeq_epi8 (a b : m128) : m128 := zipw (fun x y => if x =? y then 255 else 0) a b.
(** _mm_blendv_epi8(a, b, mask): the byte of [b] where the mask byte has its top bit set. *)
Fixpoint blendv_epi8 (a b mask : m128) : m128 :=
  match a, b, mask with
  | x :: a', y :: b', m :: mask' => (if m <? 128 then x else y) :: blendv_epi8 a' b' mask'
  | _, _, _ => []
  end.
Definition cvtepi32_ps (a : m128) : list f32 := map (fun z => fZ z 0) (sdwords a).
(** cvtps2dq: round to nearest even; NaN and values outside i32 give i32::MIN. *)
Definition cvtps (x : f32) : Z :=
  match x with
  | B754_infinity _ | B754_nan => - 2 ^ 31
  | _ => let t := Btrunc (Bnearbyint mode_NE x) in if (- 2 ^ 31 <=? t) && (t <? 2 ^ 31) then t else - 2 ^ 31
  end.
Definition cvtps_epi32 (a : list f32) : m128 := of_dwords (map cvtps a).
Fixpoint mul_ps (a b : list f32) : list f32 :=
  match a, b with x :: a', y :: b' => fmul x y :: mul_ps a' b' | _, _ => [] end.
(** _mm_rcp_ps: an approximation of 1/x that the manuals specify only up to its relative
    error; [rcp] is a parameter of everything below. *)
Definition rcp_ps (rcp : f32 -> f32) (a : list f32) : list f32 := map rcp a.
(** _mm256_permute2x128_si256::<32> and ::<49>. *)
Definition permute_lo (a b : m256) : m256 := (fst a, fst b).
Definition permute_hi (a b : m256) : m256 := (snd a, snd b).

(** ** Helpers *)
(** _mm_div_by_255_epi16, sse/alpha_u8.rs 48-55; avx2_div_by255, avx2/utils.rs 72-79, is the
    same on each lane. *)
Definition div_by_255_epi16 (v : m128) : m128 :=
  let j0 := add_epi16 v (set1_epi16 127) in
  let j1 := srli_epi16 8 v in
  srli_epi16 8 (add_epi16 j0 j1).
Definition rgba4 := (m128 * m128 * m128 * m128)%type.
Definition rgba4_256 := (m256 * m256 * m256 * m256)%type.
Definition deinterleave_shuffle : m128 := setr_epi8 [0; 4; 8; 12; 1; 5; 9; 13; 2; 6; 10; 14; 3; 7; 11; 15].
(** sse_deinterleave_rgba, sse/utils.rs 87-121. *)
Definition sse_deinterleave (rgba0 rgba1 rgba2 rgba3 : m128) : rgba4 :=
  let t0 := unpacklo_epi8 rgba0 rgba1 in
  let t1 := unpackhi_epi8 rgba0 rgba1 in
  let t2 := unpacklo_epi8 rgba2 rgba3 in
  let t3 := unpackhi_epi8 rgba2 rgba3 in
  let t4 := unpacklo_epi16 t0 t2 in
  let t5 := unpackhi_epi16 t0 t2 in
  let t6 := unpacklo_epi16 t1 t3 in
  let t7 := unpackhi_epi16 t1 t3 in
  let l1 := unpacklo_epi32 t4 t6 in
  let l2 := unpackhi_epi32 t4 t6 in
  let l3 := unpacklo_epi32 t5 t7 in
  let l4 := unpackhi_epi32 t5 t7 in
  let r1 := shuffle_epi8 (unpacklo_epi32 l1 l3) deinterleave_shuffle in
  let r2 := shuffle_epi8 (unpackhi_epi32 l1 l3) deinterleave_shuffle in
  let r3 := shuffle_epi8 (unpacklo_epi32 l2 l4) deinterleave_shuffle in
  let r4 := shuffle_epi8 (unpackhi_epi32 l2 l4) deinterleave_shuffle in
  (r1, r2, r3, r4).
(** sse_interleave_rgba, sse/utils.rs 124-141. *)
Definition sse_interleave (r g b a : m128) : rgba4 :=
  let rg_lo := unpacklo_epi8 r g in
  let rg_hi := unpackhi_epi8 r g in
  let ba_lo := unpacklo_epi8 b a in
  let ba_hi := unpackhi_epi8 b a in
  (unpacklo_epi16 rg_lo ba_lo, unpackhi_epi16 rg_lo ba_lo, unpacklo_epi16 rg_hi ba_hi, unpackhi_epi16 rg_hi ba_hi).
(** avx2_deinterleave_rgba, avx2/utils.rs 81-119. *)
Definition avx_deinterleave (rgba0 rgba1 rgba2 rgba3 : m256) : rgba4_256 :=
  let sh a := lane1 (fun l => shuffle_epi8 l deinterleave_shuffle) a in
  let p0 := sh rgba0 in let p1 := sh rgba1 in let p2 := sh rgba2 in let p3 := sh rgba3 in
  let p01l := lane2 unpacklo_epi32 p0 p1 in
  let p01h := lane2 unpackhi_epi32 p0 p1 in
  let p23l := lane2 unpacklo_epi32 p2 p3 in
  let p23h := lane2 unpackhi_epi32 p2 p3 in
  let pll := permute_lo p01l p23l in
  let plh := permute_hi p01l p23l in
  let phl := permute_lo p01h p23h in
  let phh := permute_hi p01h p23h in
  (lane2 unpacklo_epi32 pll plh, lane2 unpackhi_epi32 pll plh, lane2 unpacklo_epi32 phl phh, lane2 unpackhi_epi32 phl phh).
(** avx2_interleave_rgba, avx2/utils.rs 269-291. *)
Definition avx_interleave (r g b a : m256) : rgba4_256 :=
  let bg0 := lane2 unpacklo_epi8 r g in
  let bg1 := lane2 unpackhi_epi8 r g in
  let ra0 := lane2 unpacklo_epi8 b a in
  let ra1 := lane2 unpackhi_epi8 b a in
  let rgba0_ := lane2 unpacklo_epi16 bg0 ra0 in
  let rgba1_ := lane2 unpackhi_epi16 bg0 ra0 in
  let rgba2_ := lane2 unpacklo_epi16 bg1 ra1 in
  let rgba3_ := lane2 unpackhi_epi16 bg1 ra1 in
  (permute_lo rgba0_ rgba1_, permute_lo rgba2_ rgba3_, permute_hi rgba0_ rgba1_, permute_hi rgba2_ rgba3_).

(** ** Premultiplication *)
(** One colour plane: unpack, multiply by alpha, divide, pack: sse/alpha_u8.rs 143-176. *)
Definition sse_premul_plane (x aaa : m128) : m128 :=
  let lo := div_by_255_epi16 (mullo_epi16 (unpacklo_epi8 x zeros) (unpacklo_epi8 aaa zeros)) in
  let hi := div_by_255_epi16 (mullo_epi16 (unpackhi_epi8 x zeros) (unpackhi_epi8 aaa zeros)) in
  packus_epi16 lo hi.
(** Sse41PremultiplyExecutor8Default::premultiply_chunk, 133-187; the four stores are
    written as one store of 64 bytes. *)
Definition sse_premul_chunk (dst src : list Z) : outcome (list Z) :=
  rgba0 <- load 16 src 0 ;; rgba1 <- load 16 src 16 ;; rgba2 <- load 16 src 32 ;; rgba3 <- load 16 src 48 ;;
  let '(rrr, ggg, bbb, aaa) := sse_deinterleave rgba0 rgba1 rgba2 rgba3 in
  let rrr := sse_premul_plane rrr aaa in
  let ggg := sse_premul_plane ggg aaa in
  let bbb := sse_premul_plane bbb aaa in
  let '(o0, o1, o2, o3) := sse_interleave rrr ggg bbb aaa in
  store_bytes dst 0 (o0 ++ o1 ++ o2 ++ o3).
(** AssociateAlphaDefault::associate_chunk, avx2/alpha_u8.rs 64-92, on one lane. *)
Definition alpha_shuffle : m128 := setr_epi8 [3; 3; 3; 3; 7; 7; 7; 7; 11; 11; 11; 11; 15; 15; 15; 15].
Definition avx_premul_lane (rgba0 : m128) : m128 :=
  let multiplicand := shuffle_epi8 rgba0 alpha_shuffle in
  let la_lo := mullo_epi16 (unpacklo_epi8 rgba0 zeros) (unpacklo_epi8 multiplicand zeros) in
  let la_hi := mullo_epi16 (unpackhi_epi8 rgba0 zeros) (unpackhi_epi8 multiplicand zeros) in
  packus_epi16 (div_by_255_epi16 la_lo) (div_by_255_epi16 la_hi).
Definition avx_premul_chunk (dst src : list Z) : outcome (list Z) :=
  rgba0 <- load256 src 0 ;; store_bytes dst 0 (bytes256 (lane1 avx_premul_lane rgba0)).
(** Sse41PremultiplyExecutor8Default::premultiply, 190-223, and AssociateAlphaDefault::associate,
    avx2/alpha_u8.rs 95-123: whole blocks, then the remainder through a zeroed buffer.  The
    asserts that both remainders are shorter than a block always hold. *)
Definition premul_blocks (blk : nat) (chunk : list Z -> list Z -> outcome (list Z)) (dst src : list Z) : outcome (list Z) :=
  ds' <- zip_mut chunk (chunks_exact blk dst) (chunks_exact blk src) ;;
  let rem := chunks_rem blk dst in
  let src_rem := chunks_rem blk src in
  rem' <- (if (length rem =? 0)%nat then Done rem
           else if negb (length src_rem =? length rem)%nat then Panic
           else d <- chunk (repeat 0 blk) (splice (repeat 0 blk) 0 src_rem) ;; Done (firstn (length rem) d)) ;;
  Done (unchunk ds' rem').
Definition sse_premul_row : list Z -> list Z -> outcome (list Z) := premul_blocks 64 sse_premul_chunk.
Definition avx_premul_row : list Z -> list Z -> outcome (list Z) := premul_blocks 32 avx_premul_chunk.

(** ** Un-premultiplication *)
(** sse_unpremultiply_row, sse/alpha_u8.rs 58-114 ([pack32] = packs_epi32), and one lane of
    avx2_unpremultiply_row, avx2/alpha_u8.rs 193-256 ([pack32] = packus_epi32). *)
Definition unpremul_plane (rcp : f32 -> f32) (pack32 : m128 -> m128 -> m128) (x a : m128) : m128 :=
  let lo := unpacklo_epi8 x zeros in
  let hi := unpackhi_epi8 x zeros in
  let is_zero_mask := cmpeq_epi8 a zeros in
  let scale_ps := repeat (fZ 255 0) 4 in
  let quarter v := mul_ps (cvtepi32_ps v) scale_ps in
  let a_lo := unpacklo_epi8 a zeros in
  let a_hi := unpackhi_epi8 a zeros in
  let recip v := rcp_ps rcp (cvtepi32_ps v) in
  let lo_lo := cvtps_epi32 (mul_ps (quarter (unpacklo_epi16 lo zeros)) (recip (unpacklo_epi16 a_lo zeros))) in
  let lo_hi := cvtps_epi32 (mul_ps (quarter (unpackhi_epi16 lo zeros)) (recip (unpackhi_epi16 a_lo zeros))) in
  let hi_lo := cvtps_epi32 (mul_ps (quarter (unpacklo_epi16 hi zeros)) (recip (unpacklo_epi16 a_hi zeros))) in
  let hi_hi := cvtps_epi32 (mul_ps (quarter (unpackhi_epi16 hi zeros)) (recip (unpackhi_epi16 a_hi zeros))) in
  blendv_epi8 (packus_epi16 (pack32 lo_lo lo_hi) (pack32 hi_lo hi_hi)) zeros is_zero_mask.
(** DisassociateAlphaDefault::disassociate_chunk, sse/alpha_u8.rs 294-315. *)
Definition sse_unpremul_chunk (rcp : f32 -> f32) (b : list Z) : outcome (list Z) :=
  rgba0 <- load 16 b 0 ;; rgba1 <- load 16 b 16 ;; rgba2 <- load 16 b 32 ;; rgba3 <- load 16 b 48 ;;
  let '(rrr, ggg, bbb, aaa) := sse_deinterleave rgba0 rgba1 rgba2 rgba3 in
  let rrr := unpremul_plane rcp packs_epi32 rrr aaa in
  let ggg := unpremul_plane rcp packs_epi32 ggg aaa in
  let bbb := unpremul_plane rcp packs_epi32 bbb aaa in
  let '(o0, o1, o2, o3) := sse_interleave rrr ggg bbb aaa in
  store_bytes b 0 (o0 ++ o1 ++ o2 ++ o3).
(** Avx2DisassociateAlpha::disassociate_chunk, avx2/alpha_u8.rs 259-279 (the FMA parameter is unused). *)
Definition avx_unpremul_chunk (rcp : f32 -> f32) (b : list Z) : outcome (list Z) :=
  rgba0 <- load256 b 0 ;; rgba1 <- load256 b 32 ;; rgba2 <- load256 b 64 ;; rgba3 <- load256 b 96 ;;
  let '(rrr, ggg, bbb, aaa) := avx_deinterleave rgba0 rgba1 rgba2 rgba3 in
  let plane := lane2 (unpremul_plane rcp packus_epi32) in
  let '(o0, o1, o2, o3) := avx_interleave (plane rrr aaa) (plane ggg aaa) (plane bbb aaa) aaa in
  store_bytes b 0 (bytes256 o0 ++ bytes256 o1 ++ bytes256 o2 ++ bytes256 o3).
(** disassociate, sse/alpha_u8.rs 318-341; disassociate_work, avx2/alpha_u8.rs 282-302. *)
Definition unpremul_blocks (blk : nat) (chunk : list Z -> outcome (list Z)) (b : list Z) : outcome (list Z) :=
  let cs := chunks_exact blk b in
  cs' <- zip_mut (fun d (_ : nat) => chunk d) cs (seq 0 (length cs)) ;;
  let rem := chunks_rem blk b in
  rem' <- (if (length rem =? 0)%nat then Done rem
           else d <- chunk (splice (repeat 0 blk) 0 rem) ;; Done (firstn (length rem) d)) ;;
  Done (unchunk cs' rem').
Definition sse_unpremul_row (rcp : f32 -> f32) : list Z -> outcome (list Z) := unpremul_blocks 64 (sse_unpremul_chunk rcp).
Definition avx_unpremul_row (rcp : f32 -> f32) : list Z -> outcome (list Z) := unpremul_blocks 128 (avx_unpremul_chunk rcp).

(** ** Alpha scan *)
Definition pick_alpha : m128 := setr_epi8 [3; -1; -1; -1; 7; -1; -1; -1; 11; -1; -1; -1; 15; -1; -1; -1].
(** _mm_hsum_epi32, sse/utils.rs 217-226, avx2/routines.rs 89-97. *)
Definition hsum_epi32 (x : m128) : Z :=
  let hi64 := shuffle_epi32 1 0 3 2 x in
  let sum64 := add_epi32 hi64 x in
  let hi32 := shufflelo_epi16 1 0 3 2 sum64 in
  let sum32 := add_epi32 sum64 hi32 in
  nth 0 (sdwords sum32) 0.
(** Adding the xor of one register: `sums + (shuffle(r, sh0) ^ def_alpha)`. *)
Definition scan_reg (def_alpha : m128) (mem : list Z) (off : nat) (sums : m128) : outcome m128 :=
  r <- load 16 mem off ;; Done (add_epi32 sums (xor_si128 (shuffle_epi8 r pick_alpha) def_alpha)).
(** The last pixels: `h_sum += chunk[3] as i32 ^ first_alpha as i32`. *)
Definition scan_tail (first : Z) (row : list Z) (h : Z) : outcome Z :=
  foldM (fun h p => a <- idx p 3 ;; Done (wrap32 (h + Z.lxor a first))) (chunks_exact 4 row) h.
(** One row of sse_has_non_constant_cap_alpha_rgba8_impl, sse/check_alpha.rs 60-100. *)
Definition sse_scan_row (first : Z) (row : list Z) : outcome Z :=
  let def_alpha := set1_epi32 first in
  sums <- foldM (fun s c => s <- scan_reg def_alpha c 0 s ;; s <- scan_reg def_alpha c 16 s ;;
                            s <- scan_reg def_alpha c 32 s ;; scan_reg def_alpha c 48 s) (chunks_exact 64 row) zeros ;;
  let row := chunks_rem 64 row in
  sums <- foldM (fun s c => scan_reg def_alpha c 0 s) (chunks_exact 16 row) sums ;;
  let row := chunks_rem 16 row in
  scan_tail first row (hsum_epi32 sums).
Definition scan_reg256 (def_alpha : m128) (mem : list Z) (off : nat) (sums : m256) : outcome m256 :=
  lo <- scan_reg def_alpha mem off (fst sums) ;; hi <- scan_reg def_alpha mem (off + 16) (snd sums) ;; Done (lo, hi).
(** One row of avx_has_non_constant_cap_alpha_rgba8_impl, avx2/check_alpha.rs 66-125. *)
Definition avx_scan_row (first : Z) (row : list Z) : outcome Z :=
  let def_alpha := set1_epi32 first in
  sums <- foldM (fun s c => s <- scan_reg256 def_alpha c 0 s ;; s <- scan_reg256 def_alpha c 32 s ;;
                            s <- scan_reg256 def_alpha c 64 s ;; scan_reg256 def_alpha c 96 s) (chunks_exact 128 row) (both zeros) ;;
  let row := chunks_rem 128 row in
  sums <- foldM (fun s c => scan_reg256 def_alpha c 0 s) (chunks_exact 32 row) sums ;;
  let row := chunks_rem 32 row in
  sums <- foldM (fun s c => scan_reg def_alpha c 0 s) (chunks_exact 16 row) (add_epi32 (fst sums) (snd sums)) ;;
  let row := chunks_rem 16 row in
  scan_tail first row (hsum_epi32 sums).
(** The loop over rows of both functions; unlike the portable scan an empty image gives true. *)
Fixpoint x86_scan_rows (scan : Z -> list Z -> outcome Z) (first : Z) (width : nat) (rows : list (list Z)) : outcome bool :=
  match rows with
  | [] => Done false
  | row :: r =>
      v <- slice row 0 (width * 4) ;;
      h <- scan first v ;;
      if negb (h =? 0) then Done true else x86_scan_rows scan first width r
  end.
Definition x86_has_alpha (scan : Z -> list Z -> outcome Z) (store : list Z) (width stride : nat) : outcome bool :=
  match store with
  | [] => Done true
  | _ => first <- idx store 3 ;;
         rows <- chunks_exact_o stride store ;;
         x86_scan_rows scan first width rows
  end.

(** ** Dispatch *)
(** premultiply_alpha_rgba and unpremultiply_alpha_rgba, alpha_handle_u8.rs 136-225. *)
Definition premul_u8_x86 (c : cpu) (pool : pool_t) (im into : image Z) : outcome (image Z) :=
  let row := if avx2 c then avx_premul_row else if sse41 c then sse_premul_row else px_row premul_px_u8 in
  b <- premul_rows row (width im * 4) (stride_of 4 into) (stride_of 4 im) pool (buf im) (buf into) ;;
  Done (set_buf into b).
Definition unpremul_u8_x86 (c : cpu) (rcp : f32 -> f32) (pool : pool_t) (im : image Z) : outcome (image Z) :=
  let row := if avx2 c then avx_unpremul_row rcp else if sse41 c then sse_unpremul_row rcp
             else px_row_in_place unpremul_px_u8 in
  b <- unpremul_rows row (width im * 4) (stride_of 4 im) pool (buf im) ;;
  Done (set_buf im b).
(** is_alpha_premultiplication_needed, image_store.rs 556-589. *)
Definition alpha_needed_u8_x86 (c : cpu) (im : image Z) : outcome bool :=
  if avx2 c then x86_has_alpha avx_scan_row (buf im) (width im) (stride_of 4 im)
  else if sse41 c then x86_has_alpha sse_scan_row (buf im) (width im) (stride_of 4 im)
  else alpha_needed_u8 im.
(** Scaler::resize_rgba on x86-64. *)
Definition resize_rgba_u8_x86 (c : cpu) (s : strategy) (rcp : f32 -> f32) (L : libm) (f : resampling_function)
  (pool : pool_t) (premultiply : bool) (store into : image Z) : callres Z :=
  generic_resize_with_alpha 4 (x86_engine c s L f 4 (premul_u8_x86 c) (unpremul_u8_x86 c rcp) (alpha_needed_u8_x86 c))
    pool premultiply store into.
