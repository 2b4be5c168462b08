(** The 16-bit alpha code of x86-64: /repo/src/sse/alpha_u16.rs, /repo/src/avx2/alpha_u16.rs,
    the 16-bit halves of /repo/src/sse/check_alpha.rs and /repo/src/avx2/check_alpha.rs, the
    (de)interleaving helpers of sse/utils.rs 153-199 and avx2/utils.rs 171-225, and the dispatch of
    /repo/src/alpha_handle_u16.rs 175-244 and /repo/src/image_store.rs 600-650.

    Registers are read as in X86U16.v: 8 words (or 4 doublewords, or 4 floats), a 256-bit
    register is the pair of its lanes.  The row loops are those of X86Alpha.v
    ([premul_blocks], [unpremul_blocks]): whole blocks, then the remainder through a zeroed
    buffer. *)
From Coq Require Import ZArith List Bool.
From Flocq Require Import Core.Core IEEE754.BinarySingleNaN.
From Verif Require Import Base ImageStore FixedPoint Dispatch FloatConv Resize F32 Weights Sampler Api Alpha ApiFloat
  Simd X86Dispatch X86Alpha X86Float X86U16.
Import ListNotations.
Local Open Scope Z_scope.

(** ** Further intrinsics *)
Definition mw := list Z.
Definition mw256 := (mw * mw)%type.
Definition unpacklo_w (a b : mw) : mw := inter1 (firstn 4 a) (firstn 4 b).
Definition unpackhi_w (a b : mw) : mw := inter1 (skipn 4 a) (skipn 4 b).
(** _mm_unpacklo_epi32, _mm_unpackhi_epi32, seen as words. *)
Definition unpacklo_dw (a b : mw) : mw := inter2 (firstn 4 a) (firstn 4 b).
Definition unpackhi_dw (a b : mw) : mw := inter2 (skipn 4 a) (skipn 4 b).
Definition halves2 (f : mw -> mw -> mw) (a b : mw256) : mw256 := (f (fst a) (fst b), f (snd a) (snd b)).
Definition halves1 (f : mw -> mw) (a : mw256) : mw256 := (f (fst a), f (snd a)).
(** _mm256_permute2x128_si256::<32> and ::<49>. *)
Definition perm32 (a b : mw256) : mw256 := (fst a, fst b).
Definition perm49 (a b : mw256) : mw256 := (snd a, snd b).
(** _mm_packs_epi32: signed saturation; the words are stored as u16. *)
Definition packs_w (a b : list Z) : mw := map (fun v => sat (-32768) 32767 v mod 65536) (a ++ b).
(** _mm_cmpeq_epi16(a, zeros), and _mm_select_si128(mask, t, f) (sse/alpha_u8.rs 40-46,
    avx2/utils.rs 55-61) on whole words. *)
Definition is_zero_w (a : mw) : list bool := map (fun x => x =? 0) a.
Fixpoint select_w (mask : list bool) (t f : mw) : mw :=
  match mask, t, f with
  | m :: mask', x :: t', y :: f' => (if m then x else y) :: select_w mask' t' f'
  | _, _, _ => []
  end.
(** _mm_cvtepi32_ps of the doublewords of [lo_d], [hi_d] (words below 2^16). *)
Definition ps (v : list Z) : list f32 := map (fun z => fZ z 0) v.
(** _mm256_round_ps::<0x00>: to the nearest integer, ties to even. *)
Definition round_ps (v : list f32) : list f32 := map (Bnearbyint mode_NE) v.
Fixpoint fmadd_ps (a b c : list f32) : list f32 :=
  match a, b, c with x :: a', y :: b', z :: c' => ffma x y z :: fmadd_ps a' b' c' | _, _, _ => [] end.
Fixpoint add_ps (a b : list f32) : list f32 :=
  match a, b with x :: a', y :: b' => fadd x y :: add_ps a' b' | _, _ => [] end.
Definition half : f32 := fZ 1 (-1).
(** `(1. / max_colors as f64) as f32`, avx2/alpha_u16.rs 273. *)
Definition to_f32 (x : binary_float 53 1024) : f32 :=
  match x with
  | B754_zero s => B754_zero s
  | B754_infinity s => B754_infinity s
  | B754_nan => B754_nan
  | B754_finite s m e _ => binary_normalize 24 128 eq_refl eq_refl mode_NE (cond_Zopp s (Zpos m)) e s
  end.
Definition f64_recip (maxc : Z) : f32 :=
  let d z := binary_normalize 53 1024 eq_refl eq_refl mode_NE z 0 false in
  to_f32 (@Bdiv 53 1024 eq_refl eq_refl mode_NE (d 1) (d maxc)).

(** ** (De)interleaving *)
(** sse_deinterleave_rgba_epi16, sse/utils.rs 155-178. *)
Definition sse_deint_w (rgba0 rgba1 rgba2 rgba3 : mw) : mw * mw * mw * mw :=
  let v0 := unpacklo_w rgba0 rgba2 in
  let v1 := unpackhi_w rgba0 rgba2 in
  let v2 := unpacklo_w rgba1 rgba3 in
  let v3 := unpackhi_w rgba1 rgba3 in
  let u0 := unpacklo_w v0 v2 in
  let u1 := unpacklo_w v1 v3 in
  let u2 := unpackhi_w v0 v2 in
  let u3 := unpackhi_w v1 v3 in
  (unpacklo_w u0 u1, unpackhi_w u0 u1, unpacklo_w u2 u3, unpackhi_w u2 u3).
(** sse_interleave_rgba_epi16, sse/utils.rs 182-199. *)
Definition sse_int_w (a b c d : mw) : mw * mw * mw * mw :=
  let u0 := unpacklo_w a c in
  let u1 := unpackhi_w a c in
  let u2 := unpacklo_w b d in
  let u3 := unpackhi_w b d in
  (unpacklo_w u0 u2, unpackhi_w u0 u2, unpacklo_w u1 u3, unpackhi_w u1 u3).
(** avx_deinterleave_rgba_epi16, avx2/utils.rs 196-225; the table moves words 0 4 1 5 2 6 3 7. *)
Definition avx_deint_w (a b c d : mw256) : mw256 * mw256 * mw256 * mw256 :=
  let sh r := halves1 (fun l => shuffle_w l [0; 4; 1; 5; 2; 6; 3; 7]) r in
  let p0 := sh a in let p1 := sh b in let p2 := sh c in let p3 := sh d in
  let p01l := halves2 unpacklo_dw p0 p1 in
  let p01h := halves2 unpackhi_dw p0 p1 in
  let p23l := halves2 unpacklo_dw p2 p3 in
  let p23h := halves2 unpackhi_dw p2 p3 in
  let pll := perm32 p01l p23l in
  let plh := perm49 p01l p23l in
  let phl := perm32 p01h p23h in
  let phh := perm49 p01h p23h in
  (halves2 unpacklo_dw pll plh, halves2 unpackhi_dw pll plh, halves2 unpacklo_dw phl phh, halves2 unpackhi_dw phl phh).
(** avx_interleave_rgba_epi16, avx2/utils.rs 171-193. *)
Definition avx_int_w (a b c d : mw256) : mw256 * mw256 * mw256 * mw256 :=
  let bg0 := halves2 unpacklo_w a b in
  let bg1 := halves2 unpackhi_w a b in
  let ra0 := halves2 unpacklo_w c d in
  let ra1 := halves2 unpackhi_w c d in
  let bgra0_ := halves2 unpacklo_dw bg0 ra0 in
  let bgra1_ := halves2 unpackhi_dw bg0 ra0 in
  let bgra2_ := halves2 unpacklo_dw bg1 ra1 in
  let bgra3_ := halves2 unpackhi_dw bg1 ra1 in
  (perm32 bgra0_ bgra1_, perm32 bgra2_ bgra3_, perm49 bgra0_ bgra1_, perm49 bgra2_ bgra3_).

(** ** Blocks of 8 (SSE4.1) and 16 (AVX2) pixels: [plane x a] computes a colour plane from
    itself and the alpha plane; the four stores are written as one.
    sse/alpha_u16.rs 125-160, 291-330, 378-401; avx2/alpha_u16.rs 138-189, 224-259, 416-456. *)
Definition sse_block_w (plane : mw -> mw -> mw) (dst src : list Z) : outcome (list Z) :=
  row0 <- loadw 8 src 0 ;; row1 <- loadw 8 src 8 ;; row2 <- loadw 8 src 16 ;; row3 <- loadw 8 src 24 ;;
  let '(rrrr, gggg, bbbb, aaaa) := sse_deint_w row0 row1 row2 row3 in
  let '(o0, o1, o2, o3) := sse_int_w (plane rrrr aaaa) (plane gggg aaaa) (plane bbbb aaaa) aaaa in
  storew dst 0 (o0 ++ o1 ++ o2 ++ o3).
Definition avx_block_w (plane : mw -> mw -> mw) (dst src : list Z) : outcome (list Z) :=
  lane0 <- load256w src 0 ;; lane1 <- load256w src 16 ;; lane2 <- load256w src 32 ;; lane3 <- load256w src 48 ;;
  let '(rrr, ggg, bbb, aaa) := avx_deint_w lane0 lane1 lane2 lane3 in
  let pl := halves2 plane in
  let '(o0, o1, o2, o3) := avx_int_w (pl rrr aaa) (pl ggg aaa) (pl bbb aaa) aaa in
  storew dst 0 (words256 o0 ++ words256 o1 ++ words256 o2 ++ words256 o3).

(** ** Premultiplication *)
(** _mm_div_by_1023_epi32 / 4095 / 65535, sse/alpha_u16.rs 64-90, avx2/alpha_u16.rs 72-98
    (n = 10, 12, 16), on unsigned doublewords. *)
Definition div_dw (n : Z) (v : list Z) : list Z :=
  map (fun x => let v := wrap_u32 (x + 2 ^ (n - 1)) in Z.shiftr (wrap_u32 (v + Z.shiftr v n)) n) v.
(** One colour plane of Sse41PremultiplyExecutorDefault, sse/alpha_u16.rs 306-317, and of
    Avx2PremultiplyExecutorDefault (per lane), avx2/alpha_u16.rs 150-179. *)
Definition pre_int (n : Z) (x a : mw) : mw :=
  packus_w (div_dw n (madd_w (lo_w x) (lo_w a))) (div_dw n (madd_w (hi_w x) (hi_w a))).
(** sse_premultiply_row_u16, sse/alpha_u16.rs 237-258, with the scale of lines 409-410. *)
Definition pre_any_sse (maxc : Z) (x a : mw) : mw :=
  let scale := repeat (fdiv f1 (fZ maxc 0)) 4 in
  let part c al := map cvtps (mul_ps (mul_ps (ps c) scale) (ps al)) in
  packs_w (part (lo_d x) (lo_d a)) (part (hi_d x) (hi_d a)).
(** _mm256_scale_by_alpha, avx2/alpha_u16.rs 41-70, on one lane. *)
Definition scale_by_alpha (fma : bool) (px : mw) (lo_a hi_a : list f32) : mw :=
  let part v al := map cvtps (if fma then fmadd_ps (ps v) al (repeat half 4) else round_ps (mul_ps (ps v) al)) in
  packus_w (part (lo_d px) lo_a) (part (hi_d px) hi_a).
(** Avx2PremultiplyExecutorAnyBit::premultiply_chunk, avx2/alpha_u16.rs 224-259, one lane. *)
Definition pre_any_avx (fma : bool) (maxc : Z) (x a : mw) : mw :=
  let al v := mul_ps (ps v) (repeat (f64_recip maxc) 4) in
  scale_by_alpha fma x (al (lo_d a)) (al (hi_d a)).
(** premultiply_alpha_sse_rgba_u16_row_impl, sse/alpha_u16.rs 446-472;
    avx_premultiply_alpha_rgba_u16_row, avx2/alpha_u16.rs 324-359. *)
Definition sse_pre_plane (depth : nat) : mw -> mw -> mw :=
  if (depth =? 10)%nat then pre_int 10 else if (depth =? 12)%nat then pre_int 12 else if (depth =? 16)%nat then pre_int 16
  else pre_any_sse (max_colors depth).
Definition avx_pre_plane (fma : bool) (depth : nat) : mw -> mw -> mw :=
  if (depth =? 10)%nat then pre_int 10 else if (depth =? 12)%nat then pre_int 12 else if (depth =? 16)%nat then pre_int 16
  else pre_any_avx fma (max_colors depth).
Definition sse_pre_row_u16 (depth : nat) : list Z -> list Z -> outcome (list Z) :=
  premul_blocks 32 (sse_block_w (sse_pre_plane depth)).
Definition avx_pre_row_u16 (fma : bool) (depth : nat) : list Z -> list Z -> outcome (list Z) :=
  premul_blocks 64 (avx_block_w (avx_pre_plane fma depth)).

(** ** Un-premultiplication *)
(** sse_unpremultiply_row_u16, sse/alpha_u16.rs 41-61, with the factors of lines 134-148. *)
Definition un_sse_plane (rcp : f32 -> f32) (maxc : Z) (x a : mw) : mw :=
  let al v := mul_ps (rcp_ps rcp (ps v)) (repeat (fZ maxc 0) 4) in
  let part c f := map cvtps (add_ps (repeat half 4) (mul_ps (ps c) f)) in
  select_w (is_zero_w a) x (packs_w (part (lo_d x) (al (lo_d a))) (part (hi_d x) (al (hi_d a)))).
(** avx_unpremultiply_alpha_rgba_u16_row_impl, avx2/alpha_u16.rs 424-446, one lane. *)
Definition un_avx_plane (fma : bool) (rcp : f32 -> f32) (maxc : Z) (x a : mw) : mw :=
  let al v := mul_ps (rcp_ps rcp (ps v)) (repeat (fZ maxc 0) 4) in
  select_w (is_zero_w a) x (scale_by_alpha fma x (al (lo_d a)) (al (hi_d a))).
Definition sse_un_row_u16 (rcp : f32 -> f32) (depth : nat) : list Z -> outcome (list Z) :=
  unpremul_blocks 32 (fun b => sse_block_w (un_sse_plane rcp (max_colors depth)) b b).
Definition avx_un_row_u16 (fma : bool) (rcp : f32 -> f32) (depth : nat) : list Z -> outcome (list Z) :=
  unpremul_blocks 64 (fun b => avx_block_w (un_avx_plane fma rcp (max_colors depth)) b b).

(** ** Alpha scan; the sums are lists of four doublewords *)
(** sh0 and ash0, sse/check_alpha.rs 127: the alphas of the two pixels of a register, as
    doublewords 0 and 1. *)
Definition pick_alpha_w (r : mw) : mw := shuffle_w r [3; -1; 7; -1; -1; -1; -1; -1].
(** The doublewords of a register of words. *)
Fixpoint dws (l : mw) : list Z := match l with a :: b :: t => a + 65536 * b :: dws t | _ => [] end.
(** `sums + (_mm_unpacklo_epi32(r0, r1) ^ def_alpha)`, def_alpha = _mm_set1_epi32(first). *)
Definition scan_pair (first : Z) (r0 r1 : mw) (sums : list Z) : list Z :=
  zipw add32 sums (dws (zipw Z.lxor (unpacklo_dw (pick_alpha_w r0) (pick_alpha_w r1)) (concat (repeat [first; 0] 4)))).
Definition zero_dw : list Z := repeat 0 4.
(** _mm_hsum_epi32, sse/utils.rs 217-226, on doublewords. *)
Definition hsum_dw (s : list Z) : Z :=
  let sum64 := zipw add32 [nth 2 s 0; nth 3 s 0; nth 0 s 0; nth 1 s 0] s in
  add32 (nth 0 sum64 0) (nth 1 sum64 0).
(** One row of sse_has_non_constant_cap_alpha_rgba16_impl, sse/check_alpha.rs 132-172. *)
Definition sse_scan_row_u16 (first : Z) (row : list Z) : outcome Z :=
  sums <- foldM (fun s c =>
      r0 <- loadw 8 c 0 ;; r1 <- loadw 8 c 8 ;; r2 <- loadw 8 c 16 ;; r3 <- loadw 8 c 24 ;;
      Done (scan_pair first r2 r3 (scan_pair first r0 r1 s))) (chunks_exact 32 row) zero_dw ;;
  let row := chunks_rem 32 row in
  sums <- foldM (fun s c => r0 <- loadw 8 c 0 ;; Done (scan_pair first r0 r0 s)) (chunks_exact 8 row) sums ;;
  let row := chunks_rem 8 row in
  scan_tail first row (hsum_dw sums).
(** One row of avx_has_non_constant_cap_alpha_rgba16_impl, avx2/check_alpha.rs 157-204. *)
Definition scan_pair256 (first : Z) (r0 r1 : mw256) (s : list Z * list Z) : list Z * list Z :=
  (scan_pair first (fst r0) (fst r1) (fst s), scan_pair first (snd r0) (snd r1) (snd s)).
Definition avx_scan_row_u16 (first : Z) (row : list Z) : outcome Z :=
  sums <- foldM (fun s c =>
      r0 <- load256w c 0 ;; r1 <- load256w c 16 ;; r2 <- load256w c 32 ;; r3 <- load256w c 48 ;;
      Done (scan_pair256 first r2 r3 (scan_pair256 first r0 r1 s))) (chunks_exact 64 row) (zero_dw, zero_dw) ;;
  let row := chunks_rem 64 row in
  sums <- foldM (fun s c => r0 <- load256w c 0 ;; Done (scan_pair256 first r0 r0 s)) (chunks_exact 16 row) sums ;;
  let row := chunks_rem 16 row in
  scan_tail first row (hsum_dw (zipw add32 (fst sums) (snd sums))).

(** ** Dispatch *)
(** premultiply_alpha_rgba_u16 and unpremultiply_alpha_rgba_u16, alpha_handle_u16.rs 175-244;
    the depth is that of the target image (image_store.rs 606-615, 704-717).  FMA is looked up inside the
    AVX2 functions, avx2/alpha_u16.rs 312-318 and 546-550. *)
Definition premul_u16_x86 (c : fcpu) (pool : pool_t) (im into : image Z) : outcome (image Z) :=
  let d := bit_depth into in
  let row := if avx2 (base_cpu c) then avx_pre_row_u16 (has_fma c) d else if sse41 (base_cpu c) then sse_pre_row_u16 d
             else px_row (premul_px_u16 (max_colors d)) in
  b <- premul_rows row (width im * 4) (stride_of 4 into) (stride_of 4 im) pool (buf im) (buf into) ;;
  Done (set_buf into b).
Definition unpremul_u16_x86 (c : fcpu) (rcp : f32 -> f32) (pool : pool_t) (im : image Z) : outcome (image Z) :=
  let d := bit_depth im in
  let row := if avx2 (base_cpu c) then avx_un_row_u16 (has_fma c) rcp d else if sse41 (base_cpu c) then sse_un_row_u16 rcp d
             else px_row_in_place (unpremul_px_u16 (max_colors d)) in
  b <- unpremul_rows row (width im * 4) (stride_of 4 im) pool (buf im) ;;
  Done (set_buf im b).
(** is_alpha_premultiplication_needed, image_store.rs 632-656. *)
Definition alpha_needed_u16_x86 (c : fcpu) (im : image Z) : outcome bool :=
  if avx2 (base_cpu c) then x86_has_alpha avx_scan_row_u16 (buf im) (width im) (stride_of 4 im)
  else if sse41 (base_cpu c) then x86_has_alpha sse_scan_row_u16 (buf im) (width im) (stride_of 4 im)
  else alpha_needed_u16 im.
(** Scaler::resize_rgba_u16 on x86-64. *)
Definition resize_rgba_u16_x86 (k : mlaf_kind) (c : fcpu) (rcp : f32 -> f32) (L : libm) (f : resampling_function)
  (pool : pool_t) (premultiply : bool) (store into : image Z) : callres Z :=
  generic_resize_with_alpha 4 (x86_engine_u16 k c L f 4 (premul_u16_x86 c) (unpremul_u16_x86 c rcp) (alpha_needed_u16_x86 c))
    pool premultiply store into.
