(** Model of the x86 vector kernels for the horizontal pass over 8-bit images:
    /repo/src/sse/{rgba_u8,rgb_u8,plane_u8,rgba_u8_lb,plane_u8_hrs,cbcr8_hrs,u8_utils}.rs
    and /repo/src/avx2/{rgb_u8,rgba_u8_lb}.rs.

    Every file has a kernel for one row and a kernel for four rows.  Both are the same
    iteration over the destination pixels, the filter bounds and the weight rows; what a
    kernel does for one destination pixel of one row is modelled as a function
    [src -> bound -> weights -> bytes], and [hrow], [hrow4] are the two iterations.

    Simplifications: the four-row kernels keep four independent accumulators (store_0 ..
    store_3) that see the same weights and are never combined, so they are modelled as the
    one-pixel function applied to each row in turn; reading the weights again per row has
    no effect.  The order of two independent accumulations within one step (lo before hi)
    is the one of the one-row kernel.  _mm256_dot16_avx_epi32 and _mm_dot16_avx_epi32
    without the nightly_avx512 feature (avx2/utils.rs) are add(madd). *)
From Verif Require Import Base FixedPoint Simd X86Vertical X86VerticalLp.
Local Open Scope nat_scope.

Definition pixel_fn := list Z -> fbound -> list Z -> outcome (list Z).

(** The one-row iteration: sse/rgb_u8.rs 257-330, rgba_u8.rs 253-345, plane_u8.rs 230-283,
    rgba_u8_lb.rs 357-470, plane_u8_hrs.rs 259-318, cbcr8_hrs.rs 241-302, avx2/rgb_u8.rs
    482-610, avx2/rgba_u8_lb.rs 324-460.  A store of fewer or more bytes than the chunk
    holds does not occur (each [pixel] returns cn bytes). *)
Definition hrow (cn : nat) (pixel : pixel_fn) (src dst : list Z) (fw : fweights Z) : outcome (list Z) :=
  ds <- chunks_exact_o cn dst ;;
  wc <- chunks_exact_o (aligned_size fw) (weights fw) ;;
  ds' <- zip_mut (fun d bw => v <- pixel src (fst bw) (snd bw) ;; store_bytes d 0 v)
                 ds (combine (bounds fw) wc) ;;
  Done (unchunk ds' (chunks_rem cn dst)).

(** The four-row iteration: the other function of each of the files above. *)
Definition hrow4 (cn : nat) (pixel : pixel_fn) (src : list Z) (src_stride : nat)
  (dst : list Z) (dst_stride : nat) (fw : fweights Z) : outcome (list Z) :=
  '(row0, rest) <- split_at dst_stride dst ;;
  '(row1, rest) <- split_at dst_stride rest ;;
  '(row2, row3) <- split_at dst_stride rest ;;
  i0 <- chunks_exact_o cn row0 ;;
  i1 <- chunks_exact_o cn row1 ;;
  i2 <- chunks_exact_o cn row2 ;;
  i3 <- chunks_exact_o cn row3 ;;
  wc <- chunks_exact_o (aligned_size fw) (weights fw) ;;
  let cols := zip4 i0 i1 i2 i3 in
  let bw := combine (bounds fw) wc in
  let n := Nat.min (length cols) (length bw) in
  src1 <- slice_from src src_stride ;;
  src2 <- slice_from src1 src_stride ;;
  src3 <- slice_from src2 src_stride ;;
  cols' <- zip_mut
    (fun (d : chunk4) (e : fbound * list Z) =>
       let '(d0, d1, d2, d3) := d in
       v0 <- pixel src (fst e) (snd e) ;; v1 <- pixel src1 (fst e) (snd e) ;;
       v2 <- pixel src2 (fst e) (snd e) ;; v3 <- pixel src3 (fst e) (snd e) ;;
       d0' <- store_bytes d0 0 v0 ;; d1' <- store_bytes d1 0 v1 ;;
       d2' <- store_bytes d2 0 v2 ;; d3' <- store_bytes d3 0 v3 ;;
       Done (d0', d1', d2', d3'))
    (firstn n cols) bw ;;
  Done (rebuild_row cn row0 (map (fun d => let '(a, _, _, _) := d in a) cols')
     ++ rebuild_row cn row1 (map (fun d => let '(_, a, _, _) := d in a) cols')
     ++ rebuild_row cn row2 (map (fun d => let '(_, _, a, _) := d in a) cols')
     ++ rebuild_row cn row3 (map (fun d => let '(_, _, _, a) := d in a) cols')).

(** `while jx + slack < bounds.size { ...; jx += step }` *)
Definition taps {S} (b : fbound) (step slack : nat) (body : S -> nat -> outcome S) (jx : nat) (s : S)
  : outcome (nat * S) := while_tiles (bsize b) step slack (bsize b) body jx s.

(** compress_i32, u8_utils.rs 38-43 (avx2/routines.rs), and the packus_epi16 after it. *)
Definition compress (s : m128) : m128 :=
  let v := srai_epi32 PRECISION s in
  let w := packus_epi32 v v in packus_epi16 w w.

(** ** RGBA, 32-bit accumulators: sse/rgba_u8.rs *)
Definition rgba_lo : m128 := setr_epi8 [0;-1;4;-1;1;-1;5;-1;2;-1;6;-1;3;-1;7;-1]%Z.
Definition rgba_hi : m128 := setr_epi8 [8;-1;12;-1;9;-1;13;-1;10;-1;14;-1;11;-1;15;-1]%Z.

(** rgba_u8.rs 39-58 (convolve_horizontal_parts_one_rgba_sse) and 253-345. *)
Definition rgba_sse : pixel_fn := fun src b ws =>
  '(jx, s) <- taps b 4 4 (fun s jx =>
     w <- load_w 4 ws jx ;;
     p <- load 16 src ((bstart b + jx) * 4) ;;
     Done (dot16 (dot16 s (shuffle_epi8 p rgba_lo) (shuffle_epi32 0 0 0 0 w))
                 (shuffle_epi8 p rgba_hi) (shuffle_epi32 1 1 1 1 w))) 0 vld ;;
  '(jx, s) <- taps b 2 2 (fun s jx =>
     w <- read_pair ws jx ;;
     p <- load 8 src ((bstart b + jx) * 4) ;;
     Done (dot16 s (shuffle_epi8 p rgba_lo) (set1_epi32 w))) jx s ;;
  '(_, s) <- taps b 1 0 (fun s jx =>
     w <- idx ws jx ;;
     p <- load 4 src ((bstart b + jx) * 4) ;;
     Done (dot16 s (cvtepi16_epi32 (unpacklo_epi8 p zeros)) (set1_epi32 w))) jx s ;;
  Done (firstn 4 (compress s)).

(** ** RGB: sse/rgb_u8.rs.  load_rgb_x4 (64-72) and load_rgb_x2 (53-61) are a 12 and a 6
    byte load; the single pixel (u8_utils.rs 46-61) is a 3 byte load. *)
Definition rgb_lo : m128 := setr_epi8 [0;-1;3;-1;1;-1;4;-1;2;-1;5;-1;-1;-1;-1;-1]%Z.
Definition rgb_hi : m128 := setr_epi8 [6;-1;9;-1;7;-1;10;-1;8;-1;11;-1;-1;-1;-1;-1]%Z.

Definition rgb_pairs (src : list Z) (b : fbound) (ws : list Z) (jx : nat) (s : m128) : outcome (nat * m128) :=
  taps b 2 2 (fun s jx =>
     w <- read_pair ws jx ;;
     p <- load 6 src ((bstart b + jx) * 3) ;;
     Done (dot16 s (shuffle_epi8 p rgb_lo) (set1_epi32 w))) jx s.

(** rgb_u8.rs 257-330. *)
Definition rgb_sse : pixel_fn := fun src b ws =>
  '(jx, s) <- taps b 4 4 (fun s jx =>
     w <- load_w 4 ws jx ;;
     p <- load 12 src ((bstart b + jx) * 3) ;;
     Done (dot16 (dot16 s (shuffle_epi8 p rgb_lo) (shuffle_epi32 0 0 0 0 w))
                 (shuffle_epi8 p rgb_hi) (shuffle_epi32 1 1 1 1 w))) 0 vld ;;
  '(jx, s) <- rgb_pairs src b ws jx s ;;
  '(_, s) <- taps b 1 0 (fun s jx =>
     w <- idx ws jx ;;
     p <- load 3 src ((bstart b + jx) * 3) ;;
     Done (dot16 s (unpacklo_epi16 (unpacklo_epi8 p zeros) zeros) (set1_epi32 w))) jx s ;;
  Done (firstn 3 (compress s)).

(** ** RGB: avx2/rgb_u8.rs *)
(** shuffle_weights(01), one lane. *)
Definition rgb_ws : m128 := setr_epi8 [0;1;2;3;0;1;2;3;0;1;2;3;-1;-1;-1;-1]%Z.
(** The permuted and masked weights, lines 248-260, 303-311. *)
Definition rgb_weights (w : m128) (i : list nat) : m256 :=
  lane1 (fun x => shuffle_epi8 x rgb_ws) (permutevar8x32 (cast256 w) i).
(** inserti128(cast a, b) shuffled by shuffle_pixels_4 (its two lanes are [rgb_lo]). *)
Definition rgb_px (a b : m128) : m256 := (shuffle_epi8 a rgb_lo, shuffle_epi8 b rgb_lo).
(** add_one_weight, lines 463-478.  The first two bytes are read at the start of the row
    (`src.as_ptr()`), the third at the pixel (`src_ptr.add(2)`). *)
Definition add_one_weight (start_x : nat) (src : list Z) (w s : m128) : outcome m128 :=
  p <- load 2 src 0 ;;
  q <- idx src (start_x * 3 + 2) ;;
  let m := firstn 2 p ++ [q] ++ skipn 3 p in
  Done (dot16 s (unpacklo_epi16 (unpacklo_epi8 m zeros) zeros) w).

(** Lines 482-610 (169-420 for four rows). *)
Definition rgb_avx : pixel_fn := fun src b ws =>
  '(jx, s) <-
    (if bsize b <=? 4 then Done (0, vld)
     else
       '(jx, st) <- taps b 8 8 (fun st jx =>
          w <- load_w 8 ws jx ;;
          lo <- load 16 src ((bstart b + jx) * 3) ;;
          hi <- load 8 src ((bstart b + jx) * 3 + 16) ;;
          let first_4 := rgb_px lo (alignr_epi8 6 lo lo) in
          let second_4 := rgb_px (alignr_epi8 12 hi lo) (alignr_epi8 2 hi hi) in
          let st := dot256 st first_4 (rgb_weights w [0;0;0;0;1;1;1;1]) in
          Done (dot256 st second_4 (rgb_weights w [2;2;2;2;3;3;3;3]))) 0
          (setr_epi32 [ROUNDING_CONST; ROUNDING_CONST; ROUNDING_CONST; 0%Z], zeros) ;;
       '(jx, st) <- taps b 4 4 (fun st jx =>
          w <- load_w 4 ws jx ;;
          p <- load 12 src ((bstart b + jx) * 3) ;;
          Done (dot256 st (rgb_px p (alignr_epi8 6 p p)) (rgb_weights w [0;0;0;0;1;1;1;1]))) jx st ;;
       Done (jx, add_epi32 (fst st) (snd st))) ;;
  '(jx, s) <- rgb_pairs src b ws jx s ;;
  '(_, s) <- taps b 1 0 (fun s jx =>
     w <- idx ws jx ;;
     add_one_weight (bstart b + jx) src (set1_epi32 w) s) jx s ;;
  Done (firstn 3 (compress s)).

(** ** One channel: sse/plane_u8.rs *)
(** _mm_hsum_reduce_epi32, lines 88-98. *)
Definition hsum_reduce (x : m128) : Z :=
  let sum64 := add_epi32 (shuffle_epi32 1 0 3 2 x) x in
  let sum32 := srai_epi32 PRECISION (add_epi32 sum64 (shufflelo_epi16 1 0 3 2 sum64)) in
  let v0 := packus_epi32 sum32 sum32 in
  nth 0 (packus_epi16 v0 v0) 0%Z.

(** Lines 39-67 (the three macros) and 230-283. *)
Definition plane_sse : pixel_fn := fun src b ws =>
  '(jx, s) <- taps b 8 8 (fun s jx =>
     w <- load_w 8 ws jx ;;
     p <- load 8 src (bstart b + jx) ;;
     let px := unpacklo_epi8 p zeros in
     Done (dot16 (dot16 s (unpacklo_epi16 px zeros) (unpacklo_epi16 w zeros))
                 (unpackhi_epi16 px zeros) (unpackhi_epi16 w zeros))) 0
     (setr_epi32 [ROUNDING_CONST; 0; 0; 0]%Z) ;;
  '(jx, s) <- taps b 4 4 (fun s jx =>
     w <- load_w 4 ws jx ;;
     p <- load 4 src (bstart b + jx) ;;
     Done (dot16 s (unpacklo_epi16 (unpacklo_epi8 p zeros) zeros) (cvtepi16_epi32 w))) jx s ;;
  '(_, s) <- taps b 1 0 (fun s jx =>
     w <- idx ws jx ;;
     p <- idx src (bstart b + jx) ;;
     Done (dot16 s (setr_epi32 [p; 0; 0; 0]%Z) (setr_epi32 [w; 0; 0; 0]%Z))) jx s ;;
  Done [hsum_reduce s].

(** ** Low precision kernels: 16-bit accumulators *)
(** _mm_srli_epi16::<2>(_mm_unpacklo_epi8(v, v)) *)
Definition wide_lo (v : m128) : m128 := srli_epi16 2 (unpacklo_epi8 v v).
Definition wide_hi (v : m128) : m128 := srli_epi16 2 (unpackhi_epi8 v v).
(** add_epi16(store, mulhrs_epi16(p, w)) *)
Definition mhrs (s p w : m128) : m128 := add_epi16 s (mulhrs_epi16 p w).
(** _mm_add_hi_lo_epi16, rgba_u8_lb.rs 102-105, srai and packus. *)
Definition reduce_x4 (s : m128) : list Z :=
  let v := srai_epi16 6 (add_epi16 s (unpackhi_epi64 s s)) in firstn 4 (packus_epi16 v v).

(** shuffle_weights, rgba_u8_lb.rs 364: two weights, four lanes each. *)
Definition lb_ws : m128 := setr_epi8 [0;1;0;1;0;1;0;1;2;3;2;3;2;3;2;3]%Z.
Definition lb_weight (ws : list Z) (off : nat) : outcome m128 :=
  w <- load_w 2 ws off ;; Done (shuffle_epi8 w lb_ws).
Definition lb_single (src : list Z) (b : fbound) (ws : list Z) (jx : nat) (s : m128) : outcome (nat * m128) :=
  taps b 1 0 (fun s jx =>
     w <- idx ws jx ;;
     p <- load 4 src ((bstart b + jx) * 4) ;;
     Done (mhrs s (wide_lo p) (set1_epi16 w))) jx s.

(** sse/rgba_u8_lb.rs 357-470; hdot4, hdot2, hdot 66-99. *)
Definition rgba_sse_lb : pixel_fn := fun src b ws =>
  '(jx, s) <- taps b 8 8 (fun s jx =>
     w01 <- lb_weight ws jx ;; w23 <- lb_weight ws (jx + 2) ;;
     w45 <- lb_weight ws (jx + 4) ;; w67 <- lb_weight ws (jx + 6) ;;
     p0 <- load 16 src ((bstart b + jx) * 4) ;; p1 <- load 16 src ((bstart b + jx) * 4 + 16) ;;
     let p := mulhrs_epi16 (wide_lo p0) w01 in
     let p := mhrs p (wide_hi p0) w23 in
     let p := mhrs p (wide_lo p1) w45 in
     let p := mhrs p (wide_hi p1) w67 in
     Done (add_epi16 s p)) 0
     (setr_epi16 [LP_ROUNDING; LP_ROUNDING; LP_ROUNDING; LP_ROUNDING; 0%Z; 0%Z; 0%Z; 0%Z]) ;;
  '(jx, s) <- taps b 4 4 (fun s jx =>
     w01 <- lb_weight ws jx ;; w23 <- lb_weight ws (jx + 2) ;;
     p0 <- load 16 src ((bstart b + jx) * 4) ;;
     Done (add_epi16 s (mhrs (mulhrs_epi16 (wide_lo p0) w01) (wide_hi p0) w23))) jx s ;;
  '(jx, s) <- taps b 2 2 (fun s jx =>
     w01 <- lb_weight ws jx ;;
     p0 <- load 8 src ((bstart b + jx) * 4) ;;
     Done (mhrs s (wide_lo p0) w01)) jx s ;;
  '(_, s) <- lb_single src b ws jx s ;;
  Done (reduce_x4 s).

(** avx2/rgba_u8_lb.rs 324-460; hdot4, hdot2, hdot 66-84.  In weights0 (lines 156-158 and
    365-367) lane 11 of the sixteen is `w5` instead of `w4`, so the alpha lane
    of the fifth pixel of the step has the weight of the sixth. *)
Definition rgba_avx_lb : pixel_fn := fun src b ws =>
  '(jx, st) <- taps b 8 8 (fun (st : m256) jx =>
     w0 <- idx ws jx ;; w1 <- idx ws (jx + 1) ;; w2 <- idx ws (jx + 2) ;; w3 <- idx ws (jx + 3) ;;
     w4 <- idx ws (jx + 4) ;; w5 <- idx ws (jx + 5) ;; w6 <- idx ws (jx + 6) ;; w7 <- idx ws (jx + 7) ;;
     let weights0 := (setr_epi16 [w0;w0;w0;w0;w1;w1;w1;w1], setr_epi16 [w4;w4;w4;w5;w5;w5;w5;w5]) in
     let weights1 := (setr_epi16 [w2;w2;w2;w2;w3;w3;w3;w3], setr_epi16 [w6;w6;w6;w6;w7;w7;w7;w7]) in
     p <- load256 src ((bstart b + jx) * 4) ;;
     let v := lane2 mulhrs_epi16 (lane1 wide_lo p) weights0 in
     let v := lane2 add_epi16 v (lane2 mulhrs_epi16 (lane1 wide_hi p) weights1) in
     Done (lane2 add_epi16 st v)) 0
     (setr_epi16 [LP_ROUNDING; LP_ROUNDING; LP_ROUNDING; LP_ROUNDING; 0%Z; 0%Z; 0%Z; 0%Z], zeros) ;;
  '(jx, st) <- taps b 4 4 (fun (st : m256) jx =>
     w0 <- idx ws jx ;; w1 <- idx ws (jx + 1) ;; w2 <- idx ws (jx + 2) ;; w3 <- idx ws (jx + 3) ;;
     let w := (setr_epi16 [w0;w0;w0;w0;w1;w1;w1;w1], setr_epi16 [w2;w2;w2;w2;w3;w3;w3;w3]) in
     p <- load 16 src ((bstart b + jx) * 4) ;;
     let p := permute4x64 1 1 0 0 (cast256 p) in
     Done (lane2 add_epi16 st (lane2 mulhrs_epi16 (lane1 wide_lo p) w))) jx st ;;
  '(jx, s) <- taps b 2 2 (fun s jx =>
     w <- read_pair ws jx ;;
     p <- load 8 src ((bstart b + jx) * 4) ;;
     Done (mhrs s (wide_lo p) (shuffle_epi8 (set1_epi32 w) lb_ws))) jx (add_epi16 (fst st) (snd st)) ;;
  '(_, s) <- lb_single src b ws jx s ;;
  Done (reduce_x4 s).

(** _mm_hsum_epi16_and_compress, plane_u8_hrs.rs 40-51. *)
Definition hsum_16 (x : m128) : Z :=
  let v0 := hadd_epi16 x x in
  let v2 := add_epi16 v0 (shuffle_epi32 0 0 0 1 v0) in
  let v3 := srai_epi16 6 (hadd_epi16 v2 v2) in
  nth 0 (packus_epi16 v3 v3) 0%Z.

(** plane_u8_hrs.rs 53-95 (the s_accumulate functions) and 259-318. *)
Definition plane_sse_hrs : pixel_fn := fun src b ws =>
  '(jx, s) <- taps b 16 16 (fun s jx =>
     w0 <- load_w 8 ws jx ;; w1 <- load_w 8 ws (jx + 8) ;;
     p <- load 16 src (bstart b + jx) ;;
     Done (mhrs (mhrs s (wide_lo p) w0) (wide_hi p) w1)) 0
     (setr_epi16 [LP_ROUNDING; 0%Z; 0%Z; 0%Z; 0%Z; 0%Z; 0%Z; 0%Z]) ;;
  '(jx, s) <- taps b 8 8 (fun s jx =>
     w <- load_w 8 ws jx ;; p <- load 8 src (bstart b + jx) ;;
     Done (mhrs s (wide_lo p) w)) jx s ;;
  '(jx, s) <- taps b 4 4 (fun s jx =>
     w <- load_w 4 ws jx ;; p <- load 4 src (bstart b + jx) ;;
     Done (mhrs s (wide_lo p) w)) jx s ;;
  '(_, s) <- taps b 1 0 (fun s jx =>
     w <- load_w 1 ws jx ;; p <- idx src (bstart b + jx) ;;
     Done (mhrs s (srli_epi16 2 ([p; p] ++ repeat 0%Z 14)) w)) jx s ;;
  Done [hsum_16 s].

(** _mm_reduce_epi16_x2, cbcr8_hrs.rs 228-239, and the two bytes stored. *)
Definition reduce_x2 (x : m128) : list Z :=
  let j := shuffle_epi8 x (setr_epi8 [0;1;4;5;2;3;6;7;8;9;12;13;10;11;14;15]%Z) in
  let v0 := hadd_epi16 j j in
  let v2 := srai_epi16 6 (add_epi16 v0 (shuffle_epi32 3 2 0 1 v0)) in
  firstn 2 (packus_epi16 v2 v2).
Definition cbcr_lo : m128 := setr_epi8 [0;1;0;1;2;3;2;3;4;5;4;5;6;7;6;7]%Z.
Definition cbcr_hi : m128 := setr_epi8 [8;9;8;9;10;11;10;11;12;13;12;13;14;15;14;15]%Z.

(** cbcr8_hrs.rs 56-98 (the conv_cb_cr functions) and 241-302. *)
Definition cbcr_sse_hrs : pixel_fn := fun src b ws =>
  '(jx, s) <- taps b 8 8 (fun s jx =>
     w <- load_w 8 ws jx ;; p <- load 16 src ((bstart b + jx) * 2) ;;
     Done (mhrs (mhrs s (wide_lo p) (shuffle_epi8 w cbcr_lo)) (wide_hi p) (shuffle_epi8 w cbcr_hi))) 0
     (setr_epi16 [LP_ROUNDING; LP_ROUNDING; 0%Z; 0%Z; 0%Z; 0%Z; 0%Z; 0%Z]) ;;
  '(jx, s) <- taps b 4 4 (fun s jx =>
     w <- load_w 4 ws jx ;; p <- load 8 src ((bstart b + jx) * 2) ;;
     Done (mhrs s (wide_lo p) (shuffle_epi8 w cbcr_lo))) jx s ;;
  '(jx, s) <- taps b 2 2 (fun s jx =>
     w <- load_w 2 ws jx ;; p <- load 4 src ((bstart b + jx) * 2) ;;
     Done (mhrs s (wide_lo p) (shuffle_epi8 w cbcr_lo))) jx s ;;
  '(_, s) <- taps b 1 0 (fun s jx =>
     w <- load_w 1 ws jx ;; p <- load 2 src ((bstart b + jx) * 2) ;;
     Done (mhrs s (wide_lo p) (shuffle_epi8 w cbcr_lo))) jx s ;;
  Done (reduce_x2 s).
