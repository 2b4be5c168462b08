(** Model of the x86 vector kernels for 16-bit images:
    /repo/src/sse/{vertical_u16_lb,vertical_u16,rgba_u16_lb,rgba_u16}.rs,
    /repo/src/avx2/{vertical_u16_lb,rgba_u16_lb}.rs, and of the kernel selection in
    /repo/src/handler_provider.rs (the x86 impls) and /repo/src/dispatch_group_u16.rs.

    A 128-bit register of words is the list of its 8 words, lowest address first; after a
    widening operation it is the list of its 4 doublewords, as signed numbers (or its 4
    floats).  A 256-bit register is the pair of its 128-bit lanes.  This word-level reading
    of the intrinsics is part of the trusted base.  All shuffle tables of these kernels move
    whole words, so they are written with word indices.

    Simplifications: the hand-unrolled cases bounds_size = 2, 3, 4 of the vertical kernels
    (the same sums in the same order) share the general loop; the accumulators of the
    four-row kernels see the same weights and are never combined, so the one-pixel
    function is applied to each of the four rows.  The nightly_avx512 feature (dot product
    instructions, avx512 column kernel) is off. *)
From Coq Require Import ZArith List Bool.
From Verif Require Import Base ImageStore FixedPoint Dispatch FloatConv Resize F32 Weights Sampler Api Alpha ApiFloat
  Simd X86Dispatch X86Alpha X86Float.
Import ListNotations.
Local Open Scope nat_scope.

(** ** Registers of words *)
(** _mm_unpacklo_epi16(a, zeros), _mm_unpackhi_epi16(a, zeros) *)
Definition lo_w (a : list Z) : list Z := inter1 (firstn 4 a) (repeat 0%Z 4).
Definition hi_w (a : list Z) : list Z := inter1 (skipn 4 a) (repeat 0%Z 4).
(** The same registers read as doublewords. *)
Definition lo_d (a : list Z) : list Z := firstn 4 a.
Definition hi_d (a : list Z) : list Z := skipn 4 a.
(** _mm_madd_epi16 on words, and store = _mm_add_epi32(store, _mm_madd_epi16(a, w))
    (_mm_dot16_avx_epi32::<false>, avx2/utils.rs 354-393). *)
Definition madd_w (a b : list Z) : list Z := map wrap32 (pair_sums (zipw Z.mul (map s16 a) (map s16 b))).
Definition dot16 (s a w : list Z) : list Z := zipw add32 s (madd_w a w).
(** _mm_srai_epi32::<PRECISION> *)
Definition srai15 (s : list Z) : list Z := map (fun v => Z.shiftr v PRECISION) s.
(** _mm_packus_epi32 *)
Definition packus_w (a b : list Z) : list Z := map (sat 0 65535) (a ++ b).
(** _mm_min_epi16: compares as signed words. *)
Definition min16 (x y : Z) : Z := if (s16 x <=? s16 y)%Z then x else y.
Definition min_w (a b : list Z) : list Z := zipw min16 a b.
(** _mm_set1_epi16 *)
Definition set1_w (x : Z) : list Z := repeat x 8.
(** _mm_shuffle_epi8 with a table of whole words; a negative index gives 0. *)
Definition shuffle_w (a : list Z) (m : list Z) : list Z :=
  map (fun i => if (i <? 0)%Z then 0%Z else nth (Z.to_nat i) a 0%Z) m.
(** loadu_si128 / loadu_si256 of words, loadu_si64 clears the upper half ([n] = 4). *)
Definition loadw (n : nat) (mem : list Z) (off : nat) : outcome (list Z) :=
  if off + n <=? length mem then Done (firstn n (skipn off mem) ++ repeat 0%Z (8 - n)) else Panic.
Definition storew (dst : list Z) (off : nat) (v : list Z) : outcome (list Z) :=
  if off + length v <=? length dst then Done (splice dst off v) else Panic.
(** 256-bit registers. *)
Definition load256w (mem : list Z) (off : nat) : outcome (list Z * list Z) :=
  a <- loadw 8 mem off ;; b <- loadw 8 mem (off + 8) ;; Done (a, b).
Definition dot256 (s a w : list Z * list Z) : list Z * list Z :=
  (dot16 (fst s) (fst a) (fst w), dot16 (snd s) (snd a) (snd w)).
Definition words256 (a : list Z * list Z) : list Z := fst a ++ snd a.

Definition init_d : list Z := repeat ROUNDING_CONST 4.
(** `for (j, &k_weight) in weight.iter().take(bounds_size).enumerate()` *)
Definition weighted_rows {W} (b : fbound) (ws : list W) : list (nat * W) :=
  combine (seq 0 (length (firstn (bsize b) ws))) (firstn (bsize b) ws).

(** ** Vertical kernels *)
(** `for (x, dst) in dst.chunks_exact_mut(B).enumerate() { v_dx = v_px + x * B; ...; cx = v_dx }`:
    the loop of every part of every vertical kernel, e.g. sse/vertical_u16_lb.rs 76-123,
    130-161, 168-282, avx2/vertical_u16_lb.rs 110-165, 172-206, 213-244, 251-375,
    sse/vertical_u16.rs 105-156, 163-196, 203-339.  [vals v_dx] computes the B samples of
    the chunk.  Returns the last v_dx (or [cx] if there was no chunk), and the row.  Note
    that it is the START of the last chunk that is carried to the next part. *)
Definition vblocks (B : nat) (vals : nat -> outcome (list Z)) (cx : nat) (dst : list Z) : outcome (nat * list Z) :=
  foldM (fun (st : nat * list Z) x =>
    let v_dx := cx + x * B in
    v <- vals v_dx ;;
    d <- storew (snd st) (x * B) v ;;
    Done (v_dx, d)) (seq 0 (length dst / B)) (cx, dst).
(** The part of a row that `chunks_exact_mut(B)` covers; the rest is [chunks_rem B]. *)
Definition covered (B : nat) (dst : list Z) : list Z := firstn (length dst / B * B) dst.

Section FixedColumn.
Variables (src : list Z) (ss : nat) (ws : list Z) (b : fbound) (maxc : Z).

(** 8 words per load, two accumulators each; sse/vertical_u16_lb.rs 76-123 (m = 2),
    130-161 (m = 1). *)
Definition column_sse (m : nat) (v_dx : nat) : outcome (list Z) :=
  stores <- foldM (fun (stores : list (list Z)) (jw : nat * Z) =>
      let p := ss * (bstart b + fst jw) + v_dx in
      rows <- seqM (map (fun i => loadw 8 src (p + 8 * i)) (seq 0 m)) ;;
      Done (map (fun sr => dot16 (fst sr) (snd sr) (set1_w (snd jw)))
                (combine stores (flat_map (fun r => [lo_w r; hi_w r]) rows))))
    (weighted_rows b ws) (repeat init_d (2 * m)) ;;
  Done (flat_map (fun i => min_w (packus_w (srai15 (nth (2 * i) stores [])) (srai15 (nth (2 * i + 1) stores []))) (set1_w maxc))
                 (seq 0 m)).
(** 16 words per load, two accumulators each; avx2/vertical_u16_lb.rs 110-165 (m = 2),
    172-206 (m = 1). *)
Definition lo_256 (a : list Z * list Z) := (lo_w (fst a), lo_w (snd a)).
Definition hi_256 (a : list Z * list Z) := (hi_w (fst a), hi_w (snd a)).
Definition pack_256 (a c : list Z * list Z) : list Z * list Z :=
  (min_w (packus_w (srai15 (fst a)) (srai15 (fst c))) (set1_w maxc),
   min_w (packus_w (srai15 (snd a)) (srai15 (snd c))) (set1_w maxc)).
Definition column_avx (m : nat) (v_dx : nat) : outcome (list Z) :=
  stores <- foldM (fun (stores : list (list Z * list Z)) (jw : nat * Z) =>
      let p := ss * (bstart b + fst jw) + v_dx in
      rows <- seqM (map (fun i => load256w src (p + 16 * i)) (seq 0 m)) ;;
      Done (map (fun sr => dot256 (fst sr) (snd sr) (set1_w (snd jw), set1_w (snd jw)))
                (combine stores (flat_map (fun r => [lo_256 r; hi_256 r]) rows))))
    (weighted_rows b ws) (repeat (init_d, init_d) (2 * m)) ;;
  Done (flat_map (fun i => words256 (pack_256 (nth (2 * i) stores ([], [])) (nth (2 * i + 1) stores ([], [])))) (seq 0 m)).
(** avx2/vertical_u16_lb.rs 213-244: the eight words are spread over the two lanes
    (_mm256_permute4x64_epi64::<0x50>: quadwords 0, 0, 1, 1) and packed back
    (avx2_pack_u32, avx2/utils.rs 301-305: quadwords 0, 2, 1, 3). *)
Definition column_avx8 (v_dx : nat) : outcome (list Z) :=
  s <- foldM (fun (s : list Z * list Z) (jw : nat * Z) =>
      r <- loadw 8 src (ss * (bstart b + fst jw) + v_dx) ;;
      let spread := (firstn 4 r ++ firstn 4 r, skipn 4 r ++ skipn 4 r) in
      Done (dot256 s (lo_256 spread) (set1_w (snd jw), set1_w (snd jw))))
    (weighted_rows b ws) (init_d, init_d) ;;
  let pk := (packus_w (srai15 (fst s)) (repeat 0%Z 4), packus_w (srai15 (snd s)) (repeat 0%Z 4)) in
  Done (min_w (firstn 4 (fst pk) ++ firstn 4 (snd pk)) (set1_w maxc)).
(** Four samples: sse/vertical_u16_lb.rs 168-282, avx2/vertical_u16_lb.rs 251-375. *)
Definition column_4 (v_dx : nat) : outcome (list Z) :=
  s <- foldM (fun (s : list Z) (jw : nat * Z) =>
      r <- loadw 4 src (ss * (bstart b + fst jw) + v_dx) ;;
      Done (dot16 s (lo_w r) (set1_w (snd jw))))
    (weighted_rows b ws) init_d ;;
  Done (firstn 4 (min_w (packus_w (srai15 s) (srai15 s)) (set1_w maxc))).
(** One sample: sse/vertical_u16_lb.rs 288-355, avx2/vertical_u16_lb.rs 381-448. *)
Definition column_1 (v_px : nat) : outcome (list Z) :=
  s <- foldM (fun (s : Z) (jw : nat * Z) =>
      v <- idx src (ss * (bstart b + fst jw) + v_px) ;;
      Done (add32 s (mul32 v (snd jw))))
    (weighted_rows b ws) ROUNDING_CONST ;;
  Done [Z.min (Z.max (Z.shiftr s PRECISION) 0) maxc].
End FixedColumn.

(** `for (x, dst) in tail4.iter_mut().enumerate()` *)
Definition vsingles (vals : nat -> outcome (list Z)) (cx : nat) (dst : list Z) : outcome (list Z) :=
  foldM (fun d x => v <- vals (cx + x) ;; storew d x v) (seq 0 (length dst)) dst.

Definition depth_ok (depth : nat) : bool := (1 <=? depth) && (depth <=? 16).

(** convolve_column_lb_sse_u16, sse/vertical_u16_lb.rs 38-356; `assert!((1..=16).contains(&bit_depth))`
    is line 61. *)
Definition vertical_sse_u16lb (depth : nat) (b : fbound) (src dst : list Z) (ss : nat) (ws : list Z) : outcome (list Z) :=
  if depth_ok depth then
    let maxc := max_colors depth in
    '(cx, d16) <- vblocks 16 (column_sse src ss ws b maxc 2) 0 dst ;;
    '(cx, d8) <- vblocks 8 (column_sse src ss ws b maxc 1) cx (chunks_rem 16 d16) ;;
    '(cx, d4) <- vblocks 4 (column_4 src ss ws b maxc) cx (chunks_rem 8 d8) ;;
    d1 <- vsingles (column_1 src ss ws b maxc) cx (chunks_rem 4 d4) ;;
    Done (covered 16 d16 ++ covered 8 d8 ++ covered 4 d4 ++ d1)
  else Panic.
(** convolve_column_lb_avx2_u16, avx2/vertical_u16_lb.rs 39-449, assert line 94. *)
Definition vertical_avx_u16lb (depth : nat) (b : fbound) (src dst : list Z) (ss : nat) (ws : list Z) : outcome (list Z) :=
  if depth_ok depth then
    let maxc := max_colors depth in
    '(cx, d32) <- vblocks 32 (column_avx src ss ws b maxc 2) 0 dst ;;
    '(cx, d16) <- vblocks 16 (column_avx src ss ws b maxc 1) cx (chunks_rem 32 d32) ;;
    '(cx, d8) <- vblocks 8 (column_avx8 src ss ws b maxc) cx (chunks_rem 16 d16) ;;
    '(cx, d4) <- vblocks 4 (column_4 src ss ws b maxc) cx (chunks_rem 8 d8) ;;
    d1 <- vsingles (column_1 src ss ws b maxc) cx (chunks_rem 4 d4) ;;
    Done (covered 32 d32 ++ covered 16 d16 ++ covered 8 d8 ++ covered 4 d4 ++ d1)
  else Panic.

(** *** More than 12 bits: sse/vertical_u16.rs *)
Section FloatColumn.
Variables (k : mlaf_kind) (fma : bool) (src : list Z) (ss : nat) (ws : list f32) (b : fbound) (depth : nat).
(** _mm_cvtepi32_ps of zero-extended words. *)
Definition cvt (a : list Z) : mf := map u16_as_f32 a.
(** _mm_min_epi32(_mm_cvtps_epi32(s), v_max_colors) *)
Definition narrow_ps (s : mf) : list Z := map (fun v => Z.min (cvtps v) (max_colors depth)) s.
(** Lines 105-156 (m = 2), 163-196 (m = 1). *)
Definition fcolumn_sse (m : nat) (v_dx : nat) : outcome (list Z) :=
  stores <- foldM (fun (stores : list mf) (jw : nat * f32) =>
      let p := ss * (bstart b + fst jw) + v_dx in
      rows <- seqM (map (fun i => loadw 8 src (p + 8 * i)) (seq 0 m)) ;;
      Done (map (fun sr => vfma fma (fst sr) (cvt (snd sr)) (set1_ps 4 (snd jw)))
                (combine stores (flat_map (fun r => [lo_d r; hi_d r]) rows))))
    (weighted_rows b ws) (repeat (zero_ps 4) (2 * m)) ;;
  Done (flat_map (fun i => packus_w (narrow_ps (nth (2 * i) stores [])) (narrow_ps (nth (2 * i + 1) stores []))) (seq 0 m)).
(** Lines 203-339. *)
Definition fcolumn_4 (v_dx : nat) : outcome (list Z) :=
  s <- foldM (fun (s : mf) (jw : nat * f32) =>
      r <- loadw 4 src (ss * (bstart b + fst jw) + v_dx) ;;
      Done (vfma fma s (cvt (lo_d r)) (set1_ps 4 (snd jw))))
    (weighted_rows b ws) (zero_ps 4) ;;
  Done (firstn 4 (packus_w (narrow_ps s) (narrow_ps s))).
(** Lines 345-412: `mlaf` (chosen at compile time), then
    `store0.ceil().max(0.).min(max_colors as f32) as u16`, which is [to_mixed_u16]. *)
Definition fcolumn_1 (v_px : nat) : outcome (list Z) :=
  s <- foldM (fun (s : f32) (jw : nat * f32) =>
      v <- idx src (ss * (bstart b + fst jw) + v_px) ;;
      Done (mlaf k s (u16_as_f32 v) (snd jw)))
    (weighted_rows b ws) f0 ;;
  Done [to_mixed_u16 depth s].
End FloatColumn.

(** convolve_column_sse_u16, sse/vertical_u16.rs 38-413. *)
Definition vertical_sse_u16 (k : mlaf_kind) (fma : bool) (depth : nat) (b : fbound) (src dst : list Z) (ss : nat) (ws : list f32)
  : outcome (list Z) :=
  '(cx, d16) <- vblocks 16 (fcolumn_sse fma src ss ws b depth 2) 0 dst ;;
  '(cx, d8) <- vblocks 8 (fcolumn_sse fma src ss ws b depth 1) cx (chunks_rem 16 d16) ;;
  '(cx, d4) <- vblocks 4 (fcolumn_4 fma src ss ws b depth) cx (chunks_rem 8 d8) ;;
  d1 <- vsingles (fcolumn_1 k src ss ws b depth) cx (chunks_rem 4 d4) ;;
  Done (covered 16 d16 ++ covered 8 d8 ++ covered 4 d4 ++ d1).

(** ** Horizontal kernels (RGBA only) *)
(** What a kernel computes for one destination pixel: row, bounds, its chunk of weights. *)
Definition upixel (W : Type) := list Z -> fbound -> list W -> outcome (list Z).

(** The one-row iteration: sse/rgba_u16_lb.rs 321-394, sse/rgba_u16.rs 419-495,
    avx2/rgba_u16_lb.rs 402-514. *)
Definition urow {W} (pixel : upixel W) (src dst : list Z) (fw : fweights W) : outcome (list Z) :=
  ds <- chunks_exact_o 4 dst ;;
  wc <- chunks_exact_o (aligned_size fw) (weights fw) ;;
  ds' <- zip_mut (fun d bw => v <- pixel src (fst bw) (snd bw) ;; storew d 0 v) ds (combine (bounds fw) wc) ;;
  Done (unchunk ds' (chunks_rem 4 dst)).
(** The four-row iteration: sse/rgba_u16_lb.rs 187-307, sse/rgba_u16.rs 250-379,
    avx2/rgba_u16_lb.rs 169-363. *)
Definition urow4 {W} (pixel : upixel W) (src : list Z) (src_stride : nat) (dst : list Z) (dst_stride : nat) (fw : fweights W)
  : outcome (list Z) :=
  '(row0, rest) <- split_at dst_stride dst ;;
  '(row1, rest) <- split_at dst_stride rest ;;
  '(row2, row3) <- split_at dst_stride rest ;;
  i0 <- chunks_exact_o 4 row0 ;;
  i1 <- chunks_exact_o 4 row1 ;;
  i2 <- chunks_exact_o 4 row2 ;;
  i3 <- chunks_exact_o 4 row3 ;;
  wc <- chunks_exact_o (aligned_size fw) (weights fw) ;;
  let cols := zip4 i0 i1 i2 i3 in
  let bw := combine (bounds fw) wc in
  let n := Nat.min (length cols) (length bw) in
  src1 <- slice_from src src_stride ;;
  src2 <- slice_from src1 src_stride ;;
  src3 <- slice_from src2 src_stride ;;
  cols' <- zip_mut
    (fun (d : chunk4) (e : fbound * list W) =>
       let '(d0, d1, d2, d3) := d in
       v0 <- pixel src (fst e) (snd e) ;; v1 <- pixel src1 (fst e) (snd e) ;;
       v2 <- pixel src2 (fst e) (snd e) ;; v3 <- pixel src3 (fst e) (snd e) ;;
       d0' <- storew d0 0 v0 ;; d1' <- storew d1 0 v1 ;;
       d2' <- storew d2 0 v2 ;; d3' <- storew d3 0 v3 ;;
       Done (d0', d1', d2', d3'))
    (firstn n cols) bw ;;
  Done (rebuild_row 4 row0 (map (fun d => let '(a, _, _, _) := d in a) cols')
     ++ rebuild_row 4 row1 (map (fun d => let '(_, a, _, _) := d in a) cols')
     ++ rebuild_row 4 row2 (map (fun d => let '(_, _, a, _) := d in a) cols')
     ++ rebuild_row 4 row3 (map (fun d => let '(_, _, _, a) := d in a) cols')).

(** *** Up to 12 bits, SSE: sse/rgba_u16_lb.rs 37-51 (one tap), 54-74 (two), 77-110 (four),
    113-164 (eight), store 389-392. *)
Definition narrow_rgba (depth : nat) (s : list Z) : list Z :=
  firstn 4 (min_w (packus_w (srai15 s) (srai15 s)) (set1_w (max_colors depth))).
Definition rgba_sse_u16lb (depth : nat) : upixel Z := fun src b ws =>
  let at_ jx := (bstart b + jx) * 4 in
  '(jx, s) <- ftaps b 8 8 (fun s jx =>
     w0 <- idx ws jx ;; w1 <- idx ws (jx + 1) ;; w2 <- idx ws (jx + 2) ;; w3 <- idx ws (jx + 3) ;;
     w4 <- idx ws (jx + 4) ;; w5 <- idx ws (jx + 5) ;; w6 <- idx ws (jx + 6) ;; w7 <- idx ws (jx + 7) ;;
     p0 <- loadw 8 src (at_ jx) ;; p1 <- loadw 8 src (at_ jx + 8) ;;
     p2 <- loadw 8 src (at_ jx + 16) ;; p3 <- loadw 8 src (at_ jx + 24) ;;
     let s := dot16 s (hi_w p1) (set1_w w3) in
     let s := dot16 s (lo_w p1) (set1_w w2) in
     let s := dot16 s (hi_w p0) (set1_w w1) in
     let s := dot16 s (lo_w p0) (set1_w w0) in
     let s := dot16 s (hi_w p3) (set1_w w7) in
     let s := dot16 s (lo_w p3) (set1_w w6) in
     let s := dot16 s (hi_w p2) (set1_w w5) in
     Done (dot16 s (lo_w p2) (set1_w w4))) 0 init_d ;;
  '(jx, s) <- ftaps b 4 4 (fun s jx =>
     w0 <- idx ws jx ;; w1 <- idx ws (jx + 1) ;; w2 <- idx ws (jx + 2) ;; w3 <- idx ws (jx + 3) ;;
     p0 <- loadw 8 src (at_ jx) ;; p1 <- loadw 8 src (at_ jx + 8) ;;
     let s := dot16 s (hi_w p1) (set1_w w3) in
     let s := dot16 s (lo_w p1) (set1_w w2) in
     let s := dot16 s (hi_w p0) (set1_w w1) in
     Done (dot16 s (lo_w p0) (set1_w w0))) jx s ;;
  '(jx, s) <- ftaps b 2 2 (fun s jx =>
     w0 <- idx ws jx ;; w1 <- idx ws (jx + 1) ;;
     p0 <- loadw 8 src (at_ jx) ;;
     let s := dot16 s (hi_w p0) (set1_w w1) in
     Done (dot16 s (lo_w p0) (set1_w w0))) jx s ;;
  '(_, s) <- ftaps b 1 0 (fun s jx =>
     w0 <- idx ws jx ;;
     p0 <- loadw 4 src (at_ jx) ;;
     Done (dot16 s (lo_w p0) (set1_w w0))) jx s ;;
  Done (narrow_rgba depth s).

(** *** Up to 12 bits, AVX2: avx2/rgba_u16_lb.rs 39-96 (the accumulation), 181-199 and 412-430
    (the tables). *)
(** shuffle_2_table: (0,1),(8,9),(2,3),... pairs sample c of two adjacent pixels. *)
Definition pair_table : list Z := [0; 4; 1; 5; 2; 6; 3; 7]%Z.
(** shuffle_1_table *)
Definition single_table : list Z := [0; -1; 1; -1; 2; -1; 3; -1]%Z.
(** shuffle_weights_table: the first two words, four times. *)
Definition repeat_table : list Z := [0; 1; 0; 1; 0; 1; 0; 1]%Z.
(** _mm256_permutevar8x32_epi32 of a register whose upper lane is unspecified (cast from
    128 bits, modelled as zeros): doubleword i is words 2i, 2i+1. *)
Definition permute_dw (a : list Z) (i : list nat) : list Z * list Z :=
  let dwd k := [nth (2 * k) (a ++ repeat 0%Z 8) 0%Z; nth (2 * k + 1) (a ++ repeat 0%Z 8) 0%Z] in
  (flat_map dwd (firstn 4 i), flat_map dwd (skipn 4 i)).
Definition shuffle_256 (a : list Z * list Z) (m : list Z) : list Z * list Z := (shuffle_w (fst a) m, shuffle_w (snd a) m).
Definition avx_weights (a : list Z) (i : list nat) : list Z * list Z := shuffle_256 (permute_dw a i) repeat_table.
(** permute_avx_weights is (0,2,0,0,1,3,1,1) in the four-row kernel (line 187) and
    (0,0,0,0,1,1,1,1) in the one-row kernel (line 418); permute_avx_weights_hi is
    (2,2,2,2,3,3,3,3) in both (lines 199, 420). *)
Definition four_row_permute : list nat := [0; 2; 0; 0; 1; 3; 1; 1].
Definition one_row_permute : list nat := [0; 0; 0; 0; 1; 1; 1; 1].
Definition hi_permute : list nat := [2; 2; 2; 2; 3; 3; 3; 3].
Definition rgba_avx_u16lb (perm : list nat) (depth : nat) : upixel Z := fun src b ws =>
  let at_ jx := (bstart b + jx) * 4 in
  '(jx, s) <- ftaps b 8 8 (fun s jx =>
     wl <- loadw 8 ws jx ;;
     p0 <- load256w src (at_ jx) ;; p1 <- load256w src (at_ jx + 16) ;;
     let s := dot256 s (shuffle_256 p0 pair_table) (avx_weights wl perm) in
     Done (dot256 s (shuffle_256 p1 pair_table) (avx_weights wl hi_permute))) 0 (init_d, repeat 0%Z 4) ;;
  '(jx, s) <- ftaps b 4 4 (fun s jx =>
     wl <- loadw 4 ws jx ;;
     p0 <- load256w src (at_ jx) ;;
     Done (dot256 s (shuffle_256 p0 pair_table) (avx_weights wl perm))) jx s ;;
  let s := zipw add32 (fst s) (snd s) in
  '(jx, s) <- ftaps b 2 2 (fun s jx =>
     w0 <- idx ws jx ;; w1 <- idx ws (jx + 1) ;;
     p0 <- loadw 8 src (at_ jx) ;;
     Done (dot16 s (shuffle_w p0 pair_table) (shuffle_w [w0; w1; 0; 0; 0; 0; 0; 0]%Z repeat_table))) jx s ;;
  '(_, s) <- ftaps b 1 0 (fun s jx =>
     w0 <- idx ws jx ;;
     p0 <- loadw 4 src (at_ jx) ;;
     Done (dot16 s (shuffle_w p0 single_table) (shuffle_w (set1_w w0) repeat_table))) jx s ;;
  Done (narrow_rgba depth s).

(** *** More than 12 bits: sse/rgba_u16.rs 37-51 (one tap), 54-76 (two), 79-114 (four),
    117-176 (eight), store 487-493. *)
(** _mm_max_ps(s, setzero): the second operand unless the first is greater. *)
Definition max_ps (s : mf) : mf := map (fun v => if fltb f0 v then v else f0) s.
Definition rgba_sse_u16 (fma : bool) (depth : nat) : upixel f32 := fun src b ws =>
  let at_ jx := (bstart b + jx) * 4 in
  let acc s px w := vfma fma s (cvt px) (set1_ps 4 w) in
  '(jx, s) <- ftaps b 8 8 (fun s jx =>
     w0 <- idx ws jx ;; w1 <- idx ws (jx + 1) ;; w2 <- idx ws (jx + 2) ;; w3 <- idx ws (jx + 3) ;;
     w4 <- idx ws (jx + 4) ;; w5 <- idx ws (jx + 5) ;; w6 <- idx ws (jx + 6) ;; w7 <- idx ws (jx + 7) ;;
     p0 <- loadw 8 src (at_ jx) ;; p1 <- loadw 8 src (at_ jx + 8) ;;
     p2 <- loadw 8 src (at_ jx + 16) ;; p3 <- loadw 8 src (at_ jx + 24) ;;
     let s := acc s (hi_d p1) w3 in
     let s := acc s (lo_d p1) w2 in
     let s := acc s (hi_d p0) w1 in
     let s := acc s (lo_d p0) w0 in
     let s := acc s (hi_d p3) w7 in
     let s := acc s (lo_d p3) w6 in
     let s := acc s (hi_d p2) w5 in
     Done (acc s (lo_d p2) w4)) 0 (zero_ps 4) ;;
  '(jx, s) <- ftaps b 4 4 (fun s jx =>
     w0 <- idx ws jx ;; w1 <- idx ws (jx + 1) ;; w2 <- idx ws (jx + 2) ;; w3 <- idx ws (jx + 3) ;;
     p0 <- loadw 8 src (at_ jx) ;; p1 <- loadw 8 src (at_ jx + 8) ;;
     let s := acc s (hi_d p1) w3 in
     let s := acc s (lo_d p1) w2 in
     let s := acc s (hi_d p0) w1 in
     (* lines 109-113: unpackhi of the first two pixels again *)
     Done (acc s (hi_d p0) w0)) jx s ;;
  '(jx, s) <- ftaps b 2 2 (fun s jx =>
     w0 <- idx ws jx ;; w1 <- idx ws (jx + 1) ;;
     p0 <- loadw 8 src (at_ jx) ;;
     let s := acc s (lo_d p0) w0 in
     (* lines 71-75: unpacklo again *)
     Done (acc s (lo_d p0) w1)) jx s ;;
  '(_, s) <- ftaps b 1 0 (fun s jx =>
     w0 <- idx ws jx ;;
     p0 <- loadw 4 src (at_ jx) ;;
     Done (acc s (lo_d p0) w0)) jx s ;;
  let v := narrow_ps depth (max_ps s) in
  Done (firstn 4 (packus_w v v)).

(** ** Kernel selection *)
(** handle_fixed_row_4 / handle_fixed_row, handler_provider.rs 408-462, 518-546. *)
Definition u16_rows4_fixed (c : fcpu) (N depth : nat) (src : list Z) (ss : nat) (dst : list Z) (ds : nat) (fw : fweights Z)
  : outcome (list Z) :=
  if (N =? 4) && avx2 (base_cpu c) then urow4 (rgba_avx_u16lb four_row_permute depth) src ss dst ds fw
  else if (N =? 4) && sse41 (base_cpu c) then
    (if depth_ok depth then urow4 (rgba_sse_u16lb depth) src ss dst ds fw else Panic)
  else row_handler_4 N (max_colors depth) src ss dst ds fw.
Definition u16_row_fixed (c : fcpu) (N depth : nat) (src dst : list Z) (fw : fweights Z) : outcome (list Z) :=
  if (N =? 4) && avx2 (base_cpu c) then urow (rgba_avx_u16lb one_row_permute depth) src dst fw
  else if (N =? 4) && sse41 (base_cpu c) then urow (rgba_sse_u16lb depth) src dst fw
  else row_handler N (max_colors depth) src dst fw.
(** handle_row_4, handler_provider.rs 238-265: the vector kernel runs, and then (there is no
    `return`) the portable one runs over the same rows. *)
Definition u16_rows4_float (k : mlaf_kind) (c : fcpu) (N depth : nat) (src : list Z) (ss : nat) (dst : list Z) (ds : nat)
  (fw : fweights f32) : outcome (list Z) :=
  dst <- (if (N =? 4) && sse41 (base_cpu c) then urow4 (rgba_sse_u16 (has_fma c) depth) src ss dst ds fw else Done dst) ;;
  frow_handler_4 f0 fmul (mlaf k) u16_as_f32 (to_mixed_u16 depth) N src ss dst ds fw.
(** handle_row, lines 200-216. *)
Definition u16_row_float (k : mlaf_kind) (c : fcpu) (N depth : nat) (src dst : list Z) (fw : fweights f32) : outcome (list Z) :=
  if (N =? 4) && sse41 (base_cpu c) then urow (rgba_sse_u16 (has_fma c) depth) src dst fw
  else frow_handler f0 fmul (mlaf k) u16_as_f32 (to_mixed_u16 depth) N src dst fw.
(** handle_fixed_column, lines 604-649, and handle_floating_column, 134-152. *)
Definition u16_column_fixed (c : fcpu) (depth : nat) : fbound -> list Z -> list Z -> nat -> list Z -> outcome (list Z) :=
  if avx2 (base_cpu c) then vertical_avx_u16lb depth
  else if sse41 (base_cpu c) then vertical_sse_u16lb depth
  else column_handler (max_colors depth).
Definition u16_column_float (k : mlaf_kind) (c : fcpu) (depth : nat)
  : fbound -> list Z -> list Z -> nat -> list f32 -> outcome (list Z) :=
  if sse41 (base_cpu c) then vertical_sse_u16 k (has_fma c) depth
  else fcolumn_handler f0 fmul (mlaf k) u16_as_f32 (to_mixed_u16 depth).

(** convolve_horizontal_dispatch_u16 and convolve_vertical_dispatch_u16,
    dispatch_group_u16.rs 47-156, 158-312, with the selected kernels. *)
Definition x86_hconv_u16 (k : mlaf_kind) (c : fcpu) (N : nat) (fw : fweights f32) (pool : pool_t) (im into : image Z)
  : outcome (image Z) :=
  let d := bit_depth into in
  if 12 <? d then
    horizontal_dispatch N (fun src ss dst ds => u16_rows4_float k c N d src ss dst ds fw)
      (fun src dst => u16_row_float k c N d src dst fw) pool im into
  else
    approx <- numerical_approximation quant_i16 0 fw ;;
    horizontal_dispatch N (fun src ss dst ds => u16_rows4_fixed c N d src ss dst ds approx)
      (fun src dst => u16_row_fixed c N d src dst approx) pool im into.
Definition x86_vconv_u16 (k : mlaf_kind) (c : fcpu) (N : nat) (fw : fweights f32) (pool : pool_t) (im into : image Z)
  : outcome (image Z) :=
  let d := bit_depth into in
  if 12 <? d then vertical_dispatch N (u16_column_float k c d) (bounds fw) (aligned_size fw) (weights fw) pool im into
  else
    approx <- numerical_approximation quant_i16 0 fw ;;
    vertical_dispatch N (u16_column_fixed c d) (bounds fw) (aligned_size fw) (weights approx) pool im into.

Definition x86_engine_u16 (k : mlaf_kind) (c : fcpu) (L : libm) (f : resampling_function) (N : nat) pre unpre need : engine Z f32 :=
  mkEngine 0%Z true (wants_nearest f) nearest_coord (generate_weights (resampling_filter L f))
    (x86_vconv_u16 k c N) (x86_hconv_u16 k c N) pre unpre need.

(** Scaler::resize_plane_u16 (N = 1), resize_cbcr_u16 (2), resize_rgb_u16 (3) on x86-64; N = 4 is
    resize_rgba_u16 with premultiply_alpha off. *)
Definition resize_u16_x86 (k : mlaf_kind) (c : fcpu) (L : libm) (f : resampling_function) (N : nat) (pool : pool_t)
  (store into : image Z) : callres Z :=
  if N =? 4 then
    generic_resize_with_alpha N (x86_engine_u16 k c L f N (fun _ _ _ => Panic) (fun _ _ => Panic) (fun _ => Panic)) pool false store into
  else generic_resize N (x86_engine_u16 k c L f N (fun _ _ _ => Panic) (fun _ _ => Panic) (fun _ => Panic)) pool store into.
