(** Model of the x86 vector kernels for the vertical pass over 8-bit images:
    /repo/src/sse/vertical_u8.rs and /repo/src/avx2/vertical_u8.rs.

    Simplifications: the accumulators store_0..store_7 are kept as groups of four
    (`quad`), since every group is only ever combined with one 16 (32) byte load;
    the hand-unrolled cases for windows of 2, 3 and 4 rows in the 8-wide and 1-wide
    parts perform the same operations in the same order as the loop of the other
    sizes and share it.  _mm256_dot16_avx_epi32 without the nightly_avx512 feature
    (avx2/utils.rs) is add(madd). *)
From Verif Require Import Base FixedPoint Simd.
Local Open Scope nat_scope.

Definition quad := (m128 * m128 * m128 * m128)%type.
Definition vld : m128 := set1_epi32 ROUNDING_CONST.
Definition quad_vld : quad := (vld, vld, vld, vld).

(** add_epi32(store, madd_epi16(pix, w)) *)
Definition dot16 (store pix w : m128) : m128 := add_epi32 store (madd_epi16 pix w).

(** The four products of one interleaved 32 byte pair of rows; with [b] = zeros this is
    dot_prod, sse/vertical_u8.rs 38-60; with two source rows it is the body of the
    paired loop, lines 94-103 and 108-117. *)
Definition dot_quad (q : quad) (a b w : m128) : quad :=
  let '(s0, s1, s2, s3) := q in
  let lo := unpacklo_epi8 a b in
  let hi := unpackhi_epi8 a b in
  (dot16 s0 (unpacklo_epi8 lo zeros) w,
   dot16 s1 (unpackhi_epi8 lo zeros) w,
   dot16 s2 (unpacklo_epi8 hi zeros) w,
   dot16 s3 (unpackhi_epi8 hi zeros) w).

(** packs_epi32 twice, packus_epi16. *)
Definition pack_quad (q : quad) : m128 :=
  let '(s0, s1, s2, s3) := q in packus_epi16 (packs_epi32 s0 s1) (packs_epi32 s2 s3).
Definition srai_quad (q : quad) : quad :=
  let '(s0, s1, s2, s3) := q in
  (srai_epi32 PRECISION s0, srai_epi32 PRECISION s1, srai_epi32 PRECISION s2, srai_epi32 PRECISION s3).

Section Parts.
Variables (src : list Z) (src_stride : nat) (filter : list Z) (b : fbound).

(** convolve_vertical_part_sse_32, sse/vertical_u8.rs 62-155.  The stores are packed
    without the shift by PRECISION that every other part applies. *)
Definition part_sse_32 (dst : list Z) (px : nat) : outcome (list Z) :=
  '(jj, st) <- while_tiles (bsize b) 2 0 (bsize b - 2)
    (fun (st : quad * quad) jj =>
       let '(q0, q1) := st in
       let p := src_stride * (bstart b + jj) + px in
       w <- read_pair filter jj ;;
       let w := set1_epi32 w in
       a0 <- load 16 src p ;; a1 <- load 16 src (p + src_stride) ;;
       b0 <- load 16 src (p + 16) ;; b1 <- load 16 src (p + src_stride + 16) ;;
       Done (dot_quad q0 a0 a1 w, dot_quad q1 b0 b1 w)) 0 (quad_vld, quad_vld) ;;
  st <- foldM
    (fun (st : quad * quad) j =>
       let '(q0, q1) := st in
       let p := src_stride * (bstart b + j) + px in
       w <- idx filter j ;;
       let w := set1_epi32 w in
       a <- load 16 src p ;; c <- load 16 src (p + 16) ;;
       Done (dot_quad q0 a zeros w, dot_quad q1 c zeros w)) (seq jj (bsize b - jj)) st ;;
  let '(q0, q1) := st in
  dst <- store_bytes dst px (pack_quad q0) ;;
  store_bytes dst (px + 16) (pack_quad q1).

(** convolve_vertical_part_sse_16, lines 157-206. *)
Definition part_sse_16 (dst : list Z) (px : nat) : outcome (list Z) :=
  q <- foldM
    (fun q j =>
       w <- idx filter j ;;
       a <- load 16 src (src_stride * (bstart b + j) + px) ;;
       Done (dot_quad q a zeros (set1_epi32 w))) (seq 0 (bsize b)) quad_vld ;;
  store_bytes dst px (pack_quad (srai_quad q)).

(** convolve_vertical_part_sse_8, lines 208-366. *)
Definition part_sse_8 (dst : list Z) (px : nat) : outcome (list Z) :=
  '(s0, s1) <- foldM
    (fun (s : m128 * m128) j =>
       let '(s0, s1) := s in
       w <- idx filter j ;;
       a <- load 8 src (src_stride * (bstart b + j) + px) ;;
       let low := unpacklo_epi8 a zeros in
       let w := set1_epi16 w in
       Done (dot16 s0 (unpacklo_epi16 low zeros) w, dot16 s1 (unpackhi_epi16 low zeros) w))
    (seq 0 (bsize b)) (vld, vld) ;;
  let low_16 := packus_epi32 (srai_epi32 PRECISION s0) (srai_epi32 PRECISION s1) in
  store_bytes dst px (firstn 8 (packus_epi16 low_16 low_16)).

(** convolve_vertical_part_sse, lines 368-472.  The weight is broadcast as 16-bit
    lanes for 2 to 4 rows and as a 32-bit lane otherwise; _mm_insert_epi8::<0> of one
    byte into a zero register is a one byte load. *)
Definition part_sse_1 (dst : list Z) (px : nat) : outcome (list Z) :=
  let bc w := if (2 <=? bsize b) && (bsize b <=? 4) then set1_epi16 w else set1_epi32 w in
  s <- foldM
    (fun s j =>
       w <- idx filter j ;;
       a <- load 1 src (src_stride * (bstart b + j) + px) ;;
       Done (dot16 s a (bc w))) (seq 0 (bsize b)) vld ;;
  let vegi := srai_epi32 PRECISION s in
  let low_16 := packus_epi32 vegi vegi in
  store_bytes dst px (firstn 1 (packus_epi16 low_16 low_16)).

(** convolve_vertical_part_avx_64, avx2/vertical_u8.rs 60-165: 256-bit registers are
    pairs of lanes, a quad of them is two quads. *)
Definition dot256 (store pix w : m256) : m256 := lane2 add_epi32 store (lane2 madd_epi16 pix w).
Definition quad256 := (m256 * m256 * m256 * m256)%type.
Definition quad256_vld : quad256 := (both vld, both vld, both vld, both vld).
(** dot_prod, lines 37-58, and the body of the paired loop, lines 102-111. *)
Definition dot_quad256 (q : quad256) (a c w : m256) : quad256 :=
  let '(s0, s1, s2, s3) := q in
  let z := both zeros in
  let lo := lane2 unpacklo_epi8 a c in
  let hi := lane2 unpackhi_epi8 a c in
  (dot256 s0 (lane2 unpacklo_epi8 lo z) w,
   dot256 s1 (lane2 unpackhi_epi8 lo z) w,
   dot256 s2 (lane2 unpacklo_epi8 hi z) w,
   dot256 s3 (lane2 unpackhi_epi8 hi z) w).
Definition pack_quad256 (q : quad256) : m256 :=
  let '(s0, s1, s2, s3) := q in
  let sh := lane1 (srai_epi32 PRECISION) in
  lane2 packus_epi16 (lane2 packs_epi32 (sh s0) (sh s1)) (lane2 packs_epi32 (sh s2) (sh s3)).

Definition part_avx_64 (dst : list Z) (px : nat) : outcome (list Z) :=
  '(jj, st) <- while_tiles (bsize b) 2 0 (bsize b - 2)
    (fun (st : quad256 * quad256) jj =>
       let '(q0, q1) := st in
       let p := src_stride * (bstart b + jj) + px in
       w <- read_pair filter jj ;;
       let w := both (set1_epi32 w) in
       a0 <- load256 src p ;; a1 <- load256 src (p + src_stride) ;;
       b0 <- load256 src (p + 32) ;; b1 <- load256 src (p + src_stride + 32) ;;
       Done (dot_quad256 q0 a0 a1 w, dot_quad256 q1 b0 b1 w)) 0 (quad256_vld, quad256_vld) ;;
  st <- foldM
    (fun (st : quad256 * quad256) j =>
       let '(q0, q1) := st in
       let p := src_stride * (bstart b + j) + px in
       w <- idx filter j ;;
       let w := both (set1_epi16 w) in
       a <- load256 src p ;; c <- load256 src (p + 32) ;;
       Done (dot_quad256 q0 a (both zeros) w, dot_quad256 q1 c (both zeros) w))
    (seq jj (bsize b - jj)) st ;;
  let '(q0, q1) := st in
  dst <- store_bytes dst px (bytes256 (pack_quad256 q0)) ;;
  store_bytes dst (px + 32) (bytes256 (pack_quad256 q1)).

(** convolve_vertical_part_avx_32, lines 167-213. *)
Definition part_avx_32 (dst : list Z) (px : nat) : outcome (list Z) :=
  q <- foldM
    (fun q j =>
       w <- idx filter j ;;
       a <- load256 src (src_stride * (bstart b + j) + px) ;;
       Done (dot_quad256 q a (both zeros) (both (set1_epi16 w)))) (seq 0 (bsize b)) quad256_vld ;;
  store_bytes dst px (bytes256 (pack_quad256 q)).

(** convolve_vertical_part_8_avx, lines 215-262. *)
Definition part_avx_8 (dst : list Z) (px : nat) : outcome (list Z) :=
  s <- foldM
    (fun s j =>
       w <- idx filter j ;;
       a <- load 8 src (src_stride * (bstart b + j) + px) ;;
       Done (dot256 s (cvtepu16_epi32 (unpacklo_epi8 a zeros)) (both (set1_epi16 w))))
    (seq 0 (bsize b)) (both vld) ;;
  let low_16 := permute4x64 3 1 2 0 (lane2 packus_epi32 (lane1 (srai_epi32 PRECISION) s) (both zeros)) in
  let item := permute4x64 3 1 2 0 (lane2 packus_epi16 low_16 low_16) in
  store_bytes dst px (firstn 8 (fst item)).

(** convolve_vertical_part_avx, lines 264-345: one byte in lane 0. *)
Definition part_avx_1 (dst : list Z) (px : nat) : outcome (list Z) :=
  s <- foldM
    (fun s j =>
       w <- idx filter j ;;
       a <- load 1 src (src_stride * (bstart b + j) + px) ;;
       Done (dot256 s (a, zeros) (both (set1_epi16 w)))) (seq 0 (bsize b)) (both vld) ;;
  let low_16 := lane2 packus_epi32 (lane1 (srai_epi32 PRECISION) s) (both zeros) in
  let item := lane2 packus_epi16 low_16 low_16 in
  store_bytes dst px (firstn 1 (fst item)).
End Parts.

(** convolve_vertical_sse_row_impl, sse/vertical_u8.rs 487-533. *)
Definition vertical_sse_row (b : fbound) (src dst : list Z) (src_stride : nat) (ws : list Z)
  : outcome (list Z) :=
  let total := length dst in
  '(cx, dst) <- while_tiles total 32 32 total (part_sse_32 src src_stride ws b) 0 dst ;;
  '(cx, dst) <- while_tiles total 16 16 total (part_sse_16 src src_stride ws b) cx dst ;;
  '(cx, dst) <- while_tiles total 8 8 total (part_sse_8 src src_stride ws b) cx dst ;;
  '(_, dst) <- while_tiles total 1 0 total (part_sse_1 src src_stride ws b) cx dst ;;
  Done dst.

(** convolve_vertical_avx_row_impl, avx2/vertical_u8.rs 386-462. *)
Definition vertical_avx_row (b : fbound) (src dst : list Z) (src_stride : nat) (ws : list Z)
  : outcome (list Z) :=
  let total := length dst in
  '(cx, dst) <- while_tiles total 64 64 total (part_avx_64 src src_stride ws b) 0 dst ;;
  '(cx, dst) <- while_tiles total 32 32 total (part_avx_32 src src_stride ws b) cx dst ;;
  '(cx, dst) <- while_tiles total 8 8 total (part_avx_8 src src_stride ws b) cx dst ;;
  '(_, dst) <- while_tiles total 1 0 total (part_avx_1 src src_stride ws b) cx dst ;;
  Done dst.
