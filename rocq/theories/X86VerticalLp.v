(** Model of the low precision x86 kernels for the vertical pass over 8-bit images:
    /repo/src/sse/vertical_u8_lp.rs and /repo/src/avx2/vertical_u8_lp.rs.

    Simplifications: the stores come in pairs, one per 16 (32) bytes loaded; a part of
    width 64 or 32 is a list of such pairs, stored one after the other; the hand-unrolled
    cases for 2, 3 and 4 rows perform the operations of the loop in the same order and
    share it.  `chunks_exact_mut(n)` over the remainder of the row is the loop over the
    positions cx with cx + n <= len. *)
From Verif Require Import Base FixedPoint Simd X86Vertical.
Local Open Scope nat_scope.

(** ROUNDING = 1 << (6 - 1) *)
Definition LP_ROUNDING : Z := 32.
Definition lp_vld : m128 := set1_epi16 LP_ROUNDING.

(** mdot, sse/vertical_u8_lp.rs 48-61. *)
Definition mdot (s : m128 * m128) (row w : m128) : m128 * m128 :=
  (add_epi16 (fst s) (mulhrs_epi16 (srli_epi16 2 (unpacklo_epi8 row row)) w),
   add_epi16 (snd s) (mulhrs_epi16 (srli_epi16 2 (unpackhi_epi8 row row)) w)).
Definition lp_pack (s : m128 * m128) : m128 := packus_epi16 (srai_epi16 6 (fst s)) (srai_epi16 6 (snd s)).

(** m256dot, avx2/vertical_u8_lp.rs 49-68. *)
Definition mdot256 (s : m256 * m256) (row w : m256) : m256 * m256 :=
  (lane2 add_epi16 (fst s) (lane2 mulhrs_epi16 (lane1 (srli_epi16 2) (lane2 unpacklo_epi8 row row)) w),
   lane2 add_epi16 (snd s) (lane2 mulhrs_epi16 (lane1 (srli_epi16 2) (lane2 unpackhi_epi8 row row)) w)).
Definition lp_pack256 (s : m256 * m256) : m256 :=
  lane2 packus_epi16 (lane1 (srai_epi16 6) (fst s)) (lane1 (srai_epi16 6) (snd s)).

(** Apply [f] to every group, numbered from i. *)
Fixpoint map_groups {G} (f : G -> nat -> outcome G) (st : list G) (i : nat) : outcome (list G) :=
  match st with
  | [] => Done []
  | g :: t => g' <- f g i ;; t' <- map_groups f t (S i) ;; Done (g' :: t')
  end.

Section Parts.
Variables (src : list Z) (src_stride : nat) (filter : list Z) (b : fbound).

(** The 64 (n = 4, lines 85-150), 32 (n = 2, lines 156-193) and 16 (n = 1, lines 198-277)
    wide parts of the SSE kernel. *)
Definition lp_sse_groups (n : nat) (dst : list Z) (px : nat) : outcome (list Z) :=
  st <- foldM
    (fun st j =>
       w <- idx filter j ;;
       map_groups (fun g i => a <- load 16 src (src_stride * (bstart b + j) + px + 16 * i) ;;
                              Done (mdot g a (set1_epi16 w))) st 0)
    (seq 0 (bsize b)) (repeat (lp_vld, lp_vld) n) ;;
  store_bytes dst px (concat (map lp_pack st)).

(** The 8 wide part, lines 282-306 (avx2: 418-441). *)
Definition lp_8 (dst : list Z) (px : nat) : outcome (list Z) :=
  s <- foldM
    (fun s j =>
       w <- idx filter j ;;
       a <- load 8 src (src_stride * (bstart b + j) + px) ;;
       Done (add_epi16 s (mulhrs_epi16 (srli_epi16 2 (unpacklo_epi8 a a)) (set1_epi16 w))))
    (seq 0 (bsize b)) lp_vld ;;
  let rebased := srai_epi16 6 s in
  store_bytes dst px (firstn 8 (packus_epi16 rebased rebased)).

(** The last part, lines 311-336 (avx2: 446-472): the byte is broadcast and the result's
    first byte kept. *)
Definition lp_1 (dst : list Z) (px : nat) : outcome (list Z) :=
  s <- foldM
    (fun s j =>
       w <- idx filter j ;;
       v <- idx src (src_stride * (bstart b + j) + px) ;;
       let a := set1_epi8 v in
       Done (add_epi16 s (mulhrs_epi16 (srli_epi16 2 (unpacklo_epi8 a a)) (set1_epi16 w))))
    (seq 0 (bsize b)) lp_vld ;;
  let rebased := srai_epi16 6 s in
  store_bytes dst px (firstn 1 (packus_epi16 rebased rebased)).

(** The 64 (n = 2, avx2 lines 92-219) and 32 (n = 1, lines 225-307) wide parts of the AVX2
    kernel. *)
Definition lp_avx_groups (n : nat) (dst : list Z) (px : nat) : outcome (list Z) :=
  st <- foldM
    (fun st j =>
       w <- idx filter j ;;
       map_groups (fun g i => a <- load256 src (src_stride * (bstart b + j) + px + 32 * i) ;;
                              Done (mdot256 g a (both (set1_epi16 w)))) st 0)
    (seq 0 (bsize b)) (repeat (both lp_vld, both lp_vld) n) ;;
  store_bytes dst px (concat (map (fun g => bytes256 (lp_pack256 g)) st)).

(** The 16 wide part of the AVX2 kernel, lines 312-341; permute4x64::<0x50>. *)
Definition lp_avx_16 (dst : list Z) (px : nat) : outcome (list Z) :=
  s <- foldM
    (fun s j =>
       w <- idx filter j ;;
       a <- load 16 src (src_stride * (bstart b + j) + px) ;;
       let row := permute4x64 1 1 0 0 (cast256 a) in
       Done (lane2 add_epi16 s (lane2 mulhrs_epi16 (lane1 (srli_epi16 2) (lane2 unpacklo_epi8 row row))
                                  (both (set1_epi16 w)))))
    (seq 0 (bsize b)) (both lp_vld) ;;
  let r := lane1 (srai_epi16 6) s in
  let packed := permute4x64 3 1 2 0 (lane2 packus_epi16 r r) in   (* avx2_pack_u16, utils.rs 294-298 *)
  store_bytes dst px (fst packed).
End Parts.

(** convolve_vertical_sse_row_impl, sse/vertical_u8_lp.rs 63-337. *)
Definition vertical_sse_row_lp (b : fbound) (src dst : list Z) (src_stride : nat) (ws : list Z)
  : outcome (list Z) :=
  let total := length dst in
  '(cx, dst) <- while_tiles total 64 63 total (lp_sse_groups src src_stride ws b 4) 0 dst ;;
  '(cx, dst) <- while_tiles total 32 31 total (lp_sse_groups src src_stride ws b 2) cx dst ;;
  '(cx, dst) <- while_tiles total 16 15 total (lp_sse_groups src src_stride ws b 1) cx dst ;;
  '(cx, dst) <- while_tiles total 8 7 total (lp_8 src src_stride ws b) cx dst ;;
  '(_, dst) <- while_tiles total 1 0 total (lp_1 src src_stride ws b) cx dst ;;
  Done dst.

(** convolve_vertical_avx2_row_impl, avx2/vertical_u8_lp.rs 70-473. *)
Definition vertical_avx_row_lp (b : fbound) (src dst : list Z) (src_stride : nat) (ws : list Z)
  : outcome (list Z) :=
  let total := length dst in
  '(cx, dst) <- while_tiles total 64 63 total (lp_avx_groups src src_stride ws b 2) 0 dst ;;
  '(cx, dst) <- while_tiles total 32 31 total (lp_avx_groups src src_stride ws b 1) cx dst ;;
  '(cx, dst) <- while_tiles total 16 15 total (lp_avx_16 src src_stride ws b) cx dst ;;
  '(cx, dst) <- while_tiles total 8 7 total (lp_8 src src_stride ws b) cx dst ;;
  '(_, dst) <- while_tiles total 1 0 total (lp_1 src src_stride ws b) cx dst ;;
  Done dst.
