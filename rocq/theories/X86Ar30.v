(** Model of the x86 kernels for the packed 30-bit formats:
    /repo/src/sse/u8_utils.rs 66-350, /repo/src/sse/horizontal_ar30.rs,
    /repo/src/sse/vertical_ar30.rs, and of the choice between them and the portable ones,
    /repo/src/dispatch_group_ar30.rs (x86-64, feature sse).  There is no AVX2 kernel. *)
From Verif Require Import Base ImageStore ColorGroup FixedPoint Dispatch Resize F32 Weights Sampler Api Ar30
  Simd X86Vertical X86VerticalLp X86Horizontal.
Local Open Scope Z_scope.

(** ** Further intrinsics, read as in Simd.v.
    The bitwise operations are given on 32-bit lanes (any partition gives the same bytes). *)
Definition and_si128 (a b : m128) : m128 := of_dwords (zipw Z.land (dwords a) (dwords b)).
Definition or_si128 (a b : m128) : m128 := of_dwords (zipw Z.lor (dwords a) (dwords b)).
Definition srli_epi32 (n : Z) (a : m128) : m128 := of_dwords (map (fun x => x / 2 ^ n) (dwords a)).
Definition slli_epi32 (n : Z) (a : m128) : m128 := of_dwords (map (fun x => x * 2 ^ n) (dwords a)).
Definition min_epi16 (a b : m128) : m128 := of_words (zipw Z.min (swords a) (swords b)).
Definition unpacklo_epi64 (a b : m128) : m128 := firstn 8 a ++ firstn 8 b.
(** 64-bit lanes. *)
Fixpoint pair_up (l : list Z) : list Z :=
  match l with a :: b :: t => a + 2 ^ 32 * b :: pair_up t | _ => [] end.
Definition qwords (a : m128) : list Z := pair_up (dwords a).
Definition of_qwords (l : list Z) : m128 := of_dwords (flat_map (fun q => [q; q / 2 ^ 32]) l).
Definition set1_epi64x (x : Z) : m128 := of_qwords [x; x].
Definition srli_epi64 (n : Z) (a : m128) : m128 := of_qwords (map (fun x => x / 2 ^ n) (qwords a)).
Definition slli_epi64 (n : Z) (a : m128) : m128 := of_qwords (map (fun x => x * 2 ^ n) (qwords a)).

Section Format.
Variables (t : rgb30) (o : byte_order).

(** ** Unpacking and packing *)

(** _mm_rev128_epi32, u8_utils.rs 66-70. *)
Definition rev128 (v : m128) : m128 := shuffle_epi8 v (setr_epi8 [3;2;1;0;7;6;5;4;11;10;9;8;15;14;13;12]).
(** The reversal both unzip functions begin with (79-83, 254-258). *)
Definition host_order (v : m128) : m128 := match o with HostOrder => v | NetworkOrder => rev128 v end.
Definition mask10 : m128 := set1_epi32 1023.
(** The red, green and blue lanes of four pixels (85-109, 260-288): in AR30 the red lanes are
    masked without a shift. *)
Definition lanes30 (v : m128) : m128 * m128 * m128 :=
  match t with
  | Ar30 => (and_si128 v mask10, and_si128 (srli_epi32 10 v) mask10, and_si128 (srli_epi32 20 v) mask10)
  | Ra30 => (and_si128 (srli_epi32 22 v) mask10, and_si128 (srli_epi32 12 v) mask10, and_si128 (srli_epi32 2 v) mask10)
  end.
(** _mm_unzip_3_ar30, 72-110: eight pixels. *)
Definition unzip_3 (l0 l1 : m128) : m128 * m128 * m128 :=
  let '(r0, g0, b0) := lanes30 (host_order l0) in
  let '(r1, g1, b1) := lanes30 (host_order l1) in
  (packus_epi32 r0 r1, packus_epi32 g0 g1, packus_epi32 b0 b1).
(** _mm_unzips_3_ar30, 247-290: four pixels, each half of a register holding all four. *)
Definition unzips_3 (v : m128) : m128 * m128 * m128 :=
  let '(r, g, b) := lanes30 (host_order v) in
  (packus_epi32 r r, packus_epi32 g g, packus_epi32 b b).
(** The interleaving shared by _mm_unzip_4_ar30_separate (323-350) and
    _mm_unzips_4_ar30_separate (292-320): (k0, k1, k2, k3). *)
Definition interleave4 (r g b : m128) : m128 * m128 * m128 * m128 :=
  let a := set1_epi16 3 in
  let a00 := unpacklo_epi16 r g in let a01 := unpackhi_epi16 r g in
  let a10 := unpacklo_epi16 b a in let a11 := unpackhi_epi16 b a in
  let v10 := unpacklo_epi32 a00 a10 in let v11 := unpackhi_epi32 a00 a10 in
  let v20 := unpacklo_epi32 a01 a11 in let v21 := unpackhi_epi32 a01 a11 in
  (v10, v20, v11, v21).
Definition unzip_4_separate (l0 l1 : m128) : m128 * m128 * m128 * m128 :=
  let '(r, g, b) := unzip_3 l0 l1 in interleave4 r g b.
Definition unzips_4_separate (v : m128) : m128 * m128 :=
  let '(r, g, b) := unzips_3 v in
  let '(k0, k1, k2, k3) := interleave4 r g b in
  (unpacklo_epi64 k0 k1, unpacklo_epi64 k2 k3).
(** _mm_ld1_ar30_s16, 233-245. *)
Definition ld1 (src : list Z) (off : nat) : outcome m128 :=
  b0 <- idx src off ;; b1 <- idx src (off + 1) ;; b2 <- idx src (off + 2) ;; b3 <- idx src (off + 3) ;;
  let v := unpack t o (word_of_bytes b0 b1 b2 b3) in
  Done (of_words [cr v; cgr v; cb v; 1023; 0; 0; 0; 0]).
(** _mm_zip_4_ar30, 112-192: one of the two halves (the low halves give .0, the high .1). *)
Definition zip_half (unpack16 : m128 -> m128 -> m128) (r g b : m128) : m128 :=
  let r' := unpack16 r zeros in let g' := unpack16 g zeros in let b' := unpack16 b zeros in
  let a := match t with
           | Ar30 => or_si128 (or_si128 (or_si128 (set1_epi32 (Z.shiftl 3 30)) (slli_epi32 20 b')) (slli_epi32 10 g')) r'
           | Ra30 => or_si128 (or_si128 (or_si128 (set1_epi32 3) (slli_epi32 22 r')) (slli_epi32 12 g')) (slli_epi32 2 b')
           end in
  host_order a.
(** _mm_extract_ar30, 194-231: the pixel of the low 64 bits. *)
Definition extract (v : m128) : m128 :=
  let v_mask := set1_epi64x 1023 in
  let r := and_si128 v v_mask in
  let g := and_si128 (srli_epi64 16 v) v_mask in
  let b := and_si128 (srli_epi64 32 v) v_mask in
  let a := match t with
           | Ar30 => or_si128 (or_si128 (or_si128 (set1_epi64x (Z.shiftl 3 30)) (slli_epi64 20 b)) (slli_epi64 10 g)) r
           | Ra30 => or_si128 (or_si128 (or_si128 (set1_epi64x 3) (slli_epi64 2 b)) (slli_epi64 12 g)) (slli_epi64 22 r)
           end in
  host_order a.

(** ** Rows: horizontal_ar30.rs *)

Definition sh1 : m128 := setr_epi8 [0;1;8;9;2;3;10;11;4;5;12;13;6;7;14;15].
(** conv_horiz_rgba_1_u8_i16, 37-50. *)
Definition conv1 (start_x : nat) (src : list Z) (w s : m128) : outcome m128 :=
  ld <- ld1 src (start_x * 4) ;;
  Done (add_epi32 s (madd_epi16 (unpacklo_epi16 ld zeros) w)).
(** conv_horiz_rgba_8_u8_i16, 52-80. *)
Definition conv8 (start_x : nat) (src : list Z) (w0 w1 w2 w3 s : m128) : outcome m128 :=
  l0 <- load 16 src (start_x * 4) ;;
  l1 <- load 16 src (start_x * 4 + 16) ;;
  let '(p0, p1, p2, p3) := unzip_4_separate l0 l1 in
  let v := add_epi32 s (madd_epi16 (shuffle_epi8 p0 sh1) w0) in
  let v := add_epi32 v (madd_epi16 (shuffle_epi8 p1 sh1) w1) in
  let v := add_epi32 v (madd_epi16 (shuffle_epi8 p2 sh1) w2) in
  Done (add_epi32 v (madd_epi16 (shuffle_epi8 p3 sh1) w3)).
(** conv_horiz_rgba_4_u8_i16, 82-103. *)
Definition conv4 (start_x : nat) (src : list Z) (w0 w1 s : m128) : outcome m128 :=
  l <- load 16 src (start_x * 4) ;;
  let '(p0, p1) := unzips_4_separate l in
  let v := add_epi32 s (madd_epi16 (shuffle_epi8 p0 sh1) w0) in
  Done (add_epi32 v (madd_epi16 (shuffle_epi8 p1 sh1) w1)).

(** One destination pixel.  The four-row kernel (128-309) has PRECISION 15 and cuts with
    set1_epi16(1023); the one-row kernel (326-413) has PRECISION 16 and cuts with
    set1_epi32(1023).  The rows of the four-row kernel are independent (see X86Horizontal.v). *)
Definition pixel30 (prec : Z) (cut : m128) : pixel_fn := fun src b ws =>
  let init := set1_epi32 (2 ^ (prec - 1) - 1) in
  '(jx, s) <- taps b 8 8 (fun s jx =>
     w0 <- read_pair ws jx ;; w1 <- read_pair ws (jx + 2) ;;
     w2 <- read_pair ws (jx + 4) ;; w3 <- read_pair ws (jx + 6) ;;
     conv8 (bstart b + jx) src (set1_epi32 w0) (set1_epi32 w1) (set1_epi32 w2) (set1_epi32 w3) s) 0%nat init ;;
  '(jx, s) <- taps b 4 4 (fun s jx =>
     w0 <- read_pair ws jx ;; w1 <- read_pair ws (jx + 2) ;;
     conv4 (bstart b + jx) src (set1_epi32 w0) (set1_epi32 w1) s) jx s ;;
  '(_, s) <- taps b 1 0 (fun s jx =>
     w <- idx ws jx ;;
     conv1 (bstart b + jx) src (set1_epi16 w) s) jx s ;;
  let v := srai_epi32 prec s in
  let v := packus_epi32 v v in
  let v := min_epi16 v cut in
  (* _mm_storeu_si32 *)
  Done (firstn 4 (extract v)).
Definition pixel30_4 : pixel_fn := pixel30 15 (set1_epi16 1023).
Definition pixel30_1 : pixel_fn := pixel30 16 (set1_epi32 1023).

(** ** Columns: vertical_ar30.rs *)

Definition reg2 := (m128 * m128)%type.
(** 73-96, 148-171: one channel of eight pixels and one weight. *)
Definition acc2 (w : m128) (v : reg2) (p : m128) : reg2 :=
  (add_epi32 (fst v) (madd_epi16 (unpacklo_epi16 p zeros) w),
   add_epi32 (snd v) (madd_epi16 (unpackhi_epi16 p zeros) w)).
(** The two loads of [n] <= 8 pixels: 67-70 for n = 8; 139-146 copy n pixels into a zeroed
    array of eight and load that.  The array is not cleared between rows, but every row
    rewrites the same n pixels. *)
Definition load_px (n : nat) (src : list Z) (off : nat) : outcome reg2 :=
  if (off + n * 4 <=? length src)%nat
  then let p := firstn (n * 4) (skipn off src) ++ repeat 0 (32 - n * 4) in Done (firstn 16 p, skipn 16 p)
  else Panic.
Definition col_taps (n : nat) (src : list Z) (src_stride : nat) (filter : list Z) (b : fbound) (x : nat)
  : outcome (reg2 * reg2 * reg2) :=
  let rnd := set1_epi32 (2 ^ (15 - 1) - 1) in
  let ws := firstn (bsize b) filter in
  foldM (fun st jw =>
           let '(j, w) := jw in
           let '(r, g, bl) := st in
           let weight := set1_epi16 w in
           '(l0, l1) <- load_px n src (src_stride * (bstart b + j) + x * 4) ;;
           let '(pr, pg, pb) := unzip_3 l0 l1 in
           Done (acc2 weight r pr, acc2 weight g pg, acc2 weight bl pb))
        (combine (seq 0 (length ws)) ws) ((rnd, rnd), (rnd, rnd), (rnd, rnd)).
(** 99-115, 174-189 *)
Definition col_out (v : reg2) : m128 :=
  min_epi16 (packus_epi32 (srai_epi32 15 (fst v)) (srai_epi32 15 (snd v))) (set1_epi16 1023).
Definition col_block (n : nat) (src : list Z) (src_stride : nat) (dst filter : list Z) (b : fbound) (x : nat)
  : outcome (list Z) :=
  '(r, g, bl) <- col_taps n src src_stride filter b x ;;
  let bytes := zip_half unpacklo_epi16 (col_out r) (col_out g) (col_out bl) ++
               zip_half unpackhi_epi16 (col_out r) (col_out g) (col_out bl) in
  store_bytes dst (x * 4) (firstn (n * 4) bytes).
(** sse_column_handler_fixed_point_ar30_impl, 47-197. *)
Definition ar_column_sse (b : fbound) (src dst : list Z) (src_stride : nat) (weight : list Z) : outcome (list Z) :=
  let total := (length dst / 4)%nat in
  '(cx, dst) <- while_tiles total 8 8 total
      (fun d cx => col_block 8 src src_stride d weight b cx) 0%nat dst ;;
  if (cx <? total)%nat then col_block (total - cx) src src_stride dst weight b cx else Done dst.

(** ** Dispatch: dispatch_group_ar30.rs.  [sse] is is_x86_feature_detected!("sse4.1"). *)
Variable sse : bool.
Definition ar_hpass_x86 {F} (q : F -> Z) (fw : fweights F) (pool : pool_t) (src : list Z) (src_stride : nat)
  (dst : list Z) (dst_stride : nat) : outcome (list Z) :=
  approx <- numerical_approximation q 0 fw ;;
  im <- horizontal_dispatch 4
    (fun src ss dst ds => if sse then hrow4 4 pixel30_4 src ss dst ds approx else ar_row_handler_4 t o src ss dst ds approx)
    (fun src dst => if sse then hrow 4 pixel30_1 src dst approx else ar_row_handler t o src dst approx)
    pool (byte_image src 0 0 src_stride) (byte_image dst 0 0 dst_stride) ;;
  Done (buf im).
Definition ar_vpass_x86 {F} (q : F -> Z) (fw : fweights F) (pool : pool_t) (src : list Z) (src_stride : nat)
  (dst : list Z) (dst_stride width : nat) : outcome (list Z) :=
  approx <- numerical_approximation q 0 fw ;;
  im <- vertical_dispatch 4
    (fun b src dst ss w => if sse then ar_column_sse b src dst ss w else ar_column_handler t o b src dst ss w)
    (bounds approx) (aligned_size approx) (weights approx) pool
    (byte_image src 0 0 src_stride) (byte_image dst width 0 dst_stride) ;;
  Done (buf im).

(** resize_ar30_impl, resize_ar30.rs 38-167, with these passes. *)
Definition resize_ar30_impl_x86 (L : libm) (f : resampling_function) (pool : pool_t)
  (src : list Z) (src_stride sw sh : nat) (dst : list Z) (dst_stride dw dh : nat) : bytes_res :=
  btry (ar_checks src src_stride sw sh dst dst_stride dw dh) dst (fun _ =>
  if (sw =? dw)%nat && (sh =? dh)%nat then
    BytesReturned Ok (copy_row dst src)
  else if wants_nearest f then
    btry (resize_nearest 4 nearest_coord src src_stride sh dst dst_stride dh pool) dst
         (fun d => BytesReturned Ok d)
  else
    let do_h := negb (sw =? dw)%nat in
    let do_v := negb (sh =? dh)%nat in
    let gen := generate_weights (resampling_filter L f) in
    if do_v && negb do_h then
      btry (ar_vpass_x86 quant_i16 (gen sh dh) pool src src_stride dst src_stride sw) dst
           (fun d => BytesReturned Ok d)
    else if do_h && do_v then
      let target := repeat 0 (wmul (wmul sw dh) 4) in
      btry (ar_vpass_x86 quant_i16 (gen sh dh) pool src src_stride target (wmul sw 4) sw) dst (fun target =>
      btry (ar_hpass_x86 quant_i16 (gen sw dw) pool target (wmul sw 4) dst dst_stride) dst
           (fun d => BytesReturned Ok d))
    else
      btry (ar_hpass_x86 quant_i16 (gen sw dw) pool src src_stride dst dst_stride) dst
           (fun d => BytesReturned Ok d)).
End Format.

(** Scaler::resize_ar30 and Scaler::resize_ra30, scaler.rs 1131-1187, on x86-64. *)
Definition resize_ar30_x86 (sse : bool) (L : libm) (f : resampling_function) (pool : pool_t) (src : list Z) (src_stride sw sh : nat)
  (dst : list Z) (dst_stride dw dh : nat) (order : byte_order) : bytes_res :=
  resize_ar30_impl_x86 Ar30 order sse L f pool src src_stride sw sh dst dst_stride dw dh.
Definition resize_ra30_x86 (sse : bool) (L : libm) (f : resampling_function) (pool : pool_t) (src : list Z) (src_stride sw sh : nat)
  (dst : list Z) (dst_stride dw dh : nat) (order : byte_order) : bytes_res :=
  resize_ar30_impl_x86 Ra30 order sse L f pool src src_stride sw sh dst dst_stride dw dh.
