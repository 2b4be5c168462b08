(** Model of the packed 30-bit formats: /repo/src/ar30.rs, the load/saturate/pack
    helpers of /repo/src/color_group.rs 164-181 and 417-465, the portable kernels
    /repo/src/fixed_point_horizontal_ar30.rs and /repo/src/fixed_point_vertical_ar30.rs,
    /repo/src/dispatch_group_ar30.rs and /repo/src/resize_ar30.rs.

    A little-endian host is assumed: `from_ne_bytes`/`to_ne_bytes` put the low byte first,
    `to_be`/`from_be` swap the four bytes. *)
From Coq Require Import ZArith List Bool.
From Verif Require Import Base ImageStore ColorGroup FixedPoint Dispatch Resize F32 Weights Sampler Api.
Import ListNotations.
Local Open Scope Z_scope.

(** enum Rgb30, ar30.rs 30-34; enum Ar30ByteOrder, 108-116. *)
Inductive rgb30 := Ar30 | Ra30.
Inductive byte_order := HostOrder | NetworkOrder.

(** u32::from_ne_bytes and u32::to_ne_bytes. *)
Definition word_of_bytes (b0 b1 b2 b3 : Z) : Z :=
  Z.lor b0 (Z.lor (Z.shiftl b1 8) (Z.lor (Z.shiftl b2 16) (Z.shiftl b3 24))).
Definition bytes_of_word (w : Z) : list Z :=
  [Z.land w 255; Z.land (Z.shiftr w 8) 255; Z.land (Z.shiftr w 16) 255; Z.land (Z.shiftr w 24) 255].
(** htonl / ntohl, ar30.rs 48-58: the same byte swap. *)
Definition swap_bytes (w : Z) : Z :=
  word_of_bytes (Z.land (Z.shiftr w 24) 255) (Z.land (Z.shiftr w 16) 255) (Z.land (Z.shiftr w 8) 255) (Z.land w 255).

(** Truncation of a shift to u32. *)
Definition u32 (z : Z) : Z := Z.land z (2 ^ 32 - 1).

(** pack_w_a, ar30.rs 74-84: the alpha argument is ignored, alpha becomes 3. *)
Definition pack_w_a (t : rgb30) (o : byte_order) (r g b : Z) : Z :=
  let value := match t with
               | Ar30 => Z.lor (Z.lor (Z.shiftl 3 30) (u32 (Z.shiftl (u32 b) 20))) (Z.lor (u32 (Z.shiftl (u32 g) 10)) (u32 r))
               | Ra30 => Z.lor (Z.lor (u32 (Z.shiftl (u32 r) 22)) (u32 (Z.shiftl (u32 g) 12))) (Z.lor (u32 (Z.shiftl (u32 b) 2)) 3)
               end in
  match o with HostOrder => value | NetworkOrder => swap_bytes value end.

(** unpack, ar30.rs 86-105: the alpha bits are not read, alpha is 3. *)
Definition unpack (t : rgb30) (o : byte_order) (value : Z) : cg Z :=
  let pixel := match o with HostOrder => value | NetworkOrder => swap_bytes value end in
  match t with
  | Ar30 => mkCG (Z.land pixel 1023) (Z.land (Z.shiftr pixel 10) 1023) (Z.land (Z.shiftr pixel 20) 1023) 3
  | Ra30 => mkCG (Z.land (Z.shiftr pixel 22) 1023) (Z.land (Z.shiftr pixel 12) 1023) (Z.land (Z.shiftr pixel 2) 1023) 3
  end.

Section Format.
Variable t : rgb30.
Variable o : byte_order.

(** load_ar30!, load_ar30_p! (offset 0) and load_ar30_with_offset!, color_group.rs 417-465:
    four bytes at 4*k of the slice. *)
Definition load_ar30 (s : list Z) (k : nat) : outcome (cg Z) :=
  b0 <- idx s (k * 4) ;; b1 <- idx s (k * 4 + 1) ;; b2 <- idx s (k * 4 + 2) ;; b3 <- idx s (k * 4 + 3) ;;
  Done (unpack t o (word_of_bytes b0 b1 b2 b3)).

(** saturate_ar30 and to_ar30, color_group.rs 165-180, then to_ne_bytes. *)
Definition clamp10 (v : Z) : Z := Z.max (Z.min (Z.shiftr v PRECISION) 1023) 0.
Definition bytes_ar30 (s : cg Z) : list Z :=
  bytes_of_word (pack_w_a t o (clamp10 (cr s)) (clamp10 (cgr s)) (clamp10 (cb s))).

(** `chunk[0] = bytes[0]; ... chunk[3] = bytes[3]` on a chunk of four bytes. *)
Definition store_ar30 (s : cg Z) (chunk : list Z) : outcome (list Z) :=
  c <- set_idx chunk 0 (nth 0 (bytes_ar30 s) 0) ;;
  c <- set_idx c 1 (nth 1 (bytes_ar30 s) 0) ;;
  c <- set_idx c 2 (nth 2 (bytes_ar30 s) 0) ;;
  set_idx c 3 (nth 3 (bytes_ar30 s) 0).

(** ** Rows *)

(** `load(p)*w0 + load(p, 1)*w1 + ...`: fixed_point_horizontal_ar30.rs 60-103 (and the four rows
    of 163-280).  Simplification: the four hand-unrolled lengths share this recursion. *)
Fixpoint ar_unrolled (p : list Z) (i : nat) (acc : cg Z) (ws : list Z) : outcome (cg Z) :=
  match ws with
  | [] => Done acc
  | w :: ws' =>
      g <- load_ar30 p i ;;
      m <- cg_mul mul32 4 g w ;;
      acc' <- cg_add add32 4 acc m ;;
      ar_unrolled p (S i) acc' ws'
  end.
Definition ar_taps_fixed (n : nat) (src : list Z) (px : nat) (ws : list Z) (sums : cg Z) : outcome (cg Z) :=
  p <- slice src px (px + n * 4) ;;
  sw <- slice ws 0 n ;;
  match sw with
  | [] => Panic
  | w0 :: sw' =>
      g0 <- load_ar30 p 0 ;;
      t0 <- cg_mul mul32 4 g0 w0 ;;
      s <- ar_unrolled p 1 t0 sw' ;;
      cg_add_assign add32 4 sums s
  end.
(** 111-114 *)
Definition ar_tap_step (sums : cg Z) (wp : Z * list Z) : outcome (cg Z) :=
  let '(w, px) := wp in
  g <- load_ar30 px 0 ;;
  m <- cg_mul mul32 4 g w ;;
  cg_add_assign add32 4 sums m.
(** The else branch of the one-row kernel, 104-115.  Line 105 slices
    `src[px..(px + bounds_size)]`: bounds_size bytes, not bounds_size pixels. *)
Definition ar_taps_general (src : list Z) (px size : nat) (ws : list Z) (sums : cg Z) : outcome (cg Z) :=
  p <- slice src px (px + size) ;;
  cs <- chunks_exact_o 4 p ;;
  foldM ar_tap_step (firstn size (combine ws cs)) sums.
(** One destination pixel, 52-115. *)
Definition ar_row_pixel (src : list Z) (b : fbound) (ws : list Z) : outcome (cg Z) :=
  let sums := cg_dup ROUNDING_CONST in
  let px := (bstart b * 4)%nat in
  match bsize b with
  | 2%nat => ar_taps_fixed 2 src px ws sums
  | 3%nat => ar_taps_fixed 3 src px ws sums
  | 4%nat => ar_taps_fixed 4 src px ws sums
  | 6%nat => ar_taps_fixed 6 src px ws sums
  | n => ar_taps_general src px n ws sums
  end.
(** convolve_row_handler_fixed_point_ar30, 35-125. *)
Definition ar_row_handler (src dst : list Z) (fw : fweights Z) : outcome (list Z) :=
  ds <- chunks_exact_o 4 dst ;;
  wc <- chunks_exact_o (aligned_size fw) (weights fw) ;;
  ds' <- zip_mut (fun d bw => g <- ar_row_pixel src (fst bw) (snd bw) ;; store_ar30 g d)
                 ds (combine (bounds fw) wc) ;;
  Done (unchunk ds' (chunks_rem 4 dst)).

(** The 4-row kernel, 127-329: fixed tap counts 168-278. *)
Definition ar_taps_fixed_4 (n : nat) (src : list Z) (src_stride px : nat) (ws : list Z) (s : cg4) : outcome cg4 :=
  let '(s0, s1, s2, s3) := s in
  s0' <- ar_taps_fixed n src px ws s0 ;;
  s1' <- ar_taps_fixed n src (px + src_stride) ws s1 ;;
  s2' <- ar_taps_fixed n src (px + src_stride * 2) ws s2 ;;
  s3' <- ar_taps_fixed n src (px + src_stride * 3) ws s3 ;;
  Done (s0', s1', s2', s3').
(** 293-304 *)
Definition ar_tap_step_4 (s : cg4) (wp : Z * list Z * list Z * list Z * list Z) : outcome cg4 :=
  let '(w, p0, p1, p2, p3) := wp in
  let '(s0, s1, s2, s3) := s in
  g0 <- load_ar30 p0 0 ;;
  g1 <- load_ar30 p1 0 ;;
  g2 <- load_ar30 p2 0 ;;
  g3 <- load_ar30 p3 0 ;;
  t0 <- cg_mul mul32 4 g0 w ;; s0' <- cg_add_assign add32 4 s0 t0 ;;
  t1 <- cg_mul mul32 4 g1 w ;; s1' <- cg_add_assign add32 4 s1 t1 ;;
  t2 <- cg_mul mul32 4 g2 w ;; s2' <- cg_add_assign add32 4 s2 t2 ;;
  t3 <- cg_mul mul32 4 g3 w ;; s3' <- cg_add_assign add32 4 s3 t3 ;;
  Done (s0', s1', s2', s3').
(** 279-304: here the slices have bounds_size * CN bytes. *)
Definition ar_taps_general_4 (src : list Z) (src_stride px size : nat) (ws : list Z) (s : cg4) : outcome cg4 :=
  p0 <- slice src px (px + size * 4) ;;
  p1 <- slice src (px + src_stride) (px + src_stride + size * 4) ;;
  p2 <- slice src (px + src_stride * 2) (px + src_stride * 2 + size * 4) ;;
  p3 <- slice src (px + src_stride * 3) (px + src_stride * 3 + size * 4) ;;
  c0 <- chunks_exact_o 4 p0 ;;
  c1 <- chunks_exact_o 4 p1 ;;
  c2 <- chunks_exact_o 4 p2 ;;
  c3 <- chunks_exact_o 4 p3 ;;
  foldM ar_tap_step_4 (firstn size (combine (combine (combine (combine ws c0) c1) c2) c3)) s.
Definition ar_row_pixel_4 (src : list Z) (src_stride : nat) (b : fbound) (ws : list Z) : outcome cg4 :=
  let r := cg_dup ROUNDING_CONST in
  let s := (r, r, r, r) in
  let px := (bstart b * 4)%nat in
  match bsize b with
  | 2%nat => ar_taps_fixed_4 2 src src_stride px ws s
  | 3%nat => ar_taps_fixed_4 3 src src_stride px ws s
  | 4%nat => ar_taps_fixed_4 4 src src_stride px ws s
  | 6%nat => ar_taps_fixed_4 6 src src_stride px ws s
  | n => ar_taps_general_4 src src_stride px n ws s
  end.
Definition ar_row_handler_4 (src : list Z) (src_stride : nat) (dst : list Z) (dst_stride : nat) (fw : fweights Z)
  : outcome (list Z) :=
  '(row0, rest) <- split_at dst_stride dst ;;
  '(row1, rest) <- split_at dst_stride rest ;;
  '(row2, row3) <- split_at dst_stride rest ;;
  i0 <- chunks_exact_o 4 row0 ;;
  i1 <- chunks_exact_o 4 row1 ;;
  i2 <- chunks_exact_o 4 row2 ;;
  i3 <- chunks_exact_o 4 row3 ;;
  wc <- chunks_exact_o (aligned_size fw) (weights fw) ;;
  let cols := zip4 i0 i1 i2 i3 in
  let bw := combine (bounds fw) wc in
  let n := Nat.min (length cols) (length bw) in
  cols' <- zip_mut
    (fun (d : chunk4) (e : fbound * list Z) =>
       let '(d0, d1, d2, d3) := d in
       '(s0, s1, s2, s3) <- ar_row_pixel_4 src src_stride (fst e) (snd e) ;;
       d0' <- store_ar30 s0 d0 ;;
       d1' <- store_ar30 s1 d1 ;;
       d2' <- store_ar30 s2 d2 ;;
       d3' <- store_ar30 s3 d3 ;;
       Done (d0', d1', d2', d3'))
    (firstn n cols) bw ;;
  Done (rebuild_row 4 row0 (map (fun d => let '(a, _, _, _) := d in a) cols')
     ++ rebuild_row 4 row1 (map (fun d => let '(_, a, _, _) := d in a) cols')
     ++ rebuild_row 4 row2 (map (fun d => let '(_, _, a, _) := d in a) cols')
     ++ rebuild_row 4 row3 (map (fun d => let '(_, _, _, a) := d in a) cols')).

(** ** Columns *)

(** `for (dst, src) in direct_store.iter_mut().zip(src_ptr.chunks_exact(4))
       { *dst += load_ar30_p!(src) * weight }`, fixed_point_vertical_ar30.rs 62-64, 73-75. *)
Definition ar_accumulate (w : Z) (store : list (cg Z)) (p : list Z) : outcome (list (cg Z)) :=
  cs <- chunks_exact_o 4 p ;;
  zip_mut (fun s px => g <- load_ar30 px 0 ;; m <- cg_mul mul32 4 g w ;; cg_add_assign add32 4 s m) store cs.

(** convolve_column_handler_fip_db_ar30, 37-88: a block of [n] pixels at pixel [x]; unlike
    the 8-bit column kernel the accumulators start at ROUNDING_CONST. *)
Definition ar_column_block (n : nat) (src : list Z) (src_stride : nat) (filter : list Z)
  (b : fbound) (x : nat) : outcome (list (cg Z)) :=
  let store := repeat (cg_dup ROUNDING_CONST) n in
  w0 <- idx filter 0 ;;
  p <- slice src (src_stride * bstart b + x * 4) (src_stride * bstart b + x * 4 + n * 4) ;;
  store <- ar_accumulate w0 store p ;;
  foldM (fun st jw =>
           let '(j, w) := jw in
           let py := (bstart b + j + 1)%nat in
           p <- slice src (src_stride * py + x * 4) (src_stride * py + x * 4 + n * 4) ;;
           ar_accumulate w st p)
        (let ws := skipn 1 (firstn (bsize b) filter) in combine (seq 0 (length ws)) ws)
        store.
(** 78-87: v_dst chunks zipped with the accumulators. *)
Definition ar_store_block (dst : list Z) (x : nat) (st : list (cg Z)) : outcome (list Z) :=
  v <- slice dst (x * 4) (x * 4 + length st * 4) ;;
  cs <- chunks_exact_o 4 v ;;
  cs' <- zip_mut (fun d s => store_ar30 s d) cs st ;;
  Done (splice dst (x * 4) (concat cs')).
Definition ar_column_direct (n : nat) (src : list Z) (src_stride : nat) (dst filter : list Z) (b : fbound) (x : nat)
  : outcome (list Z) :=
  match filter with
  | [] => Done dst
  | _ => st <- ar_column_block n src src_stride filter b x ;; ar_store_block dst x st
  end.
(** The double (94-169) and four (175-301) block versions: blocks of [n] pixels side by side. *)
Definition ar_column_double (n : nat) (src : list Z) (src_stride : nat) (dst filter : list Z) (b : fbound) (x : nat)
  : outcome (list Z) :=
  match filter with
  | [] => Done dst
  | _ => st0 <- ar_column_block n src src_stride filter b x ;;
         st1 <- ar_column_block n src src_stride filter b (x + n) ;;
         dst <- ar_store_block dst x st0 ;;
         ar_store_block dst (x + n) st1
  end.
Definition ar_column_four (n : nat) (src : list Z) (src_stride : nat) (dst filter : list Z) (b : fbound) (x : nat)
  : outcome (list Z) :=
  match filter with
  | [] => Done dst
  | _ => st0 <- ar_column_block n src src_stride filter b x ;;
         st1 <- ar_column_block n src src_stride filter b (x + n) ;;
         st2 <- ar_column_block n src src_stride filter b (x + n * 2) ;;
         st3 <- ar_column_block n src src_stride filter b (x + n * 3) ;;
         dst <- ar_store_block dst x st0 ;;
         dst <- ar_store_block dst (x + n) st1 ;;
         dst <- ar_store_block dst (x + n * 2) st2 ;;
         ar_store_block dst (x + n * 3) st3
  end.
(** column_handler_fixed_point_ar30, 303-350: cx counts pixels. *)
Definition ar_column_handler (b : fbound) (src dst : list Z) (src_stride : nat) (weight : list Z) : outcome (list Z) :=
  let total := (length dst / 4)%nat in
  '(cx, dst) <- while_tiles total 64 64 total
      (fun d cx => ar_column_four 16 src src_stride d weight b cx) 0%nat dst ;;
  '(cx, dst) <- while_tiles total 32 32 total
      (fun d cx => ar_column_double 16 src src_stride d weight b cx) cx dst ;;
  '(cx, dst) <- while_tiles total 16 16 total
      (fun d cx => ar_column_direct 16 src src_stride d weight b cx) cx dst ;;
  '(cx, dst) <- while_tiles total 8 8 total
      (fun d cx => ar_column_direct 8 src src_stride d weight b cx) cx dst ;;
  '(_, dst) <- while_tiles total 1 0 total
      (fun d cx => ar_column_direct 1 src src_stride d weight b cx) cx dst ;;
  Done dst.

(** ** Dispatch (dispatch_group_ar30.rs) *)

(** A byte buffer with a stride, seen as an [image] so that the 8-bit dispatchers can be
    reused: the loops of dispatch_group_ar30.rs 41-189 and 191-321 are those of
    dispatch_group_u8.rs with explicit strides. *)
Definition byte_image (b : list Z) (w h stride : nat) : image Z := mkImage b 4 w h stride 0.

Definition ar_hpass {F} (q : F -> Z) (fw : fweights F) (pool : pool_t) (src : list Z) (src_stride : nat)
  (dst : list Z) (dst_stride : nat) : outcome (list Z) :=
  approx <- numerical_approximation q 0 fw ;;
  im <- horizontal_dispatch 4
    (fun src ss dst ds => ar_row_handler_4 src ss dst ds approx)
    (fun src dst => ar_row_handler src dst approx)
    pool (byte_image src 0 0 src_stride) (byte_image dst 0 0 dst_stride) ;;
  Done (buf im).
(** Bounds and aligned_size are those of the converted weights here (213-214). *)
Definition ar_vpass {F} (q : F -> Z) (fw : fweights F) (pool : pool_t) (src : list Z) (src_stride : nat)
  (dst : list Z) (dst_stride width : nat) : outcome (list Z) :=
  approx <- numerical_approximation q 0 fw ;;
  im <- vertical_dispatch 4 (fun b src dst ss w => ar_column_handler b src dst ss w)
    (bounds approx) (aligned_size approx) (weights approx) pool
    (byte_image src 0 0 src_stride) (byte_image dst width 0 dst_stride) ;;
  Done (buf im).

(** ** resize_ar30_impl, resize_ar30.rs 38-167 *)

(** The argument checks, 47-85; they differ in order from generic_resize: dimensions first,
    then the source, then the destination. *)
Definition ar_checks (src : list Z) (src_stride sw sh : nat) (dst : list Z) (dst_stride dw dh : nat) : outcome unit :=
  if ((sw =? 0) || (sh =? 0) || (dw =? 0) || (dh =? 0))%nat then Fail ZeroImageDimensions
  else if check_image_size_overflow sw sh 4 then Fail SourceImageIsTooLarge
  else if check_image_size_overflow dw dh 4 then Fail DestinationImageIsTooLarge
  else if negb (length src =? wmul src_stride sh)%nat then Fail (BufferMismatch (wmul src_stride sh) sw sh 4 (length src))
  else if (src_stride <? wmul sw 4)%nat then Fail (InvalidStride (wmul sw 4) src_stride)
  else if negb (length dst =? wmul dst_stride dh)%nat then Fail (BufferMismatch (wmul dst_stride dh) dw dh 4 (length dst))
  else if (dst_stride <? wmul dw 4)%nat then Fail (InvalidStride (wmul dw 4) dst_stride)
  else Done tt.

(** What the caller observes: the result and the destination bytes, or a panic. *)
Inductive bytes_res := BytesReturned (v : verdict) (dst : list Z) | BytesPanicked.
Definition btry {A} (m : outcome A) (dst : list Z) (k : A -> bytes_res) : bytes_res :=
  match m with
  | Done a => k a
  | Fail e => BytesReturned (Err e) dst
  | Panic => BytesPanicked
  end.

Definition resize_ar30_impl (L : libm) (f : resampling_function) (pool : pool_t)
  (src : list Z) (src_stride sw sh : nat) (dst : list Z) (dst_stride dw dh : nat) : bytes_res :=
  btry (ar_checks src src_stride sw sh dst dst_stride dw dh) dst (fun _ =>
  if (sw =? dw)%nat && (sh =? dh)%nat then
    (* 87-92: byte by byte over the whole buffers, strides ignored *)
    BytesReturned Ok (copy_row dst src)
  else if wants_nearest f then
    (* 98-109: the strides are passed as widths *)
    btry (resize_nearest 4 nearest_coord src src_stride sh dst dst_stride dh pool) dst
         (fun d => BytesReturned Ok d)
  else
    let do_h := negb (sw =? dw)%nat in
    let do_v := negb (sh =? dh)%nat in
    let gen := generate_weights (resampling_filter L f) in
    if do_v && negb do_h then
      (* 117-129: src_stride is passed as the destination stride *)
      btry (ar_vpass quant_i16 (gen sh dh) pool src src_stride dst src_stride sw) dst
           (fun d => BytesReturned Ok d)
    else if do_h && do_v then
      (* 130-154 *)
      let target := repeat 0 (wmul (wmul sw dh) 4) in
      btry (ar_vpass quant_i16 (gen sh dh) pool src src_stride target (wmul sw 4) sw) dst (fun target =>
      btry (ar_hpass quant_i16 (gen sw dw) pool target (wmul sw 4) dst dst_stride) dst
           (fun d => BytesReturned Ok d))
    else
      (* 155-165 *)
      btry (ar_hpass quant_i16 (gen sw dw) pool src src_stride dst dst_stride) dst
           (fun d => BytesReturned Ok d)).
End Format.

(** Scaler::resize_ar30 and Scaler::resize_ra30, scaler.rs 1131-1187. *)
Definition resize_ar30 (L : libm) (f : resampling_function) (pool : pool_t) (src : list Z) (src_stride sw sh : nat)
  (dst : list Z) (dst_stride dw dh : nat) (order : byte_order) : bytes_res :=
  resize_ar30_impl Ar30 order L f pool src src_stride sw sh dst dst_stride dw dh.
Definition resize_ra30 (L : libm) (f : resampling_function) (pool : pool_t) (src : list Z) (src_stride sw sh : nat)
  (dst : list Z) (dst_stride dw dh : nat) (order : byte_order) : bytes_res :=
  resize_ar30_impl Ra30 order L f pool src src_stride sw sh dst dst_stride dw dh.
