(** Model of the portable floating point kernels:
    /repo/src/floating_point_horizontal.rs, /repo/src/floating_point_vertical.rs,
    /repo/src/mixed_storage.rs, /repo/src/mlaf.rs, and of the passes built on them
    (/repo/src/dispatch_group_f32.rs, floating half of /repo/src/dispatch_group_u16.rs).

    Generic in the sample type [T] and the accumulator type [J]:
    [zero] is `0.as_()`, [mul] is J's `*`, [mlaf] is mlaf.rs (acc, a, b), [as_] the cast
    T -> J, [mixed] is `to_mixed(bit_depth)`.  Weights are already J (F = J = f32). *)
From Verif Require Import Base ImageStore ColorGroup FixedPoint Dispatch.

Section FloatKernels.
Context {T J : Type} (zero : J) (mul : J -> J -> J) (mlaf : J -> J -> J -> J)
        (as_ : T -> J) (mixed : J -> T).

(** The chained `.mul_add(load(p, CN*i), w_i)` of floating_point_horizontal.rs
    (lines 81-84, 93-101, 111-123, 135-155 and rows 0..3 of the 4-row kernel);
    [i] is the number of the next tap.  Simplification: the four hand-unrolled
    lengths share this recursion. *)
Fixpoint fchain (cn : nat) (p : list T) (i : nat) (acc : cg J) (ws : list J) : outcome (cg J) :=
  match ws with
  | [] => Done acc
  | w :: ws' =>
      g <- load_cg as_ zero cn p (cn * i) ;;
      acc' <- cg_mul_add mlaf cn acc g w ;;
      fchain cn p (S i) acc' ws'
  end.

(** One of the unrolled tap counts n = 2, 3, 4, 6 for one row, lines 75-156: the sum
    starts with `load * weight0`, not from zero. *)
Definition ftaps_fixed (n cn : nat) (src : list T) (px : nat) (ws : list J) : outcome (cg J) :=
  p <- slice src px (px + n * cn) ;;
  sw <- slice ws 0 n ;;
  match sw with
  | [] => Panic
  | w0 :: sw' =>
      g0 <- load_cg as_ zero cn p 0 ;;
      t0 <- cg_mul mul cn g0 w0 ;;
      fchain cn p 1 t0 sw'
  end.

(** Loop body, lines 163-165. *)
Definition ftap_step (cn : nat) (sums : cg J) (wp : J * list T) : outcome (cg J) :=
  let '(w, px) := wp in
  g <- load_cg as_ zero cn px 0 ;;
  cg_mul_add mlaf cn sums g w.

(** The else branch, lines 156-167, starting from zero. *)
Definition ftaps_general (cn : nat) (src : list T) (px size : nat) (ws : list J) : outcome (cg J) :=
  p <- slice src px (px + size * cn) ;;
  cs <- chunks_exact_o cn p ;;
  foldM (ftap_step cn) (firstn size (combine ws cs)) (cg_dup zero).

(** One destination pixel, lines 68-167. *)
Definition frow_pixel (cn : nat) (src : list T) (b : fbound) (ws : list J) : outcome (cg J) :=
  let px := bstart b * cn in
  match bsize b with
  | 2 => ftaps_fixed 2 cn src px ws
  | 3 => ftaps_fixed 3 cn src px ws
  | 4 => ftaps_fixed 4 cn src px ws
  | 6 => ftaps_fixed 6 cn src px ws
  | n => ftaps_general cn src px n ws
  end.

(** fast_mixed_store_color_group!, color_group.rs 560-573: to_mixed on each lane, then
    store; lanes beyond COMPS are not stored, so [cg_narrow]'s filler is irrelevant. *)
Definition fstore (cn : nat) (g : cg J) (d : list T) : outcome (list T) :=
  store_cg cn (cg_narrow mixed (mixed zero) cn g) d.

(** convolve_row_handler_floating_point, lines 42-171. *)
Definition frow_handler (cn : nat) (src dst : list T) (fw : fweights J) : outcome (list T) :=
  ds <- chunks_exact_o cn dst ;;
  wc <- chunks_exact_o (aligned_size fw) (weights fw) ;;
  ds' <- zip_mut (fun d bw => g <- frow_pixel cn src (fst bw) (snd bw) ;; fstore cn g d)
                 ds (combine (bounds fw) wc) ;;
  Done (unchunk ds' (chunks_rem cn dst)).

Definition fcg4 := (cg J * cg J * cg J * cg J)%type.

(** 4-row kernel, unrolled tap counts, lines 228-460: the same slices taken at
    px + r*src_stride. *)
Definition ftaps_fixed_4 (n cn : nat) (src : list T) (src_stride px : nat) (ws : list J) : outcome fcg4 :=
  s0 <- ftaps_fixed n cn src px ws ;;
  s1 <- ftaps_fixed n cn src (px + src_stride) ws ;;
  s2 <- ftaps_fixed n cn src (px + src_stride * 2) ws ;;
  s3 <- ftaps_fixed n cn src (px + src_stride * 3) ws ;;
  Done (s0, s1, s2, s3).

(** Loop body of the 4-row else branch, lines 479-489. *)
Definition ftap_step_4 (cn : nat) (s : fcg4) (wp : J * list T * list T * list T * list T) : outcome fcg4 :=
  let '(w, p0, p1, p2, p3) := wp in
  let '(s0, s1, s2, s3) := s in
  g0 <- load_cg as_ zero cn p0 0 ;;
  g1 <- load_cg as_ zero cn p1 0 ;;
  g2 <- load_cg as_ zero cn p2 0 ;;
  g3 <- load_cg as_ zero cn p3 0 ;;
  s0' <- cg_mul_add mlaf cn s0 g0 w ;;
  s1' <- cg_mul_add mlaf cn s1 g1 w ;;
  s2' <- cg_mul_add mlaf cn s2 g2 w ;;
  s3' <- cg_mul_add mlaf cn s3 g3 w ;;
  Done (s0', s1', s2', s3').

(** The 4-row else branch, lines 461-491. *)
Definition ftaps_general_4 (cn : nat) (src : list T) (src_stride px size : nat) (ws : list J) : outcome fcg4 :=
  p0 <- slice src px (px + size * cn) ;;
  p1 <- slice src (px + src_stride) (px + src_stride + size * cn) ;;
  p2 <- slice src (px + src_stride * 2) (px + src_stride * 2 + size * cn) ;;
  p3 <- slice src (px + src_stride * 3) (px + src_stride * 3 + size * cn) ;;
  c0 <- chunks_exact_o cn p0 ;;
  c1 <- chunks_exact_o cn p1 ;;
  c2 <- chunks_exact_o cn p2 ;;
  c3 <- chunks_exact_o cn p3 ;;
  foldM (ftap_step_4 cn)
        (firstn size (combine (combine (combine (combine ws c0) c1) c2) c3))
        (cg_dup zero, cg_dup zero, cg_dup zero, cg_dup zero).

(** One column of four pixels, lines 215-491. *)
Definition frow_pixel_4 (cn : nat) (src : list T) (src_stride : nat) (b : fbound) (ws : list J) : outcome fcg4 :=
  let px := bstart b * cn in
  match bsize b with
  | 2 => ftaps_fixed_4 2 cn src src_stride px ws
  | 3 => ftaps_fixed_4 3 cn src src_stride px ws
  | 4 => ftaps_fixed_4 4 cn src src_stride px ws
  | 6 => ftaps_fixed_4 6 cn src src_stride px ws
  | n => ftaps_general_4 cn src src_stride px n ws
  end.

Definition fchunk4 := (list T * list T * list T * list T)%type.

(** `iter_row0.zip(iter_row1).zip(iter_row2).zip(iter_row3)`, lines 203-206. *)
Fixpoint fzip4 (a b c d : list (list T)) : list fchunk4 :=
  match a, b, c, d with
  | x :: a', y :: b', z :: c', w :: d' => (x, y, z, w) :: fzip4 a' b' c' d'
  | _, _, _, _ => []
  end.

(** Reassembling one row after its CN-chunks were rewritten. *)
Definition frebuild_row (cn : nat) (row : list T) (new : list (list T)) : list T :=
  concat new ++ skipn (length new * cn) row.

(** convolve_row_handler_floating_point_4, lines 178-499. *)
Definition frow_handler_4 (cn : nat) (src : list T) (src_stride : nat)
  (dst : list T) (dst_stride : nat) (fw : fweights J) : outcome (list T) :=
  '(row0, rest) <- split_at dst_stride dst ;;
  '(row1, rest) <- split_at dst_stride rest ;;
  '(row2, row3) <- split_at dst_stride rest ;;
  i0 <- chunks_exact_o cn row0 ;;
  i1 <- chunks_exact_o cn row1 ;;
  i2 <- chunks_exact_o cn row2 ;;
  i3 <- chunks_exact_o cn row3 ;;
  wc <- chunks_exact_o (aligned_size fw) (weights fw) ;;
  let cols := fzip4 i0 i1 i2 i3 in
  let bw := combine (bounds fw) wc in
  let n := Nat.min (length cols) (length bw) in
  cols' <- zip_mut
    (fun (d : fchunk4) (e : fbound * list J) =>
       let '(d0, d1, d2, d3) := d in
       '(s0, s1, s2, s3) <- frow_pixel_4 cn src src_stride (fst e) (snd e) ;;
       d0' <- fstore cn s0 d0 ;;
       d1' <- fstore cn s1 d1 ;;
       d2' <- fstore cn s2 d2 ;;
       d3' <- fstore cn s3 d3 ;;
       Done (d0', d1', d2', d3'))
    (firstn n cols) bw ;;
  Done (frebuild_row cn row0 (map (fun d => let '(a, _, _, _) := d in a) cols')
     ++ frebuild_row cn row1 (map (fun d => let '(_, a, _, _) := d in a) cols')
     ++ frebuild_row cn row2 (map (fun d => let '(_, _, a, _) := d in a) cols')
     ++ frebuild_row cn row3 (map (fun d => let '(_, _, _, a) := d in a) cols')).

(** floating_point_vertical.rs.  A kernel instance handles [m] groups of [cn] samples
    side by side: m = 4 for convolve_column_handler_floating_point_4 (41-377), m = 1 for
    convolve_column_handler_floating_point (384-545).
    Simplification: the groups are a list instead of variables sums0..sums3. *)

(** `.mul_add(load(src_ptr_k, off), weight_k)` chained over the row slices. *)
Fixpoint fcol_chain (cn off : nat) (acc : cg J) (rws : list (list T * J)) : outcome (cg J) :=
  match rws with
  | [] => Done acc
  | (r, w) :: rest =>
      g <- load_cg as_ zero cn r off ;;
      acc' <- cg_mul_add mlaf cn acc g w ;;
      fcol_chain cn off acc' rest
  end.

(** Unrolled tap counts, lines 72-333 / 417-521: slice the filter, slice [n] source rows
    at sample x, one chain per group. *)
Definition fcol_fixed (n m cn : nat) (src : list T) (src_stride : nat) (filter : list J)
  (b : fbound) (x : nat) : outcome (list (cg J)) :=
  ws <- slice filter 0 n ;;
  rows <- seqM (map (fun k => let o := src_stride * (bstart b + k) + x in
                              slice src o (o + cn * m)) (seq 0 n)) ;;
  match combine rows ws with
  | [] => Panic
  | (r0, w0) :: rest =>
      seqM (map (fun g => g0 <- load_cg as_ zero cn r0 (cn * g) ;;
                          t0 <- cg_mul mul cn g0 w0 ;;
                          fcol_chain cn (cn * g) t0 rest) (seq 0 m))
  end.

(** The general loop, lines 334-352 / 522-533. *)
Definition fcol_general (m cn : nat) (src : list T) (src_stride : nat) (filter : list J)
  (b : fbound) (x : nat) : outcome (list (cg J)) :=
  let ws := firstn (bsize b) filter in
  foldM (fun sums jw =>
           let '(j, w) := jw in
           let o := src_stride * (bstart b + j) + x in
           p <- slice src o (o + cn * m) ;;
           seqM (map (fun gs => let '(g, s) := gs in
                      px <- load_cg as_ zero cn p (cn * g) ;;
                      cg_mul_add mlaf cn s px w) (combine (seq 0 m) sums)))
        (combine (seq 0 (length ws)) ws) (repeat (cg_dup zero) m).

Definition fcol_sums (m cn : nat) (src : list T) (src_stride : nat) (filter : list J)
  (b : fbound) (x : nat) : outcome (list (cg J)) :=
  match bsize b with
  | 2 => fcol_fixed 2 m cn src src_stride filter b x
  | 3 => fcol_fixed 3 m cn src src_stride filter b x
  | 4 => fcol_fixed 4 m cn src src_stride filter b x
  | 6 => fcol_fixed 6 m cn src src_stride filter b x
  | _ => fcol_general m cn src src_stride filter b x
  end.

(** Lines 354-376 / 535-541: dst.get_unchecked_mut(x .. x + cn*m), one store per group. *)
Definition fcolumn (m cn : nat) (src : list T) (src_stride : nat) (dst : list T) (filter : list J)
  (b : fbound) (x : nat) : outcome (list T) :=
  sums <- fcol_sums m cn src src_stride filter b x ;;
  v <- slice dst x (x + cn * m) ;;
  cs <- chunks_exact_o cn v ;;
  cs' <- zip_mut (fun d g => fstore cn g d) cs sums ;;
  Done (splice dst x (concat cs')).

(** column_handler_floating_point, lines 552-595. *)
Definition fcolumn_handler (b : fbound) (src dst : list T) (src_stride : nat) (weight : list J)
  : outcome (list T) :=
  let total := length dst in
  '(cx, dst) <- while_tiles total 16 16 total
      (fun d cx => fcolumn 4 4 src src_stride d weight b cx) 0 dst ;;
  '(cx, dst) <- while_tiles total 4 4 total
      (fun d cx => fcolumn 1 4 src src_stride d weight b cx) cx dst ;;
  '(_, dst) <- while_tiles total 1 0 total
      (fun d cx => fcolumn 1 1 src src_stride d weight b cx) cx dst ;;
  Done dst.

(** convolve_horizontal_dispatch_f32 (dispatch_group_f32.rs 96-240, the portable
    dispatcher_4_rows is always Some: plane_f32.rs, cbcr_f32.rs, rgb_f32.rs, rgba_f32.rs)
    and the bit_depth > 12 branches of convolve_horizontal_dispatch_u16
    (dispatch_group_u16.rs 60-85, 112-134). *)
Definition fhpass (N : nat) (fw : fweights J) (pool : pool_t) (im into : image T) : outcome (image T) :=
  horizontal_dispatch N
    (fun src ss dst ds => frow_handler_4 N src ss dst ds fw)
    (fun src dst => frow_handler N src dst fw)
    pool im into.

(** convolve_vertical_dispatch_f32 (37-94) and the bit_depth > 12 branches of
    convolve_vertical_dispatch_u16 (176-196, 245-265). *)
Definition fvpass (N : nat) (fw : fweights J) (pool : pool_t) (im into : image T) : outcome (image T) :=
  vertical_dispatch N (fun b src dst ss w => fcolumn_handler b src dst ss w)
    (bounds fw) (aligned_size fw) (weights fw) pool im into.

End FloatKernels.
