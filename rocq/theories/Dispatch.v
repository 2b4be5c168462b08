(** Model of the row dispatchers /repo/src/dispatch_group_u8.rs and the fixed
    point half of /repo/src/dispatch_group_u16.rs, generic in the row kernels. *)
From Verif Require Import Base ImageStore FixedPoint.

(** Labels of the parallel loops (only used to let a pool schedule each loop
    differently). *)
Definition lbl_vertical : nat := 0.
Definition lbl_rows4 : nat := 1.
Definition lbl_rows1 : nat := 2.
Definition lbl_nearest : nat := 3.
Definition lbl_premul : nat := 4.
Definition lbl_unpremul : nat := 5.

(** convolve_horizontal_dispatch_u8, dispatch_group_u8.rs 38-99 (pooled 57-78,
    sequential 79-98), with [dispatcher_4] = Some always (every caller passes
    Some).  Also convolve_horizontal_dispatch_u16 86-110 / 135-159.
    [k4 src src_stride dst dst_stride] and [k1 src dst] are the row kernels with
    the converted weights already applied. *)
Definition horizontal_dispatch {T} (N : nat)
  (k4 : list T -> nat -> list T -> nat -> outcome (list T))
  (k1 : list T -> list T -> outcome (list T))
  (pool : pool_t) (im into : image T) : outcome (image T) :=
  let dst_stride := stride_of N into in
  let src_stride := stride_of N im in
  let src := buf im in
  let dst := buf into in
  d4 <- chunks_exact_o (dst_stride * 4) dst ;;
  s4 <- chunks_exact_o (src_stride * 4) src ;;
  d4' <- for_each pool lbl_rows4 (fun d s => k4 s src_stride d dst_stride) d4 s4 ;;
  let rem := chunks_rem (dst_stride * 4) dst in
  let src_rem := chunks_rem (src_stride * 4) src in
  d1 <- chunks_exact_o dst_stride rem ;;
  s1 <- chunks_exact_o src_stride src_rem ;;
  d1' <- for_each pool lbl_rows1 (fun d s => k1 s d) d1 s1 ;;
  Done (set_buf into (unchunk d4' (unchunk d1' (chunks_rem dst_stride rem)))).

(** convolve_vertical_dispatch_u8, dispatch_group_u8.rs 102-158; also
    execute_low_precision_row of dispatch_group_u16.rs.
    [aligned] and [fbounds] come from the float weights (lines 123-124 read
    filter_weights.bounds / aligned_size), [ws] are the converted weights.
    [kcol bounds src dst src_stride weights] is the column kernel. *)
Definition vertical_dispatch {T W} (N : nat)
  (kcol : fbound -> list T -> list T -> nat -> list W -> outcome (list T))
  (fbounds : list fbound) (aligned : nat) (ws : list W)
  (pool : pool_t) (im into : image T) : outcome (image T) :=
  let src_stride := stride_of N im in
  let dst_stride := stride_of N into in
  let dst_width := width into in
  rows <- chunks_exact_o dst_stride (buf into) ;;
  rows' <- for_each pool lbl_vertical
    (fun row y =>
       b <- idx fbounds y ;;
       w <- slice_from ws (y * aligned) ;;
       vis <- slice row 0 (dst_width * N) ;;
       vis' <- kcol b (buf im) vis src_stride w ;;
       Done (splice row 0 vis'))
    rows (seq 0 (length rows)) ;;
  Done (set_buf into (unchunk rows' (chunks_rem dst_stride (buf into)))).

(** Portable u8 passes: handle_fixed_row_u8 / handle_fixed_rows_4_u8 /
    handle_fixed_column_u8 of /repo/src/handler_provider.rs without SIMD, as
    installed by default in /repo/src/rgba_u8.rs, rgb_u8.rs, cbcr8.rs, plane_u8.rs.
    [maxv] distinguishes u8 from the fixed point u16 path (bit depth <= 12). *)
Definition hpass {F} (q : F -> Z) (N : nat) (maxv : Z) (fw : fweights F)
  (pool : pool_t) (im into : image Z) : outcome (image Z) :=
  approx <- numerical_approximation q 0 fw ;;
  horizontal_dispatch N
    (fun src ss dst ds => row_handler_4 N maxv src ss dst ds approx)
    (fun src dst => row_handler N maxv src dst approx)
    pool im into.

Definition vpass {F} (q : F -> Z) (N : nat) (maxv : Z) (fw : fweights F)
  (pool : pool_t) (im into : image Z) : outcome (image Z) :=
  approx <- numerical_approximation q 0 fw ;;
  vertical_dispatch N (fun b src dst ss w => column_handler maxv b src dst ss w)
    (bounds fw) (aligned_size fw) (weights approx) pool im into.
