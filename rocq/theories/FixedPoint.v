(** Model of the portable fixed point kernels:
    /repo/src/fixed_point_horizontal.rs, /repo/src/fixed_point_vertical.rs,
    /repo/src/saturate_narrow.rs, /repo/src/support.rs, /repo/src/filter_weights.rs. *)
From Verif Require Import Base ColorGroup.
Local Open Scope Z_scope.

(** PRECISION, ROUNDING_CONST: support.rs 30-31. *)
Definition PRECISION : Z := 15.
Definition ROUNDING_CONST : Z := Z.shiftl 1 (PRECISION - 1).

(** struct FilterBounds, filter_weights.rs 42-45. *)
Record fbound := mkBound { bstart : nat; bsize : nat }.

(** struct FilterWeights<W>, filter_weights.rs 32-39 (coeffs_size is never read
    by the portable kernels and is omitted). *)
Record fweights (W : Type) := mkFW {
  weights : list W;
  bounds : list fbound;
  kernel_size : nat;
  aligned_size : nat;
  distinct_elements : nat
}.
Arguments mkFW {W}. Arguments weights {W}. Arguments bounds {W}.
Arguments kernel_size {W}. Arguments aligned_size {W}. Arguments distinct_elements {W}.

(** numerical_approximation, filter_weights.rs 81-131.  [q] is the conversion of
    one weight (line 109-113); it is instantiated by [QuantizeF32.quant_i16]. *)
Definition numerical_approximation {F} (q : F -> Z) (alignment : nat) (fw : fweights F)
  : outcome (fweights Z) :=
  let align := if (alignment =? 0)%nat then kernel_size fw
               else (((kernel_size fw + alignment - 1) / alignment) * alignment)%nat in
  let out0 := repeat 0 (distinct_elements fw * align) in
  ws <- chunks_exact_o (kernel_size fw) (weights fw) ;;
  os <- chunks_exact_o align out0 ;;
  os' <- zip_mut (fun o w => zip_mut (fun _ x => Done (q x)) o w) os ws ;;
  Done (mkFW (unchunk os' (chunks_rem align out0)) (bounds fw) (kernel_size fw) align
             (distinct_elements fw)).

(** saturate_narrow.rs 37-43 (u8, maxv = 255) and 53-59 (u16, maxv = (1 << bit_depth) - 1). *)
Definition saturate_narrow (maxv : Z) (v : Z) : Z :=
  Z.min (Z.max (Z.shiftr v PRECISION) 0) maxv.
Definition max_u8 : Z := 255.
Definition max_u16 (bit_depth : nat) : Z := Z.shiftl 1 (Z.of_nat bit_depth) - 1.

(** The unrolled sums of fixed_point_horizontal.rs (lines 81-82, 89-91, 99-102,
    113-118, and rows 0..3 of the 4-row kernel): left-nested
    `load(p,0)*w0 + load(p,CN)*w1 + ...`.  [i] is the tap number of the next
    term.  Simplification: the four hand-unrolled lengths share this recursion. *)
Fixpoint unrolled (cn : nat) (p : list Z) (i : nat) (acc : cg Z) (ws : list Z) : outcome (cg Z) :=
  match ws with
  | [] => Done acc
  | w :: ws' =>
      g <- load_cg (fun x => x) 0 cn p (cn * i) ;;
      t <- cg_mul mul32 cn g w ;;
      acc' <- cg_add add32 cn acc t ;;
      unrolled cn p (S i) acc' ws'
  end.

(** One of the four fixed tap counts n = 2, 3, 4, 6 for one row: slice the source
    at [px], slice the weights, add the unrolled sum to [sums]. *)
Definition taps_fixed (n cn : nat) (src : list Z) (px : nat) (ws : list Z) (sums : cg Z)
  : outcome (cg Z) :=
  p <- slice src px (px + n * cn) ;;
  sw <- slice ws 0 n ;;
  match sw with
  | [] => Panic
  | w0 :: sw' =>
      g0 <- load_cg (fun x => x) 0 cn p 0 ;;
      t0 <- cg_mul mul32 cn g0 w0 ;;
      t <- unrolled cn p 1 t0 sw' ;;
      cg_add_assign add32 cn sums t
  end.

(** The general loop body, lines 126-129: `sums += load(src) * weight`. *)
Definition tap_step (cn : nat) (sums : cg Z) (wp : Z * list Z) : outcome (cg Z) :=
  let '(w, px) := wp in
  g <- load_cg (fun x => x) 0 cn px 0 ;;
  t <- cg_mul mul32 cn g w ;;
  cg_add_assign add32 cn sums t.

(** The else branch, lines 119-130: weights zipped with the CN-chunks of the
    source slice, at most bounds.size of them. *)
Definition taps_general (cn : nat) (src : list Z) (px size : nat) (ws : list Z) (sums : cg Z)
  : outcome (cg Z) :=
  p <- slice src px (px + size * cn) ;;
  cs <- chunks_exact_o cn p ;;
  foldM (tap_step cn) (firstn size (combine ws cs)) sums.

(** One destination pixel of convolve_row_handler_fixed_point, lines 68-132. *)
Definition row_pixel (cn : nat) (src : list Z) (b : fbound) (ws : list Z) : outcome (cg Z) :=
  let sums := cg_dup ROUNDING_CONST in
  let px := (bstart b * cn)%nat in
  match bsize b with
  | 2%nat => taps_fixed 2 cn src px ws sums
  | 3%nat => taps_fixed 3 cn src px ws sums
  | 4%nat => taps_fixed 4 cn src px ws sums
  | 6%nat => taps_fixed 6 cn src px ws sums
  | n => taps_general cn src px n ws sums
  end.

(** convolve_row_handler_fixed_point, lines 39-136. *)
Definition row_handler (cn : nat) (maxv : Z) (src dst : list Z) (fw : fweights Z)
  : outcome (list Z) :=
  ds <- chunks_exact_o cn dst ;;
  wc <- chunks_exact_o (aligned_size fw) (weights fw) ;;
  ds' <- zip_mut (fun d bw => g <- row_pixel cn src (fst bw) (snd bw) ;;
                              store_cg cn (cg_narrow (saturate_narrow maxv) 0 cn g) d)
                 ds (combine (bounds fw) wc) ;;
  Done (unchunk ds' (chunks_rem cn dst)).

(** Four accumulators of the 4-row kernel. *)
Definition cg4 := (cg Z * cg Z * cg Z * cg Z)%type.

(** The 4-row kernel's fixed tap counts, lines 192-294: the same slices taken at
    px + r*src_stride for r = 0..3. *)
Definition taps_fixed_4 (n cn : nat) (src : list Z) (src_stride px : nat) (ws : list Z) (s : cg4)
  : outcome cg4 :=
  let '(s0, s1, s2, s3) := s in
  s0' <- taps_fixed n cn src px ws s0 ;;
  s1' <- taps_fixed n cn src (px + src_stride) ws s1 ;;
  s2' <- taps_fixed n cn src (px + src_stride * 2) ws s2 ;;
  s3' <- taps_fixed n cn src (px + src_stride * 3) ws s3 ;;
  Done (s0', s1', s2', s3').

(** Loop body of the 4-row else branch, lines 309-322. *)
Definition tap_step_4 (cn : nat) (s : cg4) (wp : Z * list Z * list Z * list Z * list Z) : outcome cg4 :=
  let '(w, p0, p1, p2, p3) := wp in
  let '(s0, s1, s2, s3) := s in
  g0 <- load_cg (fun x => x) 0 cn p0 0 ;;
  g1 <- load_cg (fun x => x) 0 cn p1 0 ;;
  g2 <- load_cg (fun x => x) 0 cn p2 0 ;;
  g3 <- load_cg (fun x => x) 0 cn p3 0 ;;
  t0 <- cg_mul mul32 cn g0 w ;; s0' <- cg_add_assign add32 cn s0 t0 ;;
  t1 <- cg_mul mul32 cn g1 w ;; s1' <- cg_add_assign add32 cn s1 t1 ;;
  t2 <- cg_mul mul32 cn g2 w ;; s2' <- cg_add_assign add32 cn s2 t2 ;;
  t3 <- cg_mul mul32 cn g3 w ;; s3' <- cg_add_assign add32 cn s3 t3 ;;
  Done (s0', s1', s2', s3').

(** The 4-row else branch, lines 295-323: five-way zip. *)
Definition taps_general_4 (cn : nat) (src : list Z) (src_stride px size : nat) (ws : list Z) (s : cg4)
  : outcome cg4 :=
  p0 <- slice src px (px + size * cn) ;;
  p1 <- slice src (px + src_stride) (px + src_stride + size * cn) ;;
  p2 <- slice src (px + src_stride * 2) (px + src_stride * 2 + size * cn) ;;
  p3 <- slice src (px + src_stride * 3) (px + src_stride * 3 + size * cn) ;;
  c0 <- chunks_exact_o cn p0 ;;
  c1 <- chunks_exact_o cn p1 ;;
  c2 <- chunks_exact_o cn p2 ;;
  c3 <- chunks_exact_o cn p3 ;;
  foldM (tap_step_4 cn)
        (firstn size (combine (combine (combine (combine ws c0) c1) c2) c3)) s.

(** One column of four destination pixels of convolve_row_handler_fixed_point_4,
    lines 182-323. *)
Definition row_pixel_4 (cn : nat) (src : list Z) (src_stride : nat) (b : fbound) (ws : list Z)
  : outcome cg4 :=
  let r := cg_dup ROUNDING_CONST in
  let s := (r, r, r, r) in
  let px := (bstart b * cn)%nat in
  match bsize b with
  | 2%nat => taps_fixed_4 2 cn src src_stride px ws s
  | 3%nat => taps_fixed_4 3 cn src src_stride px ws s
  | 4%nat => taps_fixed_4 4 cn src src_stride px ws s
  | 6%nat => taps_fixed_4 6 cn src src_stride px ws s
  | n => taps_general_4 cn src src_stride px n ws s
  end.

Definition chunk4 := (list Z * list Z * list Z * list Z)%type.

(** `iter_row0.zip(iter_row1).zip(iter_row2).zip(iter_row3)` as one list. *)
Fixpoint zip4 (a b c d : list (list Z)) : list chunk4 :=
  match a, b, c, d with
  | x :: a', y :: b', z :: c', w :: d' => (x, y, z, w) :: zip4 a' b' c' d'
  | _, _, _, _ => []
  end.

(** split_at_mut(k) panics when k exceeds the length. *)
Definition split_at {A} (k : nat) (l : list A) : outcome (list A * list A) :=
  if (k <=? length l)%nat then Done (firstn k l, skipn k l) else Panic.

(** Reassembling one row after its CN-chunks were rewritten; columns beyond the
    zip keep their old content. *)
Definition rebuild_row (cn : nat) (row : list Z) (new : list (list Z)) : list Z :=
  concat new ++ skipn (length new * cn) row.

(** convolve_row_handler_fixed_point_4, lines 138-336. *)
Definition row_handler_4 (cn : nat) (maxv : Z) (src : list Z) (src_stride : nat)
  (dst : list Z) (dst_stride : nat) (fw : fweights Z) : outcome (list Z) :=
  '(row0, rest) <- split_at dst_stride dst ;;
  '(row1, rest) <- split_at dst_stride rest ;;
  '(row2, row3) <- split_at dst_stride rest ;;
  i0 <- chunks_exact_o cn row0 ;;
  i1 <- chunks_exact_o cn row1 ;;
  i2 <- chunks_exact_o cn row2 ;;
  i3 <- chunks_exact_o cn row3 ;;
  wc <- chunks_exact_o (aligned_size fw) (weights fw) ;;
  let cols := zip4 i0 i1 i2 i3 in
  let bw := combine (bounds fw) wc in
  let n := Nat.min (length cols) (length bw) in
  cols' <- zip_mut
    (fun (d : chunk4) (e : fbound * list Z) =>
       let '(d0, d1, d2, d3) := d in
       '(s0, s1, s2, s3) <- row_pixel_4 cn src src_stride (fst e) (snd e) ;;
       d0' <- store_cg cn (cg_narrow (saturate_narrow maxv) 0 cn s0) d0 ;;
       d1' <- store_cg cn (cg_narrow (saturate_narrow maxv) 0 cn s1) d1 ;;
       d2' <- store_cg cn (cg_narrow (saturate_narrow maxv) 0 cn s2) d2 ;;
       d3' <- store_cg cn (cg_narrow (saturate_narrow maxv) 0 cn s3) d3 ;;
       Done (d0', d1', d2', d3'))
    (firstn n cols) bw ;;
  Done (rebuild_row cn row0 (map (fun d => let '(a, _, _, _) := d in a) cols')
     ++ rebuild_row cn row1 (map (fun d => let '(_, a, _, _) := d in a) cols')
     ++ rebuild_row cn row2 (map (fun d => let '(_, _, a, _) := d in a) cols')
     ++ rebuild_row cn row3 (map (fun d => let '(_, _, _, a) := d in a) cols')).

(** fixed_point_vertical.rs *)

(** `for (dst, src) in direct_store.iter_mut().zip(src_ptr) { *dst += src * weight }`,
    lines 66-68, 77-79. *)
Definition accumulate (w : Z) (store p : list Z) : list Z :=
  map (fun ab => add32 (fst ab) (mul32 (snd ab) w)) (combine store p).

(** One block of [n] samples starting at sample [x] of the destination row:
    convolve_column_handler_fixed_point_direct_buffer::<_,_,n>, lines 57-80
    (accumulation only; the early return and the store are in [column_direct]). *)
Definition column_block (n : nat) (src : list Z) (src_stride : nat) (filter : list Z)
  (b : fbound) (x : nat) : outcome (list Z) :=
  let store := repeat 0 n in
  w0 <- idx filter 0 ;;
  p <- slice src (src_stride * bstart b + x) (src_stride * bstart b + x + n) ;;
  let store := accumulate w0 store p in
  foldM (fun st jw =>
           let '(j, w) := jw in
           let py := (bstart b + j + 1)%nat in
           p <- slice src (src_stride * py + x) (src_stride * py + x + n) ;;
           Done (accumulate w st p))
        (let ws := skipn 1 (firstn (bsize b) filter) in combine (seq 0 (length ws)) ws)
        store.

(** Storing the narrowed block: lines 82-85. *)
Definition store_block (maxv : Z) (dst : list Z) (x : nat) (st : list Z) : outcome (list Z) :=
  if (x + length st <=? length dst)%nat
  then Done (splice dst x (map (saturate_narrow maxv) st)) else Panic.

(** convolve_column_handler_fixed_point_direct_buffer, lines 38-86; an empty
    filter returns without writing (54-56). *)
Definition column_direct (n : nat) (maxv : Z) (src : list Z) (src_stride : nat) (dst filter : list Z)
  (b : fbound) (x : nat) : outcome (list Z) :=
  match filter with
  | [] => Done dst
  | _ => st <- column_block n src src_stride filter b x ;; store_block maxv dst x st
  end.

(** ..._direct_buffer_double, lines 92-155: two stores of n samples side by side. *)
Definition column_double (n : nat) (maxv : Z) (src : list Z) (src_stride : nat) (dst filter : list Z)
  (b : fbound) (x : nat) : outcome (list Z) :=
  match filter with
  | [] => Done dst
  | _ => st0 <- column_block n src src_stride filter b x ;;
         st1 <- column_block n src src_stride filter b (x + n) ;;
         dst <- store_block maxv dst x st0 ;;
         store_block maxv dst (x + n) st1
  end.

(** ..._direct_buffer_four, lines 161-254: four stores side by side.
    (In both the interleaving of the accumulation loops is irrelevant: the
    stores are distinct local arrays.) *)
Definition column_four (n : nat) (maxv : Z) (src : list Z) (src_stride : nat) (dst filter : list Z)
  (b : fbound) (x : nat) : outcome (list Z) :=
  match filter with
  | [] => Done dst
  | _ => st0 <- column_block n src src_stride filter b x ;;
         st1 <- column_block n src src_stride filter b (x + n) ;;
         st2 <- column_block n src src_stride filter b (x + n * 2) ;;
         st3 <- column_block n src src_stride filter b (x + n * 3) ;;
         dst <- store_block maxv dst x st0 ;;
         dst <- store_block maxv dst (x + n) st1 ;;
         dst <- store_block maxv dst (x + n * 2) st2 ;;
         store_block maxv dst (x + n * 3) st3
  end.

(** `while cx + slack < total_width { body(cx); cx += step }`: lines 278-308 use
    slack = step; the last loop (310-316) is `while cx < total_width` i.e. slack 0,
    step 1.  Fuel: total_width iterations always suffice when step >= 1; running
    out of fuel is [Panic], which the theorems exclude. *)
Fixpoint while_tiles {S} (fuel step slack total : nat) (body : S -> nat -> outcome S) (cx : nat) (s : S)
  : outcome (nat * S) :=
  if (cx + slack <? total)%nat then
    match fuel with
    | O => Panic
    | Datatypes.S fuel' => s' <- body s cx ;; while_tiles fuel' step slack total body (cx + step) s'
    end
  else Done (cx, s).

(** column_handler_fixed_point, lines 259-317. *)
Definition column_handler (maxv : Z) (b : fbound) (src dst : list Z) (src_stride : nat) (weight : list Z)
  : outcome (list Z) :=
  let total := length dst in
  '(cx, dst) <- while_tiles total 64 64 total
      (fun d cx => column_four 16 maxv src src_stride d weight b cx) 0%nat dst ;;
  '(cx, dst) <- while_tiles total 32 32 total
      (fun d cx => column_double 16 maxv src src_stride d weight b cx) cx dst ;;
  '(cx, dst) <- while_tiles total 16 16 total
      (fun d cx => column_direct 16 maxv src src_stride d weight b cx) cx dst ;;
  '(cx, dst) <- while_tiles total 8 8 total
      (fun d cx => column_direct 8 maxv src src_stride d weight b cx) cx dst ;;
  '(_, dst) <- while_tiles total 1 0 total
      (fun d cx => column_direct 1 maxv src src_stride d weight b cx) cx dst ;;
  Done dst.
