(** Model of the portable alpha code: /repo/src/alpha_handle_u8.rs,
    /repo/src/alpha_handle_u16.rs, /repo/src/alpha_handle_f32.rs,
    /repo/src/alpha_check.rs and the trait impls of /repo/src/image_store.rs
    517-740 that call them. *)
From Coq Require Import ZArith List Bool.
From Flocq Require Import Core.Core IEEE754.BinarySingleNaN.
From Verif Require Import Base ImageStore Dispatch F32.
Import ListNotations.

(** ** Row loops *)

(** premultiply_*_impl: `dst.chunks_exact_mut(dst_stride).zip(src.chunks_exact(src_stride))
    .for_each(|(dst, src)| row(&mut dst[..width * 4], &src[..width * 4]))`, pooled or
    not: alpha_handle_u8.rs 59-83, alpha_handle_u16.rs 120-150, alpha_handle_f32.rs 79-103. *)
Definition premul_rows {T} (row : list T -> list T -> outcome (list T)) (width4 : nat)
  (dst_stride src_stride : nat) (pool : pool_t) (src dst : list T) : outcome (list T) :=
  ds <- chunks_exact_o dst_stride dst ;;
  ss <- chunks_exact_o src_stride src ;;
  ds' <- for_each pool lbl_premul
    (fun d s => dv <- slice d 0 width4 ;; sv <- slice s 0 width4 ;;
                dv' <- row dv sv ;; Done (splice d 0 dv')) ds ss ;;
  Done (unchunk ds' (chunks_rem dst_stride dst)).

(** unpremultiply_*_impl: `in_place.chunks_exact_mut(stride).for_each(|row| f(&mut row[..width * 4]))`:
    alpha_handle_u8.rs 117-135, alpha_handle_u16.rs 152-172, alpha_handle_f32.rs 105-123. *)
Definition unpremul_rows {T} (row : list T -> outcome (list T)) (width4 stride : nat)
  (pool : pool_t) (b : list T) : outcome (list T) :=
  rs <- chunks_exact_o stride b ;;
  rs' <- for_each pool lbl_unpremul
    (fun r (_ : nat) => v <- slice r 0 width4 ;; v' <- row v ;; Done (splice r 0 v'))
    rs (seq 0 (length rs)) ;;
  Done (unchunk rs' (chunks_rem stride b)).

(** Row functions: `for (dst, src) in dst.chunks_exact_mut(4).zip(src.chunks_exact(4))`
    with a body that overwrites the four samples of [dst] from those of [src]. *)
Definition px_row {T} (px : T -> T -> T -> T -> list T) (dst src : list T) : outcome (list T) :=
  ds' <- zip_mut (fun _ s => match s with
                             | [r; g; b; a] => Done (px r g b a)
                             | _ => Panic end) (chunks_exact 4 dst) (chunks_exact 4 src) ;;
  Done (unchunk ds' (chunks_rem 4 dst)).

(** `for dst in in_place.chunks_exact_mut(4)` with a body that rewrites the four samples. *)
Definition px_row_in_place {T} (px : T -> T -> T -> T -> list T) (b : list T) : outcome (list T) :=
  ds' <- zip_mut (fun d (_ : nat) => match d with
                             | [r; g; b; a] => Done (px r g b a)
                             | _ => Panic end) (chunks_exact 4 b) (seq 0 (length (chunks_exact 4 b))) ;;
  Done (unchunk ds' (chunks_rem 4 b)).

Local Open Scope Z_scope.

(** ** 8 bit *)

(** u16 arithmetic in a release build. *)
Definition wrap16 (z : Z) : Z := z mod 2 ^ 16.

(** div_by_255, alpha_handle_u8.rs 42-46; the parameter and all intermediate values are u16. *)
Definition div_by_255 (v : Z) : Z :=
  Z.min (Z.shiftr (wrap16 (wrap16 (Z.shiftr (wrap16 (v + 128)) 8 + v) + 128)) 8) 255 mod 2 ^ 8.

(** Body of premultiply_alpha_rgba_row_impl, 48-57. *)
Definition premul_px_u8 (r g b a : Z) : list Z :=
  [div_by_255 (wrap16 (r * a)); div_by_255 (wrap16 (g * a)); div_by_255 (wrap16 (b * a)); div_by_255 (wrap16 (a * a))].

(** make_unpremultiplication_table, 85-103: the two nested loops write entry
    alpha*255 + pixel; rows overlap by one entry, the later alpha wins.
    [table_writes] lists the writes in order. *)
Definition table_value (alpha pixel : nat) : Z :=
  if (alpha =? 0)%nat then 0 else Z.of_nat ((pixel * 255 + alpha / 2) / alpha) mod 2 ^ 8.
Definition table_writes : list (nat * Z) :=
  flat_map (fun alpha => map (fun pixel => ((alpha * 255 + pixel)%nat, table_value alpha pixel)) (seq 0 256)) (seq 0 256).
Definition unpremultiplication_table : list Z :=
  fold_left (fun t w => upd t (fst w) (snd w)) table_writes (repeat 0 (256 * 256)).

(** Body of unpremultiply_alpha_rgba_row_impl, 106-115: indexing the static table
    with a u16 index. *)
Definition unpremul_ch_u8 (a c : Z) : Z :=
  nth (Z.to_nat (wrap16 (wrap16 (a * 255) + c))) unpremultiplication_table 0.
Definition unpremul_px_u8 (r g b a : Z) : list Z :=
  [unpremul_ch_u8 a r; unpremul_ch_u8 a g; unpremul_ch_u8 a b; a].

(** AssociateAlpha<u8, 4>::premultiply_alpha, image_store.rs 526-539 (portable dispatcher),
    UnassociateAlpha<u8, 4>, 592-598. *)
Definition premul_u8 (pool : pool_t) (im into : image Z) : outcome (image Z) :=
  b <- premul_rows (px_row premul_px_u8) (width im * 4) (stride_of 4 into) (stride_of 4 im) pool (buf im) (buf into) ;;
  Done (set_buf into b).
Definition unpremul_u8 (pool : pool_t) (im : image Z) : outcome (image Z) :=
  b <- unpremul_rows (px_row_in_place unpremul_px_u8) (width im * 4) (stride_of 4 im) pool (buf im) ;;
  Done (set_buf im b).

(** ** 16 bit *)

Definition wrap_u32 (z : Z) : Z := z mod 2 ^ 32.

(** div_by_1023, div_by_4095, div_by_65535: alpha_handle_u16.rs 41-64 (k = 10, 12, 16). *)
Definition div_by_pow (k : Z) (v : Z) : Z :=
  let v := wrap_u32 (v + 2 ^ (k - 1)) in
  wrap16 (Z.shiftr (wrap_u32 (Z.shiftr v k + v)) k).

(** The float branch, 93-104: `(((c * a) as f32 * recip_max_colors) as u32).min(max_colors) as u16`. *)
Definition premul_float_u16 (maxc : Z) (c a : Z) : Z :=
  let recip := fdiv f1 (fZ maxc 0) in
  wrap16 (Z.min (f_to_int 0 (2 ^ 32 - 1) (fmul (fZ (wrap_u32 (c * a)) 0) recip)) maxc).

(** Body of premultiply_alpha_rgba_row, 66-105.  Note the test against 4096
    (line 76): for 12 bit images max_colors is 4095. *)
Definition premul_ch_u16 (maxc : Z) (c a : Z) : Z :=
  if maxc =? 1023 then div_by_pow 10 (wrap_u32 (c * a))
  else if maxc =? 4096 then div_by_pow 12 (wrap_u32 (c * a))
  else if maxc =? 65535 then div_by_pow 16 (wrap_u32 (c * a))
  else premul_float_u16 maxc c a.
Definition premul_px_u16 (maxc : Z) (r g b a : Z) : list Z :=
  [premul_ch_u16 maxc r a; premul_ch_u16 maxc g a; premul_ch_u16 maxc b a; premul_ch_u16 maxc a a].

(** Body of unpremultiply_alpha_rgba_row, 107-118: a pixel with alpha 0 is left alone. *)
Definition unpremul_ch_u16 (maxc : Z) (c a : Z) : Z :=
  f_to_int 0 (2 ^ 16 - 1) (fmul (fZ (wrap_u32 (c * maxc)) 0) (fdiv f1 (fZ a 0))).
Definition unpremul_px_u16 (maxc : Z) (r g b a : Z) : list Z :=
  if a =? 0 then [r; g; b; a]
  else [unpremul_ch_u16 maxc r a; unpremul_ch_u16 maxc g a; unpremul_ch_u16 maxc b a; unpremul_ch_u16 maxc a a].

(** `(1 << bit_depth) - 1`, lines 130 and 160. *)
Definition max_colors (depth : nat) : Z := 2 ^ Z.of_nat depth - 1.

(** AssociateAlpha<u16, 4>, image_store.rs 600-615; UnassociateAlpha<u16, 4>, 704-717.
    The depth is that of the target image. *)
Definition premul_u16 (pool : pool_t) (im into : image Z) : outcome (image Z) :=
  b <- premul_rows (px_row (premul_px_u16 (max_colors (bit_depth into)))) (width im * 4)
         (stride_of 4 into) (stride_of 4 im) pool (buf im) (buf into) ;;
  Done (set_buf into b).
Definition unpremul_u16 (pool : pool_t) (im : image Z) : outcome (image Z) :=
  b <- unpremul_rows (px_row_in_place (unpremul_px_u16 (max_colors (bit_depth im)))) (width im * 4)
         (stride_of 4 im) pool (buf im) ;;
  Done (set_buf im b).

(** ** f32 *)

(** premultiply_pixel_f32_row 63-76 and unpremultiply_pixel_f32_row 40-61, alpha_handle_f32.rs. *)
Definition premul_px_f32 (r g b a : f32) : list f32 := [fmul r a; fmul g a; fmul b a; a].
Definition unpremul_px_f32 (r g b a : f32) : list f32 :=
  if feqb a f0 then [f0; f0; f0; a]
  else let s := fdiv f1 a in [fmul r s; fmul g s; fmul b s; a].
Definition premul_f32 (pool : pool_t) (im into : image f32) : outcome (image f32) :=
  b <- premul_rows (px_row premul_px_f32) (width im * 4) (stride_of 4 into) (stride_of 4 im) pool (buf im) (buf into) ;;
  Done (set_buf into b).
Definition unpremul_f32 (pool : pool_t) (im : image f32) : outcome (image f32) :=
  b <- unpremul_rows (px_row_in_place unpremul_px_f32) (width im * 4) (stride_of 4 im) pool (buf im) ;;
  Done (set_buf im b).

(** ** Alpha scan *)

(** has_non_constant_cap_alpha, alpha_check.rs 55-90, with ALPHA_CHANNEL_INDEX = 3 and
    CHANNELS = 4; [m] is the modulus of the accumulator type J (2^32 for u8 images,
    2^64 for u16 images).  The f32 variant, 93-118, is the same on bit patterns with m = 2^64. *)
Fixpoint scan_pixels (m : Z) (first sum : Z) (pixels : list (list Z)) : outcome Z :=
  match pixels with
  | [] => Done sum
  | p :: r => a <- idx p 3 ;; scan_pixels m first ((sum + Z.lxor a first) mod m) r
  end.
Fixpoint scan_rows (m : Z) (first sum : Z) (width : nat) (rows : list (list Z)) : outcome bool :=
  match rows with
  | [] => Done (negb (sum =? 0))
  | row :: r =>
      v <- slice row 0 (width * 4) ;;
      s <- scan_pixels m first sum (chunks_exact 4 v) ;;
      if negb (s =? 0) then Done true else scan_rows m first s width r
  end.
Definition has_non_constant_alpha (m : Z) (store : list Z) (width stride : nat) : outcome bool :=
  match store with
  | [] => Done false
  | _ => first <- idx store 3 ;;
         rows <- chunks_exact_o stride store ;;
         scan_rows m first 0 width rows
  end.
(** AssociateAlpha::is_alpha_premultiplication_needed, image_store.rs 541-549 and 617-624. *)
Definition alpha_needed_u8 (im : image Z) : outcome bool :=
  has_non_constant_alpha (2 ^ 32) (buf im) (width im) (stride_of 4 im).
Definition alpha_needed_u16 (im : image Z) : outcome bool :=
  has_non_constant_alpha (2 ^ 64) (buf im) (width im) (stride_of 4 im).

(** f32::to_bits, for the single NaN of this model (quiet, positive). *)
Definition f32_bits (x : f32) : Z :=
  match x with
  | B754_zero s => if s then 2 ^ 31 else 0
  | B754_infinity s => (if s then 2 ^ 31 else 0) + 255 * 2 ^ 23
  | B754_nan => 2 ^ 31 - 2 ^ 22
  | B754_finite s m e _ =>
      (if s then 2 ^ 31 else 0) +
      (if Z.pos m <? 2 ^ 23 then Z.pos m else (e + 150) * 2 ^ 23 + (Z.pos m - 2 ^ 23))
  end.
Definition alpha_needed_f32 (im : image f32) : outcome bool :=
  has_non_constant_alpha (2 ^ 64) (map f32_bits (buf im)) (width im) (stride_of 4 im).
