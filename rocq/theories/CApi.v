(** Model of the C interface, /repo/picscale/src/lib.rs. *)
From Coq Require Import ZArith List Bool.
From Flocq Require Import IEEE754.BinarySingleNaN.
From Verif Require Import Base ImageStore Resize F32 Sampler Api Alpha ApiRgba ApiFloat Threading.
Import ListNotations.
Local Open Scope nat_scope.

(** ** Memory.  What a pointer argument stands for: its numeric address and the bytes from
    there on that the caller owns.  Source and destination are different memory. *)
Record block := mkBlock { addr : nat; mem : list Z }.
Definition sub (m : list Z) (off n : nat) : list Z := firstn n (skipn off m).

(** How values of type [T] lie in memory: size_of, align_of, reading and writing. *)
Record elem (T : Type) := mkElem { esize : nat; ealign : nat; edec : list Z -> T; eenc : T -> list Z; ezero : T }.
Arguments mkElem {T}. Arguments esize {T}. Arguments ealign {T}. Arguments edec {T}. Arguments eenc {T}. Arguments ezero {T}.
(** u8, u16 (little endian; the value of a u16 is below 65536) and f32 (through its bits; the
    model has one NaN, see f32_bits) on x86-64 and aarch64. *)
Definition elem_u8 : elem Z := mkElem 1 1 (fun b => nth 0 b 0%Z) (fun v => [v]) 0%Z.
Definition elem_u16 : elem Z :=
  mkElem 2 2 (fun b => (nth 0 b 0 + 256 * nth 1 b 0)%Z) (fun v => [v mod 256; v / 256]%Z) 0%Z.
Definition f32_of_bits (w : Z) : f32 :=
  let s := (2 ^ 31 <=? w)%Z in
  let e := (w / 2 ^ 23 mod 256)%Z in
  let m := (w mod 2 ^ 23)%Z in
  let sg v := if s then (- v)%Z else v in
  if (e =? 255)%Z then if (m =? 0)%Z then B754_infinity s else B754_nan
  else if (e =? 0)%Z then if (m =? 0)%Z then B754_zero s else fZ (sg m) (-149)
  else fZ (sg (m + 2 ^ 23)%Z) (e - 150).
Definition elem_f32 : elem f32 :=
  mkElem 4 4 (fun b => f32_of_bits (nth 0 b 0 + 256 * nth 1 b 0 + 65536 * nth 2 b 0 + 16777216 * nth 3 b 0)%Z)
    (fun v => let w := f32_bits v in [w mod 256; w / 256 mod 256; w / 65536 mod 256; w / 16777216]%Z) f0.

(** What the C caller observes: a code and the destination memory, or the process aborts
    (a panic: Cargo.toml has panic = "abort"), or the call has undefined behaviour. *)
Inductive cres (A : Type) := CDone (a : A) | CAbort | CUndefined.
Arguments CDone {A}. Arguments CAbort {A}. Arguments CUndefined {A}.
Definition cbind {A B} (m : cres A) (k : A -> cres B) : cres B :=
  match m with CDone a => k a | CAbort => CAbort | CUndefined => CUndefined end.
Fixpoint cmap {A B} (f : A -> cres B) (l : list A) : cres (list B) :=
  match l with [] => CDone [] | a :: t => cbind (f a) (fun b => cbind (cmap f t) (fun r => CDone (b :: r))) end.
Fixpoint cfold {A S} (f : S -> A -> cres S) (l : list A) (s : S) : cres S :=
  match l with [] => CDone s | a :: t => cbind (f s a) (cfold f t) end.

Section Elements.
Context {T : Type}.
Variable e : elem T.
(** slice::from_raw_parts(ptr, n): undefined unless aligned and owned. *)
Definition decode (m : list Z) (n : nat) : list T := map (fun i => edec e (sub m (i * esize e) (esize e))) (seq 0 n).
Definition raw_parts (b : block) (n : nat) : cres (list T) :=
  if negb (addr b mod ealign e =? 0) then CUndefined
  else if length (mem b) <? n * esize e then CUndefined
  else CDone (decode (mem b) n).
Definition encode (l : list T) : list Z := flat_map (eenc e) l.
(** ptr.add(off).read_unaligned() and write_unaligned. *)
Definition read_at (m : list Z) (off : nat) : cres T :=
  if off + esize e <=? length m then CDone (edec e (sub m off (esize e))) else CUndefined.
Definition write_at (m : list Z) (off : nat) (v : T) : cres (list Z) :=
  if off + esize e <=? length m then CDone (splice m off (eenc e v)) else CUndefined.

(** The copy of an unaligned source, lib.rs 100-116.  A row of the source is cut into chunks of
    N bytes, one per sample.  Simplification: a read reaching past its chunk (N smaller than
    the sample) is allowed as long as it stays in the caller's memory. *)
Definition read_row (N : nat) (m : list Z) (src_stride n y : nat) : cres (list T) :=
  cbind (cmap (fun i => read_at m (y * src_stride + i * N)) (seq 0 (Nat.min n (src_stride / N))))
        (fun l => CDone (l ++ repeat (ezero e) (n - src_stride / N))).
Definition copy_source (N : nat) (src : block) (src_stride w h : nat) : cres (list T) :=
  let total := wmul (wmul w h) N in
  let bytes := wmul src_stride h in
  if length (mem src) <? bytes then CUndefined
  else if (wmul w N =? 0) || (src_stride =? 0) || (N =? 0) then CAbort
  else
    let rows := Nat.min (total / wmul w N) (bytes / src_stride) in
    cbind (cmap (read_row N (mem src) src_stride (wmul w N)) (seq 0 rows))
          (fun l => CDone (concat l ++ repeat (ezero e) (total - rows * wmul w N))).

(** lib.rs 91-131: the source image. *)
Definition c_source (N : nat) (src : block) (src_stride w h depth : nat) : cres (image T) :=
  if negb (addr src mod ealign e =? 0) || negb (src_stride mod esize e =? 0) then
    cbind (copy_source N src src_stride w h) (fun l => CDone (mkImage l N w h (wmul w N) depth))
  else
    cbind (raw_parts src (wmul (src_stride / esize e) h))
          (fun l => CDone (mkImage l N w h (src_stride / esize e) depth)).

(** lib.rs 161-172: writing the result back, N bytes per sample; the destination slice has
    new_width * dst_stride bytes. *)
Definition write_row (N : nat) (dst_stride : nat) (m : list Z) (yr : nat * list T) : cres (list Z) :=
  cfold (fun m iv => write_at m (fst yr * dst_stride + fst iv * N) (snd iv))
        (combine (seq 0 (dst_stride / N)) (snd yr)) m.
Definition copy_back (N : nat) (out : image T) (dst_stride new_width : nat) (m : list Z) : cres (list Z) :=
  if length m <? wmul new_width dst_stride then CUndefined
  else if (stride_of N out =? 0) || (dst_stride =? 0) || (N =? 0) then CAbort
  else
    let rows := chunks_exact (stride_of N out) (buf out) in
    cfold (write_row N dst_stride)
          (combine (seq 0 (wmul new_width dst_stride / dst_stride)) rows) m.

(** map_error_code, lib.rs 64-70. *)
Definition code_of (v : verdict) : nat := match v with Ok => 0 | Err e => error_code e end.

(** pic_scale_scale_generic, lib.rs 72-190; [scale] is ImageStoreScaling::scale with the
    options already applied. *)
Definition c_scale (N : nat) (scale : image T -> image T -> callres T)
  (src : block) (src_stride w h : nat) (dst : block) (dst_stride nw nh depth : nat) : cres (nat * list Z) :=
  cbind (c_source N src src_stride w h depth) (fun store =>
    if negb (addr dst mod ealign e =? 0) && negb (dst_stride mod esize e =? 0) then
      match scale store (alloc_with_depth (ezero e) N nw nh depth) with
      | Panicked => CAbort
      | Returned v out =>
          if negb (code_of v =? 0) then CDone (code_of v, mem dst)
          else cbind (copy_back N out dst_stride nw (mem dst)) (fun m => CDone (0, m))
      end
    else
      let n := wmul nh (dst_stride / esize e) in
      cbind (raw_parts dst n) (fun d =>
        match scale store (mkImage d N nw nh (dst_stride / esize e) depth) with
        | Panicked => CAbort
        | Returned v out => CDone (code_of v, encode (buf out) ++ skipn (n * esize e) (mem dst))
        end)).
End Elements.

(** enum ScalingFilter and to_resampling, lib.rs 41-62. *)
Inductive scaling_filter := FNearest | FBilinear | FLanczos3 | FMitchellNetravalli | FBicubic | FCatmullRom.
Definition to_resampling (f : scaling_filter) : resampling_function :=
  match f with
  | FNearest => Nearest | FBilinear => Bilinear | FLanczos3 => Lanczos3
  | FMitchellNetravalli => MitchellNetravalli | FBicubic => Bicubic | FCatmullRom => CatmullRom
  end.
(** The numbers of the enum (repr(C), lib.rs 41-49; include/picscale.h 10-17). *)
Definition scaling_filter_number (f : scaling_filter) : Z :=
  match f with
  | FNearest => 0 | FBilinear => 1 | FLanczos3 => 2 | FMitchellNetravalli => 3 | FBicubic => 4 | FCatmullRom => 5
  end.
(** The flags, lib.rs 38-39 and 142-149. *)
Definition PIC_SCALE_PREMULTIPLY_ALPHA : Z := 1.
Definition PIC_SCALE_USE_MULTITHREADING : Z := 2.
Definition options_of (f : scaling_filter) (flags : Z) : scaling_options :=
  mkOptions (to_resampling f) (negb (Z.land flags PIC_SCALE_PREMULTIPLY_ALPHA =? 0)%Z)
    (negb (Z.land flags PIC_SCALE_USE_MULTITHREADING =? 0)%Z).

(** The entry points: pic_scale_resize_{planar,cbcr,rgb,rgba}{8,16,_f32} (N = 1, 2, 3, 4),
    lib.rs 192-750, portable code path; the f16 ones are in CApiF16. *)
Section Entry.
Variables (hs : host) (L : libm) (k : mlaf_kind).
Definition c_resize_u8 (N : nat) (src : block) (src_stride w h : nat) (dst : block) (dst_stride nw nh : nat)
  (f : scaling_filter) (flags : Z) : cres (nat * list Z) :=
  let o := options_of f flags in
  c_scale elem_u8 N (if N =? 4 then scale_rgba_u8 hs L o else scale_u8 hs L N o) src src_stride w h dst dst_stride nw nh 8.
Definition c_resize_u16 (N : nat) (src : block) (src_stride w h : nat) (dst : block) (dst_stride nw nh depth : nat)
  (f : scaling_filter) (flags : Z) : cres (nat * list Z) :=
  let o := options_of f flags in
  c_scale elem_u16 N (if N =? 4 then scale_rgba_u16 hs L k o else scale_u16 hs L k N o) src src_stride w h dst dst_stride nw nh depth.
Definition c_resize_f32 (N : nat) (src : block) (src_stride w h : nat) (dst : block) (dst_stride nw nh : nat)
  (f : scaling_filter) (flags : Z) : cres (nat * list Z) :=
  let o := options_of f flags in
  c_scale elem_f32 N (if N =? 4 then scale_rgba_f32 hs L k o else scale_f32 hs L k N o) src src_stride w h dst dst_stride nw nh 16.
End Entry.
