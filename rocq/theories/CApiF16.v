(** The f16 entry points of the C interface, /repo/picscale/src/lib.rs 743-922 (the picscale
    crate switches nightly_f16 on), and ImageStoreScaling for f16 images, scaler_f16.rs
    155-222; portable code path. *)
From Coq Require Import ZArith List Bool.
From Flocq Require Import IEEE754.BinarySingleNaN.
From Verif Require Import Base ImageStore Resize F32 Sampler Api Alpha ApiFloat Threading CApi F16.
Import ListNotations.
Local Open Scope nat_scope.

(** The bits of an f16 in memory (two bytes, little endian); the model has one NaN, written
    as the quiet positive one. *)
Definition f16_bits (x : f16) : Z :=
  match x with
  | B754_zero s => if s then 2 ^ 15 else 0
  | B754_infinity s => (if s then 2 ^ 15 else 0) + 31 * 2 ^ 10
  | B754_nan => 2 ^ 15 - 2 ^ 9
  | B754_finite s m e _ =>
      (if s then 2 ^ 15 else 0) +
      (if Z.pos m <? 2 ^ 10 then Z.pos m else (e + 25) * 2 ^ 10 + (Z.pos m - 2 ^ 10))
  end%Z.
Definition hZ (v e : Z) : f16 := binary_normalize 11 16 eq_refl eq_refl mode_NE v e false.
Definition f16_of_bits (w : Z) : f16 :=
  let s := (2 ^ 15 <=? w)%Z in
  let e := (w / 2 ^ 10 mod 32)%Z in
  let m := (w mod 2 ^ 10)%Z in
  let sg v := if s then (- v)%Z else v in
  if (e =? 31)%Z then if (m =? 0)%Z then B754_infinity s else B754_nan
  else if (e =? 0)%Z then if (m =? 0)%Z then B754_zero s else hZ (sg m) (-24)
  else hZ (sg (m + 2 ^ 10)%Z) (e - 25).
Definition elem_f16 : elem f16 :=
  mkElem 2 2 (fun b => f16_of_bits (nth 0 b 0 + 256 * nth 1 b 0)%Z) (fun v => let w := f16_bits v in [w mod 256; w / 256]%Z) h0.

Section Entry.
Variables (hs : host) (L : libm) (k : mlaf_kind).
(** `scale` of PlanarF16/CbCrF16/RgbF16 (scaler_f16.rs 155-204) and RgbaF16 images (206-222):
    a fresh scaler with the options, then resize_*_f16. *)
Definition scale_f16 (N : nat) (o : scaling_options) (store into : image f16) : callres f16 :=
  let s := scaler_of_options o in resize_f16 k L (sfunction s) N (pool_for hs s into) store into.
Definition scale_rgba_f16 (o : scaling_options) (store into : image f16) : callres f16 :=
  let s := scaler_of_options o in resize_rgba_f16 k L (sfunction s) (pool_for hs s into) (o_premultiply o) store into.
(** pic_scale_resize_{planar,cbcr,rgb,rgba}_f16 (N = 1, 2, 3, 4), lib.rs 743-922. *)
Definition c_resize_f16 (N : nat) (src : block) (src_stride w h : nat) (dst : block) (dst_stride nw nh : nat)
  (f : scaling_filter) (flags : Z) : cres (nat * list Z) :=
  let o := options_of f flags in
  c_scale elem_f16 N (if N =? 4 then scale_rgba_f16 o else scale_f16 N o) src src_stride w h dst dst_stride nw nh 16.
End Entry.
