(** Specification vocabulary for the 16-bit alpha code of x86-64: what happens to one colour
    sample [c] of a pixel with alpha [a], for images of [depth] bits. *)
From Coq Require Import ZArith Reals List Bool.
From Flocq Require Import Core.Core IEEE754.BinarySingleNaN.
From Verif Require Import Base ImageStore Spec SpecApi SpecAlpha F32 F32Proofs X86Dispatch X86Float X86Alpha X86AlphaU16.
Local Open Scope Z_scope.

(** The 16-bit word [c] read as a signed number. *)
Definition signed16 (c : Z) : Z := if c <? 32768 then c else c - 65536.
(** Depths 10, 12 and 16: the SIGNED product divided by 2^n - 1 by the usual shift trick, in
    32-bit arithmetic. *)
Definition signed_associate (n : Z) (c a : Z) : Z :=
  let v := (signed16 c * signed16 a + 2 ^ (n - 1)) mod 2 ^ 32 in
  Z.min 65535 ((v + v / 2 ^ n) mod 2 ^ 32 / 2 ^ n).
(** Other depths, SSE4.1: (c * (1/max)) * a in f32, rounded to nearest; AVX2: alpha scaled first,
    then one fused (one half is added BEFORE rounding to nearest) or one plain product. *)
Definition word (v : Z) : Z := Z.max (-32768) (Z.min 32767 v) mod 65536.
Definition float_associate_sse (maxc c a : Z) : Z := word (cvtps (fmul (fmul (fZ c 0) (fdiv f1 (fZ maxc 0))) (fZ a 0))).
Definition scaled (fma : bool) (c : Z) (s : f32) : Z :=
  Z.max 0 (Z.min 65535 (cvtps (if fma then ffma (fZ c 0) s (fZ 1 (-1)) else Bnearbyint mode_NE (fmul (fZ c 0) s)))).
Definition float_associate_avx (fma : bool) (maxc c a : Z) : Z := scaled fma c (fmul (fZ a 0) (f64_recip maxc)).
Definition associate_sse (depth : nat) (c a : Z) : Z :=
  if (depth =? 10)%nat then signed_associate 10 c a else if (depth =? 12)%nat then signed_associate 12 c a
  else if (depth =? 16)%nat then signed_associate 16 c a else float_associate_sse (2 ^ Z.of_nat depth - 1) c a.
Definition associate_avx (fma : bool) (depth : nat) (c a : Z) : Z :=
  if (depth =? 10)%nat then signed_associate 10 c a else if (depth =? 12)%nat then signed_associate 12 c a
  else if (depth =? 16)%nat then signed_associate 16 c a else float_associate_avx fma (2 ^ Z.of_nat depth - 1) c a.
(** Un-premultiplication: the colour of a transparent pixel is kept. *)
Definition unassociate_sse (rcp : f32 -> f32) (depth : nat) (c a : Z) : Z :=
  if a =? 0 then c
  else word (cvtps (fadd (fZ 1 (-1)) (fmul (fZ c 0) (fmul (rcp (fZ a 0)) (fZ (2 ^ Z.of_nat depth - 1) 0))))).
Definition unassociate_avx (fma : bool) (rcp : f32 -> f32) (depth : nat) (c a : Z) : Z :=
  if a =? 0 then c else scaled fma c (fmul (rcp (fZ a 0)) (fZ (2 ^ Z.of_nat depth - 1) 0)).
(** Both kinds keep alpha. *)
Definition colours (ch : Z -> Z -> Z) (r g b a : Z) : list Z := (ch r a :: ch g a :: ch b a :: a :: nil).

(** The reciprocal instruction: relative error below 1.5 * 2^-12 (its documented accuracy) for
    every alpha of a 16-bit image. *)
Definition rcp_accurate16 (rcp : f32 -> f32) : Prop :=
  forall a, 1 <= a <= 65535 -> exists r, fin (rcp (fZ a 0)) r /\ (Rabs (r * IZR a - 1) <= 3 / 8192)%R.
(** [t] is max*c/a up to one half, and up to 0.0375 per cent of that quotient. *)
Definition quotient_nearest (maxc c a t : Z) : Prop := 16000 * Z.abs (a * t - maxc * c) <= 8000 * a + 6 * (maxc * c).
(** [t] is max*c/a, up to one above it, and up to 0.0375 per cent of that quotient. *)
Definition quotient_above (maxc c a t : Z) : Prop := - 6 * (maxc * c) <= 16000 * (a * t - maxc * c) <= 16000 * a + 6 * (maxc * c).
(** [t] is c*a/max up to 33/64; [t] is c*a/max, up to 65/64 above and 1/64 below. *)
Definition product_nearest (maxc c a t : Z) : Prop := 64 * Z.abs (maxc * t - c * a) <= 33 * maxc.
Definition product_above (maxc c a t : Z) : Prop := - maxc <= 64 * (maxc * t - c * a) <= 65 * maxc.
(** The vector unit in use: AVX2 before SSE 4.1. *)
Definition associate_x86 (c : fcpu) (depth : nat) : Z -> Z -> Z :=
  if avx2 (base_cpu c) then associate_avx (has_fma c) depth else associate_sse depth.
Definition unassociate_x86 (c : fcpu) (rcp : f32 -> f32) (depth : nat) : Z -> Z -> Z :=
  if avx2 (base_cpu c) then unassociate_avx (has_fma c) rcp depth else unassociate_sse rcp depth.
(** The largest sample of an image of [depth] bits. *)
Definition max_of (depth : nat) : Z := 2 ^ Z.of_nat depth - 1.
(** With AVX2 and FMA one half is added before rounding to nearest. *)
Definition fused (c : fcpu) : bool := avx2 (base_cpu c) && has_fma c.
Definition product_of (c : fcpu) (depth : nat) (v a t : Z) : Prop :=
  if fused c then product_above (max_of depth) v a t else product_nearest (max_of depth) v a t.
(** SSE 4.1 adds one half too when it un-premultiplies. *)
Definition quotient_of (c : fcpu) (depth : nat) (v a t : Z) : Prop :=
  if avx2 (base_cpu c) && negb (has_fma c) then quotient_nearest (max_of depth) v a t else quotient_above (max_of depth) v a t.
