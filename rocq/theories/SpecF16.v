(** What f16 results are, over the real numbers. *)
From Coq Require Import ZArith Reals List.
From Flocq Require Import Core.Core IEEE754.BinarySingleNaN.
From Verif Require Import F32 F16 ImageStore Sampler Spec SpecApi SpecFloat SpecX86Float.
Local Open Scope R_scope.

(** r is a binary16 number nearest to x; magnitudes of 65520 (half a step above the largest
    finite number) and more become infinite. *)
Definition nearest16 (x : R) (r : f16) : Prop :=
  (Rabs x < 65520 -> is_finite r = true /\ forall q : f16, is_finite q = true -> Rabs (B2R r - x) <= Rabs (B2R q - x)) /\
  (65520 <= x -> r = B754_infinity false) /\ (x <= - 65520 -> r = B754_infinity true).
Definition nearest_f16 (v : f32) (r : f16) : Prop := is_finite v = true -> nearest16 (B2R v) r.

(** The stored sample of column x, row y, channel c, for positions inside the image. *)
Definition stored16 (N : nat) (im : image f16) (y x c : nat) : f16 := nth (y * stride im + (x * N + c)) (buf im) h0.

(** r is a weighted sum of the samples of the window of output position o, each sample used
    once, computed in f32 and rounded once to f16 at the end. *)
Definition f16_sum_at (W : taps f32) (o : nat) (p : nat -> f16) (r : f16) : Prop :=
  exists v, each_tap_once W o (fun k => as_f32 (p k)) v /\ nearest_f16 v r.

(** Every sample of channel c is finite and of magnitude at most m. *)
Definition at_most16 (N : nat) (im : image f16) (c : nat) (m : R) : Prop :=
  forall x y, (x < width im)%nat -> (y < height im)%nat ->
    exists v, sample N im x y c = Some v /\ is_finite v = true /\ Rabs (B2R v) <= m.

(** 1.0, the alpha of an opaque pixel. *)
Definition h1 : f16 := @B754_finite 11 16 false 1024 (-10) eq_refl.

(** p is the product of colour c and alpha a, rounded once. *)
Definition associated16 (c a p : f16) : Prop :=
  is_finite c = true -> is_finite a = true -> nearest16 (B2R c * B2R a) p.
(** c' is the quotient of c by a, up to half a unit in the last place and a little more. *)
Definition recovered16 (c a c' : f16) : Prop :=
  is_finite c = true -> is_finite a = true -> B2R a <> 0 -> Rabs (B2R c / B2R a) <= 65504 ->
  is_finite c' = true /\ Rabs (B2R c' - B2R c / B2R a) <= Rabs (B2R c / B2R a) / 2040 + bpow radix2 (-25) + bpow radix2 (-40).
