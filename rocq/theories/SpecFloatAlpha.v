(** What un-premultiplying f32 colours should give, over the reals. *)
From Coq Require Import Reals.
From Flocq Require Import Core.Core IEEE754.BinarySingleNaN.
From Verif Require Import F32.
Local Open Scope R_scope.

(** [c'] is the quotient of the stored colour [c] by the stored alpha [a], up to three units in the last place
    (and the smallest subnormal), when [c] and [a] are finite and neither extreme. *)
Definition recovered (c a c' : f32) : Prop :=
  is_finite c = true -> is_finite a = true -> / 2 ^ 40 <= Rabs (B2R a) <= 2 ^ 40 -> Rabs (B2R c) <= 2 ^ 50 ->
  is_finite c' = true /\ Rabs (B2R c' - B2R c / B2R a) <= 3 / 16777216 * Rabs (B2R c / B2R a) + bpow radix2 (-150).
