(** What it means for an f32 sample to be accurate, over the real numbers. *)
From Coq Require Import ZArith Reals List.
From Flocq Require Import Core.Core IEEE754.BinarySingleNaN.
From Verif Require Import F32 ImageStore Sampler SpecFloat SpecKernels SpecAccuracy.
Import ListNotations.
Local Open Scope R_scope.

(** The stored sample of column x, row y, channel c, for positions inside the image. *)
Definition stored (N : nat) (im : image f32) (y x c : nat) : f32 := nth (y * stride im + (x * N + c)) (buf im) f0.

(** g 0 + ... + g (n - 1). *)
Definition sum_to (n : nat) (g : nat -> R) : R := total (map g (seq 0 n)).
(** A finite number (neither infinity nor NaN) of absolute value at most M. *)
Definition within_R (M : R) (v : f32) : Prop := is_finite v = true /\ Rabs (B2R v) <= M.

(** v is the sum of the products of the samples in the window of output position o with
    the weights of that window, up to rounding errors of at most n units of 2^-22 relative to
    the sum of the absolute values (n the length of the window), whenever that sum is at
    most 2^98. *)
Definition blend_at (W : taps f32) (o : nat) (p : nat -> f32) (v : f32) : Prop :=
  let n := tsize W o in
  let x k := B2R (p (tstart W o + k)%nat) in
  let w k := B2R (tweight W o k) in
  let size := sum_to n (fun k => Rabs (x k * w k)) in
  (Z.of_nat n <= 2 ^ 21)%Z ->
  (forall k, (k < n)%nat -> is_finite (p (tstart W o + k)%nat) = true /\ is_finite (tweight W o k) = true) ->
  size <= IZR (2 ^ 98) ->
  is_finite v = true /\
  Rabs (B2R v - sum_to n (fun k => x k * w k)) <= INR n * / 4194304 * size + INR n * bpow radix2 (-147).

(** Allowed error of a blend of samples of absolute value at most 1. *)
Definition float_tolerance (f : resampling_function) (g : list R) : R :=
  2 * INR (length g) * (1 + total (map Rabs g) / total g) * (weight_tolerance f (length g) / total g + / 4194304).

(** v is the mean of the samples in the window of output position o, weighted by the kernel K
    at their distances from the ideal centre. *)
Definition textbook_f32_at (f : resampling_function) (K : R -> R) (insz outsz o : nat) (p : nat -> f32) (v : f32) : Prop :=
  exists start len al, window_near f insz outsz o start len /\ (start + len <= insz)%nat /\ (Z.of_nat len <= 512)%Z /\ length al = len /\
    (forall k, (k < len)%nat ->
      0 <= nth k al 0 /\ Rabs (nth k al 0 - ideal_distance f insz outsz o (start + k)) <= (INR insz + 1) / ideal_cutoff f insz outsz / 1048576) /\
    let g := kernel_samples f (map K al) in
    / 7 <= total g /\ Forall (fun x => Rabs x <= 5 / 4) g /\
    forall M, M <= IZR (2 ^ 80) -> (forall k, (k < len)%nat -> within_R M (p (start + k)%nat)) ->
      is_finite v = true /\
      Rabs (B2R v - SpecAccuracy.weighted g (fun k => B2R (p (start + k)%nat))) <= M * float_tolerance f g + bpow radix2 (-100).
