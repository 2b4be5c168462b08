(** What "resized with filter f" means, over the real numbers. *)
From Coq Require Import ZArith Reals List.
From Flocq Require Import Core.Core.
From Verif Require Import Sampler SpecKernels.
Import ListNotations.
Local Open Scope R_scope.

(** The mean of p 0, p 1, ... weighted by the samples g. *)
Definition weighted (g : list R) (p : nat -> R) : R :=
  total (map (fun k => nth k g 0 * p k) (seq 0 (length g))) / total g.
(** Limiting to the sample range. *)
Definition clip255 (x : R) : R := Rmax 0 (Rmin 255 x).

(** The pixels start, ..., start + len - 1 are the interval of the ideal length around the
    ideal centre, rounded outwards, limited to its length and clipped to the source. *)
Definition window_near (f : resampling_function) (insz outsz o start len : nat) : Prop :=
  let c := ideal_center insz outsz o in
  exists (n : Z) (p q : R),
    Rabs (IZR n - ideal_length f insz outsz) <= 1 / 2 + ideal_length f insz outsz / 4194304 /\
    Rabs (p - (c - IZR n / 2)) <= (c + IZR n / 2) / 2097152 /\
    Rabs (q - (c + IZR n / 2)) <= (c + IZR n / 2) / 2097152 /\
    Z.of_nat start = Z.max 0 (Zfloor p) /\
    (Z.of_nat start + Z.of_nat len)%Z = Z.min (Z.min (Zceil q) (Z.of_nat start + n)) (Z.of_nat insz).

(** Allowed error of a blend, in sample units (0..255), before the result is rounded. *)
Definition blend_tolerance (f : resampling_function) (g : list R) : R :=
  INR (length g) * (340 * weight_tolerance f (length g) * (1 + total (map Rabs g) / total g) / total g + / 128).

(** v is, up to the given rounding and the blend tolerance, the mean of the source samples in
    the window of output position o, weighted by the kernel K at their distances from the
    ideal centre, limited to 0..255.  Weights above one in absolute value cannot be
    represented by the code (C18_constant_sharp_refuted) and are excluded. *)
Definition textbook_at (f : resampling_function) (K : R -> R) (insz outsz o : nat) (p : nat -> Z) (v : Z) (rounding : R) : Prop :=
  exists start len al, window_near f insz outsz o start len /\ length al = len /\
    (forall k, (k < len)%nat ->
      0 <= nth k al 0 /\ Rabs (nth k al 0 - ideal_distance f insz outsz o (start + k)) <= (INR insz + 1) / ideal_cutoff f insz outsz / 1048576) /\
    let g := kernel_samples f (map K al) in
    / 7 <= total g /\
    (Forall (fun x => Rabs x <= total g) g ->
     Rabs (IZR v - clip255 (weighted g (fun k => IZR (p (start + k)%nat)))) <= rounding + blend_tolerance f g).
