(** The textbook resampling kernels, over the real numbers, for a distance x >= 0 from the
    centre measured in (scaled) source pixels.  Nothing here refers to the code. *)
From Coq Require Import Reals List.
Import ListNotations.
From Verif Require Import Sampler.
Local Open Scope R_scope.

(** Linear interpolation. *)
Definition triangle (x : R) : R := if Rlt_dec x 1 then 1 - x else 0.
(** The average of what the window covers. *)
Definition flat (x : R) : R := 1.
(** The quadratic B-spline. *)
Definition quadratic_bspline (x : R) : R :=
  if Rlt_dec x (1 / 2) then 3 / 4 - x ^ 2
  else if Rlt_dec x (3 / 2) then (x - 3 / 2) ^ 2 / 2 else 0.
(** The Welch (parabolic) window. *)
Definition parabola (x : R) : R := if Rlt_dec x 1 then 1 - x ^ 2 else 0.
(** The two-parameter cubics of Mitchell and Netravali. *)
Definition bc_cubic (B C x : R) : R :=
  if Rlt_dec x 1 then ((12 - 9 * B - 6 * C) * x ^ 3 + (-18 + 12 * B + 6 * C) * x ^ 2 + (6 - 2 * B)) / 6
  else if Rlt_dec x 2 then ((- B - 6 * C) * x ^ 3 + (6 * B + 30 * C) * x ^ 2 + (-12 * B - 48 * C) * x + (8 * B + 24 * C)) / 6
  else 0.
(** Interpolating splines through 4, 6 and 8 points (Panorama Tools). *)
Definition spline16_R (x : R) : R :=
  if Rlt_dec x 1 then ((x - 9 / 5) * x - 1 / 5) * x + 1
  else if Rlt_dec x 2 then ((- 1 / 3 * (x - 1) + 4 / 5) * (x - 1) - 7 / 15) * (x - 1) else 0.
Definition spline36_R (x : R) : R :=
  if Rlt_dec x 1 then ((13 / 11 * x - 453 / 209) * x - 3 / 209) * x + 1
  else if Rlt_dec x 2 then ((- 6 / 11 * (x - 1) + 270 / 209) * (x - 1) - 156 / 209) * (x - 1)
  else if Rlt_dec x 3 then ((1 / 11 * (x - 2) - 45 / 209) * (x - 2) + 26 / 209) * (x - 2) else 0.
Definition spline64_R (x : R) : R :=
  if Rlt_dec x 1 then ((49 / 41 * x - 6387 / 2911) * x - 3 / 2911) * x + 1
  else if Rlt_dec x 2 then ((- 24 / 41 * (x - 1) + 4032 / 2911) * (x - 1) - 2328 / 2911) * (x - 1)
  else if Rlt_dec x 3 then ((6 / 41 * (x - 2) - 1008 / 2911) * (x - 2) + 582 / 2911) * (x - 2)
  else if Rlt_dec x 4 then ((- 1 / 41 * (x - 3) + 168 / 2911) * (x - 3) - 97 / 2911) * (x - 3) else 0.

(** The kernel a user expects behind a filter name, for the filters whose kernel is a
    piecewise polynomial. *)
Definition kernel_R (f : resampling_function) : option (R -> R) :=
  match f with
  | Bilinear => Some triangle
  | Box | Area => Some flat
  | Welch => Some parabola
  | Quadric | EwaQuadric => Some quadratic_bspline
  | Cubic | BSpline => Some (bc_cubic 1 0)
  | MitchellNetravalli => Some (bc_cubic (1 / 3) (1 / 3))
  | CatmullRom | Bicubic => Some (bc_cubic 0 (1 / 2))
  | Hermite => Some (bc_cubic 0 0)
  | Robidoux | EwaRobidoux => Some (bc_cubic (12 / (19 + 9 * sqrt 2)) (113 / (58 + 216 * sqrt 2)))
  | RobidouxSharp | EwaRobidouxSharp => Some (bc_cubic (6 / (13 + 7 * sqrt 2)) (7 / (2 + 12 * sqrt 2)))
  | Spline16 => Some spline16_R
  | Spline36 => Some spline36_R
  | Spline64 => Some spline64_R
  | _ => None
  end.
(** The two whose code does not compute the expected kernel (see C49). *)
Definition robidoux_typo (f : resampling_function) : bool :=
  match f with Robidoux | EwaRobidoux => true | _ => false end.

(** ** The ideal weights *)
Definition total (l : list R) : R := fold_right Rplus 0 l.
(** The position, in source pixels, of the centre of output position o. *)
Definition ideal_center (insz outsz o : nat) : R := (INR o + 1 / 2) * (INR insz / INR outsz).
(** How far the kernel is stretched: by the downscale ratio, never shrunk; the splines are
    never stretched. *)
Definition ideal_cutoff (f : resampling_function) (insz outsz : nat) : R :=
  match f with Spline16 | Spline36 | Spline64 => 1 | _ => Rmax (INR insz / INR outsz) 1 end.
(** Distance of source pixel k from the centre, in stretched units. *)
Definition ideal_distance (f : resampling_function) (insz outsz o k : nat) : R :=
  Rabs (INR k + 1 / 2 - ideal_center insz outsz o) / ideal_cutoff f insz outsz.
(** The elliptical variants blend each kernel sample with its left neighbour. *)
Fixpoint blend (prev : R) (l : list R) : list R :=
  match l with
  | [] => []
  | v :: r => let s := 7 / 10 * v + 3 / 10 * prev in s :: blend s r
  end.
Definition elliptical (f : resampling_function) : bool :=
  match f with EwaQuadric | EwaRobidoux | EwaRobidouxSharp => true | _ => false end.
Definition kernel_samples (f : resampling_function) (l : list R) : list R :=
  match l with v :: r => if elliptical f then v :: blend v r else l | [] => [] end.
(** The kernel the code actually computes. *)
Definition coded_kernel (f : resampling_function) : option (R -> R) :=
  if robidoux_typo f then Some (bc_cubic (12 / (19 + 9 * sqrt 2)) (13 / (58 + 216 * sqrt 2))) else kernel_R f.

(** ** The ideal window *)
(** Number of source pixels a filter looks at when nothing is stretched. *)
Definition support (f : resampling_function) : R :=
  match f with
  | EwaHanning => 1
  | Lanczos3 | Hann | Lanczos3Jinc | EwaLanczos3Jinc | Ginseng | EwaGinseng | EwaLanczosSharp
  | EwaLanczosSoft | HaasnSoft | Lagrange3 => 3
  | Lanczos4 | Lanczos4Jinc | EwaLanczos4Sharpest | Spline36 => 4
  | Lanczos6 | Lanczos6Jinc | Spline64 => 6
  | _ => 2
  end.
(** The length of the window in source pixels. *)
Definition ideal_length (f : resampling_function) (insz outsz : nat) : R := support f * ideal_cutoff f insz outsz.

(** ** Area averaging when enlarging *)
(** Output position o covers the interval [o * I/O, (o+1) * I/O] of the source; the part of
    it inside source pixel k, as a fraction of the whole. *)
Definition coverage (insz outsz o k : nat) : R :=
  let s := INR insz / INR outsz in
  Rmax 0 (Rmin ((INR o + 1) * s) (INR k + 1) - Rmax (INR o * s) (INR k)) / s.

(** ** Tolerances *)
(** How far a computed kernel value may be from the textbook value. *)
Definition kernel_tolerance (f : resampling_function) : R :=
  match f with
  | Robidoux | EwaRobidoux | RobidouxSharp | EwaRobidouxSharp => / 32768
  | MitchellNetravalli | CatmullRom => / 65536
  | BSpline | Bicubic => / 131072
  | _ => / 262144
  end.
(** The same for the weights of a window of n pixels: kernel tolerance or accumulated rounding. *)
Definition weight_tolerance (f : resampling_function) (n : nat) : R :=
  4 * Rmax (kernel_tolerance f) (/ 262144 + (INR n + 3) / 16777216).
