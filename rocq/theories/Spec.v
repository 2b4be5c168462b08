(** Specification vocabulary, independent of the model's kernels.

    Samples of an image are addressed as (row y, flat column j) where
    j = x * N + c; nothing here refers to tiles, colour groups, chunks or rounding
    constants of the implementation. *)
From Verif Require Import Base.
Local Open Scope Z_scope.

(** sum_{k < n} f k *)
Fixpoint zsum (n : nat) (f : nat -> Z) : Z :=
  match n with O => 0 | S n' => zsum n' f + f n' end.

Definition clampZ (lo hi v : Z) : Z := Z.max lo (Z.min hi v).

(** A weighted sum in units of 2^-15, rounded to the nearest integer (ties up) or
    rounded down, then clamped to the sample range [0, maxv]. *)
Definition round_q15 (maxv v : Z) : Z := clampZ 0 maxv ((v + 2 ^ 14) / 2 ^ 15).
Definition floor_q15 (maxv v : Z) : Z := clampZ 0 maxv (v / 2 ^ 15).

(** Rewriting the visible part of a strided buffer: sample j of row y becomes
    [val y j] when y < h and j < n; every other element keeps its value.  [d] is
    only a default for [nth] and never shows up. *)
Definition pixmap {T} (d : T) (h stride n : nat) (val : nat -> nat -> T) (dst : list T) : list T :=
  map (fun i => if ((i / stride <? h)%nat && (i mod stride <? n)%nat)%bool
                then val (i / stride)%nat (i mod stride)%nat
                else nth i dst d)
      (seq 0 (length dst)).

(** ** Separable resampling, as a user would describe it *)

(** One-dimensional resampling weights: output position [o] is the combination
    of the [wsize o] input positions starting at [wstart o] with integer
    coefficients [wcoef o k] in units of 2^-15. *)
Record windows := mkWindows {
  wstart : nat -> nat;
  wsize : nat -> nat;
  wcoef : nat -> nat -> Z
}.

(** A picture: sample at row y, column x, channel c. *)
Definition picture := nat -> nat -> nat -> Z.

(** Vertical resampling rounds down, horizontal resampling rounds to nearest. *)
Definition resample_v (maxv : Z) (V : windows) (p : picture) : picture :=
  fun y x c => floor_q15 maxv (zsum (wsize V y) (fun k => wcoef V y k * p (wstart V y + k)%nat x c)).
Definition resample_h (maxv : Z) (H : windows) (p : picture) : picture :=
  fun y x c => round_q15 maxv (zsum (wsize H x) (fun k => wcoef H x k * p y (wstart H x + k)%nat c)).

(** Only the directions whose size changes are resampled. *)
Definition resample (maxv : Z) (do_v do_h : bool) (V H : windows) (p : picture) : picture :=
  let p := if do_v then resample_v maxv V p else p in
  if do_h then resample_h maxv H p else p.

(** Coefficients cannot overflow a 32-bit accumulator for samples in [0, maxv]. *)
Definition accumulator_safe (maxv : Z) (W : windows) (n : nat) : Prop :=
  forall o, (o < n)%nat -> zsum (wsize W o) (fun k => Z.abs (wcoef W o k)) * maxv + 2 ^ 14 < 2 ^ 31.
