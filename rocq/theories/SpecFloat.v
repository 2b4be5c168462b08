(** Specification vocabulary for images whose samples are combined in floating point:
    what one output sample is, as an expression in the samples and weights of its
    window.  Nothing here mentions kernels, tiles or groups of rows. *)
From Coq Require Import List Arith Bool.
Import ListNotations.

Section Weighted.
Context {J : Type} (zero : J) (mul : J -> J -> J) (madd : J -> J -> J -> J).

(** acc, then acc := madd acc (x k) (w k) for k = from, ..., from + n - 1. *)
Definition accumulate_from (from n : nat) (x w : nat -> J) (acc : J) : J :=
  fold_left (fun a k => madd a (x k) (w k)) (seq from n) acc.

(** Windows of 2, 3, 4 or 6 taps start with the first product, all others start with
    zero (in floating point this can only matter for the sign of zero and for
    infinities). *)
Definition starts_with_product (n : nat) : bool :=
  (n =? 2) || (n =? 3) || (n =? 4) || (n =? 6).

(** The value accumulated for a window of n taps, left to right. *)
Definition weighted (n : nat) (x w : nat -> J) : J :=
  if starts_with_product n
  then accumulate_from 1 (n - 1) x w (mul (x 0) (w 0))
  else accumulate_from 0 n x w zero.
End Weighted.

(** One-dimensional floating point resampling weights: output position [o] combines the
    [tsize o] input positions starting at [tstart o] with weights [tweight o k]. *)
Record taps (J : Type) := mkTaps {
  tstart : nat -> nat;
  tsize : nat -> nat;
  tweight : nat -> nat -> J
}.
Arguments mkTaps {J}. Arguments tstart {J}. Arguments tsize {J}. Arguments tweight {J}.

Section Resampling.
Context {T J : Type} (zero : J) (mul : J -> J -> J) (madd : J -> J -> J -> J)
        (cast : T -> J) (back : J -> T).

(** Vertical and horizontal resampling of a picture (row, column, channel). *)
Definition float_v (V : taps J) (p : nat -> nat -> nat -> T) : nat -> nat -> nat -> T :=
  fun y x c => back (weighted zero mul madd (tsize V y) (fun k => cast (p (tstart V y + k) x c)) (tweight V y)).
Definition float_h (H : taps J) (p : nat -> nat -> nat -> T) : nat -> nat -> nat -> T :=
  fun y x c => back (weighted zero mul madd (tsize H x) (fun k => cast (p y (tstart H x + k) c)) (tweight H x)).

(** Only the directions whose size changes are resampled. *)
Definition float_resample (do_v do_h : bool) (V H : taps J) (p : nat -> nat -> nat -> T) : nat -> nat -> nat -> T :=
  let p := if do_v then float_v V p else p in
  if do_h then float_h H p else p.
End Resampling.
