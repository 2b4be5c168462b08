(** Specification vocabulary for f32 images on x86-64: what it means for a float to be the
    sum of given taps of a window, computed in some order.  Nothing here mentions
    registers, lanes or kernels. *)
From Coq Require Import List Arith Permutation.
From Verif Require Import F32 SpecFloat.
Import ListNotations.

(** [summed n x w l v]: v was obtained from the products x k * w k, k running over the list
    [l] (a tap that occurs twice in [l] is counted twice), by f32 additions in some order,
    each product being added with one rounding (fused) or two; adding a zero product is
    allowed anywhere. [n] is the number of taps of the window. *)
Inductive summed (n : nat) (x w : nat -> f32) : list nat -> f32 -> Prop :=
| sum_none : summed n x w [] f0
| sum_first k : k < n -> summed n x w [k] (fmul (x k) (w k))
| sum_fused l a k : k < n -> summed n x w l a -> summed n x w (k :: l) (ffma (x k) (w k) a)
| sum_unfused l a k : k < n -> summed n x w l a -> summed n x w (k :: l) (fadd (fmul (x k) (w k)) a)
| sum_unfused' l a k : k < n -> summed n x w l a -> summed n x w (k :: l) (fadd a (fmul (x k) (w k)))
| sum_zero_fused l a z : (z = f0 \/ exists k, k < n /\ z = w k) -> summed n x w l a -> summed n x w l (ffma f0 z a)
| sum_zero_unfused l a z : (z = f0 \/ exists k, k < n /\ z = w k) -> summed n x w l a -> summed n x w l (fadd (fmul f0 z) a)
| sum_join l m a b : summed n x w l a -> summed n x w m b -> summed n x w (l ++ m) (fadd a b).

(** v is the sum of the products of the window of output position [o], each counted once;
    [p] gives the samples along the direction of the window. *)
Definition each_tap_once (W : taps f32) (o : nat) (p : nat -> f32) (v : f32) : Prop :=
  exists l, Permutation l (seq 0 (tsize W o)) /\
    summed (tsize W o) (fun k => p (tstart W o + k)) (tweight W o) l v.

(** Where the x86 build is known to count every tap exactly once, for row y of h rows: no
    SSE 4.1, or more than one channel, or a row of a complete group of four rows, or at most 16
    taps in the window [W] of column x. *)
Definition counted_once (sse : bool) (N h : nat) (W : taps f32) (y x : nat) : Prop :=
  sse = false \/ N <> 1 \/ y < 4 * (h / 4) \/ tsize W x <= 16.
