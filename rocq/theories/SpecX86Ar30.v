(** What the x86 kernels for packed 30-bit images compute. *)
From Coq Require Import ZArith List Bool.
From Verif Require Import Base Spec SpecApi SpecAr30.
Import ListNotations.
Local Open Scope Z_scope.

(** The pixel of a window of n that the row kernels multiply by weight k.  Blocks of eight
    are taken while more than eight taps are left and exchange the second and third pair;
    a block of four, taken when more than four are left, repeats its first and third pixel. *)
Definition tap30 (n k : nat) : nat :=
  (let e := 8 * ((n - 1) / 8) in
   if k <? e then 8 * (k / 8) + nth (k mod 8) [0; 1; 4; 5; 2; 3; 6; 7] 0
   else if (k <? e + 4) && (e + 4 <? n) then e + nth (k - e) [0; 0; 2; 2] 0
   else k)%nat.

(** To the nearest integer, halves down. *)
Definition nearest_down (s : Z) : Z := clampZ 0 1023 ((s + 2 ^ 14 - 1) / 2 ^ 15).
(** Half of it, as the one-row kernel does. *)
Definition nearest_half (s : Z) : Z := clampZ 0 1023 ((s + 2 ^ 15 - 1) / 2 ^ 16).

(** h rows: the vertical pass, then the horizontal one, whose last (h mod 4) rows are halved
    and lose their green. *)
Definition resample30_x86 (h : nat) (do_v do_h : bool) (V H : windows) (p : picture) : picture :=
  let p := if do_v then fun y x c => nearest_down (zsum (wsize V y) (fun k => wcoef V y k * p (wstart V y + k)%nat x c)) else p in
  if do_h then fun y x c =>
    let s := zsum (wsize H x) (fun k => wcoef H x k * p y (wstart H x + tap30 (wsize H x) k)%nat c) in
    if (y <? 4 * (h / 4))%nat then nearest_down s else match c with 1%nat => 0 | _ => nearest_half s end
  else p.
