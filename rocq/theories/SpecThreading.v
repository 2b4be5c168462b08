(** What C29 promises, independent of the model's helpers. *)
From Coq Require Import ZArith NArith List.
From Verif Require Import Base BaseProofs Threading.

(** A machine on which something can run: the OS reports at least one processor if it reports
    any, and whatever pool rayon builds runs every task of a loop exactly once, in some order. *)
Definition sane_host (h : host) : Prop :=
  (forall n, reported_parallelism h = Some n -> (1 <= n)%N) /\ forall n, pool_ok (build_pool h n).
