(** Signs and sizes of the textbook kernels. *)
From Coq Require Import ZArith Reals Lra Lia List Psatz.
From Verif Require Import Sampler SpecKernels KernelAccuracy.
Local Open Scope R_scope.

(** On distances below A: the value is at most 5/4, at least [mid] near the centre,
    non-negative below 1 and never below -low. *)
Definition kfacts (K : R -> R) (A mid low : R) : Prop :=
  forall a, 0 <= a < A -> K a <= 5 / 4 /\ (a <= 29 / 50 -> mid <= K a) /\ (a < 1 -> 0 <= K a) /\ - low <= K a.

Ltac cases := repeat match goal with |- context [Rlt_dec ?x ?y] => destruct (Rlt_dec x y) end.
Lemma triangle_facts : kfacts triangle 2 (2 / 5) 0.
Proof. intros a Ha. unfold triangle. cases; repeat split; intros; lra. Qed.
Lemma flat_facts : kfacts flat 2 (2 / 5) 0.
Proof. intros a Ha. unfold flat. repeat split; intros; lra. Qed.
Lemma parabola_facts : kfacts parabola 2 (2 / 5) 0.
Proof. intros a Ha. unfold parabola. cases; repeat split; intros; try lra; nra. Qed.
Lemma quadratic_facts : kfacts quadratic_bspline 2 (2 / 5) 0.
Proof. intros a Ha. unfold quadratic_bspline. cases; repeat split; intros; try lra; nra. Qed.

(** Cubics, through rational parameters. *)
Definition near (x y e : R) : Prop := Rabs (x - y) <= e.
Lemma bc_perturb B C B0 C0 e a : 0 <= a < 2 -> Rabs (B - B0) <= e -> Rabs (C - C0) <= e ->
  Rabs (bc_cubic B C a - bc_cubic B0 C0 a) <= 40 * e.
Proof.
  intros Ha HB HC. assert (0 <= e) by (eapply Rle_trans; [apply Rabs_pos|exact HB]).
  assert (X : forall p q, Rabs p <= 20 -> Rabs q <= 20 -> Rabs ((B - B0) * p + (C - C0) * q) <= 40 * e).
  { intros p q Hp Hq. eapply Rle_trans; [apply Rabs_triang|]. rewrite !Rabs_mult.
    assert (Rabs (B - B0) * Rabs p <= e * 20) by (apply Rmult_le_compat; auto using Rabs_pos).
    assert (Rabs (C - C0) * Rabs q <= e * 20) by (apply Rmult_le_compat; auto using Rabs_pos). lra. }
  unfold bc_cubic. destruct (Rlt_dec a 1); [|destruct (Rlt_dec a 2); [|lra]].
  - match goal with |- Rabs ?t <= _ => replace t with
      ((B - B0) * ((-9 * a ^ 3 + 12 * a ^ 2 - 2) / 6) + (C - C0) * ((-6 * a ^ 3 + 6 * a ^ 2) / 6)) by field end.
    assert (0 <= a ^ 2 <= 1) by nra. assert (0 <= a ^ 3 <= 1) by nra. apply X; apply Rabs_le; lra.
  - match goal with |- Rabs ?t <= _ => replace t with
      ((B - B0) * ((2 - a) ^ 3 / 6) + (C - C0) * ((2 - a) ^ 3 - (2 - a) ^ 2)) by field end.
    set (t := 2 - a). assert (0 <= t <= 1) by (unfold t; lra). assert (0 <= t ^ 2 <= 1) by nra. assert (0 <= t ^ 3 <= 1) by nra.
    apply X; apply Rabs_le; lra.
Qed.
Lemma bc_second B C a : 1 <= a < 2 -> bc_cubic B C a = (2 - a) ^ 2 * ((B / 6 + C) * (2 - a) - C).
Proof. intros H. unfold bc_cubic. destruct (Rlt_dec a 1); [lra|]. destruct (Rlt_dec a 2); [field|lra]. Qed.
Lemma bc_first B C a : a < 1 -> bc_cubic B C a = ((12 - 9 * B - 6 * C) * a ^ 3 + (-18 + 12 * B + 6 * C) * a ^ 2 + (6 - 2 * B)) / 6.
Proof. intros H. unfold bc_cubic. destruct (Rlt_dec a 1); [reflexivity|lra]. Qed.

(** Facts with a margin d, for rational parameters. *)
Definition bc_margin (B C mid low d : R) : Prop :=
  (forall a, 0 <= a < 1 -> d <= bc_cubic B C a <= 5 / 4 - d /\ (a <= 29 / 50 -> mid + d <= bc_cubic B C a)) /\
  (forall a, 1 <= a < 2 -> - low + d <= bc_cubic B C a <= 5 / 4 - d).
Lemma margin_facts B C mid low : 0 <= low -> bc_margin B C mid low 0 -> kfacts (bc_cubic B C) 2 mid low.
Proof.
  intros L [H1 H2] a Ha. destruct (Rlt_dec a 1) as [H|H].
  - destruct (H1 a ltac:(lra)) as [X Y]. repeat split; intros; try lra; specialize (Y ltac:(lra)); lra.
  - specialize (H2 a ltac:(lra)). repeat split; intros; lra.
Qed.
Lemma margin_perturb B C B0 C0 e mid low : 0 <= low -> Rabs (B - B0) <= e -> Rabs (C - C0) <= e ->
  bc_margin B0 C0 mid low (40 * e) -> kfacts (bc_cubic B C) 2 mid low.
Proof.
  intros L HB HC [H1 H2] a Ha. pose proof (bc_perturb B C B0 C0 e a Ha HB HC) as P.
  assert (P' : bc_cubic B0 C0 a - 40 * e <= bc_cubic B C a <= bc_cubic B0 C0 a + 40 * e).
  { unfold Rabs in P. destruct (Rcase_abs _) in P; lra. }
  destruct (Rlt_dec a 1) as [H|H].
  - destruct (H1 a ltac:(lra)) as [X Y]. repeat split; intros; try lra; specialize (Y ltac:(lra)); lra.
  - specialize (H2 a ltac:(lra)). repeat split; intros; lra.
Qed.
(** Products of the distances to the ends of an interval (the Bernstein basis). *)
Lemma bern x lo hi : lo <= x <= hi -> 0 <= (x - lo) ^ 3 /\ 0 <= (x - lo) ^ 2 * (hi - x) /\ 0 <= (x - lo) * (hi - x) ^ 2 /\ 0 <= (hi - x) ^ 3.
Proof.
  intros [H1 H2]. assert (0 <= x - lo) by lra. assert (0 <= hi - x) by lra.
  split; [apply pow_le; assumption|]. split; [apply Rmult_le_pos; [apply pow_le|]; assumption|].
  split; [apply Rmult_le_pos; [|apply pow_le]; assumption|apply pow_le; assumption].
Qed.
Ltac bern3 x lo hi := let H := fresh "Be" in
  assert (H : 0 <= (x - lo) ^ 3 /\ 0 <= (x - lo) ^ 2 * (hi - x) /\ 0 <= (x - lo) * (hi - x) ^ 2 /\ 0 <= (hi - x) ^ 3) by (apply bern; lra);
  destruct H as (?Be & ?Be & ?Be & ?Be).
Ltac bc1 a := rewrite bc_first by lra; (split; [split; bern3 a 0 1; lra|intros ?; bern3 a 0 (29 / 50); lra]).
Ltac bc2 a mid := rewrite bc_second by lra;
  let t := fresh "t" in assert (0 <= 2 - a <= 1) by lra; set (t := 2 - a) in *; clearbody t;
  split; (destruct (Rle_or_lt t mid); [bern3 t 0 mid; lra|bern3 t mid 1; lra]).
Lemma hermite_facts : kfacts (bc_cubic 0 0) 2 (3 / 8) 0.
Proof. apply margin_facts; [lra|]. split; intros a Ha; [bc1 a|bc2 a (1 / 2)]. Qed.
Lemma bspline_facts : kfacts (bc_cubic 1 0) 2 (3 / 8) 0.
Proof. apply margin_facts; [lra|]. split; intros a Ha; [bc1 a|bc2 a (1 / 2)]. Qed.
Lemma mitchell_facts : kfacts (bc_cubic (1 / 3) (1 / 3)) 2 (3 / 8) (2 / 25).
Proof. apply margin_facts; [lra|]. split; intros a Ha; [bc1 a|bc2 a (2 / 3)]. Qed.
Lemma catmull_facts : kfacts (bc_cubic 0 (1 / 2)) 2 (3 / 8) (2 / 25).
Proof. apply margin_facts; [lra|]. split; intros a Ha; [bc1 a|bc2 a (2 / 3)]. Qed.
Lemma quot_near num d0 d1 q e : 0 < d0 -> 0 < d1 ->
  q * (d0 + d1 * (141421357 / 100000000)) - e * (d0 + d1) <= num <= q * (d0 + d1 * (141421356 / 100000000)) + e * (d0 + d1) -> 0 <= q -> 0 <= e ->
  Rabs (num / (d0 + d1 * sqrt 2) - q) <= e.
Proof.
  intros P0 P1 H Q0 E0. pose proof sqrt2_bounds as S2. set (D := d0 + d1 * sqrt 2).
  assert (HD : d0 + d1 <= D) by (unfold D; nra).
  assert (QL : q * (d0 + d1 * (141421356 / 100000000)) <= q * D <= q * (d0 + d1 * (141421357 / 100000000))).
  { split; apply Rmult_le_compat_l; auto; unfold D; apply Rplus_le_compat_l, Rmult_le_compat_l; lra. }
  assert (EL : e * (d0 + d1) <= e * D) by (apply Rmult_le_compat_l; lra).
  replace (num / D - q) with ((num - q * D) / D) by (field; lra).
  unfold Rdiv. rewrite Rabs_mult, (Rabs_pos_eq (/ D)) by (left; apply Rinv_0_lt_compat; lra).
  apply Rmult_le_reg_r with D; [lra|]. rewrite Rmult_assoc, Rinv_l, Rmult_1_r by lra. apply Rabs_le. lra.
Qed.
Lemma robidoux_facts : kfacts (bc_cubic (12 / (19 + 9 * sqrt 2)) (13 / (58 + 216 * sqrt 2))) 2 (2 / 5) (1 / 100).
Proof.
  apply (margin_perturb _ _ (3782 / 10000) (3577 / 100000) (1 / 20000)); [lra|apply quot_near; lra|apply quot_near; lra|].
  split; intros a Ha; [bc1 a|bc2 a (1 / 2)].
Qed.
Lemma robidoux_sharp_facts : kfacts (bc_cubic (6 / (13 + 7 * sqrt 2)) (7 / (2 + 12 * sqrt 2))) 2 (11 / 25) (49 / 1000).
Proof.
  apply (margin_perturb _ _ (2620 / 10000) (3690 / 10000) (1 / 20000)); [lra|apply quot_near; lra|apply quot_near; lra|].
  split; intros a Ha; [bc1 a|bc2 a (3 / 5)].
Qed.
Lemma spline16_facts : kfacts spline16_R 2 (3 / 8) (9 / 100).
Proof.
  intros a Ha. unfold spline16_R. destruct (Rlt_dec a 1); [|destruct (Rlt_dec a 2); [|lra]].
  - bern3 a 0 1. repeat split; intros; try lra. assert (a <= 29 / 50) by assumption. bern3 a 0 (29 / 50). lra.
  - repeat split; intros; try lra; (destruct (Rle_or_lt a (3 / 2)); [bern3 a 1 (3 / 2); lra|bern3 a (3 / 2) 2; lra]).
Qed.
