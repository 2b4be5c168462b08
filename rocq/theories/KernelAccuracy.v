(** The f32 kernels of math/*.rs compute the textbook kernels up to 2^-14.4 (bc cubics) .. 2^-20. *)
From Coq Require Import ZArith Reals Lra Lia Bool List QArith Qreals Psatz.
From Flocq Require Import Core.Core IEEE754.BinarySingleNaN.
From Verif Require Import F32 F32Proofs WeightsProofs Weights Sampler SamplerProofs WeightSum FilterSums FloatErr SpecKernels Alpha AlphaU16.
Import ListNotations.
Local Open Scope R_scope.

Definition kacc (t : positive) (A : R) (k : f32 -> f32) (K : R -> R) : Prop :=
  forall x a, fin x a -> 0 <= a < A -> exists v, fin (k x) v /\ Rabs (v - K a) <= / IZR (Z.pos t).

Definition tol (t : positive) : Q := 1 # t.
Lemma tol_R t : Q2R (tol t) = / IZR (Z.pos t). Proof. unfold Q2R, tol. cbn [Qnum Qden]. lra. Qed.
Lemma tol_pos t : 0 <= / IZR (Z.pos t). Proof. left. apply Rinv_0_lt_compat, (IZR_lt 0). reflexivity. Qed.

Definition qz (z : Z) : Q * Q := (inject_Z (Z.abs z), 0%Q).
Lemma fi_close z : (Z.abs z <= 2 ^ 24)%Z -> close (fi z) (IZR z) (qz z).
Proof.
  intros H. exists (IZR z). split; [apply fint_exact; exact H|]. cbn [fst snd qz]. split.
  - rewrite Rminus_diag_eq, Rabs_R0 by reflexivity. unfold Q2R; cbn; lra.
  - unfold Q2R, inject_Z. cbn [Qnum Qden]. rewrite <- abs_IZR. lra.
Qed.
Definition qfrac (a b : Z) : Q * Q :=
  (Z.abs a # Z.to_pos b, ((Z.abs a # Z.to_pos b) * U + tiny)%Q).
Lemma qfrac_R a b : (1 <= b)%Z -> Q2R (Z.abs a # Z.to_pos b) = Rabs (IZR a / IZR b).
Proof.
  intros Hb. unfold Q2R. cbn [Qnum Qden]. rewrite Z2Pos.id by lia.
  unfold Rdiv. rewrite Rabs_mult, <- abs_IZR, Rabs_inv, (Rabs_pos_eq (IZR b)); [reflexivity|]. apply IZR_le; lia.
Qed.
Lemma frac_close a b : (Z.abs a <= 2 ^ 24)%Z -> (1 <= b <= 2 ^ 24)%Z -> close (frac a b) (IZR a / IZR b) (qfrac a b).
Proof.
  intros Ha Hb. assert (B1 : 1 <= IZR b) by (apply IZR_le; lia).
  assert (A0 : Rabs (IZR a / IZR b) <= IZR (Z.abs a)).
  { unfold Rdiv. rewrite Rabs_mult, <- abs_IZR, Rabs_inv, (Rabs_pos_eq (IZR b)) by lra.
    assert (/ IZR b <= 1) by (rewrite <- Rinv_1; apply Rinv_le; lra).
    assert (0 <= IZR (Z.abs a)) by (apply IZR_le; lia). assert (0 < / IZR b) by (apply Rinv_0_lt_compat; lra). nra. }
  assert (Am : IZR (Z.abs a) <= IZR (2 ^ 24)) by (apply IZR_le; exact Ha).
  exists (rnd (IZR a / IZR b)). split; [|cbn [fst snd qfrac]; split].
  - apply fdiv_fin; [apply fint_exact; lia|apply fint_exact; lia|lra|].
    unfold moderate. assert (IZR (2 ^ 24) <= IZR (2 ^ 100)) by (apply IZR_le; lia). lra.
  - rewrite Q2R_plus, Q2R_mult, Q2R_U, qfrac_R by lia. pose proof (rnd_abs (IZR a / IZR b)). pose proof tiny_R. lra.
  - rewrite qfrac_R by lia. lra.
Qed.
Lemma exact_close x a q : fin x a -> Rabs a <= Q2R q -> close x a (q, 0%Q).
Proof.
  intros F H. exists a. split; [exact F|]. cbn [fst snd]. split; [|exact H].
  rewrite Rminus_diag_eq, Rabs_R0 by reflexivity. unfold Q2R; cbn; lra.
Qed.
Lemma fneg_fin x a : fin x a -> fin (fneg x) (- a).
Proof. intros [F <-]. split; unfold fneg; [rewrite is_finite_Bopp; exact F|apply B2R_Bopp]. Qed.
Lemma fneg_close x r b : close x r b -> close (fneg x) (- r) b.
Proof.
  intros (v & F & H1 & H2). exists (- v). split; [apply fneg_fin; exact F|].
  replace (- v - - r) with (- (v - r)) by ring. rewrite !Rabs_Ropp. auto.
Qed.

(** ** bc_spline *)
Section BC.
Variables (t : positive) (b c : f32) (B C : R) (qb qc : Q * Q).
Hypothesis Hb : close b B qb.
Hypothesis Hc : close c C qc.

Definition bc_env (x : f32) : list f32 :=
  [x; b; fneg b; c; fdiv f1 (fi 6); fi 12; fi 9; fi 6; fi (-18); fi 2; fi 30; fi (-12); fi 48; fi 8; fi 24].
Definition bc_renv (a : R) : list R :=
  [a; B; - B; C; IZR 1 / IZR 6; IZR 12; IZR 9; IZR 6; IZR (-18); IZR 2; IZR 30; IZR (-12); IZR 48; IZR 8; IZR 24].
Definition bc_qenv (qx : Q) : list (Q * Q) :=
  [(qx, 0%Q); qb; qb; qc; qfrac 1 6; qz 12; qz 9; qz 6; qz (-18); qz 2; qz 30; qz (-12); qz 48; qz 8; qz 24].
Definition bc_e1 : fexp :=
  EM (EA (EA (EM (ES (ES (EV 5) (EM (EV 6) (EV 1))) (EM (EV 7) (EV 3))) (EM (EM (EV 0) (EV 0)) (EV 0)))
             (EM (EA (EA (EV 8) (EM (EV 5) (EV 1))) (EM (EV 7) (EV 3))) (EM (EV 0) (EV 0))))
         (ES (EV 7) (EM (EV 9) (EV 1))))
     (EV 4).
Definition bc_e2 : fexp :=
  EM (EA (EA (EA (EM (ES (EV 2) (EM (EV 7) (EV 3))) (EM (EM (EV 0) (EV 0)) (EV 0)))
                 (EM (EA (EM (EV 7) (EV 1)) (EM (EV 10) (EV 3))) (EM (EV 0) (EV 0))))
             (EM (ES (EM (EV 11) (EV 1)) (EM (EV 12) (EV 3))) (EV 0)))
         (EA (EM (EV 13) (EV 1)) (EM (EV 14) (EV 3))))
     (EV 4).

Lemma bc_env_close x a qx : close x a (qx, 0%Q) ->
  Forall2 (fun x y => close x (fst y) (snd y)) (bc_env x) (combine (bc_renv a) (bc_qenv qx)).
Proof.
  intros H. unfold bc_env, bc_renv, bc_qenv. cbn [combine].
  repeat (apply Forall2_cons; [cbn [fst snd]|]); [exact H|exact Hb|apply fneg_close; exact Hb|exact Hc|apply (frac_close 1 6); lia
    |apply fi_close; lia ..|constructor].
Qed.

Definition bc_check : bool :=
  an_ok (bc_qenv 1) bc_e1 && Qle_bool (snd (an (bc_qenv 1) bc_e1)) (tol t) &&
  an_ok (bc_qenv 2) bc_e2 && Qle_bool (snd (an (bc_qenv 2) bc_e2)) (tol t).

Lemma bc_accurate : bc_check = true -> kacc t 4 (fun x => bc_spline x b c) (bc_cubic B C).
Proof.
  intros CK x a F Ha. unfold bc_check in CK.
  apply andb_prop in CK. destruct CK as [CK T2]. apply andb_prop in CK. destruct CK as [CK O2].
  apply andb_prop in CK. destruct CK as [O1 T1].
  unfold bc_spline, bc_cubic.
  replace (fltb x f0) with false.
  2:{ symmetry. destruct (fltb x f0) eqn:E; [|reflexivity]. apply (fltb_fin x f0 a 0 F f0_fin) in E. lra. }
  cbv zeta.
  destruct (Rlt_dec a 1) as [L|L].
  - replace (fltb x f1) with true by (symmetry; apply (fltb_fin x f1 a 1 F f1_fin); exact L).
    assert (Cx : close x a (1%Q, 0%Q)).
    { apply exact_close; auto. rewrite Rabs_pos_eq by lra. unfold Q2R; cbn; lra. }
    pose proof (an_sound _ _ _ (bc_env_close x a 1 Cx) eq_refl eq_refl bc_e1 O1) as S.
    destruct (close_weaken _ _ _ _ S T1) as (v & Fv & Hv). exists v. split; [exact Fv|].
    rewrite tol_R in Hv. revert Hv. unfold bc_e1, bc_renv. cbn [evR nth]. intros Hv.
    match goal with |- Rabs (v - ?e) <= _ => match type of Hv with Rabs (v - ?g) <= _ => replace e with g; [exact Hv|] end end. field.
  - replace (fltb x f1) with false.
    2:{ symmetry. destruct (fltb x f1) eqn:E; [|reflexivity]. apply (fltb_fin x f1 a 1 F f1_fin) in E. lra. }
    destruct (Rlt_dec a 2) as [L2|L2].
    + replace (fltb x f2) with true by (symmetry; apply (fltb_fin x f2 a 2 F f2_fin); exact L2).
      assert (Cx : close x a (2%Q, 0%Q)).
      { apply exact_close; auto. rewrite Rabs_pos_eq by lra. unfold Q2R; cbn; lra. }
      pose proof (an_sound _ _ _ (bc_env_close x a 2 Cx) eq_refl eq_refl bc_e2 O2) as S.
      destruct (close_weaken _ _ _ _ S T2) as (v & Fv & Hv). exists v. split; [exact Fv|].
      rewrite tol_R in Hv. revert Hv. unfold bc_e2, bc_renv. cbn [evR nth]. intros Hv.
      match goal with |- Rabs (v - ?e) <= _ => match type of Hv with Rabs (v - ?g) <= _ => replace e with g; [exact Hv|] end end. field.
    + replace (fltb x f2) with false.
      2:{ symmetry. destruct (fltb x f2) eqn:E; [|reflexivity]. apply (fltb_fin x f2 a 2 F f2_fin) in E. lra. }
      exists 0. split; [apply f0_fin|]. rewrite Rminus_diag_eq, Rabs_R0 by reflexivity. apply tol_pos.
Qed.
End BC.

Lemma hermite_acc : kacc 262144 4 hermite_spline (bc_cubic 0 0).
Proof.
  apply (bc_accurate _ f0 f0 0 0 (qz 0) (qz 0)); [apply (fi_close 0); lia|apply (fi_close 0); lia|vm_compute; reflexivity].
Qed.
Lemma b_spline_acc : kacc 131072 4 b_spline (bc_cubic 1 0).
Proof.
  apply (bc_accurate _ f1 f0 1 0 (qz 1) (qz 0)); [apply (fi_close 1); lia|apply (fi_close 0); lia|vm_compute; reflexivity].
Qed.
Lemma q_half : Q2R (1 # 2) = 1 / 2. Proof. unfold Q2R; cbn; lra. Qed.
Lemma catmull_acc : kacc 65536 4 catmull_rom (bc_cubic 0 (1 / 2)).
Proof.
  apply (bc_accurate _ f0 fhalf 0 (1 / 2) (qz 0) (1 # 2, 0%Q)); [apply (fi_close 0); lia| |vm_compute; reflexivity].
  apply exact_close; [apply fhalf_fin|]. rewrite Rabs_pos_eq, q_half by lra. lra.
Qed.
Lemma mitchell_acc : kacc 65536 4 mitchell_netravalli (bc_cubic (1 / 3) (1 / 3)).
Proof.
  apply (bc_accurate _ (fdiv f1 (fi 3)) (fdiv f1 (fi 3)) (1 / 3) (1 / 3) (qfrac 1 3) (qfrac 1 3));
    [apply (frac_close 1 3); lia|apply (frac_close 1 3); lia|vm_compute; reflexivity].
Qed.

(** Constants with sqrt 2. *)
Lemma sqrt2_bounds : 141421356 / 100000000 <= sqrt 2 <= 141421357 / 100000000.
Proof.
  pose proof (sqrt_sqrt 2 ltac:(lra)) as E. pose proof (sqrt_pos 2) as P.
  split.
  - destruct (Rle_or_lt (141421356 / 100000000) (sqrt 2)) as [|L]; [assumption|]. exfalso. nra.
  - destruct (Rle_or_lt (sqrt 2) (141421357 / 100000000)) as [|L]; [assumption|]. exfalso. nra.
Qed.
Lemma quot_close num d0 d1 m e : (Z.abs m <= 2 ^ 24)%Z -> (-40 <= e <= 0)%Z ->
  0 < d0 -> 0 < d1 -> Rabs (num / (d0 + d1 * sqrt 2)) <= 1 / 2 ->
  Rabs (IZR m * bpow radix2 e * (d0 + d1 * sqrt 2) - num) <= / 4194304 * (d0 + d1 * sqrt 2) ->
  close (fZ m e) (num / (d0 + d1 * sqrt 2)) (1 # 2, 1 # 4194304).
Proof.
  intros Hm He P0 P1 A B. pose proof (sqrt_pos 2) as P.
  assert (D : 0 < d0 + d1 * sqrt 2) by nra.
  exists (IZR m * bpow radix2 e). split; [apply fZ_exact; lia|]. cbn [fst snd]. split.
  - replace (Q2R (1 # 4194304)) with (/ 4194304) by (unfold Q2R; cbn; lra).
    replace (IZR m * bpow radix2 e - num / (d0 + d1 * sqrt 2)) with
      ((IZR m * bpow radix2 e * (d0 + d1 * sqrt 2) - num) * / (d0 + d1 * sqrt 2)) by (field; lra).
    rewrite Rabs_mult, (Rabs_pos_eq (/ _)) by (left; apply Rinv_0_lt_compat; lra).
    apply Rmult_le_reg_r with (1 := D). rewrite Rmult_assoc, Rinv_l, Rmult_1_r by lra. exact B.
  - rewrite q_half. exact A.
Qed.
Lemma quot_small num d0 d1 : 0 <= num -> 0 < d0 -> 0 < d1 -> 2 * num <= d0 + d1 -> Rabs (num / (d0 + d1 * sqrt 2)) <= 1 / 2.
Proof.
  intros H0 H1 H2 H. pose proof sqrt2_bounds as S2. assert (D : d0 + d1 <= d0 + d1 * sqrt 2) by nra.
  rewrite Rabs_pos_eq by (apply Rmult_le_pos; [lra|left; apply Rinv_0_lt_compat; lra]).
  apply Rmult_le_reg_r with (d0 + d1 * sqrt 2); [lra|]. unfold Rdiv at 1. rewrite Rmult_assoc, Rinv_l by lra. lra.
Qed.

Definition fb_rob := fdiv (fi 12) (fadd (fi 19) (fmul (fi 9) fsqrt2)).
Definition fc_rob := fdiv (fi 13) (fadd (fi 58) (fmul (fi 216) fsqrt2)).
Definition fb_sharp := fdiv (fi 6) (fadd (fi 13) (fmul (fi 7) fsqrt2)).
Definition fc_sharp := fdiv (fi 7) (fadd (fi 2) (fmul (fi 12) fsqrt2)).
Ltac sqrt_const m e :=
  pose proof sqrt2_bounds as S2;
  apply quot_close; [lia|lia|lra|lra|apply quot_small; lra|];
  unfold bpow, radix2; cbn -[IZR sqrt]; apply Rabs_le; split; lra.
Lemma fb_rob_close : close fb_rob (12 / (19 + 9 * sqrt 2)) (1 # 2, 1 # 4194304).
Proof.
  replace fb_rob with (fZ 12690815 (-25)) by (apply f32_bits_inj; vm_compute; reflexivity). sqrt_const 1 1.
Qed.
Lemma fc_rob_close : close fc_rob (13 / (58 + 216 * sqrt 2)) (1 # 2, 1 # 4194304).
Proof.
  replace fc_rob with (fZ 9600957 (-28)) by (apply f32_bits_inj; vm_compute; reflexivity). sqrt_const 1 1.
Qed.
Lemma fb_sharp_close : close fb_sharp (6 / (13 + 7 * sqrt 2)) (1 # 2, 1 # 4194304).
Proof.
  replace fb_sharp with (fZ 8791748 (-25)) by (apply f32_bits_inj; vm_compute; reflexivity). sqrt_const 1 1.
Qed.
Lemma fc_sharp_close : close fc_sharp (7 / (2 + 12 * sqrt 2)) (1 # 2, 1 # 4194304).
Proof.
  replace fc_sharp with (fZ 12381342 (-25)) by (apply f32_bits_inj; vm_compute; reflexivity).
  pose proof sqrt2_bounds as S2.
  apply quot_close; [lia|lia|lra|lra| |unfold bpow, radix2; cbn -[IZR sqrt]; apply Rabs_le; split; lra].
  rewrite Rabs_pos_eq by (apply Rmult_le_pos; [lra|left; apply Rinv_0_lt_compat; lra]).
  apply Rmult_le_reg_r with (2 + 12 * sqrt 2); [lra|]. unfold Rdiv at 1. rewrite Rmult_assoc, Rinv_l by lra. lra.
Qed.
Lemma robidoux_acc : kacc 32768 4 robidoux (bc_cubic (12 / (19 + 9 * sqrt 2)) (13 / (58 + 216 * sqrt 2))).
Proof. apply (bc_accurate _ _ _ _ _ _ _ fb_rob_close fc_rob_close). vm_compute; reflexivity. Qed.
Lemma robidoux_sharp_acc : kacc 32768 4 robidoux_sharp (bc_cubic (6 / (13 + 7 * sqrt 2)) (7 / (2 + 12 * sqrt 2))).
Proof. apply (bc_accurate _ _ _ _ _ _ _ fb_sharp_close fc_sharp_close). vm_compute; reflexivity. Qed.

(** ** The other polynomial kernels *)
Lemma exact0 x a A : 0 <= a -> a <= Q2R A -> fin x a -> close x a (A, 0%Q).
Proof. intros H0 H F. apply exact_close; auto. rewrite Rabs_pos_eq; auto. Qed.
Lemma half_close : close fhalf (1 / 2) (1 # 2, 0%Q).
Proof. apply exact0; [lra|rewrite q_half; lra|apply fhalf_fin]. Qed.
Lemma fltb_true x y a b : fin x a -> fin y b -> a < b -> fltb x y = true.
Proof. intros F G H. apply (fltb_fin x y a b F G). exact H. Qed.
Lemma fltb_false x y a b : fin x a -> fin y b -> b <= a -> fltb x y = false.
Proof. intros F G H. destruct (fltb x y) eqn:E; [|reflexivity]. apply (fltb_fin x y a b F G) in E. lra. Qed.
Lemma sub_close x a z : fin x a -> (Z.abs z <= 1000)%Z -> Rabs (a - IZR z) <= 1 -> close (fsub x (fi z)) (a - IZR z) (1%Q, (U + tiny)%Q).
Proof.
  intros F Hz H. exists (rnd (a - IZR z)). split; [|cbn [fst snd]; split].
  - apply fsub_fin; auto; [apply fint_exact; lia|]. unfold moderate.
    assert (1 <= IZR (2 ^ 100)) by (apply IZR_le; lia). lra.
  - rewrite Q2R_plus, Q2R_U. pose proof (rnd_abs (a - IZR z)). pose proof tiny_R. lra.
  - replace (Q2R 1) with 1 by (unfold Q2R; cbn; lra). exact H.
Qed.
Lemma sub_half_close x a : fin x a -> Rabs (a - 3 / 2) <= 1 -> close (fsub x (fZ 3 (-1))) (a - 3 / 2) (1%Q, (U + tiny)%Q).
Proof.
  intros F H. exists (rnd (a - 3 / 2)). split; [|cbn [fst snd]; split].
  - apply fsub_fin; auto. + replace (3 / 2) with (IZR 3 * bpow radix2 (-1)) by (cbn; lra). apply fZ_exact; lia.
    + unfold moderate. assert (1 <= IZR (2 ^ 100)) by (apply IZR_le; lia). lra.
  - rewrite Q2R_plus, Q2R_U. pose proof (rnd_abs (a - 3 / 2)). pose proof tiny_R. lra.
  - replace (Q2R 1) with 1 by (unfold Q2R; cbn; lra). exact H.
Qed.

(** Apply the analyser to an expression given by its environments. *)
Lemma by_analysis t fe re qe e r : Forall2 (fun x y => close x (fst y) (snd y)) fe (combine re qe) ->
  length re = length qe -> length fe = length qe -> an_ok qe e && Qle_bool (snd (an qe e)) (tol t) = true ->
  evR re e = r -> exists v, fin (evF fe e) v /\ Rabs (v - r) <= / IZR (Z.pos t).
Proof.
  intros H L1 L2 C E. apply andb_prop in C. destruct C as [C1 C2]. rewrite <- E, <- tol_R.
  eapply close_weaken; [apply an_sound; eassumption|exact C2].
Qed.
Ltac envs := cbn [combine]; repeat (apply Forall2_cons; [cbn [fst snd]|]); [..|constructor].
Ltac zero_case := exists 0; split; [apply f0_fin|]; rewrite Rminus_diag_eq, Rabs_R0 by reflexivity; apply tol_pos.
Ltac q1 := unfold Q2R; cbn; lra.

Lemma bilinear_acc : kacc 262144 4 bilinear triangle.
Proof.
  intros x a F Ha. unfold bilinear, triangle. cbv zeta. pose proof (fabs_fin x a F) as G. rewrite Rabs_pos_eq in G by lra.
  destruct (Rlt_dec a 1).
  - rewrite (fltb_true _ _ _ _ G f1_fin) by lra.
    apply (by_analysis _ [fabs x; f1] [a; 1] [(1%Q, 0%Q); qz 1] (ES (EV 1) (EV 0))); try reflexivity.
    envs; [apply exact0; auto; [lra|q1]|apply (fi_close 1); lia].
  - rewrite (fltb_false _ _ _ _ G f1_fin) by lra. zero_case.
Qed.
Lemma box_acc : kacc 262144 4 box_weight flat.
Proof.
  intros x a F Ha. exists 1. split; [apply f1_fin|]. unfold flat. rewrite Rminus_diag_eq, Rabs_R0 by reflexivity. lra.
Qed.
Lemma threehalf_fin : fin (fZ 3 (-1)) (3 / 2).
Proof. replace (3 / 2) with (IZR 3 * bpow radix2 (-1)) by (cbn; lra). apply fZ_exact; lia. Qed.
Lemma quadric_acc : kacc 262144 4 quadric quadratic_bspline.
Proof.
  intros x a F Ha. unfold quadric, quadratic_bspline. cbv zeta. pose proof (fabs_fin x a F) as G. rewrite Rabs_pos_eq in G by lra.
  destruct (Rlt_dec a (1 / 2)).
  - rewrite (fltb_true _ _ _ _ G fhalf_fin) by lra.
    apply (by_analysis _ [fabs x; fZ 3 (-2)] [a; 3 / 4] [(1%Q, 0%Q); (3 # 4, 0%Q)] (ES (EV 1) (EM (EV 0) (EV 0)))); try reflexivity; [|cbn [evR nth]; ring].
    envs; [apply exact0; auto; [lra|q1]|apply exact0; [lra|q1|]].
    replace (3 / 4) with (IZR 3 * bpow radix2 (-2)) by (cbn; lra). apply fZ_exact; lia.
  - rewrite (fltb_false _ _ _ _ G fhalf_fin) by lra. destruct (Rlt_dec a (3 / 2)).
    + rewrite (fltb_true _ _ _ _ G threehalf_fin) by lra.
      apply (by_analysis _ [fsub (fabs x) (fZ 3 (-1)); fhalf] [a - 3 / 2; 1 / 2] [(1%Q, (U + tiny)%Q); (1 # 2, 0%Q)]
               (EM (EM (EV 1) (EV 0)) (EV 0))); try reflexivity; [|cbn [evR nth]; field].
      envs; [apply sub_half_close; auto; apply Rabs_le; lra|apply half_close].
    + rewrite (fltb_false _ _ _ _ G threehalf_fin) by lra. zero_case.
Qed.
Lemma welch_acc : kacc 262144 4 welch parabola.
Proof.
  intros x a F Ha. unfold welch, parabola.
  destruct (feqb x f0) eqn:E.
  - assert (a = 0) by (apply (feqb_fin x f0 a 0 F f0_fin); exact E). subst a.
    destruct (Rlt_dec 0 1); [|lra]. exists 1. split; [apply f1_fin|]. replace (1 - (1 - 0 ^ 2)) with 0 by ring. rewrite Rabs_R0. lra.
  - destruct (Rlt_dec a 1).
    + replace (fleb f1 x) with false.
      2:{ symmetry. destruct (fleb f1 x) eqn:E2; [|reflexivity]. apply (fleb_fin f1 x 1 a f1_fin F) in E2. lra. }
      apply (by_analysis _ [x; f1] [a; 1] [(1%Q, 0%Q); qz 1] (ES (EV 1) (EM (EV 0) (EV 0)))); try reflexivity; [|cbn [evR nth]; ring].
      envs; [apply exact0; auto; [lra|q1]|apply (fi_close 1); lia].
    + replace (fleb f1 x) with true by (symmetry; apply (fleb_fin f1 x 1 a f1_fin F); lra). zero_case.
Qed.
Lemma cubic_acc : kacc 262144 4 cubic_spline (bc_cubic 1 0).
Proof.
  intros x a F Ha. unfold cubic_spline, bc_cubic. rewrite (fltb_false _ _ _ _ F f0_fin) by lra. cbv zeta.
  destruct (Rlt_dec a 1).
  - rewrite (fltb_true _ _ _ _ F f1_fin) by lra.
    apply (by_analysis _ [x; fi 4; fi 3; fi 6; fdiv f1 (fi 6)] [a; IZR 4; IZR 3; IZR 6; IZR 1 / IZR 6] [(1%Q, 0%Q); qz 4; qz 3; qz 6; qfrac 1 6]
       (EM (EA (EV 1) (EM (EM (EV 0) (EV 0)) (ES (EM (EV 2) (EV 0)) (EV 3)))) (EV 4))); try reflexivity; [|cbn [evR nth]; field].
    envs; [apply exact0; auto; [lra|q1]|apply fi_close; lia ..|apply (frac_close 1 6); lia].
  - rewrite (fltb_false _ _ _ _ F f1_fin) by lra. destruct (Rlt_dec a 2).
    + rewrite (fltb_true _ _ _ _ F f2_fin) by lra.
      apply (by_analysis _ [x; fi 8; fi (-12); fi 6; fdiv f1 (fi 6)] [a; IZR 8; IZR (-12); IZR 6; IZR 1 / IZR 6] [(2%Q, 0%Q); qz 8; qz (-12); qz 6; qfrac 1 6]
         (EM (EA (EV 1) (EM (EV 0) (EA (EV 2) (EM (EV 0) (ES (EV 3) (EV 0)))))) (EV 4))); try reflexivity; [|cbn [evR nth]; field].
      envs; [apply exact0; auto; [lra|q1]|apply fi_close; lia ..|apply (frac_close 1 6); lia].
    + rewrite (fltb_false _ _ _ _ F f2_fin) by lra. zero_case.
Qed.
Lemma bicubic_acc : kacc 131072 4 bicubic_spline (bc_cubic 0 (1 / 2)).
Proof.
  intros x a F Ha. unfold bicubic_spline, bc_cubic. cbv zeta. pose proof (fabs_fin x a F) as G. rewrite Rabs_pos_eq in G by lra.
  assert (FA : fin (fZ (-1) (-1)) (- (1 / 2))).
  { replace (- (1 / 2)) with (IZR (-1) * bpow radix2 (-1)) by (cbn; lra). apply fZ_exact; lia. }
  assert (CA : close (fZ (-1) (-1)) (- (1 / 2)) (1 # 2, 0%Q)).
  { apply exact_close; auto. rewrite Rabs_Ropp, Rabs_pos_eq, q_half; lra. }
  destruct (Rlt_dec a 2).
  - replace (fleb f2 (fabs x)) with false.
    2:{ symmetry. destruct (fleb f2 (fabs x)) eqn:E2; [|reflexivity]. apply (fleb_fin f2 (fabs x) 2 a f2_fin G) in E2. lra. }
    destruct (fleb (fabs x) f1) eqn:E.
    + assert (a <= 1) by (apply (fleb_fin (fabs x) f1 a 1 G f1_fin); exact E).
      apply (by_analysis _ [fabs x; fZ (-1) (-1); f2; fi 3; f1] [a; - (1 / 2); IZR 2; IZR 3; IZR 1] [(1%Q, 0%Q); (1 # 2, 0%Q); qz 2; qz 3; qz 1]
         (EA (ES (EM (EA (EV 1) (EV 2)) (EM (EM (EV 0) (EV 0)) (EV 0))) (EM (EA (EV 1) (EV 3)) (EM (EV 0) (EV 0)))) (EV 4))); try reflexivity.
      * envs; [apply exact0; auto; [lra|q1]|exact CA|apply (fi_close 2); lia|apply fi_close; lia|apply (fi_close 1); lia].
      * cbn [evR nth]. destruct (Rlt_dec a 1); [field|]. assert (a = 1) by lra. subst. field.
    + assert (1 < a).
      { apply Rnot_le_lt. intros L. apply (fleb_fin (fabs x) f1 a 1 G f1_fin) in L. congruence. }
      apply (by_analysis _ [fabs x; fZ (-1) (-1); fi 5; fi 8; fi 4] [a; - (1 / 2); IZR 5; IZR 8; IZR 4] [(2%Q, 0%Q); (1 # 2, 0%Q); qz 5; qz 8; qz 4]
         (ES (EA (ES (EM (EV 1) (EM (EM (EV 0) (EV 0)) (EV 0))) (EM (EM (EV 2) (EV 1)) (EM (EV 0) (EV 0)))) (EM (EM (EV 3) (EV 1)) (EV 0))) (EM (EV 4) (EV 1)))); try reflexivity.
      * envs; [apply exact0; auto; [lra|q1]|exact CA|apply fi_close; lia ..].
      * cbn [evR nth]. destruct (Rlt_dec a 1); [lra|]. field.
  - replace (fleb f2 (fabs x)) with true by (symmetry; apply (fleb_fin f2 (fabs x) 2 a f2_fin G); lra).
    destruct (Rlt_dec a 1); [lra|]. zero_case.
Qed.

(** Pieces of the splines: ((p t + q) t + r) t with the signs of the code. *)
Lemma spline_first t c0 c1 p1 p2 d1 d2 x a :
  (Z.abs p1 <= 2 ^ 24)%Z -> (1 <= p2 <= 2 ^ 24)%Z -> (Z.abs d1 <= 2 ^ 24)%Z -> (1 <= d2 <= 2 ^ 24)%Z ->
  (Z.abs c0 <= 2 ^ 24)%Z -> (1 <= c1 <= 2 ^ 24)%Z ->
  fin x a -> 0 <= a < 1 ->
  let qe := [(1%Q, 0%Q); qfrac p1 p2; qfrac d1 d2; qfrac c0 c1; qz 1] in
  let e := EA (EM (ES (EM (ES (EM (EV 1) (EV 0)) (EV 2)) (EV 0)) (EV 3)) (EV 0)) (EV 4) in
  an_ok qe e && Qle_bool (snd (an qe e)) (tol t) = true ->
  exists v, fin (fadd (fmul (fsub (fmul (fsub (fmul (frac p1 p2) x) (frac d1 d2)) x) (frac c0 c1)) x) f1) v /\
    Rabs (v - (((IZR p1 / IZR p2 * a - IZR d1 / IZR d2) * a - IZR c0 / IZR c1) * a + 1)) <= / IZR (Z.pos t).
Proof.
  intros H1 H2 H3 H4 H5 H6 F Ha qe e C.
  apply (by_analysis _ [x; frac p1 p2; frac d1 d2; frac c0 c1; f1] [a; IZR p1 / IZR p2; IZR d1 / IZR d2; IZR c0 / IZR c1; 1] qe e); auto.
  envs; [apply exact0; auto; [lra|q1]|apply frac_close; auto ..|apply (fi_close 1); lia].
Qed.
Lemma spline_odd t z c0 c1 p1 p2 d1 d2 x a :
  (Z.abs p1 <= 2 ^ 24)%Z -> (1 <= p2 <= 2 ^ 24)%Z -> (Z.abs d1 <= 2 ^ 24)%Z -> (1 <= d2 <= 2 ^ 24)%Z ->
  (Z.abs c0 <= 2 ^ 24)%Z -> (1 <= c1 <= 2 ^ 24)%Z -> (Z.abs z <= 1000)%Z ->
  fin x a -> IZR z <= a < IZR z + 1 ->
  let qe := [(1%Q, (U + tiny)%Q); qfrac p1 p2; qfrac d1 d2; qfrac c0 c1] in
  let e := EM (ES (EM (EA (EM (EV 1) (EV 0)) (EV 2)) (EV 0)) (EV 3)) (EV 0) in
  an_ok qe e && Qle_bool (snd (an qe e)) (tol t) = true ->
  exists v, fin (let t := fsub x (fi z) in fmul (fsub (fmul (fadd (fmul (frac p1 p2) t) (frac d1 d2)) t) (frac c0 c1)) t) v /\
    Rabs (v - ((IZR p1 / IZR p2 * (a - IZR z) + IZR d1 / IZR d2) * (a - IZR z) - IZR c0 / IZR c1) * (a - IZR z)) <= / IZR (Z.pos t).
Proof.
  intros H1 H2 H3 H4 H5 H6 Hz F Ha qe e C. cbv zeta.
  apply (by_analysis _ [fsub x (fi z); frac p1 p2; frac d1 d2; frac c0 c1] [a - IZR z; IZR p1 / IZR p2; IZR d1 / IZR d2; IZR c0 / IZR c1] qe e); auto.
  envs; [apply sub_close; auto; apply Rabs_le; lra|apply frac_close; auto ..].
Qed.
Lemma spline_even t z c0 c1 p1 p2 d1 d2 x a :
  (Z.abs p1 <= 2 ^ 24)%Z -> (1 <= p2 <= 2 ^ 24)%Z -> (Z.abs d1 <= 2 ^ 24)%Z -> (1 <= d2 <= 2 ^ 24)%Z ->
  (Z.abs c0 <= 2 ^ 24)%Z -> (1 <= c1 <= 2 ^ 24)%Z -> (Z.abs z <= 1000)%Z ->
  fin x a -> IZR z <= a < IZR z + 1 ->
  let qe := [(1%Q, (U + tiny)%Q); qfrac p1 p2; qfrac d1 d2; qfrac c0 c1] in
  let e := EM (EA (EM (ES (EM (EV 1) (EV 0)) (EV 2)) (EV 0)) (EV 3)) (EV 0) in
  an_ok qe e && Qle_bool (snd (an qe e)) (tol t) = true ->
  exists v, fin (let t := fsub x (fi z) in fmul (fadd (fmul (fsub (fmul (frac p1 p2) t) (frac d1 d2)) t) (frac c0 c1)) t) v /\
    Rabs (v - ((IZR p1 / IZR p2 * (a - IZR z) - IZR d1 / IZR d2) * (a - IZR z) + IZR c0 / IZR c1) * (a - IZR z)) <= / IZR (Z.pos t).
Proof.
  intros H1 H2 H3 H4 H5 H6 Hz F Ha qe e C. cbv zeta.
  apply (by_analysis _ [fsub x (fi z); frac p1 p2; frac d1 d2; frac c0 c1] [a - IZR z; IZR p1 / IZR p2; IZR d1 / IZR d2; IZR c0 / IZR c1] qe e); auto.
  envs; [apply sub_close; auto; apply Rabs_le; lra|apply frac_close; auto ..].
Qed.
Ltac ranges := lia || lra || assumption || (vm_compute; reflexivity) || idtac.
Lemma fi3_fin : fin (fi 3) 3. Proof. apply (fint_exact 3); lia. Qed.
Lemma spline16_acc : kacc 262144 2 spline16 spline16_R.
Proof.
  intros x a F Ha. unfold spline16, spline16_R. destruct (Rlt_dec a 1).
  - rewrite (fltb_true _ _ _ _ F f1_fin) by lra.
    apply (by_analysis _ [x; frac 9 5; frac 1 5; f1] [a; IZR 9 / IZR 5; IZR 1 / IZR 5; 1] [(1%Q, 0%Q); qfrac 9 5; qfrac 1 5; qz 1]
      (EA (EM (ES (EM (ES (EV 0) (EV 1)) (EV 0)) (EV 2)) (EV 0)) (EV 3))); try reflexivity.
    envs; [apply exact0; auto; [lra|q1]|apply frac_close; lia ..|apply (fi_close 1); lia].
  - rewrite (fltb_false _ _ _ _ F f1_fin) by lra. destruct (Rlt_dec a 2); [|lra].
    apply (spline_odd _ 1 7 15 (-1) 3 4 5 x a); ranges.
Qed.
Lemma spline36_acc : kacc 262144 3 spline36 spline36_R.
Proof.
  intros x a F Ha. unfold spline36, spline36_R. destruct (Rlt_dec a 1).
  - rewrite (fltb_true _ _ _ _ F f1_fin) by lra. apply (spline_first _ 3 209 13 11 453 209 x a); ranges.
  - rewrite (fltb_false _ _ _ _ F f1_fin) by lra. destruct (Rlt_dec a 2).
    + rewrite (fltb_true _ _ _ _ F f2_fin) by lra. apply (spline_odd _ 1 156 209 (-6) 11 270 209 x a); ranges.
    + rewrite (fltb_false _ _ _ _ F f2_fin) by lra. destruct (Rlt_dec a 3); [|lra].
      apply (spline_even _ 2 26 209 1 11 45 209 x a); ranges.
Qed.
Lemma spline64_acc : kacc 262144 4 spline64 spline64_R.
Proof.
  intros x a F Ha. unfold spline64, spline64_R. destruct (Rlt_dec a 1).
  - rewrite (fltb_true _ _ _ _ F f1_fin) by lra. apply (spline_first _ 3 2911 49 41 6387 2911 x a); ranges.
  - rewrite (fltb_false _ _ _ _ F f1_fin) by lra. destruct (Rlt_dec a 2).
    + rewrite (fltb_true _ _ _ _ F f2_fin) by lra. apply (spline_odd _ 1 2328 2911 (-24) 41 4032 2911 x a); ranges.
    + rewrite (fltb_false _ _ _ _ F f2_fin) by lra. destruct (Rlt_dec a 3).
      * rewrite (fltb_true _ _ _ _ F fi3_fin) by lra. apply (spline_even _ 2 582 2911 6 41 1008 2911 x a); ranges.
      * rewrite (fltb_false _ _ _ _ F fi3_fin) by lra. destruct (Rlt_dec a 4); [|lra].
        apply (spline_odd _ 3 97 2911 (-1) 41 168 2911 x a); ranges.
Qed.
