(** Rounding to f16: nearest, no overshoot, constants. *)
From Coq Require Import ZArith Reals List Lra Lia Bool Psatz ZifyBool ZifyNat.
From Flocq Require Import Core.Core IEEE754.BinarySingleNaN.
From Flocq Require Import Relative.
From Verif Require Import F32 F16 F16Arith SpecF16.
Local Open Scope R_scope.

Local Instance prec16 : Prec_gt_0 11. Proof. reflexivity. Qed.
Local Notation fexp16 := (SpecFloat.fexp 11 16).
Local Instance vexp16 : Valid_exp fexp16. Proof. exact (fexp_correct 11 16 eq_refl). Qed.

Lemma fmt16_int m e (r : R) : r = IZR m * bpow radix2 e -> (Z.abs m < 2048)%Z -> (-24 <= e)%Z -> fmt16 r.
Proof.
  intros -> Hm He. apply generic_format_FLT with (prec := 11%Z) (emin := (-24)%Z).
  exists (Float radix2 m e); cbn [Fnum Fexp]; [reflexivity|exact Hm|exact He].
Qed.
Lemma fmt16_65504 : fmt16 65504.
Proof. apply (fmt16_int 2047 5); [cbn; lra|lia|lia]. Qed.

Lemma ulp16_ge m : Rabs m * / 2048 <= ulp radix2 fexp16 m /\ bpow radix2 (-24) <= ulp radix2 fexp16 m.
Proof.
  destruct (Req_dec m 0) as [->|N0].
  - rewrite Rabs_R0, Rmult_0_l. split; [apply ulp_ge_0|].
    change fexp16 with (FLT_exp (-24) 11). rewrite ulp_FLT_0 by reflexivity. lra.
  - rewrite ulp_neq_0 by exact N0. unfold cexp. destruct (mag radix2 m) as (e & He). cbn [mag_val]. specialize (He N0). split.
    + apply Rle_trans with (bpow radix2 (e - 11)).
      * replace (e - 11)%Z with (e + - 11)%Z by lia. rewrite bpow_plus. change (bpow radix2 (-11)) with (/ 2048).
        apply Rmult_le_compat_r; lra.
      * apply bpow_le. unfold SpecFloat.fexp, SpecFloat.emin. lia.
    + apply bpow_le. unfold SpecFloat.fexp, SpecFloat.emin. lia.
Qed.

(** Half the distance to the neighbours. *)
Lemma succ16_gap m : 0 <= m -> m * / 4096 <= (m + succ radix2 fexp16 m) / 2 - m /\ bpow radix2 (-25) <= (m + succ radix2 fexp16 m) / 2 - m.
Proof.
  intro P. rewrite succ_eq_pos by exact P. destruct (ulp16_ge m) as (A & B). rewrite Rabs_pos_eq in A by exact P.
  assert (bpow radix2 (-24) = 2 * bpow radix2 (-25)) by (change 2 with (bpow radix2 1); rewrite <- bpow_plus; reflexivity). lra.
Qed.
Lemma pred16_gap m : 0 < m -> fmt16 m -> m * / 4098 <= m - (m + pred radix2 fexp16 m) / 2 /\ bpow radix2 (-25) <= m - (m + pred radix2 fexp16 m) / 2.
Proof.
  intros P F. pose proof (pred_plus_ulp radix2 fexp16 m P F) as E. set (q := pred radix2 fexp16 m) in *.
  destruct (ulp16_ge q) as (A & B).
  assert (Q : 0 <= q) by (apply (pred_ge_0 radix2 fexp16); [exact P|exact F]). rewrite Rabs_pos_eq in A by exact Q.
  assert (bpow radix2 (-24) = 2 * bpow radix2 (-25)) by (change 2 with (bpow radix2 1); rewrite <- bpow_plus; reflexivity). lra.
Qed.

(** An error of at most 902 units of 2^-22 disappears in the rounding. *)
Definition small_err (m : R) : R := m * (902 / 4194304) + bpow radix2 (-120).
Lemma small_err_lt m : 0 <= m -> small_err m < m * / 4098 \/ small_err m < bpow radix2 (-25).
Proof.
  intro P. unfold small_err.
  assert (E : bpow radix2 (-120) <= / 1000000000 * bpow radix2 (-25)).
  { apply Rle_trans with (bpow radix2 (-95) * bpow radix2 (-25)); [rewrite <- bpow_plus; apply bpow_le; lia|].
    apply Rmult_le_compat_r; [apply bpow_ge_0|]. apply Rle_trans with (bpow radix2 (-30)); [apply bpow_le; lia|].
    change (bpow radix2 (-30)) with (/ 1073741824). lra. }
  pose proof (bpow_gt_0 radix2 (-25)).
  destruct (Rle_lt_dec (1000 * bpow radix2 (-25)) m); [left; lra|right; lra].
Qed.

Lemma cap16 m x : fmt16 m -> 0 <= m -> x <= m + small_err m -> rnd16 x <= m.
Proof.
  intros F P H. apply (round_N_le_midp radix2 fexp16); [exact F|].
  destruct (succ16_gap m P) as (A & B). destruct (small_err_lt m P); lra.
Qed.
Lemma rnd16_opp x : rnd16 (- x) = - rnd16 x.
Proof. apply round_NE_opp. Qed.
Lemma cap16_abs m x : fmt16 m -> 0 <= m -> Rabs x <= m + small_err m -> Rabs (rnd16 x) <= m.
Proof.
  intros F P H. apply Rabs_le_inv in H. apply Rabs_le. split.
  - assert (rnd16 (- x) <= m) by (apply cap16; auto; lra). rewrite rnd16_opp in *. lra.
  - apply cap16; auto; lra.
Qed.
Lemma steady16_pos m x : fmt16 m -> 0 <= m -> Rabs (x - m) <= small_err m -> rnd16 x = m.
Proof.
  intros F P H. apply Rabs_le_inv in H. apply Rle_antisym; [apply cap16; auto; lra|].
  destruct (Req_dec m 0) as [->|N0].
  - assert (rnd16 (- x) <= 0) by (apply cap16; auto; lra). rewrite rnd16_opp in *. lra.
  - apply (round_N_ge_midp radix2 fexp16); [exact F|].
    destruct (pred16_gap m ltac:(lra) F) as (A & B). destruct (small_err_lt m P); lra.
Qed.
Lemma fmt16_opp m : fmt16 m -> fmt16 (- m).
Proof. apply generic_format_opp. Qed.
Lemma steady16 m x : fmt16 m -> Rabs (x - m) <= small_err (Rabs m) -> rnd16 x = m.
Proof.
  intros F H. destruct (Rle_lt_dec 0 m) as [P|P].
  - rewrite (Rabs_pos_eq m) in H by exact P. now apply steady16_pos.
  - rewrite (Rabs_left m) in H by exact P.
    assert (rnd16 (- x) = - m).
    { apply steady16_pos; [now apply fmt16_opp|lra|]. replace (- x - - m) with (- (x - m)) by ring. now rewrite Rabs_Ropp. }
    rewrite rnd16_opp in *. lra.
Qed.

(** ** as_f16 gives the nearest number *)
Lemma succ_65504 : succ radix2 fexp16 65504 = 65536.
Proof.
  rewrite succ_eq_pos by lra. rewrite ulp_neq_0 by lra. unfold cexp.
  rewrite (mag_unique_pos radix2 65504 16); [|change (bpow radix2 (16 - 1)) with 32768; change (bpow radix2 16) with 65536; lra].
  change (bpow radix2 (fexp16 16)) with 32. lra.
Qed.
Lemma rnd16_small x : Rabs x < 65520 -> Rabs (rnd16 x) <= 65504.
Proof.
  assert (G : forall y, y < 65520 -> rnd16 y <= 65504).
  { intros y Hy. apply (round_N_le_midp radix2 fexp16); [exact fmt16_65504|]. rewrite succ_65504. lra. }
  intro H. apply Rabs_lt_inv in H. apply Rabs_le. split; [|apply G; lra].
  pose proof (G (- x) ltac:(lra)) as Q. rewrite rnd16_opp in Q. lra.
Qed.
Lemma rnd16_65520 : rnd16 65520 = 65536.
Proof.
  unfold rnd16, round. unfold scaled_mantissa, cexp.
  rewrite (mag_unique_pos radix2 65520 16); [|change (bpow radix2 (16 - 1)) with 32768; change (bpow radix2 16) with 65536; lra].
  change (fexp16 16) with 5%Z. 
  replace (65520 * bpow radix2 (Z.opp 5)) with (2047 + / 2) by (change (bpow radix2 (Z.opp 5)) with (/ 32); lra).
  assert (Fl : Zfloor (2047 + / 2) = 2047%Z) by (apply Zfloor_imp; cbn; lra).
  assert (Ce : Zceil (2047 + / 2) = 2048%Z) by (apply Zceil_imp; cbn; lra).
  assert (Z1 : ZnearestE (2047 + / 2) = 2048%Z).
  { unfold Znearest. rewrite Fl, Ce. rewrite Rcompare_Eq by lra. reflexivity. }
  rewrite Z1. unfold F2R. cbn. lra.
Qed.
Lemma rnd16_big x : 65520 <= Rabs x -> 65536 <= Rabs (rnd16 x).
Proof.
  assert (G : forall y, 65520 <= y -> 65536 <= rnd16 y).
  { intros y Hy. rewrite <- rnd16_65520. apply round_le; auto; [exact vexp16|apply valid_rnd_N]. }
  intro H. destruct (Rle_lt_dec 0 x) as [P|P].
  - rewrite Rabs_pos_eq in H by exact P. eapply Rle_trans; [apply G, H|apply Rle_abs].
  - rewrite Rabs_left in H by exact P. pose proof (G _ H) as Q. rewrite rnd16_opp in Q. rewrite <- Rabs_Ropp. eapply Rle_trans; [exact Q|apply Rle_abs].
Qed.

Lemma as_f16_nearest_sign v : is_finite v = true ->
  (Rabs (B2R v) < 65520 -> is_finite (as_f16 v) = true /\ forall q : f16, is_finite q = true -> Rabs (B2R (as_f16 v) - B2R v) <= Rabs (B2R q - B2R v)) /\
  (65520 <= Rabs (B2R v) -> as_f16 v = B754_infinity (Bsign v)).
Proof.
  intro Fv. split.
  - intro H. pose proof (rnd16_small _ H) as S. destruct (as_f16_rounds v Fv) as (A & B & _).
    { change (bpow radix2 16) with 65536. lra. }
    split; [exact A|]. intros q Fq. rewrite B.
    apply (proj2 (round_N_pt radix2 fexp16 (fun x => negb (Z.even x)) (B2R v))). apply fmt16_B2R.
  - intro H. apply rnd16_big in H. destruct v as [s|s| |s m e Hm]; try discriminate.
    { exfalso. cbn [B2R] in H. unfold rnd16 in H. rewrite round_0 in H by apply valid_rnd_N. rewrite Rabs_R0 in H. lra. }
    cbn [as_f16 Bsign].
    pose proof (binary_normalize_correct 11 16 eq_refl eq_refl mode_NE (cond_Zopp s (Zpos m)) e s) as C. cbv zeta in C.
    unfold rnd16 in H. cbn [B2R] in H. cbn [round_mode] in C. rewrite Rlt_bool_false in C by exact H.
    apply B2SF_inj. rewrite C.
    assert (P : 0 < F2R (Float radix2 (Zpos m) e)) by (apply F2R_gt_0; cbn; lia).
    destruct s; cbn [cond_Zopp].
    + rewrite Rlt_bool_true; [reflexivity|]. rewrite F2R_Zopp. lra.
    + rewrite Rlt_bool_false; [reflexivity|lra].
Qed.
Lemma sign_pos (v : f32) : 0 < B2R v -> Bsign v = false.
Proof.
  destruct v as [s|s| |s m e Hm]; cbn [B2R Bsign]; try lra. destruct s; auto. intro H.
  assert (F2R (Float radix2 (cond_Zopp true (Zpos m)) e) < 0) by (apply F2R_lt_0; cbn; lia). lra.
Qed.
Lemma sign_neg (v : f32) : B2R v < 0 -> Bsign v = true.
Proof.
  destruct v as [s|s| |s m e Hm]; cbn [B2R Bsign]; try lra. destruct s; auto. intro H.
  assert (0 < F2R (Float radix2 (cond_Zopp false (Zpos m)) e)) by (apply F2R_gt_0; cbn; lia). lra.
Qed.
Theorem as_f16_nearest v : nearest_f16 v (as_f16 v).
Proof.
  intro F. destruct (as_f16_nearest_sign v F) as (A & B). split; [exact A|]. split; intro H.
  - rewrite B by (rewrite Rabs_pos_eq; lra). now rewrite sign_pos by lra.
  - rewrite B by (rewrite Rabs_left; lra). now rewrite sign_neg by lra.
Qed.

(** ** Premultiplied and un-premultiplied colours *)
Lemma fmt16_mul x y : fmt16 x -> fmt16 y -> generic_format radix2 (SpecFloat.fexp 24 128) (x * y).
Proof.
  intros Fx Fy.
  destruct (FLT_format_generic radix2 (-24) 11 x Fx) as [[m1 e1] E1 M1 X1].
  destruct (FLT_format_generic radix2 (-24) 11 y Fy) as [[m2 e2] E2 M2 X2].
  cbn [Fnum Fexp] in *. apply (generic_format_FLT radix2 (-149) 24).
  exists (Float radix2 (m1 * m2) (e1 + e2)); cbn [Fnum Fexp].
  - subst. unfold F2R. cbn [Fnum Fexp]. rewrite bpow_plus, mult_IZR. ring.
  - rewrite Z.abs_mul. change (Z.pow (radix_val radix2) 11) with 2048%Z in M1, M2. apply Z.le_lt_trans with (2048 * 2048)%Z; [|reflexivity].
    apply Z.mul_le_mono_nonneg; lia.
  - lia.
Qed.
Lemma product_exact (c a : f16) : is_finite c = true -> is_finite a = true ->
  is_finite (fmul (as_f32 c) (as_f32 a)) = true /\ B2R (fmul (as_f32 c) (as_f32 a)) = B2R c * B2R a.
Proof.
  intros Fc Fa. destruct (as_f32_exact c Fc) as (Fc' & Ec & _). destruct (as_f32_exact a Fa) as (Fa' & Ea & _).
  pose proof (Bmult_correct 24 128 prec_pos prec_emax mode_NE (as_f32 c) (as_f32 a)) as C. cbv zeta in C.
  rewrite Ec, Ea in C. rewrite round_generic in C; [|apply valid_rnd_round_mode|exact (fmt16_mul _ _ (fmt16_B2R c) (fmt16_B2R a))].
  rewrite Rlt_bool_true in C.
  - destruct C as (C1 & C2 & _). rewrite Fc', Fa' in C2. split; [exact C2|exact C1].
  - rewrite Rabs_mult. apply Rle_lt_trans with (bpow radix2 16 * bpow radix2 16).
    + apply Rmult_le_compat; try apply Rabs_pos; left; exact (abs_B2R_lt_emax 11 16 _).
    + rewrite <- bpow_plus. apply bpow_lt. lia.
Qed.
Theorem premul_associated c a : associated16 c a (as_f16 (fmul (as_f32 c) (as_f32 a))).
Proof.
  intros Fc Fa. destruct (product_exact c a Fc Fa) as (F & E). pose proof (as_f16_nearest _ F) as N. now rewrite E in N.
Qed.

(** The distance of the rounding. *)
Lemma rnd16_err x : Rabs (rnd16 x - x) <= Rabs x / 2048 + bpow radix2 (-25).
Proof.
  destruct (relative_error_N_FLT'_ex radix2 (-24) 11 ltac:(lia) (fun t => negb (Z.even t)) x) as (eps & et & H1 & H2 & _ & H3).
  change (round radix2 (FLT_exp (-24) 11) (Znearest (fun t : Z => negb (Z.even t))) x) with (rnd16 x) in H3.
  rewrite H3. replace (x * (1 + eps) + et - x) with (x * eps + et) by ring.
  eapply Rle_trans; [apply Rabs_triang|]. rewrite Rabs_mult.
  apply Rplus_le_compat.
  - unfold Rdiv. apply Rmult_le_compat_l; [apply Rabs_pos|]. assert (U : u_ro radix2 11 = / 2048) by (unfold u_ro; cbn; lra). rewrite U in H1. lra.
  - eapply Rle_trans; [exact H2|]. replace (bpow radix2 (-25)) with (/ 2 * bpow radix2 (-24)); [lra|].
    change (/ 2) with (bpow radix2 (-1)). rewrite <- bpow_plus. reflexivity.
Qed.
