(** Real-number semantics of the operations of F32.v. *)
From Coq Require Import ZArith Reals Lra Lia Bool.
From Flocq Require Import Core.Core IEEE754.BinarySingleNaN.
From Verif Require Import F32.
Local Open Scope R_scope.

(** Rounding to binary32. *)
Definition fe : Z -> Z := FLT_exp (-149) 24.
Definition rnd (r : R) : R := round radix2 fe ZnearestE r.
Definition fmt (r : R) : Prop := generic_format radix2 fe r.

Global Instance valid_fe : Valid_exp fe.
Proof. apply FLT_exp_valid. reflexivity. Qed.

(** [fin x r]: x is a finite float of value r. *)
Definition fin (x : f32) (r : R) : Prop := is_finite x = true /\ B2R x = r.

Lemma fin_fmt x r : fin x r -> fmt r.
Proof. intros [_ <-]. apply generic_format_B2R. Qed.

Lemma rnd_fmt r : fmt r -> rnd r = r.
Proof. intro H. apply round_generic; auto with typeclass_instances. Qed.
Lemma rnd_le a b : a <= b -> rnd a <= rnd b.
Proof. intro H. apply round_le; auto with typeclass_instances. Qed.
Lemma rnd_le_fmt a b : fmt b -> a <= b -> rnd a <= b.
Proof. intros F H. rewrite <- (rnd_fmt b F). now apply rnd_le. Qed.
Lemma rnd_ge_fmt a b : fmt a -> a <= b -> a <= rnd b.
Proof. intros F H. rewrite <- (rnd_fmt a F). now apply rnd_le. Qed.
Lemma fmt_rnd r : fmt (rnd r).
Proof. apply generic_format_round; auto with typeclass_instances. Qed.
Lemma fmt_0 : fmt 0.
Proof. apply generic_format_0. Qed.

(** m * 2^e with |m| <= 2^24 and e >= -149 is representable. *)
Lemma fmt_F2R m e : (Z.abs m <= 2 ^ 24)%Z -> (-149 <= e)%Z -> fmt (IZR m * bpow radix2 e).
Proof.
  intros Hm He. destruct (Z.eq_dec (Z.abs m) (2 ^ 24)) as [E|E].
  - (* m = +- 2^24 : a power of two *)
    assert (P : fmt (bpow radix2 (24 + e))).
    { apply generic_format_bpow. unfold fe, FLT_exp. lia. }
    destruct (Z.abs_eq_or_opp m) as [A|A].
    + replace m with (2 ^ 24)%Z by lia. change (IZR (2 ^ 24)) with (bpow radix2 24).
      rewrite <- bpow_plus. exact P.
    + replace m with (- 2 ^ 24)%Z by lia. rewrite opp_IZR. change (IZR (2 ^ 24)) with (bpow radix2 24).
      rewrite Ropp_mult_distr_l_reverse, <- bpow_plus. now apply generic_format_opp.
  - apply generic_format_FLT. exists (Float radix2 m e); cbn; [reflexivity| lia | lia].
Qed.

Lemma fmt_IZR m : (Z.abs m <= 2 ^ 24)%Z -> fmt (IZR m).
Proof.
  intro H. pose proof (fmt_F2R m 0 H ltac:(lia)) as P. cbn in P. now rewrite Rmult_1_r in P.
Qed.

Lemma fmt_half m : (Z.abs m <= 2 ^ 24)%Z -> fmt (IZR m / 2).
Proof. intro H. pose proof (fmt_F2R m (-1) H ltac:(lia)) as P. exact P. Qed.

(** Integers that are floats: anything representable, once rounded to an integer. *)
Lemma bpow128_big r : Rabs r <= IZR (2 ^ 100) -> Rabs (rnd r) < bpow radix2 128.
Proof.
  intro H. assert (P : fmt (bpow radix2 100)) by (apply generic_format_bpow; unfold fe, FLT_exp; lia).
  assert (B : Rabs (rnd r) <= bpow radix2 100).
  { apply Rabs_le. apply Rabs_le_inv in H. change (IZR (2 ^ 100)) with (bpow radix2 100) in H. split.
    - apply rnd_ge_fmt; [now apply generic_format_opp|lra].
    - apply rnd_le_fmt; [exact P|lra]. }
  eapply Rle_lt_trans; [exact B|]. apply bpow_lt. lia.
Qed.

Definition moderate (r : R) : Prop := Rabs r <= IZR (2 ^ 100).

Lemma fadd_fin x y a b : fin x a -> fin y b -> moderate (a + b) -> fin (fadd x y) (rnd (a + b)).
Proof.
  intros [Fx Vx] [Fy Vy] M. pose proof (Bplus_correct 24 128 prec_pos prec_emax mode_NE x y Fx Fy) as C.
  rewrite Vx, Vy in C.
  rewrite Rlt_bool_true in C by (apply bpow128_big; exact M).
  destruct C as (C1 & C2 & _). split; [exact C2|exact C1].
Qed.

Lemma fsub_fin x y a b : fin x a -> fin y b -> moderate (a - b) -> fin (fsub x y) (rnd (a - b)).
Proof.
  intros [Fx Vx] [Fy Vy] M. pose proof (Bminus_correct 24 128 prec_pos prec_emax mode_NE x y Fx Fy) as C.
  rewrite Vx, Vy in C.
  rewrite Rlt_bool_true in C by (apply bpow128_big; exact M).
  destruct C as (C1 & C2 & _). split; [exact C2|exact C1].
Qed.

Lemma fmul_fin x y a b : fin x a -> fin y b -> moderate (a * b) -> fin (fmul x y) (rnd (a * b)).
Proof.
  intros [Fx Vx] [Fy Vy] M. pose proof (Bmult_correct 24 128 prec_pos prec_emax mode_NE x y) as C.
  rewrite Vx, Vy in C.
  rewrite Rlt_bool_true in C by (apply bpow128_big; exact M).
  destruct C as (C1 & C2 & _). rewrite Fx, Fy in C2. split; [exact C2|exact C1].
Qed.

Lemma fdiv_fin x y a b : fin x a -> fin y b -> b <> 0 -> moderate (a / b) -> fin (fdiv x y) (rnd (a / b)).
Proof.
  intros [Fx Vx] [Fy Vy] Hb M. pose proof (Bdiv_correct 24 128 prec_pos prec_emax mode_NE x y) as C.
  rewrite Vx, Vy in C. specialize (C Hb).
  rewrite Rlt_bool_true in C by (apply bpow128_big; exact M).
  destruct C as (C1 & C2 & _). rewrite Fx in C2. split; [exact C2|exact C1].
Qed.

Lemma round_FIX0 f r : round radix2 (FIX_exp 0) f r = IZR (f r).
Proof.
  unfold round, scaled_mantissa, cexp, F2R, FIX_exp. cbn. now rewrite !Rmult_1_r.
Qed.

Lemma ffloor_fin x a : fin x a -> fin (ffloor x) (IZR (Zfloor a)).
Proof.
  intros [Fx Vx]. destruct (Bnearbyint_correct 24 128 prec_emax mode_DN x) as (C1 & C2 & _).
  split; [unfold ffloor; now rewrite C2|]. unfold ffloor. rewrite C1, Vx. apply round_FIX0.
Qed.
Lemma fceil_fin x a : fin x a -> fin (fceil x) (IZR (Zceil a)).
Proof.
  intros [Fx Vx]. destruct (Bnearbyint_correct 24 128 prec_emax mode_UP x) as (C1 & C2 & _).
  split; [unfold fceil; now rewrite C2|]. unfold fceil. rewrite C1, Vx. apply round_FIX0.
Qed.
Lemma fround_fin x a : fin x a -> fin (fround x) (IZR (ZnearestA a)).
Proof.
  intros [Fx Vx]. destruct (Bnearbyint_correct 24 128 prec_emax mode_NA x) as (C1 & C2 & _).
  split; [unfold fround; now rewrite C2|]. unfold fround. rewrite C1, Vx. apply round_FIX0.
Qed.

Lemma fmax_fin x y a b : fin x a -> fin y b -> fin (fmax x y) (Rmax a b).
Proof.
  intros [Fx Vx] [Fy Vy]. unfold fmax. rewrite (Bcompare_correct 24 128 x y Fx Fy), Vx, Vy.
  destruct (Rcompare_spec a b) as [H|H|H].
  - rewrite Rmax_right by lra. split; auto.
  - rewrite Rmax_left by lra. split; auto.
  - rewrite Rmax_left by lra. split; auto.
Qed.
Lemma fmin_fin x y a b : fin x a -> fin y b -> fin (fmin x y) (Rmin a b).
Proof.
  intros [Fx Vx] [Fy Vy]. unfold fmin. rewrite (Bcompare_correct 24 128 x y Fx Fy), Vx, Vy.
  destruct (Rcompare_spec a b) as [H|H|H].
  - rewrite Rmin_left by lra. split; auto.
  - rewrite Rmin_left by lra. split; auto.
  - rewrite Rmin_right by lra. split; auto.
Qed.
Lemma fltb_fin x y a b : fin x a -> fin y b -> fltb x y = true <-> a < b.
Proof.
  intros [Fx Vx] [Fy Vy]. unfold fltb. rewrite (Bcompare_correct 24 128 x y Fx Fy), Vx, Vy.
  destruct (Rcompare_spec a b) as [H|H|H]; split; intro; auto; try discriminate; lra.
Qed.

Lemma fZ_fin m e : Rabs (IZR m * bpow radix2 e) <= IZR (2 ^ 100) ->
  fin (fZ m e) (rnd (IZR m * bpow radix2 e)).
Proof.
  intro H. pose proof (binary_normalize_correct 24 128 prec_pos prec_emax mode_NE m e false) as C.
  cbv zeta in C. unfold F2R in C. cbn [Fnum Fexp] in C.
  rewrite Rlt_bool_true in C by (apply bpow128_big; exact H).
  destruct C as (C1 & C2 & _). split; [exact C2|exact C1].
Qed.

Lemma fZ_exact m e : (Z.abs m <= 2 ^ 24)%Z -> (-149 <= e <= 60)%Z -> fin (fZ m e) (IZR m * bpow radix2 e).
Proof.
  intros Hm He. rewrite <- (rnd_fmt (IZR m * bpow radix2 e)) by (apply fmt_F2R; lia).
  apply fZ_fin. rewrite Rabs_mult, (Rabs_pos_eq (bpow radix2 e)) by apply bpow_ge_0.
  change (2 ^ 100)%Z with (2 ^ 40 * 2 ^ 60)%Z. rewrite mult_IZR.
  apply Rmult_le_compat; try apply Rabs_pos; try apply bpow_ge_0.
  - rewrite <- abs_IZR. apply IZR_le. lia.
  - change (IZR (2 ^ 60)) with (bpow radix2 60). apply bpow_le. lia.
Qed.

Lemma fint_exact m : (Z.abs m <= 2 ^ 24)%Z -> fin (fZ m 0) (IZR m).
Proof. intro H. pose proof (fZ_exact m 0 H ltac:(lia)) as P. cbn in P. now rewrite Rmult_1_r in P. Qed.
Lemma f0_fin : fin f0 0. Proof. apply (fint_exact 0). lia. Qed.
Lemma f1_fin : fin f1 1. Proof. apply (fint_exact 1). lia. Qed.
Lemma f2_fin : fin f2 2. Proof. apply (fint_exact 2). lia. Qed.
Lemma fhalf_fin : fin fhalf (1 / 2).
Proof.
  pose proof (fZ_exact 1 (-1) ltac:(lia) ltac:(lia)) as P.
  replace (1 / 2) with (IZR 1 * bpow radix2 (-1)); [exact P|]. cbn. lra.
Qed.

(** usize -> f32 for any 64-bit value. *)
Lemma f_of_nat_fin n : (Z.of_nat n <= 2 ^ 64)%Z -> fin (f_of_nat n) (rnd (IZR (Z.of_nat n))).
Proof.
  intro H. unfold f_of_nat.
  replace (IZR (Z.of_nat n)) with (IZR (Z.of_nat n) * bpow radix2 0) by (cbn; ring).
  apply fZ_fin. cbn. rewrite Rmult_1_r, <- abs_IZR. apply IZR_le.
  change (Z.pow_pos 2 100) with (2 ^ 100)%Z. lia.
Qed.
Lemma f_of_nat_exact n : (Z.of_nat n <= 2 ^ 24)%Z -> fin (f_of_nat n) (IZR (Z.of_nat n)).
Proof. intro H. unfold f_of_nat. apply fint_exact. lia. Qed.

Lemma Btrunc_val (x : f32) : Btrunc x = Ztrunc (B2R x).
Proof.
  apply eq_IZR. rewrite (Btrunc_correct 24 128 prec_emax x). apply round_FIX0.
Qed.

Lemma f_to_int_fin lo hi x a : fin x a -> (lo <= 0)%Z -> (0 <= hi)%Z ->
  f_to_int lo hi x = Z.max lo (Z.min hi (Ztrunc a)).
Proof.
  intros [Fx Vx] Hl Hh. unfold f_to_int.
  destruct x as [s|[|]| |s m e B]; try discriminate Fx.
  - rewrite Btrunc_val, Vx. reflexivity.
  - rewrite Btrunc_val, Vx. reflexivity.
Qed.

Lemma f_to_usize_Z x z : fin x (IZR z) -> (0 <= z < 2 ^ 64)%Z -> f_to_usize x = Z.to_nat z.
Proof.
  intros F H. unfold f_to_usize. rewrite (f_to_int_fin _ _ _ _ F) by lia.
  rewrite Ztrunc_IZR. f_equal. lia.
Qed.
