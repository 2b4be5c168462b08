(** The conversions between f16 and f32. *)
From Coq Require Import ZArith Reals Lra Lia Bool.
From Flocq Require Import Core.Core IEEE754.BinarySingleNaN.
From Verif Require Import F32 F16.
Local Open Scope R_scope.

Lemma as_f32_exact (x : f16) : is_finite x = true -> is_finite (as_f32 x) = true /\ B2R (as_f32 x) = B2R x /\ Bsign (as_f32 x) = Bsign x.
Proof.
  destruct x as [s|s| |s m e H]; cbn [is_finite B2R Bsign as_f32]; try discriminate; auto. intros _.
  pose proof (binary_normalize_correct 24 128 eq_refl eq_refl mode_NE (cond_Zopp s (Zpos m)) e s) as C. cbv zeta in C.
  assert (R : round radix2 (SpecFloat.fexp 24 128) (round_mode mode_NE) (F2R (Float radix2 (cond_Zopp s (Zpos m)) e)) = F2R (Float radix2 (cond_Zopp s (Zpos m)) e)).
  { apply round_generic; [apply valid_rnd_round_mode|].
    assert (G : generic_format radix2 (SpecFloat.fexp 11 16) (F2R (Float radix2 (cond_Zopp s (Zpos m)) e))).
    { exact (generic_format_B2R 11 16 (B754_finite s m e H)). }
    revert G. apply generic_inclusion_mag. intros _. unfold SpecFloat.fexp, SpecFloat.emin. lia. }
  assert (A : Rabs (F2R (Float radix2 (cond_Zopp s (Zpos m)) e)) < bpow radix2 16) by exact (abs_B2R_lt_emax 11 16 (B754_finite s m e H)).
  rewrite R in C. rewrite Rlt_bool_true in C.
  2:{ eapply Rlt_trans; [exact A|]. apply bpow_lt. lia. }
  destruct C as (C1 & C2 & C3). split; [exact C2|]. split; [exact C1|]. rewrite C3.
  assert (P : 0 < F2R (Float radix2 (Zpos m) e)) by (apply F2R_gt_0; cbn; lia).
  destruct s; cbn [cond_Zopp Bsign].
  - rewrite Rcompare_Lt; [reflexivity|]. rewrite F2R_Zopp. lra.
  - rewrite Rcompare_Gt; [reflexivity|exact P].
Qed.

Definition rnd16 : R -> R := round radix2 (SpecFloat.fexp 11 16) ZnearestE.
Definition fmt16 (r : R) : Prop := generic_format radix2 (SpecFloat.fexp 11 16) r.

Lemma as_f16_rounds (x : f32) : is_finite x = true -> Rabs (rnd16 (B2R x)) < bpow radix2 16 ->
  is_finite (as_f16 x) = true /\ B2R (as_f16 x) = rnd16 (B2R x) /\ Bsign (as_f16 x) = Bsign x.
Proof.
  destruct x as [s|s| |s m e H]; cbn [is_finite as_f16]; try discriminate; intros _ A.
  - cbn. unfold rnd16. rewrite round_0; [auto|]. apply valid_rnd_N.
  - pose proof (binary_normalize_correct 11 16 eq_refl eq_refl mode_NE (cond_Zopp s (Zpos m)) e s) as C. cbv zeta in C.
    unfold rnd16 in *. cbn [B2R] in *. cbn [round_mode] in C. rewrite Rlt_bool_true in C by exact A.
    destruct C as (C1 & C2 & C3). split; [exact C2|]. split; [exact C1|]. rewrite C3. cbn [Bsign].
    assert (P : 0 < F2R (Float radix2 (Zpos m) e)) by (apply F2R_gt_0; cbn; lia).
    destruct s; cbn [cond_Zopp].
    + rewrite Rcompare_Lt; [reflexivity|]. rewrite F2R_Zopp. lra.
    + rewrite Rcompare_Gt; [reflexivity|exact P].
Qed.

Lemma fmt16_B2R (x : f16) : fmt16 (B2R x).
Proof. apply generic_format_B2R. Qed.
Lemma rnd16_fmt r : fmt16 r -> rnd16 r = r.
Proof. apply round_generic. apply valid_rnd_N. Qed.

(** Narrowing undoes widening. *)
Lemma as_f16_f32 (x : f16) : as_f16 (as_f32 x) = x.
Proof.
  destruct (is_finite x) eqn:F; [|destruct x; try discriminate; reflexivity].
  destruct (as_f32_exact x F) as (A & B & C).
  assert (R : rnd16 (B2R (as_f32 x)) = B2R x) by (rewrite B; apply rnd16_fmt, fmt16_B2R).
  destruct (as_f16_rounds (as_f32 x) A) as (A' & B' & C').
  { rewrite R. apply abs_B2R_lt_emax. }
  apply B2R_Bsign_inj; auto; congruence.
Qed.
