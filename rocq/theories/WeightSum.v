(** Non-negative kernels: normalised weights sum to one up to float rounding, the
    quantised weights are non-negative and cannot overflow the 32-bit accumulator. *)
From Coq Require Import ZArith Reals Lra Lia Bool List Psatz.
From Flocq Require Import Core.Core Relative Plus_error IEEE754.BinarySingleNaN.
From Verif Require Import Base FixedPoint Spec F32 F32Proofs Weights WeightsProofs Sampler SamplerProofs.
Import ListNotations.
Local Open Scope R_scope.

Definition u : R := / 16777216.

Fixpoint rsum (l : list R) : R := match l with [] => 0 | x :: r => x + rsum r end.
Definition vals (l : list f32) (vs : list R) : Prop := Forall2 fin l vs.

Lemma vals_length l vs : vals l vs -> length l = length vs.
Proof. induction 1; cbn; congruence. Qed.

(** A kernel value: zero, or of moderate size. *)
Definition pos_val (v : R) : Prop := v = 0 \/ (bpow radix2 (-60) <= v <= 1024).
Definition kernel_pos (k : f32 -> f32) : Prop :=
  forall x a, fin x a -> 0 <= a -> exists v, fin (k x) v /\ pos_val v.

Lemma b60 : 0 < bpow radix2 (-60) <= / 1000000000000000.
Proof. split; [apply bpow_gt_0|]. cbn. lra. Qed.

Lemma pos_val_nonneg v : pos_val v -> 0 <= v <= 1024.
Proof. pose proof b60. intros [->|H1]; lra. Qed.

Lemma rsum_nonneg vs : Forall pos_val vs -> 0 <= rsum vs <= 1024 * INR (length vs).
Proof.
  induction 1 as [|v vs Hv F IH]; cbn [rsum length]; [cbn; lra|].
  rewrite S_INR. pose proof (pos_val_nonneg v Hv). lra.
Qed.

Lemma rsum_pos vs : Forall pos_val vs -> rsum vs = 0 \/ bpow radix2 (-60) <= rsum vs.
Proof.
  induction 1 as [|v vs Hv F IH]; cbn [rsum]; [now left|].
  pose proof (rsum_nonneg vs F). pose proof (pos_val_nonneg v Hv).
  destruct Hv as [->|Hv]; [rewrite Rplus_0_l; exact IH|right; lra].
Qed.

Lemma rnd_plus_rel a b : fmt a -> fmt b -> exists d, Rabs d <= u /\ rnd (a + b) = (a + b) * (1 + d).
Proof.
  intros Ha Hb.
  destruct (FLT_plus_error_N_ex radix2 (-149) 24 (fun t => negb (Z.even t)) a b Ha Hb) as (d & D1 & D2).
  exists d. split; [|exact D2].
  eapply Rle_trans; [exact D1|]. unfold u_ro, u. cbn.
  apply Rmult_le_reg_r with (1 + / 2 * / 8388608); [lra|].
  unfold Rdiv. rewrite Rmult_assoc, Rinv_l; lra.
Qed.

Lemma rnd_rel x : bpow radix2 (-120) <= Rabs x -> exists d, Rabs d <= u /\ rnd x = x * (1 + d).
Proof.
  intro H.
  destruct (relative_error_N_FLT_ex radix2 (-149) 24 ltac:(lia) (fun t => negb (Z.even t)) x) as (d & D1 & D2).
  - eapply Rle_trans; [|exact H]. apply bpow_le. lia.
  - exists d. split; [|exact D2]. eapply Rle_trans; [exact D1|]. unfold u. cbn. lra.
Qed.

Lemma pow_u_lo n : 1 - INR n * u <= (1 - u) ^ n <= 1.
Proof.
  assert (U : 0 < u < 1) by (unfold u; lra).
  induction n as [|n IH]; [cbn; lra|]. rewrite S_INR. cbn [pow].
  assert (0 <= (1 - u) ^ n) by (apply Rfunctions.pow_le; lra). split; nra.
Qed.
Lemma pow_u_inv n : (1 + u) ^ n * (1 - u) ^ n <= 1 /\ 1 <= (1 + u) ^ n.
Proof.
  assert (U : 0 < u < 1) by (unfold u; lra).
  split; [|apply pow_R1_Rle; lra].
  rewrite <- Rpow_mult_distr. replace ((1 + u) * (1 - u)) with (1 - u * u) by ring.
  apply Rle_trans with (1 ^ n); [apply pow_incr; nra|rewrite pow1; lra].
Qed.

(** Left-to-right float summation of non-negative values. *)
Lemma fsum_rel l : forall vs acc a,
  vals l vs -> Forall pos_val vs -> fin acc a -> 0 <= a ->
  (a + rsum vs) * (1 + u) ^ (length l) <= IZR (2 ^ 99) ->
  exists s, fin (fsum acc l) s /\
    (a + rsum vs) * (1 - u) ^ (length l) <= s <= (a + rsum vs) * (1 + u) ^ (length l).
Proof.
  assert (U : 0 < u < 1) by (unfold u; lra).
  induction l as [|w l IH]; intros vs acc a V P Fa Ha B.
  - inversion V; subst. cbn [fsum rsum length pow]. exists a. split; [exact Fa|]. lra.
  - inversion V as [|? v ? vs' Fw V']; subst. inversion P as [|? ? Pv P']; subst.
    cbn [fsum rsum length pow] in *. pose proof (pos_val_nonneg v Pv) as Bv.
    pose proof (rsum_nonneg vs' P') as Bs.
    destruct (pow_u_inv (length l)) as [_ G1].
    destruct (rnd_plus_rel a v (fin_fmt _ _ Fa) (fin_fmt _ _ Fw)) as (d & D1 & D2).
    apply Rabs_le_inv in D1.
    assert (Fs : fin (fadd acc w) (rnd (a + v))).
    { apply fadd_fin; auto. apply moderate_pos; [lra|]. eapply Rle_trans; [|exact B].
      assert (C : 1 <= (1 + u) * (1 + u) ^ length l) by nra. revert C. generalize ((1 + u) * (1 + u) ^ length l). intros; nra. }
    assert (R0 : 0 <= rnd (a + v)) by (apply rnd_ge_fmt; [apply fmt_0|lra]).
    assert (Rlo : (a + v) * (1 - u) <= rnd (a + v)) by (rewrite D2; nra).
    assert (Rhi : rnd (a + v) <= (a + v) * (1 + u)) by (rewrite D2; nra).
    assert (Q : rnd (a + v) + rsum vs' <= (a + (v + rsum vs')) * (1 + u)) by nra.
    assert (Q' : (a + (v + rsum vs')) * (1 - u) <= rnd (a + v) + rsum vs') by nra.
    destruct (IH vs' (fadd acc w) (rnd (a + v)) V' P' Fs R0) as (s & Ss & S1 & S2).
    { eapply Rle_trans; [|exact B]. rewrite <- Rmult_assoc. apply Rmult_le_compat_r; lra. }
    exists s. split; [exact Ss|]. split.
    + eapply Rle_trans; [|exact S1]. rewrite <- Rmult_assoc. apply Rmult_le_compat_r; [apply Rfunctions.pow_le; lra|exact Q'].
    + eapply Rle_trans; [exact S2|]. rewrite <- Rmult_assoc. apply Rmult_le_compat_r; [lra|exact Q].
Qed.

Lemma vals_map_mul l vs r R : vals l vs -> Forall pos_val vs -> fin r R ->
  bpow radix2 (-50) <= R <= IZR (2 ^ 70) ->
  exists ws, vals (map (fun w => fmul w r) l) ws /\
    Forall (fun w => 0 <= w) ws /\
    rsum vs * R * (1 - u) <= rsum ws <= rsum vs * R * (1 + u).
Proof.
  intros V P Fr BR.
  assert (U : 0 < u < 1) by (unfold u; lra).
  assert (R0 : 0 < R) by (pose proof (bpow_gt_0 radix2 (-50)); lra).
  revert vs V P. induction l as [|w l IH]; intros vs V P.
  - inversion V; subst. exists []. repeat split; [constructor|constructor|cbn; nra|cbn; nra].
  - inversion V as [|? v ? vs' Fw V']; subst. inversion P as [|? ? Pv P']; subst.
    destruct (IH vs' V' P') as (ws & W1 & W2 & W3).
    pose proof (pos_val_nonneg v Pv) as Bv.
    assert (Fm : fin (fmul w r) (rnd (v * R))).
    { apply fmul_fin; auto. apply moderate_pos; [nra|].
      apply Rle_trans with (1024 * IZR (2 ^ 70)); [nra|]. rewrite <- mult_IZR. apply IZR_le. lia. }
    exists (rnd (v * R) :: ws). cbn [map rsum].
    assert (E : 0 <= rnd (v * R) /\ v * R * (1 - u) <= rnd (v * R) <= v * R * (1 + u)).
    { destruct Pv as [->|Pv].
      - rewrite Rmult_0_l. rewrite (rnd_fmt 0 fmt_0). lra.
      - assert (0 <= v * R) by nra.
        split; [apply rnd_ge_fmt; [apply fmt_0|lra]|].
        destruct (rnd_rel (v * R)) as (d & D1 & D2).
        + rewrite Rabs_pos_eq by lra. apply Rle_trans with (bpow radix2 (-60) * bpow radix2 (-50)).
          * rewrite <- bpow_plus. apply bpow_le. lia.
          * apply Rmult_le_compat; try lra; apply bpow_ge_0.
        + apply Rabs_le_inv in D1. rewrite D2. split; nra. }
    split; [constructor; assumption|]. split; [constructor; [apply E|exact W2]|]. nra.
Qed.

(** Normalised weights: all zero, or non-negative with sum within rounding of one. *)
Lemma normalise_pos l vs : vals l vs -> Forall pos_val vs -> (Z.of_nat (length l) <= 2 ^ 23)%Z ->
  exists ws, vals (normalise l (fsum f0 l)) ws /\ Forall (fun w => 0 <= w) ws /\
    ((rsum vs = 0 /\ rsum ws = 0) \/
     (0 < rsum vs /\ (1 - u) ^ 2 * (1 - u) ^ length l <= rsum ws /\
      rsum ws * (1 - u) ^ length l <= (1 + u) ^ 2)).
Proof.
  intros V P HL. assert (U : 0 < u < 1) by (unfold u; lra).
  set (n := length l) in *.
  assert (Ln : length vs = n) by (symmetry; apply (vals_length _ _ V)).
  assert (NU : INR n * u <= 1 / 2).
  { unfold u. rewrite INR_IZR_INZ. apply IZR_le in HL. change (IZR (2 ^ 23)) with 8388608 in HL. lra. }
  destruct (pow_u_lo n) as [PL _]. destruct (pow_u_inv n) as [PI P1].
  assert (P2 : (1 + u) ^ n <= 2) by nra.
  pose proof (rsum_nonneg vs P) as Bs. rewrite Ln in Bs.
  assert (N23 : INR n <= 8388608).
  { rewrite INR_IZR_INZ. apply IZR_le in HL. exact HL. }
  assert (BS : rsum vs <= 8589934592) by lra.
  destruct (fsum_rel l vs f0 0 V P f0_fin (Rle_refl 0)) as (s & Fs & S1 & S2).
  { fold n. rewrite Rplus_0_l. apply Rle_trans with (8589934592 * 2); [nra|].
    apply Rle_trans with (IZR (2 ^ 40)); [change (IZR (2 ^ 40)) with 1099511627776; lra|apply IZR_le; lia]. }
  fold n in S1, S2. rewrite Rplus_0_l in S1, S2.
  unfold normalise.
  destruct (rsum_pos vs P) as [Z0|Zp].
  - assert (s = 0) by (rewrite Z0 in *; lra). subst s.
    assert (E : feqb (fsum f0 l) f0 = true).
    { unfold feqb. rewrite Bcompare_correct by (apply Fs || apply f0_fin).
      rewrite (proj2 Fs), (proj2 f0_fin). now rewrite Rcompare_Eq. }
    rewrite E. cbn [negb]. exists (map (fun _ => 0) l). split; [|split].
    + clear. induction l; cbn; constructor; [apply f0_fin|exact IHl].
    + clear. induction l; cbn; constructor; [lra|exact IHl].
    + left. split; [exact Z0|]. clear. induction l; cbn; lra.
  - assert (T0 : 0 < rsum vs) by (pose proof b60; lra).
    assert (s0 : bpow radix2 (-61) <= s).
    { eapply Rle_trans; [|exact S1]. replace (bpow radix2 (-61)) with (bpow radix2 (-60) * / 2) by (cbn; lra).
      apply Rmult_le_compat; try lra; try apply bpow_ge_0. }
    assert (s1 : 0 < s) by (pose proof (bpow_gt_0 radix2 (-61)); lra).
    assert (s2 : s <= 17179869184) by nra.
    assert (E : feqb (fsum f0 l) f0 = false).
    { unfold feqb. rewrite Bcompare_correct by (apply Fs || apply f0_fin).
      rewrite (proj2 Fs), (proj2 f0_fin). rewrite Rcompare_Gt; [reflexivity|exact s1]. }
    rewrite E. cbn [negb]. cbv zeta.
    assert (I1 : / 17179869184 <= 1 / s).
    { unfold Rdiv. rewrite Rmult_1_l. apply Rinv_le; assumption. }
    assert (I2 : 1 / s <= IZR (2 ^ 61)).
    { unfold Rdiv. rewrite Rmult_1_l. change 2%Z with (radix_val radix2). rewrite IZR_Zpower by lia.
      replace (bpow radix2 61) with (/ bpow radix2 (-61)) by (rewrite <- bpow_opp; reflexivity).
      apply Rinv_le; [apply bpow_gt_0|exact s0]. }
    assert (Fr : fin (fdiv f1 (fsum f0 l)) (rnd (1 / s))).
    { apply fdiv_fin; [apply f1_fin|exact Fs|lra|]. apply moderate_pos; [lra|].
      eapply Rle_trans; [exact I2|]. apply IZR_le. lia. }
    destruct (rnd_rel (1 / s)) as (d & D1 & D2).
    { rewrite Rabs_pos_eq by lra. apply Rle_trans with (bpow radix2 (-34)); [apply bpow_le; lia|]. cbn. lra. }
    apply Rabs_le_inv in D1.
    destruct (vals_map_mul l vs _ _ V P Fr) as (ws & W1 & W2 & W3).
    { split.
      - apply Rle_trans with (bpow radix2 (-34)); [apply bpow_le; lia|].
        apply rnd_ge_fmt; [apply generic_format_bpow; unfold fe, FLT_exp; lia|]. cbn. lra.
      - apply rnd_le_fmt; [apply fmt_pow; lia|]. eapply Rle_trans; [exact I2|]. apply IZR_le. lia. }
    exists ws. split; [exact W1|]. split; [exact W2|]. right. split; [exact T0|].
    assert (Ts : rsum vs * rnd (1 / s) = rsum vs / s * (1 + d)) by (rewrite D2; field; lra).
    rewrite Ts in W3.
    assert (Q1 : (1 - u) ^ n <= rsum vs / s).
    { apply Rmult_le_reg_r with s; [exact s1|]. unfold Rdiv. rewrite Rmult_assoc, Rinv_l by lra.
      (* (1-u)^n * s <= T: s <= T (1+u)^n *)
      apply Rle_trans with ((1 - u) ^ n * (rsum vs * (1 + u) ^ n)).
      - apply Rmult_le_compat_l; [apply Rfunctions.pow_le; lra|exact S2].
      - nra. }
    assert (Q2 : rsum vs / s * (1 - u) ^ n <= 1).
    { apply Rmult_le_reg_r with s; [exact s1|]. unfold Rdiv.
      replace (rsum vs * / s * (1 - u) ^ n * s) with (rsum vs * (1 - u) ^ n) by (field; lra). lra. }
    assert (Q0 : 0 < (1 - u) ^ n) by lra.
    split.
    + apply Rle_trans with (rsum vs / s * (1 + d) * (1 - u)); [|apply W3]. 
      assert ((1 - u) ^ n * (1 - u) <= rsum vs / s * (1 + d)) by nra. nra.
    + apply Rle_trans with (rsum vs / s * (1 + d) * (1 + u) * (1 - u) ^ n); [apply Rmult_le_compat_r; lra|].
      assert (rsum vs / s * (1 - u) ^ n * (1 + d) <= 1 + u) by nra. nra.
Qed.
