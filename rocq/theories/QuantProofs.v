(** Conversion of float weights to 16-bit fixed point. *)
From Coq Require Import ZArith Reals Lra Lia Bool List ZifyBool ZifyNat.
From Flocq Require Import Core.Core IEEE754.BinarySingleNaN.
From Verif Require Import Base BaseProofs FixedPoint Spec KernelProofs DispatchProofs ResizeProofs F32 F32Proofs Weights WeightsProofs.
Import ListNotations.
Local Open Scope R_scope.

(** Multiplying by 2^15 is exact unless it overflows. *)
Lemma fmt_scale r : fmt r -> fmt (r * 32768).
Proof.
  intro H. change 32768 with (IZR 32768). 
  destruct (Req_dec r 0) as [->|Hr]; [rewrite Rmult_0_l; apply fmt_0|].
  replace (r * 32768) with (r * bpow radix2 15) by (cbn; ring).
  unfold fmt in *. apply generic_format_FLT. apply FLT_format_generic in H; [|reflexivity].
  destruct H as [f Hf1 Hf2 Hf3].
  exists (Float radix2 (Fnum f) (Fexp f + 15)); cbn [Fnum Fexp].
  - rewrite Hf1. unfold F2R. cbn [Fnum Fexp]. rewrite bpow_plus. ring.
  - exact Hf2.
  - lia.
Qed.

Lemma k32768_fin : fin (fZ 32768 0) 32768. Proof. apply (fint_exact 32768). lia. Qed.
Lemma k32767_fin : fin (fZ 32767 0) 32767. Proof. apply (fint_exact 32767). lia. Qed.
Lemma km32768_fin : fin (fZ (-32768) 0) (-32768). Proof. apply (fint_exact (-32768)). lia. Qed.

(** nearest integer, ties away from zero *)
Definition nearest_away (z : Z) (r : R) : Prop :=
  Rabs (IZR z - r) <= 1 / 2 /\ (Rabs (IZR z - r) = 1 / 2 -> Rabs r <= Rabs (IZR z)).

Lemma ZnearestA_spec r : nearest_away (ZnearestA r) r.
Proof.
  split.
  - rewrite Rabs_minus_sym. pose proof (Znearest_half (Z.leb 0) r). lra.
  - intro H. rewrite Rabs_minus_sym in H.
    unfold Znearest in *. pose proof (Zfloor_lb r) as L. pose proof (Zfloor_ub r) as U.
    destruct (Rcompare_spec (r - IZR (Zfloor r)) (/ 2)) as [C|C|C].
    + rewrite Rabs_pos_eq in H by lra. lra.
    + destruct (0 <=? Zfloor r)%Z eqn:E.
      * apply Z.leb_le in E. apply IZR_le in E.
        assert (Zceil r = Zfloor r + 1)%Z as ->.
        { apply Zceil_floor_neq. intro Q. rewrite Q in C. lra. }
        rewrite plus_IZR. rewrite !Rabs_pos_eq; lra.
      * apply Z.leb_gt in E. assert (Zfloor r <= -1)%Z as E' by lia. apply IZR_le in E'.
        rewrite !Rabs_left1; lra.
    + assert (Zceil r = Zfloor r + 1)%Z as Hc.
      { apply Zceil_floor_neq. intro Q. rewrite Q in C. lra. }
      rewrite Hc, plus_IZR in H. rewrite Rabs_left1 in H by lra. lra.
Qed.

Lemma Rmax_IZR a b : Rmax (IZR a) (IZR b) = IZR (Z.max a b).
Proof.
  destruct (Z.max_spec a b) as [[H1 H2]|[H1 H2]]; rewrite H2.
  - apply Rmax_right. apply IZR_le. lia.
  - apply Rmax_left. apply IZR_le. lia.
Qed.
Lemma Rmin_IZR a b : Rmin (IZR a) (IZR b) = IZR (Z.min a b).
Proof.
  destruct (Z.min_spec a b) as [[H1 H2]|[H1 H2]]; rewrite H2.
  - apply Rmin_left. apply IZR_le. lia.
  - apply Rmin_right. apply IZR_le. lia.
Qed.

Lemma quant_fin w r : fin w r -> Rabs r <= IZR (2 ^ 80) ->
  quant_i16 w = clampZ (-32768) 32767 (ZnearestA (r * 32768)).
Proof.
  intros F B.
  assert (Fm : fin (fmul w (fZ 32768 0)) (r * 32768)).
  { rewrite <- (rnd_fmt (r * 32768)) by (apply fmt_scale; apply (fin_fmt w); exact F).
    apply fmul_fin; [exact F|apply k32768_fin|]. unfold moderate. rewrite Rabs_mult.
    rewrite (Rabs_pos_eq 32768) by lra. apply Rle_trans with (IZR (2 ^ 80) * 32768).
    - apply Rmult_le_compat_r; lra.
    - rewrite <- mult_IZR. apply IZR_le. lia. }
  pose proof (fmax_fin _ _ _ _ (fmin_fin _ _ _ _ (fround_fin _ _ Fm) k32767_fin) km32768_fin) as Fq.
  unfold quant_i16. rewrite (f_to_int_fin _ _ _ _ Fq) by lia.
  change (-32768) with (IZR (-32768)). change 32767 with (IZR 32767).
  rewrite Rmin_IZR, Rmax_IZR, Ztrunc_IZR. unfold clampZ. lia.
Qed.

(** Any result is a 16-bit value. *)
Lemma quant_range w : (-32768 <= quant_i16 w <= 32767)%Z.
Proof.
  unfold quant_i16, f_to_int. change (- 2 ^ 15)%Z with (-32768)%Z. change (2 ^ 15 - 1)%Z with 32767%Z.
  set (x := fmax _ _). destruct x as [s|[|]| |s m e B]; try lia.
Qed.

Lemma quant_nan : quant_i16 B754_nan = 32767%Z.
Proof. vm_compute. reflexivity. Qed.
Lemma quant_one : quant_i16 f1 = 32767%Z.
Proof. vm_compute. reflexivity. Qed.

(** Rows keep their windows; entries are the converted weights (alignment 0, as
    every portable caller passes). *)
Lemma approximation_rows (fw : fweights f32) insz outsz : wf_fw fw insz outsz ->
  numerical_approximation quant_i16 0 fw =
  Done (mkFW (map quant_i16 (weights fw)) (bounds fw) (aligned_size fw) (aligned_size fw) (distinct_elements fw)).
Proof. intro W. rewrite (numerical_approximation_qfw _ _ _ _ W). reflexivity. Qed.

Local Open Scope Z_scope.
(** At most 257 taps cannot overflow 32 bits for 8-bit samples, at most 16 for
    12-bit samples, whatever the weights. *)
Lemma quant_coef_bound (fw : fweights f32) o k : Z.abs (wcoef (windows_of quant_i16 fw) o k) <= 32768.
Proof.
  unfold windows_of. cbn [wcoef].
  destruct (nth_in_or_default (o * aligned_size fw + k) (map quant_i16 (weights fw)) 0) as [H|H].
  - apply in_map_iff in H. destruct H as (w & <- & _). pose proof (quant_range w). lia.
  - rewrite H. lia.
Qed.

Lemma zsum_le_const n f c : (forall k, (k < n)%nat -> f k <= c) -> zsum n f <= Z.of_nat n * c.
Proof.
  induction n as [|n IH]; intro H; cbn [zsum]; [lia|].
  specialize (IH (fun k Hk => H k (Nat.lt_lt_succ_r _ _ Hk))). specialize (H n (Nat.lt_succ_diag_r n)). lia.
Qed.

Lemma small_window_safe (fw : fweights f32) maxv n :
  0 <= maxv ->
  (forall o, (o < n)%nat -> Z.of_nat (wsize (windows_of quant_i16 fw) o) * maxv <= 65535) ->
  accumulator_safe maxv (windows_of quant_i16 fw) n.
Proof.
  intros Hm H o Ho. specialize (H o Ho).
  pose proof (zsum_le_const (wsize (windows_of quant_i16 fw) o)
     (fun k => Z.abs (wcoef (windows_of quant_i16 fw) o k)) 32768 (fun k _ => quant_coef_bound fw o k)) as B.
  nia.
Qed.
