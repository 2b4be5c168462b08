(** From accurate weights to accurate samples. *)
From Coq Require Import ZArith Reals Lra Lia Bool List Psatz ZifyBool ZifyNat.
From Flocq Require Import Core.Core IEEE754.BinarySingleNaN.
From Verif Require Import Base BaseProofs FixedPoint Spec F32 F32Proofs Weights WeightsProofs QuantProofs Sampler SamplerProofs WeightSum FilterSums Center QuantSums
  SpecKernels SpecAccuracy KernelAccuracy KernelFacts WindowPos WeightValues WeightTable.
Import ListNotations.
Local Open Scope R_scope.

Lemma rsumn_scal n c g : rsumn n (fun k => c * g k) = c * rsumn n g.
Proof. induction n as [|n IH]; cbn; [ring|rewrite IH; ring]. Qed.
Lemma rsumn_abs n g : Rabs (rsumn n g) <= rsumn n (fun k => Rabs (g k)).
Proof. induction n as [|n IH]; cbn; [rewrite Rabs_R0; lra|]. eapply Rle_trans; [apply Rabs_triang|lra]. Qed.
Lemma zsum_rsumn n q : IZR (zsum n q) = rsumn n (fun k => IZR (q k)).
Proof. induction n as [|n IH]; cbn; [reflexivity|]. rewrite plus_IZR, IH. reflexivity. Qed.
Lemma rsumn_const n c : rsumn n (fun _ => c) = c * INR n.
Proof. induction n as [|n IH]; [cbn; ring|]. rewrite S_INR. cbn. rewrite IH. ring. Qed.

(** One quantised weight against an ideal weight in [-1, 1]. *)
Lemma quant_near (w om : R) q : Rabs om <= 1 -> q = clampZ (-32768) 32767 (ZnearestA (w * 32768)) ->
  Rabs (IZR q / 32768 - om) <= Rabs (w - om) + / 32768.
Proof.
  intros Ho ->. pose proof (Znearest_half (fun x => Z.leb 0 x) (w * 32768)) as Hh. fold ZnearestA in Hh.
  assert (H2 := Hh). change (Znearest (fun x : Z => (0 <=? x)%Z)) with ZnearestA in H2. clear Hh. apply Rabs_le_inv in H2. apply Rabs_le_inv in Ho.
  set (z := ZnearestA (w * 32768)) in *. unfold clampZ.
  pose proof (Rle_abs (w - om)) as A1. pose proof (Rle_abs (- (w - om))) as A2. rewrite Rabs_Ropp in A2.
  apply Rabs_le.
  destruct (Z_lt_le_dec 32767 z) as [Hz|Hz].
  - assert (32768 <= IZR z) by (apply IZR_le; lia). replace (Z.max (-32768) (Z.min 32767 z)) with 32767%Z by lia. lra.
  - destruct (Z_lt_le_dec z (-32768)) as [Hz2|Hz2].
    + assert (IZR z <= -32769) by (apply IZR_le; lia). replace (Z.max (-32768) (Z.min 32767 z)) with (-32768)%Z by lia. lra.
    + replace (Z.max (-32768) (Z.min 32767 z)) with z by lia. lra.
Qed.

Lemma blend_error n (w g : nat -> R) (q p : nat -> Z) tau G :
  0 < G -> 0 <= tau -> INR n * tau <= G / 4 ->
  (forall k, (k < n)%nat -> Rabs (w k * G - g k) <= (1 + INR n * Rabs (w k)) * tau) ->
  (forall k, (k < n)%nat -> Rabs (g k) <= G) ->
  (forall k, (k < n)%nat -> q k = clampZ (-32768) 32767 (ZnearestA (w k * 32768))) ->
  (forall k, (k < n)%nat -> (0 <= p k <= 255)%Z) ->
  Rabs (IZR (zsum n (fun k => q k * p k)%Z) / 32768 - rsumn n (fun k => g k * IZR (p k)) / G) <=
  INR n * (340 * tau * (1 + rsumn n (fun k => Rabs (g k)) / G) / G + / 128).
Proof.
  intros HG Ht Hn Hw Hg Hq Hp.
  set (D := rsumn n (fun k => Rabs (w k - g k / G))).
  set (A := rsumn n (fun k => Rabs (w k))).
  set (rho := rsumn n (fun k => Rabs (g k)) / G).
  set (t := INR n * tau / G).
  assert (T0 : 0 <= t) by (unfold t; apply Rmult_le_pos; [apply Rmult_le_pos; [apply pos_INR|exact Ht]|left; apply Rinv_0_lt_compat; exact HG]).
  assert (T1 : t <= 1 / 4).
  { unfold t. apply Rmult_le_reg_r with G; [exact HG|]. unfold Rdiv. rewrite Rmult_assoc, Rinv_l by lra. lra. }
  assert (E1 : D <= t * (1 + A)).
  { unfold D. apply Rle_trans with (rsumn n (fun k => tau / G + t * Rabs (w k))).
    - apply rsumn_ge. intros k Hk. specialize (Hw k Hk).
      replace (w k - g k / G) with ((w k * G - g k) / G) by (field; lra).
      unfold Rdiv at 1. rewrite Rabs_mult, (Rabs_pos_eq (/ G)) by (left; apply Rinv_0_lt_compat; exact HG).
      replace (tau / G + t * Rabs (w k)) with (((1 + INR n * Rabs (w k)) * tau) * / G) by (unfold t; field; lra).
      apply Rmult_le_compat_r; [left; apply Rinv_0_lt_compat; exact HG|exact Hw].
    - rewrite rsumn_plus, rsumn_const, rsumn_scal. fold A. apply Req_le. unfold t. field. lra. }
  assert (R0 : rho = rsumn n (fun k => Rabs (g k / G))).
  { unfold rho, Rdiv. rewrite Rmult_comm, <- rsumn_scal. apply rsumn_ext. intros k _.
    rewrite Rabs_mult, (Rabs_pos_eq (/ G)) by (left; apply Rinv_0_lt_compat; exact HG). ring. }
  assert (E2 : A <= rho + D).
  { unfold A. rewrite R0. unfold D. rewrite <- rsumn_plus. apply rsumn_ge. intros k _.
    replace (w k) with (g k / G + (w k - g k / G)) at 1 by ring. apply Rabs_triang. }
  assert (D0 : 0 <= D) by (unfold D; apply rsumn_nonneg; intros; apply Rabs_pos).
  assert (R1 : 0 <= rho) by (rewrite R0; apply rsumn_nonneg; intros; apply Rabs_pos).
  assert (E3 : D <= 4 / 3 * (t * (1 + rho))).
  { assert (t * (1 + A) <= t * (1 + rho) + t * D) by nra.
    assert (t * D <= 1 / 4 * D) by (apply Rmult_le_compat_r; lra). lra. }
  replace (IZR (zsum n (fun k => q k * p k)%Z) / 32768 - rsumn n (fun k => g k * IZR (p k)) / G)
    with (rsumn n (fun k => (IZR (q k) / 32768 - g k / G) * IZR (p k))).
  2:{ rewrite zsum_rsumn. unfold Rdiv. rewrite (Rmult_comm (rsumn n _) (/ 32768)), (Rmult_comm (rsumn n _) (/ G)), <- !rsumn_scal.
      assert (forall a b, rsumn n a - rsumn n b = rsumn n (fun k => a k - b k)) as Hsub.
      { intros a b. clear. induction n as [|n IH]; cbn; [ring|]. rewrite <- IH. ring. }
      rewrite Hsub. apply rsumn_ext. intros k _. rewrite mult_IZR. ring. }
  eapply Rle_trans; [apply rsumn_abs|].
  apply Rle_trans with (rsumn n (fun k => 255 * (Rabs (w k - g k / G)) + 255 / 32768)).
  { apply rsumn_ge. intros k Hk. rewrite Rabs_mult.
    assert (P : 0 <= IZR (p k) <= 255) by (destruct (Hp k Hk); split; apply IZR_le; assumption).
    rewrite (Rabs_pos_eq (IZR (p k))) by lra.
    assert (Q := quant_near (w k) (g k / G) (q k)).
    assert (O1 : Rabs (g k / G) <= 1).
    { unfold Rdiv. rewrite Rabs_mult, (Rabs_pos_eq (/ G)) by (left; apply Rinv_0_lt_compat; exact HG).
      apply Rmult_le_reg_r with G; [exact HG|]. rewrite Rmult_assoc, Rinv_l by lra. specialize (Hg k Hk). lra. }
    specialize (Q O1 (Hq k Hk)). pose proof (Rabs_pos (IZR (q k) / 32768 - g k / G)).
    apply Rle_trans with ((Rabs (w k - g k / G) + / 32768) * 255); [|lra].
    apply Rmult_le_compat; lra. }
  rewrite rsumn_plus, rsumn_scal, rsumn_const. fold D.
  assert (N0 := pos_INR n).
  replace (INR n * (340 * tau * (1 + rho) / G + / 128)) with (340 * (t * (1 + rho)) + INR n * / 128) by (unfold t; field; lra).
  assert (255 / 32768 * INR n <= INR n * / 128) by lra. lra.
Qed.

(** ** Clipping and rounding *)
Lemma clip_lip x y : Rabs (clip255 x - clip255 y) <= Rabs (x - y).
Proof.
  unfold clip255, Rmax, Rmin. repeat destruct Rle_dec; try (apply Rabs_le); pose proof (Rle_abs (x - y)); pose proof (Rle_abs (- (x - y))) as B;
    rewrite Rabs_Ropp in B; lra.
Qed.
Lemma clip_IZR v : IZR (clampZ 0 255 v) = clip255 (IZR v).
Proof.
  unfold clampZ, clip255. destruct (Z_le_gt_dec v 255) as [H|H].
  - rewrite Z.min_r by lia. rewrite Rmin_right by (apply IZR_le; lia). destruct (Z_le_gt_dec 0 v) as [H2|H2].
    + rewrite Z.max_r by lia. rewrite Rmax_right by (apply IZR_le; lia). reflexivity.
    + rewrite Z.max_l by lia. rewrite Rmax_left by (apply IZR_le; lia). reflexivity.
  - rewrite Z.min_l by lia. rewrite Rmin_left by (apply IZR_le; lia). cbn. rewrite Rmax_right by lra. reflexivity.
Qed.
Lemma floor_q15_near v x e : Rabs (IZR v / 32768 - x) <= e -> Rabs (IZR (floor_q15 255 v) - clip255 x) <= 1 + e.
Proof.
  intros H. unfold floor_q15. rewrite clip_IZR. eapply Rle_trans; [apply clip_lip|].
  assert (M := Z_div_mod_eq_full v 32768). assert (B := Z.mod_pos_bound v 32768 ltac:(lia)).
  change (2 ^ 15)%Z with 32768%Z.
  assert (E : IZR v = 32768 * IZR (v / 32768) + IZR (v mod 32768)) by (rewrite <- mult_IZR, <- plus_IZR; f_equal; exact M).
  assert (0 <= IZR (v mod 32768) <= 32768) by (split; apply IZR_le; lia).
  apply Rabs_le_inv in H. apply Rabs_le. lra.
Qed.
Lemma round_q15_near v x e : Rabs (IZR v / 32768 - x) <= e -> Rabs (IZR (round_q15 255 v) - clip255 x) <= 1 / 2 + e.
Proof.
  intros H. unfold round_q15. rewrite clip_IZR. eapply Rle_trans; [apply clip_lip|].
  change (2 ^ 15)%Z with 32768%Z. change (2 ^ 14)%Z with 16384%Z.
  assert (M := Z_div_mod_eq_full (v + 16384) 32768). assert (B := Z.mod_pos_bound (v + 16384) 32768 ltac:(lia)).
  assert (E : IZR v + 16384 = 32768 * IZR ((v + 16384) / 32768) + IZR ((v + 16384) mod 32768)).
  { rewrite <- mult_IZR, <- !plus_IZR. f_equal. exact M. }
  assert (0 <= IZR ((v + 16384) mod 32768) <= 32768) by (split; apply IZR_le; lia).
  apply Rabs_le_inv in H. apply Rabs_le. lra.
Qed.

Lemma total_map_seq n g : total (map g (seq 0 n)) = rsumn n g.
Proof.
  rewrite total_nth. rewrite map_length, seq_length. apply rsumn_ext. intros k Hk.
  rewrite (nth_indep _ 0 (g O)) by (rewrite map_length, seq_length; exact Hk). rewrite map_nth, seq_nth by exact Hk. reflexivity.
Qed.
Lemma total_abs g : total (map Rabs g) = rsumn (length g) (fun k => Rabs (nth k g 0)).
Proof.
  rewrite total_nth, map_length. apply rsumn_ext. intros k _. rewrite <- Rabs_R0 at 1. apply map_nth.
Qed.
Lemma samples_length f l : length (kernel_samples f l) = length l.
Proof. destruct l as [|v r]; [reflexivity|]. cbn. destruct (elliptical f); [cbn; rewrite blend_length; reflexivity|reflexivity]. Qed.
