(** Premultiplication through f32 in the 16-bit x86 alpha code. *)
From Coq Require Import ZArith Reals List Lia Lra Bool ZifyBool ZifyNat Psatz.
From Flocq Require Import Core.Core IEEE754.BinarySingleNaN.
From Verif Require Import Base ImageStore FixedPoint Spec SpecApi SpecAlpha F32 F32Proofs FloatErr FloatSumErr WeightSum Alpha AlphaArith AlphaArith16
  X86Alpha X86AlphaU16 X86AlphaArith SpecX86AlphaU16 X86AlphaU16Arith.
Import ListNotations.
Local Open Scope R_scope.

(** The reciprocal computed in f64 and rounded to f32 is the f32 reciprocal. *)
Lemma f64_recip_is d : (1 <= d <= 16)%nat -> f64_recip (2 ^ Z.of_nat d - 1) = fdiv f1 (fZ (2 ^ Z.of_nat d - 1) 0).
Proof.
  intro H. apply B2SF_inj.
  do 17 (destruct d as [|d]; [first [exfalso; lia | vm_compute; reflexivity]|]). exfalso. lia.
Qed.

Section Pre.
Variables (M x y : Z).
Hypothesis (HM : (1 <= M <= 65535)%Z) (Hx : (0 <= x <= M)%Z) (Hy : (0 <= y <= M)%Z).
Let i := fdiv f1 (fZ M 0).
Let P := IZR x * IZR y / IZR M.
Lemma pre_recip : exists r, fin i r /\ / IZR M * (1 - / 16777216) <= r <= / IZR M * (1 + / 16777216).
Proof using HM.
  assert (M0 : 1 <= IZR M <= 65535) by (split; apply IZR_le; lia).
  assert (I0 : / 65535 <= / IZR M <= 1) by (split; [apply Rinv_le; lra|rewrite <- Rinv_1; apply Rinv_le; lra]).
  exists (rnd (1 / IZR M)). assert (E1 : 1 / IZR M = / IZR M) by (unfold Rdiv; ring). split.
  - apply fdiv_fin; [apply f1_fin|apply fint_exact; lia|lra|]. apply mod30. rewrite E1, Rabs_pos_eq by lra. assert (2 ^ 33 = 8589934592) by ring. lra.
  - rewrite E1. destruct (rel_up (/ IZR M)) as (d & D & E); [lra|]. rewrite E. split; nra.
Qed.
Lemma pre_values : 0 <= P <= IZR M /\
  (exists v, fin (fmul (fmul (fZ x 0) i) (fZ y 0)) v /\ Rabs (v - P) <= / 64) /\
  (exists v, fin (fmul (fZ y 0) (fmul (fZ x 0) i)) v /\ Rabs (v - P) <= / 64) /\
  (exists v, fin (ffma (fZ y 0) (fmul (fZ x 0) i) (fZ 1 (-1))) v /\ Rabs (v - (P + / 2)) <= / 64).
Proof using All.
  destruct pre_recip as (r & F & B).
  assert (M0 : 1 <= IZR M <= 65535) by (split; apply IZR_le; lia).
  assert (X0 : 0 <= IZR x <= IZR M) by (split; apply IZR_le; lia).
  assert (Y0 : 0 <= IZR y <= IZR M) by (split; apply IZR_le; lia).
  assert (I0 : / 65535 <= / IZR M <= 1) by (split; [apply Rinv_le; lra|rewrite <- Rinv_1; apply Rinv_le; lra]).
  assert (IM : / IZR M * IZR M = 1) by (field; lra).
  assert (EP : P = (IZR x * / IZR M) * IZR y) by (unfold P, Rdiv; ring).
  set (q := IZR x * / IZR M) in *.
  assert (Q0 : 0 <= q <= 1) by (unfold q; split; [nra|]; apply Rle_trans with (IZR M * / IZR M); [apply Rmult_le_compat_r; lra|lra]).
  assert (P0 : 0 <= P <= IZR M).
  { rewrite EP. split; [nra|]. apply Rle_trans with (1 * IZR y); [apply Rmult_le_compat_r; lra|lra]. }
  clearbody P.
  assert (FX : fin (fZ x 0) (IZR x)) by (apply fint_exact; lia).
  assert (FY : fin (fZ y 0) (IZR y)) by (apply fint_exact; lia).
  assert (XB : q * (1 - / 16777216) <= IZR x * r <= q * (1 + / 16777216)).
  { unfold q. split.
    - replace (IZR x * / IZR M * (1 - / 16777216)) with (IZR x * (/ IZR M * (1 - / 16777216))) by ring. apply Rmult_le_compat_l; lra.
    - replace (IZR x * / IZR M * (1 + / 16777216)) with (IZR x * (/ IZR M * (1 + / 16777216))) by ring. apply Rmult_le_compat_l; lra. }
  assert (P33 : 2 ^ 33 = 8589934592) by ring.
  assert (FS : fin (fmul (fZ x 0) i) (rnd (IZR x * r))).
  { apply fmul_fin; auto. apply mod30. rewrite Rabs_pos_eq by lra. lra. }
  set (s := rnd (IZR x * r)) in *.
  assert (SB : q * (1 - 2.01 * / 16777216) <= s <= q * (1 + 2.01 * / 16777216)).
  { destruct (Z.eq_dec x 0) as [Ex|Nx].
    - assert (q = 0) by (unfold q; rewrite Ex; lra). assert (s = 0) by (unfold s; rewrite Ex, Rmult_0_l; apply rnd_fmt, fmt_0). lra.
    - assert (1 <= IZR x) by (apply IZR_le; lia). assert (/ 65535 <= q) by (unfold q; nra).
      destruct (rel_up (IZR x * r)) as (d & D & E). { lra. }
      unfold s. rewrite E. split; nra. }
  assert (TB : P * (1 - 2.01 * / 16777216) <= s * IZR y <= P * (1 + 2.01 * / 16777216)).
  { rewrite EP. split.
    - replace (q * IZR y * (1 - 2.01 * / 16777216)) with (q * (1 - 2.01 * / 16777216) * IZR y) by ring. apply Rmult_le_compat_r; lra.
    - replace (q * IZR y * (1 + 2.01 * / 16777216)) with (q * (1 + 2.01 * / 16777216) * IZR y) by ring. apply Rmult_le_compat_r; lra. }
  set (p := s * IZR y) in *.
  assert (Tb : bpow radix2 (-150) <= / 1267650600228229401496703205376) by (change (bpow radix2 (-150)) with (/ IZR (2 ^ 150)); apply Rinv_le; [lra|apply IZR_le; cbn; lia]).
  pose proof (rnd_abs p) as R1. pose proof (rnd_abs (p + / 2)) as R2. rewrite (Rabs_pos_eq p) in R1 by lra. rewrite (Rabs_pos_eq (p + / 2)) in R2 by lra.
  split; [exact P0|].
  assert (V1 : Rabs (rnd p - P) <= / 64) by (apply Rabs_le_inv in R1; apply Rabs_le; lra).
  split; [|split].
  - exists (rnd p). split; [apply fmul_fin; auto; apply mod30; fold p; rewrite Rabs_pos_eq; lra|exact V1].
  - exists (rnd p). split; [|exact V1]. assert (EE : IZR y * s = p) by (unfold p; ring). rewrite <- EE.
    apply fmul_fin; auto; apply mod30. rewrite EE. rewrite Rabs_pos_eq; lra.
  - exists (rnd (p + / 2)). split; [|apply Rabs_le_inv in R2; apply Rabs_le; lra]. assert (EE : IZR y * s = p) by (unfold p; ring). rewrite <- EE.
    apply ffma_fin; auto using half_fin. apply mod30. rewrite EE. rewrite Rabs_pos_eq; lra.
Qed.
Lemma near_product v : 0 <= P <= IZR M -> Rabs (v - P) <= / 64 -> product_nearest M x y (ZnearestE v) /\ (-1 <= ZnearestE v <= M + 1)%Z.
Proof using HM Hx Hy.
  intros P0 H. apply Rabs_le_inv in H. pose proof (nearest_bounds v) as N. set (n := ZnearestE v) in *. clearbody n.
  assert (M0 : 1 <= IZR M <= 65535) by (split; apply IZR_le; lia).
  assert (EP : IZR M * P = IZR x * IZR y) by (unfold P; field; lra). clearbody P.
  assert (L1 : IZR M * IZR n <= IZR M * (P + 33 / 64)) by (apply Rmult_le_compat_l; lra).
  assert (L2 : IZR M * (P - 33 / 64) <= IZR M * IZR n) by (apply Rmult_le_compat_l; lra).
  assert (Z1 : (64 * (M * n - x * y) <= 33 * M)%Z) by (apply le_IZR; rewrite !mult_IZR, minus_IZR, !mult_IZR; lra).
  assert (Z2 : (- (33 * M) <= 64 * (M * n - x * y))%Z) by (apply le_IZR; rewrite opp_IZR, !mult_IZR, minus_IZR, !mult_IZR; lra).
  unfold product_nearest. split; [lia|]. split; apply le_IZR; rewrite ?plus_IZR; lra.
Qed.
Lemma near_product_above v : 0 <= P <= IZR M -> Rabs (v - (P + / 2)) <= / 64 -> product_above M x y (ZnearestE v) /\ (0 <= ZnearestE v)%Z.
Proof using HM Hx Hy.
  intros P0 H. apply Rabs_le_inv in H. pose proof (nearest_bounds v) as N. set (n := ZnearestE v) in *. clearbody n.
  assert (M0 : 1 <= IZR M <= 65535) by (split; apply IZR_le; lia).
  assert (EP : IZR M * P = IZR x * IZR y) by (unfold P; field; lra). clearbody P.
  assert (L1 : IZR M * IZR n <= IZR M * (P + 65 / 64)) by (apply Rmult_le_compat_l; lra).
  assert (L2 : IZR M * (P - / 64) <= IZR M * IZR n) by (apply Rmult_le_compat_l; lra).
  assert (Z1 : (64 * (M * n - x * y) <= 65 * M)%Z) by (apply le_IZR; rewrite !mult_IZR, minus_IZR, !mult_IZR; lra).
  assert (Z2 : (- M <= 64 * (M * n - x * y))%Z) by (apply le_IZR; rewrite opp_IZR, !mult_IZR, minus_IZR, !mult_IZR; lra).
  unfold product_above. split; [lia|]. assert (- 1 < IZR n) by lra. change (-1) with (IZR (-1)) in *. apply lt_IZR in H0. lia.
Qed.
Lemma cap_product t hi : (M <= hi)%Z -> product_nearest M x y t -> product_nearest M x y (Z.max 0 (Z.min hi t)).
Proof using HM Hx Hy.
  unfold product_nearest. intros Hh H. assert (x * y <= M * M)%Z by nia. assert (0 <= x * y)%Z by nia.
  destruct (Z.le_gt_cases t hi); [rewrite (Z.min_r hi t) by lia|rewrite (Z.min_l hi t) by lia].
  - destruct (Z.le_gt_cases 0 t); [now rewrite Z.max_r by lia|]. rewrite Z.max_l by lia. assert (M * t <= - M)%Z by nia. lia.
  - rewrite Z.max_r by lia. assert (M * (hi + 1) <= M * t)%Z by nia. assert (M * M <= M * hi)%Z by nia. lia.
Qed.
Lemma cap_product_above t hi : (M <= hi)%Z -> (0 <= t)%Z -> product_above M x y t -> product_above M x y (Z.max 0 (Z.min hi t)).
Proof using HM Hx Hy.
  unfold product_above. intros Hh H0 H. assert (x * y <= M * M)%Z by nia. assert (0 <= x * y)%Z by nia.
  destruct (Z.le_gt_cases t hi); [rewrite (Z.min_r hi t) by lia; now rewrite Z.max_r by lia|rewrite (Z.min_l hi t) by lia].
  rewrite Z.max_r by lia. assert (M * (hi + 1) <= M * t)%Z by nia. assert (M * M <= M * hi)%Z by nia. lia.
Qed.
Lemma pre_small v h : 0 <= h <= / 2 -> 0 <= P <= IZR M -> Rabs (v - (P + h)) <= / 64 -> Rabs v <= 2 ^ 29.
Proof using HM. intros Hh H HQ. assert (IZR M <= 65535) by (apply IZR_le; lia). apply Rabs_le_inv in HQ. assert (2 ^ 29 = 536870912) by ring. apply Rabs_le. lra. Qed.
End Pre.
Lemma pow2930 : 2 ^ 29 <= 2 ^ 30. Proof. apply Rle_pow; [lra|lia]. Qed.

Lemma float_sse_ok M c a : (1 <= M <= 32767)%Z -> (0 <= c <= M)%Z -> (0 <= a <= M)%Z ->
  let t := float_associate_sse M c a in (0 <= t <= 32767)%Z /\ product_nearest M c a t.
Proof.
  intros HM Hc Ha. destruct (pre_values M c a ltac:(lia) Hc Ha) as (P0 & (v & F & E) & _).
  unfold float_associate_sse. cbv zeta. rewrite (cvtps_fin _ v F).
  2:{ eapply Rle_trans; [|exact pow2930]. apply (pre_small M c a ltac:(lia) v 0); auto; [lra|]. now rewrite Rplus_0_r. }
  destruct (near_product M c a ltac:(lia) Hc Ha v P0 E) as (A & B). set (t := ZnearestE v) in *.
  assert (W : word t = if (t <? 0)%Z then 65535%Z else Z.max 0 (Z.min 32767 t)).
  { unfold word. destruct (Z.ltb_spec t 0); [replace t with (-1)%Z by lia; reflexivity|]. rewrite Z.mod_small; lia. }
  assert (T0 : (0 <= t)%Z).
  { unfold product_nearest in A. nia. }
  rewrite W. replace (t <? 0)%Z with false by lia. split; [lia|]. apply cap_product; auto; lia.
Qed.
Lemma float_avx_ok fma d c a : (1 <= d <= 16)%nat -> let M := (2 ^ Z.of_nat d - 1)%Z in (0 <= c <= M)%Z -> (0 <= a <= M)%Z ->
  let t := float_associate_avx fma M c a in (0 <= t <= 65535)%Z /\ if fma then product_above M c a t else product_nearest M c a t.
Proof.
  intros Hd M Hc Ha. assert (HM : (1 <= M <= 65535)%Z).
  { unfold M. split.
    - assert (2 ^ 1 <= 2 ^ Z.of_nat d)%Z by (apply Z.pow_le_mono_r; lia). lia.
    - assert (2 ^ Z.of_nat d <= 2 ^ 16)%Z by (apply Z.pow_le_mono_r; lia). lia. }
  destruct (pre_values M a c HM Ha Hc) as (P0 & _ & (v & F & E) & (v' & F' & E')).
  unfold float_associate_avx, scaled. pose proof (f64_recip_is d Hd) as FR. fold M in FR. rewrite FR. clear FR.
  destruct fma; cbv zeta; (split; [lia|]).
  - rewrite (cvtps_fin _ v' F') by (eapply Rle_trans; [|exact pow2930]; apply (pre_small M a c HM v' (/ 2)); auto; lra).
    destruct (near_product_above M a c HM Ha Hc v' P0 E') as (A & B).
    assert (Q : product_above M a c (Z.max 0 (Z.min 65535 (ZnearestE v')))) by (apply cap_product_above; auto; lia).
    unfold product_above in *. rewrite (Z.mul_comm c a). exact Q.
  - rewrite (cvtps_round _ v F) by (apply (pre_small M a c HM v 0); auto; [lra|now rewrite Rplus_0_r]).
    destruct (near_product M a c HM Ha Hc v P0 E) as (A & B).
    assert (Q : product_nearest M a c (Z.max 0 (Z.min 65535 (ZnearestE v)))) by (apply cap_product; auto; lia).
    unfold product_nearest in *. rewrite (Z.mul_comm c a). exact Q.
Qed.
