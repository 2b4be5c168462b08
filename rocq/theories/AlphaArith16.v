(** The float branches of the 16-bit alpha code. *)
From Coq Require Import ZArith Reals Lra List Lia Bool Psatz.
From Flocq Require Import Core.Core IEEE754.BinarySingleNaN.
From Verif Require Import Base F32 F32Proofs WeightSum Alpha SpecAlpha.
Local Open Scope R_scope.

Lemma b120 : bpow radix2 (-120) <= / 1000000000000000000000.
Proof. replace (bpow radix2 (-120)) with (/ IZR (2 ^ 120)) by (cbn; lra). apply Rinv_le; [lra|]. apply IZR_le. now vm_compute. Qed.

(** n/m computed as (n as f32) * (1.0 / m as f32). *)
Lemma float_ratio n m : (0 <= n <= 2 ^ 32)%Z -> (1 <= m <= 65535)%Z -> IZR n / IZR m <= 65535 ->
  exists F, fin (fmul (fZ n 0) (fdiv f1 (fZ m 0))) F /\ 0 <= F /\ Rabs (F - IZR n / IZR m) <= / 64.
Proof.
  intros Hn Hm HV.
  assert (Mm : 1 <= IZR m <= 65535) by (split; apply IZR_le; lia).
  assert (Nn : 0 <= IZR n <= 4294967296) by (split; apply IZR_le; lia).
  assert (Big : 65536 * 4294967296 * 4 <= IZR (2 ^ 100)) by (rewrite <- !mult_IZR; apply IZR_le; vm_compute; discriminate).
  assert (Hinv : / 65535 <= / IZR m <= 1).
  { split; [apply Rinv_le; lra|]. replace 1 with (/ 1) by field. apply Rinv_le; lra. }
  pose proof b120 as B120.
  assert (FM : fin (fZ m 0) (IZR m)) by (apply fint_exact; lia).
  assert (FR : fin (fdiv f1 (fZ m 0)) (rnd (1 / IZR m))).
  { apply fdiv_fin; [apply f1_fin|exact FM|lra|]. unfold moderate, Rdiv. rewrite Rmult_1_l, Rabs_pos_eq by lra. lra. }
  destruct (rnd_rel (1 / IZR m)) as (d1 & D1 & E1).
  { unfold Rdiv. rewrite Rmult_1_l, Rabs_pos_eq by lra.
    apply Rle_trans with (1 := B120). apply Rle_trans with (2 := proj1 Hinv). apply Rinv_le; lra. }
  assert (FN : fin (fZ n 0) (rnd (IZR n))).
  { replace (IZR n) with (IZR n * bpow radix2 0) at 1 by (cbn; ring). apply fZ_fin. cbn [bpow]. rewrite Rmult_1_r, Rabs_pos_eq by lra. lra. }
  destruct (Z.eq_dec n 0) as [->|Hn0].
  { assert (Hz : rnd 0 = 0) by (apply rnd_fmt, fmt_0). rewrite Hz in FN.
    pose proof (fmul_fin _ _ _ _ FN FR) as HF. rewrite Rmult_0_l, Hz in HF.
    exists 0. split; [apply HF; unfold moderate; rewrite Rabs_R0; lra|]. split; [lra|].
    unfold Rdiv. rewrite Rmult_0_l, Rminus_0_r, Rabs_R0. lra. }
  assert (1 <= IZR n) by (apply IZR_le; lia).
  destruct (rnd_rel (IZR n)) as (d2 & D2 & E2).
  { rewrite Rabs_pos_eq by lra. assert (/ 1000000000000000000000 <= 1) by (rewrite <- Rinv_1; apply Rinv_le; lra). lra. }
  unfold u in *.
  assert (A1 : - / 16777216 <= d1 <= / 16777216) by (apply Rabs_le_inv; exact D1).
  assert (A2 : - / 16777216 <= d2 <= / 16777216) by (apply Rabs_le_inv; exact D2).
  set (V := IZR n / IZR m) in *.
  assert (PV : rnd (IZR n) * rnd (1 / IZR m) = V * ((1 + d1) * (1 + d2))) by (rewrite E1, E2; unfold V; field; lra).
  assert (V0 : / 65535 <= V). { unfold V, Rdiv. apply Rle_trans with (1 * / IZR m); [lra|]. apply Rmult_le_compat_r; lra. }
  assert (K : 1 - 2.01 * / 16777216 <= (1 + d1) * (1 + d2) <= 1 + 2.01 * / 16777216) by (split; nra).
  assert (VK : 0 <= V * ((1 + d1) * (1 + d2)) <= 131070) by (split; nra).
  pose proof (fmul_fin _ _ _ _ FN FR) as HF. rewrite PV in HF.
  destruct (rnd_rel (V * ((1 + d1) * (1 + d2)))) as (d3 & D3 & E3).
  { rewrite Rabs_pos_eq by lra. apply Rle_trans with (1 := B120). apply Rle_trans with (/ 65535 * / 2).
    - rewrite <- Rinv_mult. apply Rinv_le; lra.
    - nra. }
  unfold u in D3. assert (A3 : - / 16777216 <= d3 <= / 16777216) by (apply Rabs_le_inv; exact D3).
  exists (rnd (V * ((1 + d1) * (1 + d2)))). split.
  { apply HF. unfold moderate. rewrite Rabs_pos_eq by lra. lra. }
  rewrite E3. set (k := (1 + d1) * (1 + d2)) in *. clearbody k.
  assert (K3 : 1 - 3.1 * / 16777216 <= k * (1 + d3) <= 1 + 3.1 * / 16777216) by (split; nra).
  rewrite Rmult_assoc. set (k3 := k * (1 + d3)) in *. clearbody k3. split; [nra|].
  apply Rabs_le. replace (V * k3 - V) with (V * (k3 - 1)) by ring. split; nra.
Qed.

Lemma trunc_ratio hi n m : (0 <= n <= 2 ^ 32)%Z -> (1 <= m <= 65535)%Z -> (n <= 65535 * m)%Z -> (65535 < hi)%Z ->
  let r := f_to_int 0 hi (fmul (fZ n 0) (fdiv f1 (fZ m 0))) in
  (0 <= r /\ 64 * (m * r - n) <= m /\ 64 * (n - m * r) < 65 * m)%Z.
Proof.
  intros Hn Hm Hnm Hh. cbv zeta.
  assert (Mm : 1 <= IZR m <= 65535) by (split; apply IZR_le; lia).
  assert (Nm : IZR n <= 65535 * IZR m) by (rewrite <- mult_IZR; now apply IZR_le).
  assert (Nn : 0 <= IZR n) by (apply IZR_le; lia).
  assert (V : IZR n / IZR m <= 65535).
  { unfold Rdiv. apply Rmult_le_reg_r with (IZR m); [lra|]. rewrite Rmult_assoc, Rinv_l, Rmult_1_r by lra. exact Nm. }
  destruct (float_ratio n m Hn Hm V) as (F & HF & F0 & E).
  apply Rabs_le_inv in E.
  assert (F1 : F <= 65536) by lra.
  rewrite (f_to_int_fin 0 hi _ F HF) by lia. rewrite Ztrunc_floor by exact F0.
  pose proof (Zfloor_lb F) as Lb. pose proof (Zfloor_ub F) as Ub.
  assert (0 <= Zfloor F)%Z by (apply Zfloor_lub; exact F0).
  assert (Zfloor F <= 65536)%Z by (apply le_IZR; lra).
  rewrite Z.min_r, Z.max_r by lia. split; [assumption|].
  assert (Vm : IZR n / IZR m * IZR m = IZR n) by (field; lra).
  set (v := IZR n / IZR m) in *. clearbody v. set (z := Zfloor F) in *. clearbody z.
  assert (64 * (IZR m * IZR z - IZR n) <= IZR m /\ 64 * (IZR n - IZR m * IZR z) < 65 * IZR m) as [X Y].
  { rewrite <- Vm. split; nra. }
  rewrite <- !mult_IZR, <- !minus_IZR, <- !mult_IZR in X, Y.
  split; [apply le_IZR; rewrite mult_IZR, minus_IZR, mult_IZR; rewrite mult_IZR, minus_IZR, mult_IZR in X; lra|].
  apply lt_IZR. rewrite !mult_IZR, minus_IZR, mult_IZR in Y. rewrite !mult_IZR, minus_IZR, mult_IZR. lra.
Qed.

(** With a 16-bit target the saturation at 65535 is only reached at the top. *)
Lemma trunc_ratio_16 n m : (0 <= n <= 2 ^ 32)%Z -> (1 <= m <= 65535)%Z -> (n <= 65535 * m)%Z ->
  let r := f_to_int 0 (2 ^ 16 - 1) (fmul (fZ n 0) (fdiv f1 (fZ m 0))) in
  (0 <= r <= 65535 /\ 64 * (m * r - n) <= m /\ 64 * (n - m * r) < 65 * m)%Z.
Proof.
  intros Hn Hm Hnm. cbv zeta. pose proof (trunc_ratio 100000 n m Hn Hm Hnm ltac:(lia)) as H. cbv zeta in H.
  unfold f_to_int in *. set (x := fmul _ _) in *. destruct x; cbn [Z.max Z.min] in *; try (nia).
  destruct s; nia.
Qed.
