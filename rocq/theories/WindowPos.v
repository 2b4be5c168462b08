(** Where the windows are: position and extent of the taps against exact real arithmetic. *)
From Coq Require Import ZArith Reals Lra Lia Bool List Psatz.
From Flocq Require Import Core.Core IEEE754.BinarySingleNaN.
From Verif Require Import Base FixedPoint F32 F32Proofs Weights WeightsProofs Sampler SamplerProofs WeightSum SpecKernels.
Import ListNotations.
Local Open Scope R_scope.

Lemma rnd_rel_n x : bpow radix2 (-120) <= Rabs x -> Rabs (rnd x - x) <= u * Rabs x.
Proof.
  intros H. destruct (rnd_rel x H) as (d & Hd & ->). replace (x * (1 + d) - x) with (x * d) by ring.
  rewrite Rabs_mult. pose proof (Rabs_pos x). nra.
Qed.
Lemma b120 : bpow radix2 (-120) <= / 1000000000000000000.
Proof. apply Rle_trans with (bpow radix2 (-60)); [apply bpow_le; lia|]. cbn. lra. Qed.
Lemma rnd_relp x : / 1000000000000000000 <= x -> Rabs (rnd x - x) <= u * x.
Proof. intros H. pose proof b120. rewrite <- (Rabs_pos_eq x) at 3 by lra. apply rnd_rel_n. rewrite Rabs_pos_eq; lra. Qed.
Lemma rnd_any x : Rabs (rnd x - x) <= u * Rabs x + / 1000000000000000000000000000000000.
Proof.
  destruct (rnd_err 0 0 x) as (d & e & Hd & He & ->).
  replace (x * (1 + d) + e - x) with (x * d + e) by ring.
  eapply Rle_trans; [apply Rabs_triang|]. rewrite Rabs_mult. pose proof (Rabs_pos x).
  assert (bpow radix2 (-150) <= / 1000000000000000000000000000000000).
  { apply Rle_trans with (bpow radix2 (-120)); [apply bpow_le; lia|]. cbn. lra. }
  unfold u. nra.
Qed.
Lemma u_val : u = / 16777216. Proof. reflexivity. Qed.
Lemma abs_le3 x y e : Rabs (x - y) <= e -> y - e <= x <= y + e.
Proof. intros H. apply Rabs_le_inv in H. lra. Qed.

Section Pos.
Variables (insz outsz o : nat).
Hypothesis Hin : (1 <= Zn insz <= 2 ^ 23)%Z.
Hypothesis Hout : (1 <= Zn outsz <= 2 ^ 23)%Z.
Hypothesis Ho : (o < outsz)%nat.
Let I := IZR (Zn insz).
Let O := IZR (Zn outsz).
Let ratio := I / O.
Let c := (IZR (Zn o) + 1 / 2) * ratio.

Lemma IO_range : 1 <= I <= 8388608 /\ 1 <= O <= 8388608.
Proof. unfold I, O. destruct Hin, Hout. repeat split; (apply IZR_le || apply (IZR_le 1)); lia. Qed.
Lemma o_range : 0 <= IZR (Zn o) <= O - 1.
Proof. unfold O. change 1 with (IZR 1). rewrite <- minus_IZR. split; apply IZR_le; lia. Qed.
Lemma ratio_range : / 8388608 <= ratio <= I.
Proof.
  destruct IO_range as [[I1 I2] [O1 O2]]. unfold ratio, Rdiv. split.
  - apply Rle_trans with (1 * / O); [|apply Rmult_le_compat_r; [left; apply Rinv_0_lt_compat; lra|lra]].
    rewrite Rmult_1_l. apply Rinv_le; lra.
  - rewrite <- (Rmult_1_r I) at 2. apply Rmult_le_compat_l; [lra|]. rewrite <- Rinv_1. apply Rinv_le; lra.
Qed.
Lemma c_range : ratio / 2 <= c <= I - ratio / 2.
Proof.
  destruct IO_range as [[I1 I2] [O1 O2]]. pose proof o_range as [A B]. pose proof ratio_range as [R1 R2].
  assert (E : I = O * ratio) by (unfold ratio; field; lra). unfold c. rewrite E. nra.
Qed.
Lemma scale_pos : exists s, fin (scale_of insz outsz) s /\ Rabs (s - ratio) <= u * ratio.
Proof.
  destruct IO_range as [[I1 I2] [O1 O2]]. pose proof ratio_range as [R1 R2].
  exists (rnd ratio). split.
  - unfold scale_of. apply fdiv_fin; [apply f_of_nat_exact; lia|apply f_of_nat_exact; lia|fold O; lra|].
    fold I O. fold ratio. apply moderate_pos; [lra|]. assert (8388608 <= IZR (2 ^ 99)) by (apply IZR_le; lia). lra.
  - apply rnd_relp. lra.
Qed.
Lemma center_pos : exists v, fin (center_of insz (scale_of insz outsz) o) v /\ Rabs (v - c) <= 3 * u * c /\ 0 <= v <= I.
Proof.
  destruct IO_range as [[I1 I2] [O1 O2]]. pose proof o_range as [A B]. pose proof ratio_range as [R1 R2].
  pose proof c_range as [C1 C2]. destruct scale_pos as (s & Fs & Bs). apply abs_le3 in Bs.
  assert (Fh : fin (fadd (f_of_nat o) fhalf) (IZR (Zn o) + 1 / 2)).
  { replace (IZR (Zn o) + 1 / 2) with (rnd (IZR (Zn o) + 1 / 2)).
    - apply fadd_fin; [apply f_of_nat_exact; lia|apply fhalf_fin|]. apply moderate_pos; [lra|].
      assert (8388608 <= IZR (2 ^ 99)) by (apply IZR_le; lia). lra.
    - apply rnd_fmt. replace (IZR (Zn o) + 1 / 2) with (IZR (2 * Zn o + 1) / 2) by (rewrite plus_IZR, mult_IZR; lra).
      apply fmt_half. lia. }
  set (h := IZR (Zn o) + 1 / 2) in *. assert (Hh : 1 / 2 <= h <= 8388608) by (unfold h; lra).
  assert (Sr : 0 < s <= 8388609) by (rewrite u_val in Bs; nra).
  assert (Fm : fin (fmul (fadd (f_of_nat o) fhalf) (scale_of insz outsz)) (rnd (h * s))).
  { apply fmul_fin; auto. apply moderate_pos; [nra|]. apply Rle_trans with (8388608 * 8388609); [nra|].
    rewrite <- mult_IZR. apply IZR_le. lia. }
  exists (Rmin (rnd (h * s)) I). split; [unfold center_of; apply fmin_fin; [exact Fm|apply f_of_nat_exact; lia]|].
  assert (E1 : Rabs (h * s - c) <= u * c).
  { unfold c. fold h. replace (h * s - h * ratio) with (h * (s - ratio)) by ring. rewrite Rabs_mult, Rabs_pos_eq by lra.
    assert (Rabs (s - ratio) <= u * ratio) by (apply Rabs_le; lra). nra. }
  assert (E2 : Rabs (rnd (h * s) - h * s) <= u * (h * s)).
  { apply rnd_relp. apply abs_le3 in E1. rewrite u_val in E1. lra. }
  apply abs_le3 in E1. apply abs_le3 in E2. rewrite u_val in *.
  assert (E3 : c - 3 * / 16777216 * c <= rnd (h * s) <= c + 3 * / 16777216 * c) by nra.
  assert (0 < c) by lra.
  split.
  - apply Rabs_le. destruct (Rle_or_lt (rnd (h * s)) I).
    + rewrite Rmin_left by lra. lra.
    + rewrite Rmin_right by lra. lra.
  - split; [apply Rmin_glb; [nra|lra]|apply Rmin_r].
Qed.

Variable fl : rfilter.
Variable m : Z.
Hypothesis Hm : (1 <= m <= 16)%Z.
Hypothesis Fm : fin (min_kernel fl) (IZR m).
Let cut := if is_resizable fl then Rmax ratio 1 else 1.
Let K := kernel_size_of fl (scale_of insz outsz).

Lemma cut_range : 1 <= cut <= I.
Proof.
  destruct IO_range as [[I1 I2] _]. pose proof ratio_range. unfold cut. destruct (is_resizable fl); [|lra].
  split; [apply Rmax_r|apply Rmax_lub; lra].
Qed.
Lemma cutoff_pos : exists v, fin (cutoff_of fl (scale_of insz outsz)) v /\ Rabs (v - cut) <= u * cut /\ 1 <= v.
Proof.
  pose proof cut_range as CR. unfold cutoff_of. unfold cut in *. destruct (is_resizable fl).
  - destruct scale_pos as (s & Fs & Bs). exists (Rmax s 1). split; [apply fmax_fin; [exact Fs|apply f1_fin]|].
    split; [|apply Rmax_r]. apply abs_le3 in Bs. pose proof ratio_range as [R1 R2]. apply Rabs_le. rewrite u_val in *.
    unfold Rmax in *. destruct (Rle_dec s 1), (Rle_dec ratio 1); lra.
  - exists 1. split; [apply f1_fin|]. split; [|lra]. rewrite Rminus_diag_eq, Rabs_R0 by reflexivity. rewrite u_val. lra.
Qed.
Lemma ksize_pos : (1 <= Zn K <= 2 ^ 40)%Z /\ Rabs (IZR (Zn K) - IZR m * cut) <= 1 / 2 + 3 * u * (IZR m * cut).
Proof.
  destruct cutoff_pos as (v & Fv & Bv & V1). apply abs_le3 in Bv. pose proof cut_range as [C1 C2]. destruct IO_range as [[I1 I2] _].
  assert (M : 1 <= IZR m <= 16) by (split; apply IZR_le || apply (IZR_le 1); lia).
  assert (Sup : support_ok fl) by (exists (IZR m); split; [exact Fm|lra]).
  assert (MV : 1 <= IZR m * v <= 200000000) by (rewrite u_val in Bv; nra).
  assert (F1 : fin (fmul (min_kernel fl) (cutoff_of fl (scale_of insz outsz))) (rnd (IZR m * v))).
  { apply fmul_fin; auto. apply moderate_pos; [lra|]. apply Rle_trans with 200000000; [lra|]. apply IZR_le. lia. }
  pose proof (fround_fin _ _ F1) as F2.
  assert (R1 : 1 <= rnd (IZR m * v)) by (apply rnd_ge_fmt; [apply (fmt_IZR 1); lia|lra]).
  assert (R2 : Rabs (rnd (IZR m * v) - IZR m * v) <= u * (IZR m * v)) by (apply rnd_relp; lra).
  apply abs_le3 in R2.
  assert (Z1 : (1 <= ZnearestA (rnd (IZR m * v)))%Z) by (apply ZnearestA_ge; exact R1).
  assert (Z2 : (ZnearestA (rnd (IZR m * v)) <= 2 ^ 40)%Z).
  { apply ZnearestA_le. rewrite u_val in R2. apply Rle_trans with 300000000; [lra|apply IZR_le; lia]. }
  assert (EK : Zn K = ZnearestA (rnd (IZR m * v))) by (unfold K, kernel_size_of; rewrite (f_to_usize_Z _ _ F2) by lia; lia).
  split; [lia|]. rewrite EK.
  pose proof (Znearest_half (Z.leb 0) (rnd (IZR m * v))) as H. fold ZnearestA in H.
  apply Rabs_le_inv in H. set (z := IZR (ZnearestA (rnd (IZR m * v)))) in *. change (IZR (Znearest (Z.leb 0) (rnd (IZR m * v)))) with z in H.
  assert (B2 : IZR m * cut - u * (IZR m * cut) <= IZR m * v <= IZR m * cut + u * (IZR m * cut)) by nra.
  assert (P : 0 < IZR m * cut) by nra. set (mc := IZR m * cut) in *. rewrite u_val in *. apply Rabs_le. lra.
Qed.
Lemma K_range : 1 <= IZR (Zn K) <= 150000000.
Proof.
  destruct ksize_pos as [[K1 K2] B]. split; [apply (IZR_le 1); exact K1|]. apply abs_le3 in B.
  assert (M : 1 <= IZR m <= 16) by (split; apply IZR_le || apply (IZR_le 1); lia).
  pose proof cut_range as [C1 C2]. destruct IO_range as [[I1 I2] _].
  assert (IZR m * cut <= 134217728) by nra. rewrite u_val in B. lra.
Qed.
Lemma radius_pos : exists r, fin (radius_of K) r /\ Rabs (r - IZR (Zn K) / 2) <= 3 * u * (IZR (Zn K) / 2) /\ 1 / 2 <= r <= IZR (2 ^ 40).
Proof.
  destruct ksize_pos as [KB _]. pose proof K_range as [K1 K2].
  assert (R1 : Rabs (rnd (IZR (Zn K)) - IZR (Zn K)) <= u * IZR (Zn K)) by (apply rnd_relp; lra). apply abs_le3 in R1.
  rewrite u_val in R1.
  assert (K1' : 1 <= rnd (IZR (Zn K))) by (apply rnd_ge_fmt; [apply (fmt_IZR 1); lia|exact K1]).
  set (k := rnd (IZR (Zn K))) in *.
  assert (R2 : Rabs (rnd (k / 2) - k / 2) <= u * (k / 2)) by (apply rnd_relp; lra). apply abs_le3 in R2. rewrite u_val in R2.
  exists (rnd (k / 2)). split; [|split].
  - apply fdiv_fin; [apply f_of_nat_fin; lia|apply f2_fin|lra|]. apply moderate_pos; [lra|].
    apply Rle_trans with 300000000; [fold k; lra|]. apply IZR_le; lia.
  - rewrite u_val. apply Rabs_le. lra.
  - split; [|apply Rle_trans with 300000000; [lra|apply IZR_le; lia]].
    apply rnd_ge_fmt; [apply (fmt_half 1); lia|lra].
Qed.

(** The window of output o. *)
Theorem window_position :
  let b := fst (general_row fl insz (scale_of insz outsz) o) in
  exists p q, Rabs (p - (c - IZR (Zn K) / 2)) <= (c + IZR (Zn K) / 2) / 2097152 /\
    Rabs (q - (c + IZR (Zn K) / 2)) <= (c + IZR (Zn K) / 2) / 2097152 /\
    Zn (bstart b) = Z.max 0 (Zfloor p) /\
    (Zn (bstart b) + Zn (bsize b))%Z = Z.min (Z.min (Zceil q) (Zn (bstart b) + Zn K)) (Zn insz).
Proof.
  rewrite general_row_bound. cbv zeta. cbn [bstart bsize]. fold K.
  destruct center_pos as (cx & Fc & Bc & Rc). destruct radius_pos as (r & Fr & Br & Rr).
  destruct ksize_pos as [KB KE]. pose proof K_range as [K1 K2]. pose proof c_range as [C1 C2]. pose proof ratio_range as [R1 R2].
  destruct IO_range as [[I1 I2] [O1 O2]].
  destruct (start_val insz outsz ltac:(lia) ltac:(lia) _ _ _ _ Fc Rc Fr Rr) as (z & Ez & Bz & Dz & Cz).
  assert (Sup : support_ok fl).
  { exists (IZR m). split; [exact Fm|]. split; apply IZR_le || apply (IZR_le 1); lia. }
  assert (GW := general_window insz outsz ltac:(lia) ltac:(lia) ltac:(lia) ltac:(lia) fl Sup o ltac:(lia)). cbv zeta in GW.
  fold K in GW.
  set (cxf := center_of insz (scale_of insz outsz) o) in *.
  set (st := start_of cxf (radius_of K)) in *.
  assert (Zst : Zn st = z) by (rewrite Ez; lia).
  exists (rnd (cx - r)), (rnd (cx + r)).
  apply abs_le3 in Bc. apply abs_le3 in Br.
  pose proof (rnd_any (cx - r)) as E1. pose proof (rnd_any (cx + r)) as E2.
  assert (A1 : Rabs (cx - r) <= c + IZR (Zn K) / 2 + 3 * u * (c + IZR (Zn K) / 2)) by (apply Rabs_le; lra).
  assert (A2 : Rabs (cx + r) <= c + IZR (Zn K) / 2 + 3 * u * (c + IZR (Zn K) / 2)) by (apply Rabs_le; lra).
  rewrite u_val in *. set (t := c + IZR (Zn K) / 2) in *. assert (T : 1 / 2 <= t) by (unfold t; lra).
  split; [|split; [|split]].
  - apply abs_le3 in E1. apply Rabs_le. unfold t in *. lra.
  - apply abs_le3 in E2. apply Rabs_le. unfold t in *. lra.
  - rewrite Zst, Dz. lia.
  - assert (Fcr : fin (fadd cxf (radius_of K)) (rnd (cx + r))).
    { apply fadd_fin; auto. apply moderate_pos; [lra|].
      apply Rle_trans with (IZR (2 ^ 23) + IZR (2 ^ 40)); [assert (8388608 <= IZR (2 ^ 23)) by (apply IZR_le; lia); unfold I in *; lra|].
      rewrite <- plus_IZR. apply IZR_le. lia. }
    pose proof (fceil_fin _ _ Fcr) as Fce.
    assert (Fst : fin (f_of_nat st) (IZR z)) by (rewrite <- Zst; apply f_of_nat_exact; lia).
    assert (Fk : fin (f_of_nat K) (rnd (IZR (Zn K)))) by (apply f_of_nat_fin; lia).
    assert (K1' : 1 <= rnd (IZR (Zn K))) by (apply rnd_ge_fmt; [apply (fmt_IZR 1); lia|exact K1]).
    assert (K2' : rnd (IZR (Zn K)) <= IZR (2 ^ 40)) by (apply rnd_le_fmt; [apply fmt_pow; lia|apply IZR_le; lia]).
    assert (Z0 : 0 <= IZR z) by (apply IZR_le; lia).
    assert (ZI : IZR z <= 8388608) by (apply IZR_le; lia).
    assert (Fsk : fin (fadd (f_of_nat st) (f_of_nat K)) (rnd (IZR z + rnd (IZR (Zn K))))).
    { apply fadd_fin; auto. apply moderate_pos; [lra|].
      apply Rle_trans with (IZR (2 ^ 23) + IZR (2 ^ 40)); [assert (8388608 <= IZR (2 ^ 23)) by (apply IZR_le; lia); lra|].
      rewrite <- plus_IZR. apply IZR_le. lia. }
    assert (Fi : fin (f_of_nat insz) (IZR (Zn insz))) by (apply f_of_nat_exact; lia).
    assert (Fe := fmin_fin _ _ _ _ (fmin_fin _ _ _ _ Fce Fsk) Fi).
    set (v1 := Zceil (rnd (cx + r))) in *. set (v2 := rnd (IZR z + rnd (IZR (Zn K)))) in *.
    assert (V : Rmin (Rmin (IZR v1) v2) (IZR (Zn insz)) = IZR (Z.min (Z.min v1 (z + Zn K)) (Zn insz))).
    { assert (MZ : forall a b, IZR (Z.min a b) = Rmin (IZR a) (IZR b)).
      { intros a b. destruct (Z.min_spec a b) as [[H ->]|[H ->]]; symmetry; [apply Rmin_left|apply Rmin_right]; apply IZR_le; lia. }
      destruct (Z_le_gt_dec (z + Zn K) (2 ^ 24)) as [L|L].
      - assert (v2 = IZR (z + Zn K)).
        { unfold v2. rewrite (rnd_fmt (IZR (Zn K))) by (apply fmt_IZR; lia). rewrite <- plus_IZR. apply rnd_fmt, fmt_IZR. lia. }
        rewrite !MZ. congruence.
      - assert (V2 : IZR (2 ^ 23) <= v2).
        { unfold v2. apply rnd_ge_fmt; [apply fmt_pow; lia|].
          assert (IZR (2 ^ 23) <= rnd (IZR (Zn K))) by (apply rnd_ge_fmt; [apply fmt_pow; lia|apply IZR_le; lia]). lra. }
        assert (Hi : IZR (Zn insz) <= IZR (2 ^ 23)) by (apply IZR_le; lia).
        replace (Z.min (Z.min v1 (z + Zn K)) (Zn insz)) with (Z.min v1 (Zn insz)) by lia. rewrite MZ.
        unfold Rmin. destruct (Rle_dec (IZR v1) v2); [reflexivity|].
        destruct (Rle_dec v2 (IZR (Zn insz))), (Rle_dec (IZR v1) (IZR (Zn insz))); lra. }
    rewrite V in Fe.
    assert (Ee : end_of cxf (radius_of K) st K insz = Z.to_nat (Z.max 0 (Z.min (Z.min v1 (z + Zn K)) (Zn insz)))).
    { unfold end_of, f_to_usize. rewrite (f_to_int_fin _ _ _ _ Fe) by lia. f_equal.
      rewrite Ztrunc_IZR. assert (Zn insz < 2 ^ 64 - 1)%Z by lia. lia. }
    assert (G1 : (st < end_of cxf (radius_of K) st K insz)%nat) by apply GW.
    rewrite <- Zst in *. rewrite Nat2Z.inj_sub by lia. rewrite Ee in G1 |- *. lia.
Qed.
End Pos.
