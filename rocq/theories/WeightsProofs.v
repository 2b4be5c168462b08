(** The windows produced by generate_weights lie inside the source. *)
From Coq Require Import ZArith Reals Lra Lia Bool List.
From Flocq Require Import Core.Core IEEE754.BinarySingleNaN Relative.
From Verif Require Import Base BaseProofs FixedPoint KernelProofs F32 F32Proofs Weights.
Import ListNotations.
Local Open Scope R_scope.

Notation Zn := Z.of_nat.

(** The filter's support is a finite float between 1 and 1000 (the tables of
    sampler.rs use 1, 2, 3, 4 and 6). *)
Definition support_ok (fl : rfilter) : Prop :=
  exists m, fin (min_kernel fl) m /\ 1 <= m <= 1000.

Lemma moderate_pos r : 0 <= r -> r <= IZR (2 ^ 99) -> moderate r.
Proof.
  intros H1 H2. unfold moderate. rewrite Rabs_pos_eq by exact H1.
  eapply Rle_trans; [exact H2|]. apply IZR_le. lia.
Qed.

Lemma moderate_abs r b : Rabs r <= b -> b <= IZR (2 ^ 100) -> moderate r.
Proof. intros H1 H2. unfold moderate. lra. Qed.

Lemma pow_le n m : (0 <= n)%Z -> (n <= m)%Z -> IZR (2 ^ n) <= IZR (2 ^ m).
Proof. intros H0 H. apply IZR_le. apply Z.pow_le_mono_r; lia. Qed.

Lemma fmt_pow n : (0 <= n)%Z -> fmt (IZR (2 ^ n)).
Proof.
  intro H. change 2%Z with (radix_val radix2) at 1. rewrite IZR_Zpower by exact H.
  apply generic_format_bpow. unfold fe, FLT_exp. lia.
Qed.

Lemma Zn_IZR n : INR n = IZR (Zn n). Proof. apply INR_IZR_INZ. Qed.

Lemma rnd_nat_bounds n : (Zn n <= 2 ^ 64)%Z -> 0 <= rnd (IZR (Zn n)) <= IZR (2 ^ 64).
Proof.
  intro H. split.
  - apply rnd_ge_fmt; [apply fmt_0|]. apply IZR_le. lia.
  - apply rnd_le_fmt; [apply fmt_pow; lia|]. apply IZR_le. lia.
Qed.

Lemma ZnearestA_ge a z : IZR z <= a -> (z <= ZnearestA a)%Z.
Proof. intro H. rewrite <- (@Zrnd_IZR ZnearestA _ z). apply Zrnd_le; [auto with typeclass_instances|exact H]. Qed.

Lemma ZnearestA_le a z : a <= IZR z -> (ZnearestA a <= z)%Z.
Proof. intro H. rewrite <- (@Zrnd_IZR ZnearestA _ z). apply Zrnd_le; [auto with typeclass_instances|exact H]. Qed.

Lemma Ztrunc_ge x z : (0 <= z)%Z -> IZR z <= x -> (z <= Ztrunc x)%Z.
Proof. intros H0 H. rewrite <- (Ztrunc_IZR z). apply Ztrunc_le. exact H. Qed.

Lemma Ztrunc_le' x z : x <= IZR z -> (Ztrunc x <= z)%Z.
Proof. intros H. rewrite <- (Ztrunc_IZR z). apply Ztrunc_le. exact H. Qed.

Section Bounds.
Variables (insz outsz : nat).
Hypothesis Hin1 : (1 <= Zn insz)%Z.
Hypothesis Hin2 : (Zn insz <= 2 ^ 23)%Z.
Hypothesis Hout1 : (1 <= Zn outsz)%Z.
Hypothesis Hout2 : (Zn outsz <= 2 ^ 64)%Z.

Let I := IZR (Zn insz).
Lemma I_lo : 1 <= I. Proof. apply IZR_le. lia. Qed.
Lemma I_hi : I <= IZR (2 ^ 23). Proof. apply IZR_le. lia. Qed.
Lemma P23 : IZR (2 ^ 23) = 8388608. Proof. reflexivity. Qed.

Lemma in_fin : fin (f_of_nat insz) I.
Proof. apply f_of_nat_exact. lia. Qed.

Lemma out_fin : exists o, fin (f_of_nat outsz) o /\ 1 <= o <= IZR (2 ^ 64).
Proof.
  exists (rnd (IZR (Zn outsz))). split; [apply f_of_nat_fin; lia|]. split.
  - apply rnd_ge_fmt; [apply (fmt_IZR 1); lia|]. apply IZR_le. lia.
  - apply rnd_nat_bounds. lia.
Qed.

Lemma scale_fin : exists s, fin (scale_of insz outsz) s /\ 0 <= s <= I.
Proof.
  destruct out_fin as (o & Fo & O1 & O2). pose proof I_lo. pose proof I_hi.
  assert (D : 0 <= I / o <= I).
  { split.
    - apply Rmult_le_pos; [lra|]. apply Rlt_le, Rinv_0_lt_compat. lra.
    - unfold Rdiv. rewrite <- (Rmult_1_r I) at 2. apply Rmult_le_compat_l; [lra|].
      rewrite <- Rinv_1. apply Rinv_le_contravar; lra. }
  exists (rnd (I / o)). split.
  - apply fdiv_fin; [apply in_fin|exact Fo|lra|].
    apply moderate_pos; [apply D|]. eapply Rle_trans; [apply D|].
    eapply Rle_trans; [apply I_hi|]. apply pow_le; lia.
  - split.
    + apply rnd_ge_fmt; [apply fmt_0|apply D].
    + apply rnd_le_fmt; [apply fmt_IZR; lia|apply D].
Qed.

Variable fl : rfilter.
Hypothesis Hfl : support_ok fl.

Lemma cutoff_fin scale s : fin scale s -> 0 <= s <= I ->
  exists c, fin (cutoff_of fl scale) c /\ 1 <= c <= I.
Proof.
  intros F B. pose proof I_lo. unfold cutoff_of. destruct (is_resizable fl).
  - exists (Rmax s 1). split; [apply fmax_fin; [exact F|apply f1_fin]|].
    split; [apply Rmax_r|]. apply Rmax_lub; lra.
  - exists 1. split; [apply f1_fin|lra].
Qed.


Lemma ksize_bounds scale s : fin scale s -> 0 <= s <= I ->
  (1 <= Zn (kernel_size_of fl scale) <= 2 ^ 40)%Z.
Proof.
  intros F B. destruct (cutoff_fin scale s F B) as (c & Fc & C1 & C2).
  destruct Hfl as (m & Fm & M1 & M2). pose proof I_hi as IH. rewrite P23 in IH.
  assert (MC : 1 <= m * c <= 8388608000) by nra.
  assert (Fmc : fin (fmul (min_kernel fl) (cutoff_of fl scale)) (rnd (m * c))).
  { apply fmul_fin; auto. apply moderate_pos; [lra|].
    eapply Rle_trans; [apply MC|]. apply IZR_le. lia. }
  assert (R1 : 1 <= rnd (m * c)) by (apply rnd_ge_fmt; [apply (fmt_IZR 1); lia|lra]).
  assert (R2 : rnd (m * c) <= IZR (2 ^ 40)).
  { apply rnd_le_fmt; [apply fmt_pow; lia|]. eapply Rle_trans; [apply MC|]. apply IZR_le. lia. }
  pose proof (fround_fin _ _ Fmc) as Fr.
  assert (Z1 : (1 <= ZnearestA (rnd (m * c)))%Z) by (apply ZnearestA_ge; exact R1).
  assert (Z2 : (ZnearestA (rnd (m * c)) <= 2 ^ 40)%Z) by (apply ZnearestA_le; exact R2).
  unfold kernel_size_of. rewrite (f_to_usize_Z _ _ Fr) by lia. lia.
Qed.

Lemma radius_fin ks : (1 <= Zn ks <= 2 ^ 40)%Z ->
  exists r, fin (radius_of ks) r /\ 1 / 2 <= r <= IZR (2 ^ 40).
Proof.
  intro H. unfold radius_of.
  assert (K1 : 1 <= rnd (IZR (Zn ks))) by (apply rnd_ge_fmt; [apply (fmt_IZR 1); lia|apply IZR_le; lia]).
  assert (K2 : rnd (IZR (Zn ks)) <= IZR (2 ^ 40)) by (apply rnd_le_fmt; [apply fmt_pow; lia|apply IZR_le; lia]).
  exists (rnd (rnd (IZR (Zn ks)) / 2)). split.
  - apply fdiv_fin; [apply f_of_nat_fin; lia|apply f2_fin|lra|].
    apply moderate_pos; [lra|]. pose proof (pow_le 40 99 ltac:(lia) ltac:(lia)). lra.
  - split.
    + apply rnd_ge_fmt; [apply (fmt_half 1); lia|lra].
    + apply rnd_le_fmt; [apply fmt_pow; lia|]. lra.
Qed.

Lemma center_fin scale s i : fin scale s -> 0 <= s <= I -> (Zn i <= 2 ^ 64)%Z ->
  exists c, fin (center_of insz scale i) c /\ 0 <= c <= I.
Proof.
  intros F B Hi. pose proof I_hi as IH. pose proof I_lo as IL.
  destruct (rnd_nat_bounds i Hi) as [N1 N2].
  assert (F1 : fin (fadd (f_of_nat i) fhalf) (rnd (rnd (IZR (Zn i)) + 1 / 2))).
  { apply fadd_fin; [apply f_of_nat_fin; lia|apply fhalf_fin|].
    apply moderate_pos; [lra|].
    eapply Rle_trans; [apply Rplus_le_compat; [exact N2|apply Rle_trans with 1; [lra|apply Rle_refl]]|].
    rewrite <- plus_IZR. apply IZR_le. lia. }
  set (a := rnd (rnd (IZR (Zn i)) + 1 / 2)) in *.
  assert (A1 : 0 <= a) by (apply rnd_ge_fmt; [apply fmt_0|lra]).
  assert (A2 : a <= IZR (2 ^ 65)).
  { apply rnd_le_fmt; [apply fmt_pow; lia|].
    assert (IZR (2 ^ 65) = IZR (2 ^ 64) + IZR (2 ^ 64)) by (rewrite <- plus_IZR; f_equal).
    assert (1 <= IZR (2 ^ 64)) by (apply IZR_le; lia). lra. }
  assert (F2 : fin (fmul (fadd (f_of_nat i) fhalf) scale) (rnd (a * s))).
  { apply fmul_fin; auto. apply moderate_pos; [nra|].
    apply Rle_trans with (IZR (2 ^ 65) * IZR (2 ^ 23)).
    - apply Rmult_le_compat; lra.
    - rewrite <- mult_IZR. apply IZR_le. lia. }
  exists (Rmin (rnd (a * s)) I). split; [apply fmin_fin; [exact F2|apply in_fin]|].
  split.
  - apply Rmin_glb; [|lra]. apply rnd_ge_fmt; [apply fmt_0|nra].
  - apply Rmin_r.
Qed.

Lemma start_val cx rad c r : fin cx c -> 0 <= c <= I -> fin rad r -> 1 / 2 <= r <= IZR (2 ^ 40) ->
  exists z, start_of cx rad = Z.to_nat z /\ (0 <= z < Zn insz)%Z /\
            z = Z.max (Zfloor (rnd (c - r))) 0 /\ IZR z <= c.
Proof.
  intros Fc Bc Fr Br. pose proof I_hi as IH.
  assert (Fs : fin (fsub cx rad) (rnd (c - r))).
  { apply fsub_fin; auto. apply moderate_abs with (IZR (2 ^ 40) + IZR (2 ^ 40)).
    - apply Rabs_le. pose proof (pow_le 23 40 ltac:(lia) ltac:(lia)). lra.
    - rewrite <- plus_IZR. apply IZR_le. lia. }
  pose proof (ffloor_fin _ _ Fs) as Ff.
  pose proof (fmax_fin _ _ _ _ Ff f0_fin) as Fm.
  set (z1 := Zfloor (rnd (c - r))) in *.
  assert (E : Rmax (IZR z1) 0 = IZR (Z.max z1 0)).
  { destruct (Z.max_spec z1 0) as [[H1 H2]|[H1 H2]]; rewrite H2.
    - apply Rmax_right. apply IZR_le. lia.
    - apply Rmax_left. apply IZR_le. lia. }
  rewrite E in Fm.
  assert (Hz : IZR z1 <= rnd (c - r)) by apply Zfloor_lb.
  assert (Hub : rnd (c - r) <= IZR (2 * Zn insz - 1) / 2).
  { apply rnd_le_fmt; [apply fmt_half; lia|]. rewrite minus_IZR, mult_IZR. fold I. lra. }
  assert (z1 < Zn insz)%Z.
  { apply lt_IZR. eapply Rle_lt_trans; [exact Hz|]. eapply Rle_lt_trans; [exact Hub|].
    rewrite minus_IZR, mult_IZR. fold I. lra. }
  exists (Z.max z1 0). split; [|split; [lia|split; [reflexivity|]]].
  - unfold start_of. apply f_to_usize_Z; [exact Fm|lia].
  - destruct (Z.max_spec z1 0) as [[H1 H2]|[H1 H2]]; rewrite H2; [lra|].
    assert (rnd (c - r) <= c) by (apply rnd_le_fmt; [apply (fin_fmt cx); exact Fc|lra]). lra.
Qed.


Theorem general_window i :
  (Zn i <= 2 ^ 64)%Z ->
  let scale := scale_of insz outsz in
  let ks := kernel_size_of fl scale in
  let cx := center_of insz scale i in
  let st := start_of cx (radius_of ks) in
  let e := end_of cx (radius_of ks) st ks insz in
  (st < e /\ e <= insz /\ e <= st + ks /\ 1 <= ks)%nat.
Proof.
  intros Hi scale ks cx st e.
  destruct scale_fin as (s & Fs & Bs). fold scale in Fs.
  pose proof (ksize_bounds scale s Fs Bs) as Bk. fold ks in Bk.
  destruct (radius_fin ks Bk) as (r & Fr & Br).
  destruct (center_fin scale s i Fs Bs Hi) as (c & Fc & Bc). fold cx in Fc.
  destruct (start_val cx (radius_of ks) c r Fc Bc Fr Br) as (z & Ez & Bz & Dz & Cz).
  fold st in Ez. pose proof I_hi as IH. pose proof I_lo as IL.
  assert (Zst : Zn st = z) by (rewrite Ez; lia).
  assert (Fcr : fin (fadd cx (radius_of ks)) (rnd (c + r))).
  { apply fadd_fin; auto. apply moderate_pos; [lra|].
    apply Rle_trans with (IZR (2 ^ 23) + IZR (2 ^ 40)); [lra|]. rewrite <- plus_IZR. apply IZR_le. lia. }
  pose proof (fceil_fin _ _ Fcr) as Fce.
  assert (Fst : fin (f_of_nat st) (IZR z)) by (rewrite <- Zst; apply f_of_nat_exact; lia).
  assert (Fk : fin (f_of_nat ks) (rnd (IZR (Zn ks)))) by (apply f_of_nat_fin; lia).
  assert (K1 : 1 <= rnd (IZR (Zn ks))) by (apply rnd_ge_fmt; [apply (fmt_IZR 1); lia|apply IZR_le; lia]).
  assert (K2 : rnd (IZR (Zn ks)) <= IZR (2 ^ 40)) by (apply rnd_le_fmt; [apply fmt_pow; lia|apply IZR_le; lia]).
  assert (Z0 : 0 <= IZR z) by (apply IZR_le; lia).
  assert (ZI : IZR z <= I - 1).
  { unfold I. change 1 with (IZR 1). rewrite <- minus_IZR. apply IZR_le. lia. }
  assert (Fsk : fin (fadd (f_of_nat st) (f_of_nat ks)) (rnd (IZR z + rnd (IZR (Zn ks))))).
  { apply fadd_fin; auto. apply moderate_pos; [lra|].
    apply Rle_trans with (IZR (2 ^ 23) + IZR (2 ^ 40)); [lra|]. rewrite <- plus_IZR. apply IZR_le. lia. }
  set (v1 := IZR (Zceil (rnd (c + r)))) in *.
  set (v2 := rnd (IZR z + rnd (IZR (Zn ks)))) in *.
  assert (Fe := fmin_fin _ _ _ _ (fmin_fin _ _ _ _ Fce Fsk) in_fin).
  set (v := Rmin (Rmin v1 v2) I) in *.
  (* lower bounds *)
  assert (L1 : IZR (z + 1) <= v1).
  { unfold v1. apply IZR_le.
    assert (G : IZR z < rnd (c + r)).
    { apply Rlt_le_trans with (IZR (2 * z + 1) / 2).
      - rewrite plus_IZR, mult_IZR. lra.
      - apply rnd_ge_fmt; [apply fmt_half; lia|]. rewrite plus_IZR, mult_IZR. lra. }
    assert (z < Zceil (rnd (c + r)))%Z; [|lia].
    apply lt_IZR. eapply Rlt_le_trans; [exact G|]. apply Zceil_ub. }
  assert (L2 : IZR (z + 1) <= v2).
  { unfold v2. apply rnd_ge_fmt; [apply fmt_IZR; lia|]. rewrite plus_IZR. lra. }
  assert (L3 : IZR (z + 1) <= I) by (rewrite plus_IZR; lra).
  assert (Lv : IZR (z + 1) <= v) by (unfold v; repeat apply Rmin_glb; assumption).
  assert (Uv : v <= I) by apply Rmin_r.
  assert (T1 : (z + 1 <= Ztrunc v)%Z) by (apply Ztrunc_ge; [lia|exact Lv]).
  assert (T2 : (Ztrunc v <= Zn insz)%Z) by (apply Ztrunc_le'; exact Uv).
  assert (Ee : e = Z.to_nat (Ztrunc v)).
  { unfold e, end_of, f_to_usize. rewrite (f_to_int_fin _ _ _ _ Fe) by lia. f_equal. lia. }
  assert (T3 : (Ztrunc v <= z + Zn ks)%Z).
  { destruct (Z_le_gt_dec (Zn ks) (2 ^ 23)) as [Hk|Hk]; [|lia].
    apply Ztrunc_le'. apply Rle_trans with v2.
    - unfold v. eapply Rle_trans; [apply Rmin_l|apply Rmin_r].
    - unfold v2. rewrite (rnd_fmt (IZR (Zn ks))) by (apply fmt_IZR; lia).
      rewrite <- plus_IZR. apply rnd_le_fmt; [apply fmt_IZR; lia|]. apply Rle_refl. }
  rewrite Ee. lia.
Qed.
End Bounds.

(** ** Area branch *)
Section Area.
Variables (insz outsz : nat).
Hypothesis Hin1 : (1 <= Zn insz)%Z.
Hypothesis Hout2 : (Zn outsz <= 2 ^ 22)%Z.
Hypothesis Hlt : (Zn insz < Zn outsz)%Z.

Let I := IZR (Zn insz).
Let O := IZR (Zn outsz).

Lemma rnd_err x : exists d e, Rabs d <= / 16777216 /\ Rabs e <= bpow radix2 (-150) /\ rnd x = x * (1 + d) + e.
Proof.
  destruct (error_N_FLT radix2 (-149) 24 ltac:(lia) (fun t => negb (Z.even t)) x) as (d & e & H1 & H2 & _ & H3).
  exists d, e. repeat split.
  - eapply Rle_trans; [exact H1|]. cbn. lra.
  - eapply Rle_trans; [exact H2|]. cbn. lra.
  - exact H3.
Qed.

Lemma tiny150 : 0 < bpow radix2 (-150) <= / 100000000000000000000.
Proof.
  split; [apply bpow_gt_0|]. apply Rle_trans with (bpow radix2 (-100)); [apply bpow_le; lia|]. cbn. lra.
Qed.

Theorem area_window i : (i < outsz)%nat ->
  let b := fst (area_row insz (scale_of insz outsz) i) in
  (1 <= bsize b /\ bsize b <= 2 /\ bstart b + bsize b <= insz)%nat.
Proof.
  intro Hi.
  assert (II : 1 <= I <= 4194304) by (unfold I; split; apply IZR_le; lia).
  assert (OO : 1 <= O <= 4194304) by (unfold O; split; apply IZR_le; lia).
  assert (IO : I + 1 <= O).
  { unfold I, O. rewrite <- plus_IZR. apply IZR_le. lia. }
  assert (Fi : fin (f_of_nat insz) I) by (apply f_of_nat_exact; lia).
  assert (Fo : fin (f_of_nat outsz) O) by (apply f_of_nat_exact; lia).
  assert (Fidx : fin (f_of_nat i) (IZR (Zn i))) by (apply f_of_nat_exact; lia).
  set (n := IZR (Zn i)) in *.
  assert (NN : 0 <= n <= O - 1).
  { unfold n, O. split; [apply IZR_le; lia|]. change 1 with (IZR 1). rewrite <- minus_IZR. apply IZR_le. lia. }
  set (d := I / O).
  assert (DO : d * O = I) by (unfold d; field; lra).
  assert (D0 : 0 < d) by (unfold d; apply Rdiv_lt_0_compat; lra).
  assert (D1 : d <= 1) by nra.
  assert (Fs : fin (scale_of insz outsz) (rnd d)).
  { apply fdiv_fin; auto; [lra|]. apply moderate_pos; [fold d; lra|].
    fold d. eapply Rle_trans; [exact D1|]. apply IZR_le. lia. }
  set (s := rnd d) in *.
  assert (S0 : 0 <= s) by (apply rnd_ge_fmt; [apply fmt_0|lra]).
  assert (S1 : s <= 1) by (apply rnd_le_fmt; [apply (fmt_IZR 1); lia|lra]).
  assert (Fns : fin (fmul (f_of_nat i) (scale_of insz outsz)) (rnd (n * s))).
  { apply fmul_fin; auto. apply moderate_pos; [nra|]. apply Rle_trans with 4194304; [nra|]. apply IZR_le. lia. }
  assert (Key : rnd (n * s) < I).
  { destruct (rnd_err d) as (d1 & e1 & A1 & B1 & E1).
    destruct (rnd_err (n * s)) as (d2 & e2 & A2 & B2 & E2).
    pose proof tiny150 as T.
    apply Rabs_le_inv in A1. apply Rabs_le_inv in A2. apply Rabs_le_inv in B1. apply Rabs_le_inv in B2.
    fold s in E1.
    assert (sU : s <= d * (1 + / 16777216) + / 100000000000000000000).
    { rewrite E1. assert (d * (1 + d1) <= d * (1 + / 16777216)) by (apply Rmult_le_compat_l; lra). lra. }
    assert (nsU : n * s <= (O - 1) * (d * (1 + / 16777216) + / 100000000000000000000)).
    { apply Rmult_le_compat; lra. }
    assert (rU : rnd (n * s) <= n * s * (1 + / 16777216) + / 100000000000000000000).
    { rewrite E2. assert (n * s * (1 + d2) <= n * s * (1 + / 16777216)) by (apply Rmult_le_compat_l; nra). lra. }
    (* (O-1) d = I - d *)
    assert (X : (O - 1) * (d * (1 + / 16777216) + / 100000000000000000000) <=
                (I - d) * (1 + / 16777216) + 4194304 * / 100000000000000000000).
    { replace ((O - 1) * (d * (1 + / 16777216) + / 100000000000000000000)) with
        ((O * d - d) * (1 + / 16777216) + (O - 1) * / 100000000000000000000) by ring.
      rewrite (Rmult_comm O d), DO. nra. }
    (* d >= I / 2^22 *)
    assert (DL : I <= d * 4194304).
    { rewrite <- DO. apply Rmult_le_compat_l; lra. }
    clear - nsU X rU DL II D0 D1. lra. }
  assert (K0 : 0 <= rnd (n * s)) by (apply rnd_ge_fmt; [apply fmt_0|nra]).
  pose proof (ffloor_fin _ _ Fns) as Fsx.
  set (z := Zfloor (rnd (n * s))) in *.
  assert (Z0 : (0 <= z)%Z) by (apply Zfloor_lub; exact K0).
  assert (Z1 : (z < Zn insz)%Z).
  { apply lt_IZR. eapply Rle_lt_trans; [apply Zfloor_lb|exact Key]. }
  unfold area_row. cbv zeta. cbn [fst bsize bstart].
  set (sx := ffloor (fmul (f_of_nat i) (scale_of insz outsz))) in *.
  assert (Fst : fin (fmax (ffloor sx) f0) (IZR z)).
  { pose proof (fmax_fin _ _ _ _ (ffloor_fin _ _ Fsx) f0_fin) as Q. rewrite Zfloor_IZR in Q.
    rewrite Rmax_left in Q; [exact Q|]. apply IZR_le. lia. }
  rewrite (f_to_usize_Z _ _ Fst) by lia.
  assert (Fz : fin (f_of_nat (Z.to_nat z)) (IZR z)).
  { rewrite <- (Z2Nat.id z) at 2 by lia. apply f_of_nat_exact. lia. }
  assert (Fa : fin (fadd sx f2) (IZR (z + 2))).
  { rewrite <- (rnd_fmt (IZR (z + 2))) by (apply fmt_IZR; lia). rewrite plus_IZR.
    apply fadd_fin; [exact Fsx|apply f2_fin|]. rewrite <- plus_IZR.
    apply moderate_pos; apply IZR_le; lia. }
  assert (Fb : fin (fadd (f_of_nat (Z.to_nat z)) f2) (IZR (z + 2))).
  { rewrite <- (rnd_fmt (IZR (z + 2))) by (apply fmt_IZR; lia). rewrite plus_IZR.
    apply fadd_fin; [exact Fz|apply f2_fin|]. rewrite <- plus_IZR.
    apply moderate_pos; apply IZR_le; lia. }
  pose proof (fceil_fin _ _ Fa) as Fc. rewrite Zceil_IZR in Fc.
  assert (Fe := fmin_fin _ _ _ _ (fmin_fin _ _ _ _ Fc Fb) Fi).
  assert (Ev : Rmin (Rmin (IZR (z + 2)) (IZR (z + 2))) I = IZR (Z.min (z + 2) (Zn insz))).
  { rewrite (Rmin_left (IZR (z + 2)) (IZR (z + 2))) by lra. unfold I.
    destruct (Z.min_spec (z + 2) (Zn insz)) as [[H1 H2]|[H1 H2]]; rewrite H2.
    - apply Rmin_left. apply IZR_le. lia.
    - apply Rmin_right. apply IZR_le. lia. }
  rewrite Ev in Fe. rewrite (f_to_usize_Z _ _ Fe) by lia. lia.
Qed.
End Area.

(** ** Well-formedness of the generated weights *)
Lemma pad_length n l : length (pad n l) = n.
Proof.
  unfold pad. rewrite app_length, firstn_length, repeat_length.
  destruct (Nat.le_gt_cases n (length l)); lia.
Qed.

Lemma area_row_length insz scale i : length (snd (area_row insz scale i)) = 2%nat.
Proof.
  unfold area_row. cbv zeta. cbn [snd].
  destruct (negb _); [apply pad_length|reflexivity].
Qed.

Lemma general_row_length fl insz scale i :
  length (snd (general_row fl insz scale i)) = kernel_size_of fl scale.
Proof.
  unfold general_row. cbv zeta. destruct (smooth _ _) as [ws sum]. cbn [snd]. apply pad_length.
Qed.

Lemma general_row_bound fl insz scale i :
  fst (general_row fl insz scale i) =
  let ks := kernel_size_of fl scale in
  let cx := center_of insz scale i in
  let st := start_of cx (radius_of ks) in
  mkBound st (end_of cx (radius_of ks) st ks insz - st)%nat.
Proof. unfold general_row. cbv zeta. destruct (smooth _ _) as [ws sum]. reflexivity. Qed.

Lemma rows_wf (row : nat -> fbound * list f32) ks insz outsz :
  (0 < ks)%nat ->
  (forall i, (i < outsz)%nat -> length (snd (row i)) = ks /\
     (1 <= bsize (fst (row i)) /\ bsize (fst (row i)) <= ks /\ bstart (fst (row i)) + bsize (fst (row i)) <= insz)%nat) ->
  wf_fw (mkFW (concat (map snd (map row (seq 0 outsz)))) (map fst (map row (seq 0 outsz))) ks ks outsz) insz outsz.
Proof.
  intros Hk H. constructor; cbn; auto.
  - rewrite (concat_uniform_length ks).
    + now rewrite !map_length, seq_length.
    + apply Forall_forall. intros l Hl. rewrite map_map in Hl. apply in_map_iff in Hl.
      destruct Hl as (i & <- & Hi). apply in_seq in Hi. apply H. lia.
  - now rewrite !map_length, seq_length.
  - intros x b Hb. rewrite map_map in Hb. rewrite nth_error_map_seq in Hb.
    destruct (x <? outsz)%nat eqn:E; [|discriminate]. injection Hb as <-.
    apply Nat.ltb_lt in E. apply H. cbn. exact E.
Qed.

Theorem generate_weights_wf fl insz outsz :
  support_ok fl ->
  (1 <= Zn insz <= 2 ^ 23)%Z -> (1 <= Zn outsz <= 2 ^ 64)%Z ->
  (is_area fl = true -> (Zn outsz <= 2 ^ 22)%Z) ->
  wf_fw (generate_weights fl insz outsz) insz outsz.
Proof.
  intros Hfl Hin Hout Harea. unfold generate_weights.
  destruct (is_area fl && fltb (scale_of insz outsz) f1) eqn:E.
  - apply andb_prop in E. destruct E as [E1 E2]. specialize (Harea E1).
    assert (Hlt : (Zn insz < Zn outsz)%Z).
    { destruct (Z_lt_le_dec (Zn insz) (Zn outsz)) as [|C]; [assumption|exfalso].
      destruct (scale_fin insz outsz) as (s & Fs & Bs); try lia.
      apply (fltb_fin _ _ _ _ Fs f1_fin) in E2.
      (* scale >= 1 when in >= out *)
      assert (Fo : fin (f_of_nat outsz) (IZR (Zn outsz))) by (apply f_of_nat_exact; lia).
      assert (Fi : fin (f_of_nat insz) (IZR (Zn insz))) by (apply f_of_nat_exact; lia).
      assert (O1 : 1 <= IZR (Zn outsz)) by (apply IZR_le; lia).
      assert (IO : IZR (Zn outsz) <= IZR (Zn insz)) by (apply IZR_le; lia).
      assert (I2 : IZR (Zn insz) <= IZR (2 ^ 23)) by (apply IZR_le; lia).
      assert (Q : 1 <= IZR (Zn insz) / IZR (Zn outsz) <= IZR (Zn insz)).
      { split.
        - apply Rmult_le_reg_r with (IZR (Zn outsz)); [lra|]. unfold Rdiv. rewrite Rmult_assoc, Rinv_l by lra. lra.
        - apply Rmult_le_reg_r with (IZR (Zn outsz)); [lra|]. unfold Rdiv. rewrite Rmult_assoc, Rinv_l by lra. nra. }
      assert (Fs' : fin (scale_of insz outsz) (rnd (IZR (Zn insz) / IZR (Zn outsz)))).
      { apply fdiv_fin; auto; [lra|]. apply moderate_pos; [lra|].
        pose proof (pow_le 23 99 ltac:(lia) ltac:(lia)). lra. }
      destruct Fs as [_ V]. destruct Fs' as [_ V']. rewrite V in V'. 
      assert (1 <= s); [|lra]. rewrite V'. apply rnd_ge_fmt; [apply (fmt_IZR 1); lia|lra]. }
    cbv zeta. apply rows_wf; [lia|]. intros i Hi. split; [apply area_row_length|].
    apply area_window; try lia.
  - cbv zeta.
    assert (G : forall i, (i < outsz)%nat -> _) by
      (intros i Hi; exact (general_window insz outsz ltac:(lia) ltac:(lia) ltac:(lia) ltac:(lia) fl Hfl i ltac:(lia))).
    cbv zeta in G.
    apply rows_wf.
    + specialize (G 0%nat ltac:(lia)). lia.
    + intros i Hi. split; [apply general_row_length|]. rewrite general_row_bound. cbv zeta. cbn [bstart bsize].
      specialize (G i Hi). lia.
Qed.
