(** Every window of a filter with a non-negative kernel contains a tap with a
    positive weight: the weights of a row sum to one. *)
From Coq Require Import ZArith Reals Lra Lia Bool List Psatz ZifyBool ZifyNat.
From Flocq Require Import Core.Core Relative Plus_error IEEE754.BinarySingleNaN.
From Verif Require Import Base BaseProofs FixedPoint Spec KernelProofs DispatchProofs ResizeProofs F32 F32Proofs Weights WeightsProofs QuantProofs
  ImageStore Dispatch Resize PortableProofs Sampler SamplerProofs WeightSum FilterSums.
Import ListNotations.
Local Open Scope R_scope.

(** Positive within half a source pixel of the centre. *)
Definition kernel_center (k : f32 -> f32) : Prop :=
  forall x a, fin x a -> 0 <= a <= 1 / 2 -> exists v, fin (k x) v /\ 0 < v.

Section Center.
Variables (insz outsz : nat).
Hypothesis Hin1 : (1 <= Zn insz)%Z.
Hypothesis Hin2 : (Zn insz <= 2 ^ 23)%Z.
Hypothesis Hout1 : (1 <= Zn outsz)%Z.
Hypothesis Hout2 : (Zn outsz <= 2 ^ 64)%Z.
Variable fl : rfilter.
Hypothesis Hfl : exists m, fin (min_kernel fl) m /\ 2 <= m <= 1000.
Hypothesis Hpos : positive_filter fl.
Hypothesis Hcen : kernel_center (rkernel fl).

Lemma Hsup : support_ok fl.
Proof. destruct Hfl as (m & F & B). exists m. split; [exact F|lra]. Qed.

Lemma ksize_ge2 scale s : fin scale s -> 0 <= s <= IZR (Zn insz) -> (2 <= Zn (kernel_size_of fl scale) <= 2 ^ 40)%Z.
Proof.
  intros F B. destruct (cutoff_fin insz outsz Hin1 fl scale s F B) as (c & Fc & C1 & C2).
  pose proof (ksize_bounds insz outsz Hin1 Hin2 fl Hsup scale s F B) as [_ U]. split; [|exact U].
  destruct Hfl as (m & Fm & M1 & M2).
  assert (IH : IZR (Zn insz) <= 8388608) by (apply IZR_le; lia).
  assert (MC : 2 <= m * c <= 8388608000) by nra.
  assert (Fmc : fin (fmul (min_kernel fl) (cutoff_of fl scale)) (rnd (m * c))).
  { apply fmul_fin; auto. apply moderate_pos; [lra|]. eapply Rle_trans; [apply MC|]. apply IZR_le. lia. }
  assert (R1 : 2 <= rnd (m * c)) by (apply rnd_ge_fmt; [apply (fmt_IZR 2); lia|lra]).
  assert (R2 : rnd (m * c) <= IZR (2 ^ 40)).
  { apply rnd_le_fmt; [apply fmt_pow; lia|]. eapply Rle_trans; [apply MC|]. apply IZR_le. lia. }
  pose proof (fround_fin _ _ Fmc) as Fr.
  assert (Z1 : (2 <= ZnearestA (rnd (m * c)))%Z) by (apply ZnearestA_ge; exact R1).
  assert (Z2 : (ZnearestA (rnd (m * c)) <= 2 ^ 40)%Z) by (apply ZnearestA_le; exact R2).
  unfold kernel_size_of. rewrite (f_to_usize_Z _ _ Fr) by lia. lia.
Qed.

Lemma fin_inj x a b : fin x a -> fin x b -> a = b.
Proof. intros [_ A] [_ B]. congruence. Qed.

Lemma center_tap o : (o < outsz)%nat ->
  let scale := scale_of insz outsz in
  let ks := kernel_size_of fl scale in
  let cx := center_of insz scale o in
  let st := start_of cx (radius_of ks) in
  let e := end_of cx (radius_of ks) st ks insz in
  exists k c, (st <= k < e)%nat /\ fin cx c /\ 0 <= c <= IZR (Zn insz) /\ Rabs (IZR (Zn k) - (c - 1 / 2)) <= 1 / 2.
Proof.
  intros Ho scale ks cx st e.
  destruct (scale_fin insz outsz) as (s & Fs & Bs); try lia. fold scale in Fs.
  pose proof (ksize_ge2 scale s Fs Bs) as Bk. fold ks in Bk.
  destruct (radius_fin insz outsz ks ltac:(lia)) as (r & Fr & Br).
  destruct (center_fin insz outsz Hin1 Hin2 scale s o Fs Bs ltac:(lia)) as (c & Fc & Bc). fold cx in Fc.
  destruct (start_val insz outsz Hin1 Hin2 cx (radius_of ks) c r Fc Bc Fr Br) as (z & Ez & Bz & Dz & Cz).
  fold st in Ez. set (I := IZR (Zn insz)) in *.
  assert (IB : 1 <= I <= 8388608) by (unfold I; split; apply IZR_le; lia).
  assert (Zst : Zn st = z) by (rewrite Ez; lia).
  set (f := Zfloor c).
  pose proof (Zfloor_lb c) as F1. pose proof (Zfloor_ub c) as F2. fold f in F1, F2.
  assert (F0 : (0 <= f)%Z) by (apply Zfloor_lub; apply Bc).
  assert (FI : (f <= Zn insz)%Z) by (apply le_IZR; fold I; lra).
  set (k := Z.min f (Zn insz - 1)).
  assert (K0 : (0 <= k)%Z) by lia.
  exists (Z.to_nat k), c. split; [|split; [exact Fc|split; [exact Bc|]]].
  2:{ rewrite Z2Nat.id by lia. destruct (Z.le_gt_cases f (Zn insz - 1)) as [Q|Q].
      - replace k with f by lia. apply Rabs_le. lra.
      - assert (f = Zn insz) as E by lia. replace k with (Zn insz - 1)%Z by lia.
        assert (c = I) by (rewrite E in F1; fold I in F1; lra). subst c.
        rewrite minus_IZR. fold I. apply Rabs_le. lra. }
  (* radius at least one *)
  assert (FK : fin (f_of_nat ks) (rnd (IZR (Zn ks)))) by (apply f_of_nat_fin; lia).
  assert (KB : 2 <= IZR (Zn ks) <= IZR (2 ^ 40)) by (split; apply IZR_le; lia).
  assert (RK1 : 2 <= rnd (IZR (Zn ks))) by (apply rnd_ge_fmt; [apply (fmt_IZR 2); lia|lra]).
  assert (RK2 : rnd (IZR (Zn ks)) <= IZR (2 ^ 40)) by (apply rnd_le_fmt; [apply fmt_pow; lia|lra]).
  assert (Fr' : fin (radius_of ks) (rnd (rnd (IZR (Zn ks)) / 2))).
  { apply fdiv_fin; [exact FK|apply f2_fin|lra|]. apply moderate_pos; [lra|]. apply Rle_trans with (IZR (2 ^ 40)); [lra|apply IZR_le; lia]. }
  pose proof (fin_inj _ _ _ Fr Fr') as Er.
  assert (R1 : 1 <= r) by (rewrite Er; apply rnd_ge_fmt; [apply (fmt_IZR 1); lia|lra]).
  assert (P40 : IZR (2 ^ 40) = 1099511627776) by reflexivity.
  assert (Fsum : fin (fceil (fadd cx (radius_of ks))) (IZR (Zceil (rnd (c + r))))).
  { apply fceil_fin, fadd_fin; auto. apply moderate_pos; [lra|]. apply Rle_trans with 1099520016384; [lra|apply IZR_le; lia]. }
  assert (Bsum : (f + 1 <= Zceil (rnd (c + r)))%Z).
  { apply le_IZR. eapply Rle_trans; [|apply Zceil_ub]. apply rnd_ge_fmt; [apply fmt_IZR; lia|]. rewrite plus_IZR. lra. }
  assert (Fst : fin (f_of_nat st) (IZR z)) by (rewrite <- Zst; apply f_of_nat_exact; lia).
  assert (Bz' : 0 <= IZR z <= I) by (split; [apply (IZR_le 0); lia|apply IZR_le; lia]).
  assert (Fsk : fin (fadd (f_of_nat st) (f_of_nat ks)) (rnd (IZR z + rnd (IZR (Zn ks))))).
  { apply fadd_fin; auto. apply moderate_pos; [lra|]. apply Rle_trans with 1099520016384; [lra|apply IZR_le; lia]. }
  assert (Bsk : IZR (f + 1) <= rnd (IZR z + rnd (IZR (Zn ks)))).
  { apply rnd_ge_fmt; [apply fmt_IZR; lia|].
    destruct (Z.le_gt_cases (Zn ks) (2 ^ 24)) as [Q|Q].
    - rewrite (rnd_fmt (IZR (Zn ks))) in * by (apply fmt_IZR; lia).
      rewrite (rnd_fmt (IZR (Zn ks) / 2)) in Er by (apply fmt_half; lia).
      set (m := Zfloor (c - r)).
      pose proof (Zfloor_ub (c - r)) as M1. pose proof (Zfloor_lb (c - r)) as M2. fold m in M1, M2.
      assert (KQ : IZR (Zn ks) <= 16777216) by (apply IZR_le; lia).
      assert (Mb : (- 2 ^ 24 <= m <= 2 ^ 24)%Z).
      { split; [|apply le_IZR; change (IZR (2 ^ 24)) with 16777216; lra].
        apply Z.lt_succ_r. apply lt_IZR. rewrite succ_IZR. change (IZR (- 2 ^ 24)) with (-16777216). lra. }
      assert (m <= Zfloor (rnd (c - r)))%Z.
      { apply Zfloor_lub. apply rnd_ge_fmt; [apply fmt_IZR; lia|lra]. }
      assert (IZR m <= IZR z) by (apply IZR_le; lia).
      rewrite <- plus_IZR. apply IZR_le.
      assert (IZR f < IZR (z + Zn ks)) by (rewrite plus_IZR; lra). apply lt_IZR in H1. lia.
    - assert (16777216 <= rnd (IZR (Zn ks))).
      { apply rnd_ge_fmt; [apply (fmt_IZR 16777216); lia|]. apply IZR_le. lia. }
      assert (IZR (f + 1) <= 16777216) by (apply IZR_le; lia). lra. }
  assert (FI' : fin (f_of_nat insz) I) by (apply f_of_nat_exact; lia).
  pose proof (fmin_fin _ _ _ _ (fmin_fin _ _ _ _ Fsum Fsk) FI') as Fe.
  set (ev := Rmin _ _) in Fe.
  assert (Ev : IZR (k + 1) <= ev).
  { unfold ev. repeat apply Rmin_glb.
    - apply IZR_le. lia.
    - eapply Rle_trans; [|exact Bsk]. apply IZR_le. lia.
    - unfold I. apply IZR_le. lia. }
  assert (Ee : (k + 1 <= Zn e)%Z).
  { unfold e, end_of, f_to_usize. rewrite (f_to_int_fin _ _ _ _ Fe) by lia.
    pose proof (Ztrunc_ge ev (k + 1) ltac:(lia) Ev). lia. }
  assert (z <= f)%Z.
  { rewrite Dz. apply Z.max_lub; [|lia]. apply le_IZR. unfold f.
    assert (Zfloor (rnd (c - r)) <= Zfloor c)%Z; [|apply IZR_le; assumption].
    apply Zfloor_le. apply rnd_le_fmt; [apply (fin_fmt _ _ Fc)|lra]. }
  lia.
Qed.

Lemma rsum_ge_nth vs k : Forall pos_val vs -> (k < length vs)%nat -> nth k vs 0 <= rsum vs.
Proof.
  intro P. revert k. induction P as [|v vs Pv P IH]; intros k Hk; [cbn in Hk; lia|].
  pose proof (rsum_nonneg vs P) as N. pose proof (pos_val_nonneg v Pv) as V. cbn [rsum].
  destruct k as [|k]; cbn [nth]; [lra|]. specialize (IH k ltac:(cbn in Hk; lia)). lra.
Qed.

Lemma general_row_unit o : (o < outsz)%nat ->
  row_unit (snd (general_row fl insz (scale_of insz outsz) o)) (bsize (fst (general_row fl insz (scale_of insz outsz) o))).
Proof.
  intro Ho.
  destruct (general_row_cases insz outsz Hin1 Hin2 Hout1 Hout2 fl Hsup Hpos o Ho) as (vs & ws & V & P & H1 & H2 & H3 & H4).
  cbv zeta in *. exists ws. split; [exact H1|]. split; [exact H2|]. split; [exact H3|].
  destruct H4 as [[C _]|H4]; [exfalso|exact H4].
  destruct (center_tap o Ho) as (k & c & Hk & Fc & Bc & Dc). cbv zeta in *.
  unfold raw_row in V. rewrite general_row_bound in V. cbv zeta in V. cbn [bstart bsize] in V.
  set (scale := scale_of insz outsz) in *. set (ks := kernel_size_of fl scale) in *.
  set (cx := center_of insz scale o) in *. set (st := start_of cx (radius_of ks)) in *.
  set (e := end_of cx (radius_of ks) st ks insz) in *.
  pose proof (general_window insz outsz Hin1 Hin2 Hout1 Hout2 fl Hsup o ltac:(lia)) as W. cbv zeta in W.
  fold scale ks cx st e in W.
  destruct (scale_fin insz outsz) as (s & Fs & Bs); try lia. fold scale in Fs.
  destruct (cutoff_fin insz outsz Hin1 fl scale s Fs Bs) as (ct & Fct & Bct).
  assert (Hlen : (k - st < length vs)%nat).
  { rewrite <- (vals_length _ _ V), map_length, seq_length. lia. }
  pose proof (rsum_ge_nth vs (k - st) P Hlen) as Q.
  pose proof (vals_nth _ _ (k - st) V ltac:(rewrite (vals_length _ _ V); exact Hlen)) as Fv.
  rewrite nth_indep with (d' := raw_weight fl (fdiv f1 (cutoff_of fl scale)) (blur_scale_of fl) (fsub cx fhalf) 0) in Fv
    by (rewrite (vals_length _ _ V); exact Hlen).
  rewrite map_nth, seq_nth in Fv by lia. replace (st + (k - st))%nat with k in Fv by lia.
  destruct Hpos as (_ & Wn & _). unfold raw_weight in Fv. rewrite Wn in Fv.
  (* the distance *)
  assert (IB : 1 <= IZR (Zn insz) <= 8388608) by (split; apply IZR_le; lia).
  assert (C1 : fin (fsub cx fhalf) (rnd (c - 1 / 2))).
  { apply fsub_fin; [exact Fc|apply fhalf_fin|]. apply moderate_abs with 8388609; [apply Rabs_le; lra|apply IZR_le; lia]. }
  assert (Fk : fin (f_of_nat k) (IZR (Zn k))) by (apply f_of_nat_exact; lia).
  assert (Bk : 0 <= IZR (Zn k) <= 8388608) by (split; apply IZR_le; lia).
  apply Rabs_le_inv in Dc.
  assert (Rc : IZR (Zn k) - 1 / 2 <= rnd (c - 1 / 2) <= IZR (Zn k) + 1 / 2).
  { split.
    - apply rnd_ge_fmt; [|lra]. replace (IZR (Zn k) - 1 / 2) with (IZR (2 * Zn k - 1) / 2) by (rewrite minus_IZR, mult_IZR; lra).
      apply fmt_half. lia.
    - apply rnd_le_fmt; [|lra]. replace (IZR (Zn k) + 1 / 2) with (IZR (2 * Zn k + 1) / 2) by (rewrite plus_IZR, mult_IZR; lra).
      apply fmt_half. lia. }
  set (d := rnd (IZR (Zn k) - rnd (c - 1 / 2))).
  assert (Fd : fin (fsub (f_of_nat k) (fsub cx fhalf)) d).
  { apply fsub_fin; auto. apply moderate_abs with 1; [apply Rabs_le; lra|apply IZR_le; lia]. }
  assert (D1 : Rabs d <= 1 / 2).
  { apply Rabs_le. split.
    - apply rnd_ge_fmt; [replace (- (1 / 2)) with (IZR (-1) / 2) by lra; apply fmt_half; lia|lra].
    - apply rnd_le_fmt; [apply (fmt_half 1); lia|lra]. }
  pose proof (Rabs_pos d) as D0.
  assert (I0 : 0 <= 1 / ct <= 1).
  { split; [unfold Rdiv; rewrite Rmult_1_l; apply Rlt_le, Rinv_0_lt_compat; lra|]. apply Rmult_le_reg_r with ct; [lra|]. unfold Rdiv. rewrite Rmult_assoc, Rinv_l; lra. }
  assert (S1 : fin (fdiv f1 (cutoff_of fl scale)) (rnd (1 / ct))).
  { apply fdiv_fin; [apply f1_fin|exact Fct|lra|]. apply moderate_pos; [lra|]. apply Rle_trans with 1; [lra|apply IZR_le; lia]. }
  assert (S2 : 0 <= rnd (1 / ct)) by (apply rnd_ge_fmt; [apply fmt_0|lra]).
  assert (S3 : rnd (1 / ct) <= 1) by (apply rnd_le_fmt; [apply (fmt_IZR 1); lia|lra]).
  assert (Fx : fin (fmul (fabs (fsub (f_of_nat k) (fsub cx fhalf))) (fdiv f1 (cutoff_of fl scale))) (rnd (Rabs d * rnd (1 / ct)))).
  { apply fmul_fin; [apply fabs_fin; exact Fd|exact S1|]. apply moderate_pos; [nra|].
    apply Rle_trans with 1; [nra|apply IZR_le; lia]. }
  destruct (Hcen _ _ Fx) as (v & Fv' & Pv).
  { split; [apply rnd_ge_fmt; [apply fmt_0|nra]|]. apply rnd_le_fmt; [apply (fmt_half 1); lia|nra]. }
  pose proof (fin_inj _ _ _ Fv Fv'). lra.
Qed.
End Center.

(** ** The kernels *)
Lemma bilinear_center : kernel_center bilinear.
Proof.
  intros x a Fx Ha. destruct (bilinear_pos x a Fx) as (v & Fv & P); [lra|]. exists v. split; [exact Fv|].
  unfold bilinear in Fv. pose proof (fabs_fin x a Fx) as Fa. rewrite Rabs_pos_eq in Fa by lra.
  replace (fltb (fabs x) f1) with true in Fv.
  2:{ symmetry. apply (fltb_fin _ _ _ _ Fa f1_fin). lra. }
  assert (Fv' : fin (fsub f1 (fabs x)) (rnd (1 - a))).
  { apply fsub_fin; [apply f1_fin|exact Fa|]. apply moderate_pos; [lra|]. apply Rle_trans with 1; [lra|apply IZR_le; lia]. }
  rewrite (fin_inj _ _ _ Fv Fv'). apply Rlt_le_trans with (1 / 2); [lra|]. apply rnd_ge_fmt; [apply (fmt_half 1); lia|lra].
Qed.
Lemma box_center : kernel_center box_weight.
Proof. intros x a _ _. exists 1. split; [apply f1_fin|lra]. Qed.
Lemma welch_center : kernel_center welch.
Proof.
  intros x a Fx Ha. unfold welch. destruct (feqb x f0); [exists 1; split; [apply f1_fin|lra]|].
  replace (fleb f1 x) with false.
  2:{ symmetry. destruct (fleb f1 x) eqn:E; [|reflexivity]. apply (fleb_fin _ _ _ _ f1_fin Fx) in E. lra. }
  assert (Fm : fin (fmul x x) (rnd (a * a))).
  { apply fmul_fin; auto. apply moderate_pos; [nra|]. apply Rle_trans with 1; [nra|apply IZR_le; lia]. }
  assert (M1 : rnd (a * a) <= 1 / 2) by (apply rnd_le_fmt; [apply (fmt_half 1); lia|nra]).
  assert (M0 : 0 <= rnd (a * a)) by (apply rnd_ge_fmt; [apply fmt_0|nra]).
  exists (rnd (1 - rnd (a * a))). split.
  - apply fsub_fin; [apply f1_fin|exact Fm|]. apply moderate_pos; [lra|]. apply Rle_trans with 1; [lra|apply IZR_le; lia].
  - apply Rlt_le_trans with (1 / 2); [lra|]. apply rnd_ge_fmt; [apply (fmt_half 1); lia|lra].
Qed.
Lemma quadric_center : kernel_center quadric.
Proof.
  intros x a Fx Ha. unfold quadric. pose proof (fabs_fin x a Fx) as Fa. rewrite Rabs_pos_eq in Fa by lra.
  destruct (fltb (fabs x) fhalf) eqn:E1.
  - assert (Fm : fin (fmul (fabs x) (fabs x)) (rnd (a * a))).
    { apply fmul_fin; auto. apply moderate_pos; [nra|]. apply Rle_trans with 1; [nra|apply IZR_le; lia]. }
    assert (M0 : 0 <= rnd (a * a)) by (apply rnd_ge_fmt; [apply fmt_0|nra]).
    assert (M1 : rnd (a * a) <= 1 / 2) by (apply rnd_le_fmt; [apply (fmt_half 1); lia|nra]).
    exists (rnd (3 / 4 - rnd (a * a))). split.
    + apply fsub_fin; [apply f34_fin|exact Fm|]. apply moderate_pos; [lra|]. apply Rle_trans with 1; [lra|apply IZR_le; lia].
    + apply Rlt_le_trans with (bpow radix2 (-2)); [apply bpow_gt_0|].
      apply rnd_ge_fmt; [apply generic_format_bpow; unfold fe, FLT_exp; lia|cbn; lra].
  - assert (A : a = 1 / 2).
    { destruct (Rlt_or_le a (1 / 2)) as [C|C]; [|lra]. apply (fltb_fin _ _ _ _ Fa fhalf_fin) in C. congruence. }
    subst a. replace (fltb (fabs x) (fZ 3 (-1))) with true.
    2:{ symmetry. apply (fltb_fin _ _ _ _ Fa f32_fin). lra. }
    assert (Ft : fin (fsub (fabs x) (fZ 3 (-1))) (-1)).
    { rewrite <- (rnd_fmt (-1)) by (apply (fmt_IZR (-1)); lia). replace (-1) with (1 / 2 - 3 / 2) by lra.
      apply fsub_fin; [exact Fa|apply f32_fin|]. apply moderate_abs with 1; [apply Rabs_le; lra|apply IZR_le; lia]. }
    assert (Fh : fin (fmul fhalf (fsub (fabs x) (fZ 3 (-1)))) (-1 / 2)).
    { rewrite <- (rnd_fmt (-1 / 2)) by (apply (fmt_half (-1)); lia). replace (-1 / 2) with (1 / 2 * -1) by lra.
      apply fmul_fin; [apply fhalf_fin|exact Ft|]. apply moderate_abs with 1; [apply Rabs_le; lra|apply IZR_le; lia]. }
    exists (1 / 2). split; [|lra].
    rewrite <- (rnd_fmt (1 / 2)) by (apply (fmt_half 1); lia). replace (1 / 2) with (-1 / 2 * -1) by lra.
    apply fmul_fin; [exact Fh|exact Ft|]. apply moderate_abs with 1; [apply Rabs_le; lra|apply IZR_le; lia].
Qed.

(** ** The averaging filters of the public enumeration *)
Definition averaging (f : resampling_function) : bool :=
  match f with Bilinear | Nearest | Box | Area | Quadric | Welch => true | _ => false end.

Lemma averaging_filter L f : averaging f = true ->
  positive_filter (resampling_filter L f) /\ kernel_center (rkernel (resampling_filter L f)) /\
  fin (min_kernel (resampling_filter L f)) 2.
Proof.
  intro A. destruct f; try discriminate A;
    (split; [split; [first [exact bilinear_pos|exact box_pos|exact quadric_pos|exact welch_pos]|split; reflexivity]|]);
    (split; [first [exact bilinear_center|exact box_center|exact quadric_center|exact welch_center]|exact f2_fin]).
Qed.

Lemma scale_lt_1 insz outsz : (1 <= Zn insz <= 2 ^ 23)%Z -> (1 <= Zn outsz <= 2 ^ 23)%Z ->
  fltb (scale_of insz outsz) f1 = true -> (Zn insz < Zn outsz)%Z.
Proof.
  intros Hin Hout E2.
  destruct (Z_lt_le_dec (Zn insz) (Zn outsz)) as [|C]; [assumption|exfalso].
  assert (Fo : fin (f_of_nat outsz) (IZR (Zn outsz))) by (apply f_of_nat_exact; lia).
  assert (Fi : fin (f_of_nat insz) (IZR (Zn insz))) by (apply f_of_nat_exact; lia).
  assert (O1 : 1 <= IZR (Zn outsz)) by (apply IZR_le; lia).
  assert (IO : IZR (Zn outsz) <= IZR (Zn insz)) by (apply IZR_le; lia).
  assert (I2 : IZR (Zn insz) <= 8388608) by (apply IZR_le; lia).
  assert (Q : 1 <= IZR (Zn insz) / IZR (Zn outsz) <= IZR (Zn insz)).
  { split; (apply Rmult_le_reg_r with (IZR (Zn outsz)); [lra|]); unfold Rdiv; rewrite Rmult_assoc, Rinv_l by lra; [lra|nra]. }
  assert (Fs' : fin (scale_of insz outsz) (rnd (IZR (Zn insz) / IZR (Zn outsz)))).
  { apply fdiv_fin; auto; [lra|]. apply moderate_pos; [lra|]. apply Rle_trans with 8388608; [lra|apply IZR_le; lia]. }
  apply (fltb_fin _ _ _ _ Fs' f1_fin) in E2.
  assert (1 <= rnd (IZR (Zn insz) / IZR (Zn outsz))); [|lra]. apply rnd_ge_fmt; [apply (fmt_IZR 1); lia|lra].
Qed.

Lemma averaging_row L f insz outsz o : averaging f = true ->
  (1 <= Zn insz <= 2 ^ 23)%Z -> (1 <= Zn outsz <= 2 ^ 64)%Z -> (f = Area -> (Zn outsz <= 2 ^ 22)%Z) ->
  (o < outsz)%nat ->
  row_unit (snd (weight_row (resampling_filter L f) insz outsz o)) (bsize (fst (weight_row (resampling_filter L f) insz outsz o))).
Proof.
  intros A Hin Hout Harea Ho. destruct (averaging_filter L f A) as (P & C & M).
  unfold weight_row. destruct (is_area _ && fltb _ f1) eqn:E.
  - apply andb_prop in E. destruct E as [E1 E2].
    assert (f = Area) as -> by (destruct f; try discriminate A; try discriminate E1; reflexivity).
    specialize (Harea eq_refl). apply area_row_unit; try lia. apply scale_lt_1; (lia || exact E2).
  - apply general_row_unit; try lia; try assumption. exists 2. split; [exact M|lra].
Qed.
