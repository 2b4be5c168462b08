(** Sums of the weights of one output position, for filters with a non-negative
    kernel; consequences for the quantised windows. *)
From Coq Require Import ZArith Reals Lra Lia Bool List Psatz ZifyBool ZifyNat.
From Flocq Require Import Core.Core Relative Plus_error IEEE754.BinarySingleNaN.
From Verif Require Import Base BaseProofs FixedPoint Spec KernelProofs DispatchProofs ResizeProofs F32 F32Proofs Weights WeightsProofs QuantProofs
  ImageStore Dispatch Resize PortableProofs Sampler SamplerProofs WeightSum.
Import ListNotations.
Local Open Scope R_scope.

Lemma fabs_fin x a : fin x a -> fin (fabs x) (Rabs a).
Proof.
  intros [F V]. split.
  - unfold fabs. rewrite is_finite_Babs. exact F.
  - unfold fabs. rewrite B2R_Babs. now rewrite V.
Qed.
Lemma fleb_fin x y a b : fin x a -> fin y b -> fleb x y = true <-> a <= b.
Proof.
  intros [Fx Vx] [Fy Vy]. unfold fleb. rewrite Bcompare_correct by assumption. rewrite Vx, Vy.
  destruct (Rcompare_spec a b); split; intros; try discriminate; try reflexivity; lra.
Qed.

(** ** Kernels *)
(** Below one, a float is at most 1 - 2^-24. *)
Lemma fmt_lt_1 a : fmt a -> a < 1 -> a <= 1 - u.
Proof.
  intros F H. destruct (Rle_or_lt a (1 - u)) as [|C]; [assumption|exfalso].
  assert (Hp : pred radix2 fe 1 = 1 - u).
  { change 1 with (bpow radix2 0) at 1. rewrite pred_bpow. unfold fe, FLT_exp. cbn. unfold u. lra. }
  pose proof (pred_ge_gt radix2 fe a 1 F (generic_format_bpow radix2 fe 0 ltac:(unfold fe, FLT_exp; lia)) H) as Q.
  lra.
Qed.

Lemma bilinear_pos : kernel_pos bilinear.
Proof.
  intros x a Fx Ha. unfold bilinear. pose proof (fabs_fin x a Fx) as Fa. rewrite Rabs_pos_eq in Fa by exact Ha.
  destruct (fltb (fabs x) f1) eqn:E.
  - apply (fltb_fin _ _ _ _ Fa f1_fin) in E.
    pose proof (fmt_lt_1 a (fin_fmt _ _ Fa) E) as L. unfold u in L.
    exists (rnd (1 - a)). split.
    + apply fsub_fin; [apply f1_fin|exact Fa|]. apply moderate_pos; [lra|]. apply Rle_trans with 1; [lra|apply IZR_le; lia].
    + right. split.
      * apply Rle_trans with (bpow radix2 (-24)); [apply bpow_le; lia|].
        apply rnd_ge_fmt; [apply generic_format_bpow; unfold fe, FLT_exp; lia|]. cbn. lra.
      * apply Rle_trans with 1; [|lra]. apply rnd_le_fmt; [apply (fmt_IZR 1); lia|lra].
  - exists 0. split; [apply f0_fin|now left].
Qed.

Lemma box_pos : kernel_pos box_weight.
Proof.
  intros x a _ _. exists 1. split; [apply f1_fin|]. right. pose proof b60. lra.
Qed.

Lemma welch_pos : kernel_pos welch.
Proof.
  intros x a Fx Ha. unfold welch. destruct (feqb x f0).
  - exists 1. split; [apply f1_fin|]. right. pose proof b60. lra.
  - destruct (fleb f1 x) eqn:E; [exists 0; split; [apply f0_fin|now left]|].
    assert (L : a < 1).
    { destruct (Rlt_or_le a 1) as [|C]; [assumption|]. apply (fleb_fin _ _ _ _ f1_fin Fx) in C. congruence. }
    pose proof (fmt_lt_1 a (fin_fmt _ _ Fx) L) as L'.
    assert (Fm : fin (fmul x x) (rnd (a * a))).
    { apply fmul_fin; auto. apply moderate_pos; [nra|]. apply Rle_trans with 1; [nra|apply IZR_le; lia]. }
    assert (M0 : 0 <= rnd (a * a)) by (apply rnd_ge_fmt; [apply fmt_0|nra]).
    assert (M1 : rnd (a * a) <= a) by (apply rnd_le_fmt; [apply (fin_fmt _ _ Fx)|nra]).
    exists (rnd (1 - rnd (a * a))). split.
    + apply fsub_fin; [apply f1_fin|exact Fm|]. apply moderate_pos; [lra|]. apply Rle_trans with 1; [lra|apply IZR_le; lia].
    + unfold u in L'. right. split.
      * apply Rle_trans with (bpow radix2 (-24)); [apply bpow_le; lia|].
        apply rnd_ge_fmt; [apply generic_format_bpow; unfold fe, FLT_exp; lia|]. cbn. lra.
      * apply Rle_trans with 1; [|lra]. apply rnd_le_fmt; [apply (fmt_IZR 1); lia|lra].
Qed.

Lemma f34_fin : fin (fZ 3 (-2)) (3 / 4).
Proof. pose proof (fZ_exact 3 (-2) ltac:(lia) ltac:(lia)) as H. replace (3 / 4) with (IZR 3 * bpow radix2 (-2)) by (cbn; lra). exact H. Qed.
Lemma f32_fin : fin (fZ 3 (-1)) (3 / 2).
Proof. pose proof (fZ_exact 3 (-1) ltac:(lia) ltac:(lia)) as H. replace (3 / 2) with (IZR 3 * bpow radix2 (-1)) by (cbn; lra). exact H. Qed.

Lemma fmt_lt_32 a : fmt a -> a < 3 / 2 -> a <= 3 / 2 - bpow radix2 (-23).
Proof.
  intros F H.
  assert (Ff : fmt (3 / 2)) by (apply (fin_fmt _ _ f32_fin)).
  pose proof (pred_ge_gt radix2 fe a (3 / 2) F Ff H) as Q.
  assert (U : ulp radix2 fe (3 / 2) = bpow radix2 (-23)).
  { rewrite ulp_neq_0 by lra. unfold cexp. rewrite (mag_unique radix2 (3 / 2) 1).
    - reflexivity.
    - rewrite Rabs_pos_eq by lra. cbn. lra. }
  assert (Hp : pred radix2 fe (3 / 2) = 3 / 2 - bpow radix2 (-23)).
  { rewrite pred_eq_pos by lra. unfold pred_pos. rewrite (mag_unique radix2 (3 / 2) 1).
    2:{ rewrite Rabs_pos_eq by lra. cbn. lra. }
    rewrite Req_bool_false by (cbn; lra). now rewrite U. }
  lra.
Qed.

Lemma quadric_pos : kernel_pos quadric.
Proof.
  intros x a Fx Ha. unfold quadric. pose proof (fabs_fin x a Fx) as Fa. rewrite Rabs_pos_eq in Fa by exact Ha.
  destruct (fltb (fabs x) fhalf) eqn:E1.
  - apply (fltb_fin _ _ _ _ Fa fhalf_fin) in E1.
    assert (Fm : fin (fmul (fabs x) (fabs x)) (rnd (a * a))).
    { apply fmul_fin; auto. apply moderate_pos; [nra|]. apply Rle_trans with 1; [nra|apply IZR_le; lia]. }
    assert (M0 : 0 <= rnd (a * a)) by (apply rnd_ge_fmt; [apply fmt_0|nra]).
    assert (M1 : rnd (a * a) <= 1 / 2) by (apply rnd_le_fmt; [apply (fin_fmt _ _ fhalf_fin)|nra]).
    exists (rnd (3 / 4 - rnd (a * a))). split.
    + apply fsub_fin; [apply f34_fin|exact Fm|]. apply moderate_pos; [lra|]. apply Rle_trans with 1; [lra|apply IZR_le; lia].
    + right. split.
      * apply Rle_trans with (bpow radix2 (-2)); [apply bpow_le; lia|].
        apply rnd_ge_fmt; [apply generic_format_bpow; unfold fe, FLT_exp; lia|]. cbn. lra.
      * apply Rle_trans with 1; [|lra]. apply rnd_le_fmt; [apply (fmt_IZR 1); lia|lra].
  - destruct (fltb (fabs x) (fZ 3 (-1))) eqn:E2; [|exists 0; split; [apply f0_fin|now left]].
    apply (fltb_fin _ _ _ _ Fa f32_fin) in E2.
    assert (G : 1 / 2 <= a).
    { destruct (Rle_or_lt (1 / 2) a) as [|C]; [assumption|]. apply (fltb_fin _ _ _ _ Fa fhalf_fin) in C. congruence. }
    pose proof (fmt_lt_32 a (fin_fmt _ _ Fa) E2) as L.
    cbv zeta. set (t := rnd (a - 3 / 2)).
    assert (Ft : fin (fsub (fabs x) (fZ 3 (-1))) t).
    { apply fsub_fin; [exact Fa|apply f32_fin|]. apply moderate_abs with 1; [|apply IZR_le; lia]. apply Rabs_le. lra. }
    assert (T1 : t <= - bpow radix2 (-23)).
    { apply rnd_le_fmt; [|lra]. apply generic_format_opp. apply generic_format_bpow. unfold fe, FLT_exp; lia. }
    assert (T2 : -1 <= t) by (apply rnd_ge_fmt; [apply (fmt_IZR (-1)); lia|lra]).
    assert (B23 : 0 < bpow radix2 (-23) < 1 / 100) by (cbn; lra).
    set (h := rnd (1 / 2 * t)).
    assert (Fh : fin (fmul fhalf (fsub (fabs x) (fZ 3 (-1)))) h).
    { apply fmul_fin; [apply fhalf_fin|exact Ft|]. apply moderate_abs with 1; [|apply IZR_le; lia]. apply Rabs_le. lra. }
    assert (H1 : h <= - bpow radix2 (-24)).
    { apply rnd_le_fmt; [apply generic_format_opp, generic_format_bpow; unfold fe, FLT_exp; lia|].
      replace (bpow radix2 (-24)) with (/ 2 * bpow radix2 (-23)) by (cbn; lra). lra. }
    assert (H2 : -1 <= h) by (apply rnd_ge_fmt; [apply (fmt_IZR (-1)); lia|lra]).
    assert (B24 : 0 < bpow radix2 (-24) < 1 / 100) by (cbn; lra).
    exists (rnd (h * t)). split.
    + apply fmul_fin; [exact Fh|exact Ft|]. apply moderate_abs with 1; [|apply IZR_le; lia]. apply Rabs_le. nra.
    + right. split.
      * apply Rle_trans with (bpow radix2 (-24) * bpow radix2 (-23)); [rewrite <- bpow_plus; apply bpow_le; lia|].
        apply rnd_ge_fmt; [rewrite <- bpow_plus; apply generic_format_bpow; unfold fe, FLT_exp; lia|].
        nra.
      * apply Rle_trans with 1; [|lra]. apply rnd_le_fmt; [apply (fmt_IZR 1); lia|nra].
Qed.

(** ** One output position *)
Definition positive_filter (fl : rfilter) : Prop :=
  kernel_pos (rkernel fl) /\ rwin fl = None /\ is_ewa fl = false.

(** The weights of a row: finite, non-negative, all zero or summing to one up to
    (n + 2) * 2^-22. *)
Definition row_sums (row : list f32) (n : nat) : Prop :=
  exists ws, length ws = n /\
    (forall k, (k < n)%nat -> fin (nth k row f0) (nth k ws 0)) /\
    Forall (fun w => 0 <= w) ws /\
    (rsum ws = 0 \/ Rabs (rsum ws - 1) <= (INR n + 2) * / 4194304).

(** Non-negative, and summing to one up to (n + 2) * 2^-22. *)
Definition row_unit (row : list f32) (n : nat) : Prop :=
  exists ws, length ws = n /\
    (forall k, (k < n)%nat -> fin (nth k row f0) (nth k ws 0)) /\
    Forall (fun w => 0 <= w) ws /\
    Rabs (rsum ws - 1) <= (INR n + 2) * / 4194304.

Lemma vals_nth l vs k : vals l vs -> (k < length l)%nat -> fin (nth k l f0) (nth k vs 0).
Proof.
  intro V. revert k. induction V as [|x v l vs F V IH]; intros k Hk; [cbn in Hk; lia|].
  destruct k; [exact F|]. cbn. apply IH. cbn in Hk. lia.
Qed.

Lemma pad_nth n l k : (k < length l)%nat -> (length l <= n)%nat -> nth k (pad n l) f0 = nth k l f0.
Proof. intros H1 H2. unfold pad. rewrite firstn_all2 by lia. apply app_nth1. exact H1. Qed.

Section Rows.
Variables (insz outsz : nat).
Hypothesis Hin1 : (1 <= Zn insz)%Z.
Hypothesis Hin2 : (Zn insz <= 2 ^ 23)%Z.
Hypothesis Hout1 : (1 <= Zn outsz)%Z.
Hypothesis Hout2 : (Zn outsz <= 2 ^ 64)%Z.
Variable fl : rfilter.
Hypothesis Hfl : support_ok fl.
Hypothesis Hpos : positive_filter fl.

Lemma raw_vals cx c cut ct is : fin cx c -> 0 <= c <= IZR (2 ^ 23) -> fin cut ct -> 1 <= ct <= IZR (2 ^ 23) ->
  (forall i, In i is -> (Zn i <= 2 ^ 23)%Z) ->
  exists vs, vals (map (raw_weight fl (fdiv f1 cut) (blur_scale_of fl) (fsub cx fhalf)) is) vs /\ Forall pos_val vs.
Proof.
  intros Fc Bc Fk Bk Hi. change (IZR (2 ^ 23)) with 8388608 in *.
  assert (C1 : fin (fsub cx fhalf) (rnd (c - 1 / 2))).
  { apply fsub_fin; [exact Fc|apply fhalf_fin|]. apply moderate_abs with 8388609; [apply Rabs_le; lra|apply IZR_le; lia]. }
  assert (C2 : -1 <= rnd (c - 1 / 2)) by (apply rnd_ge_fmt; [apply (fmt_IZR (-1)); lia|lra]).
  assert (C3 : rnd (c - 1 / 2) <= 8388608) by (apply rnd_le_fmt; [apply (fmt_IZR 8388608); lia|lra]).
  assert (I0 : 0 <= 1 / ct <= 1).
  { split; [unfold Rdiv; rewrite Rmult_1_l; apply Rlt_le, Rinv_0_lt_compat; lra|]. apply Rmult_le_reg_r with ct; [lra|]. unfold Rdiv. rewrite Rmult_assoc, Rinv_l; lra. }
  assert (S1 : fin (fdiv f1 cut) (rnd (1 / ct))).
  { apply fdiv_fin; [apply f1_fin|exact Fk|lra|]. apply moderate_pos; [lra|]. apply Rle_trans with 1; [lra|apply IZR_le; lia]. }
  assert (S2 : 0 <= rnd (1 / ct)) by (apply rnd_ge_fmt; [apply fmt_0|lra]).
  assert (S3 : rnd (1 / ct) <= 1) by (apply rnd_le_fmt; [apply (fmt_IZR 1); lia|lra]).
  destruct Hpos as (K & W & _).
  induction is as [|i is IH]; [exists []; split; constructor|].
  destruct IH as (vs & V & P); [intros; apply Hi; now right|].
  assert (Bi : (Zn i <= 2 ^ 23)%Z) by (apply Hi; now left).
  assert (Fi : fin (f_of_nat i) (IZR (Zn i))) by (apply f_of_nat_exact; lia).
  assert (Ri : 0 <= IZR (Zn i) <= 8388608) by (split; apply IZR_le; lia).
  set (d := rnd (IZR (Zn i) - rnd (c - 1 / 2))).
  assert (Fd : fin (fsub (f_of_nat i) (fsub cx fhalf)) d).
  { apply fsub_fin; auto. apply moderate_abs with 16777216; [apply Rabs_le; lra|apply IZR_le; lia]. }
  assert (D1 : Rabs d <= 16777216).
  { apply Rabs_le. split.
    - apply rnd_ge_fmt; [apply (fmt_IZR (-16777216)); lia|lra].
    - apply rnd_le_fmt; [apply (fmt_IZR 16777216); lia|lra]. }
  pose proof (Rabs_pos d) as D0.
  assert (Fx : fin (fmul (fabs (fsub (f_of_nat i) (fsub cx fhalf))) (fdiv f1 cut)) (rnd (Rabs d * rnd (1 / ct)))).
  { apply fmul_fin; [apply fabs_fin; exact Fd|exact S1|]. apply moderate_pos; [nra|].
    apply Rle_trans with 16777216; [nra|apply IZR_le; lia]. }
  destruct (K _ _ Fx) as (v & Fv & Pv).
  { apply rnd_ge_fmt; [apply fmt_0|nra]. }
  exists (v :: vs). split; constructor; auto.
  unfold raw_weight. rewrite W. exact Fv.
Qed.

(** The raw weights of a row. *)
Definition raw_row (o : nat) : list f32 :=
  let scale := scale_of insz outsz in
  let b := fst (general_row fl insz scale o) in
  map (raw_weight fl (fdiv f1 (cutoff_of fl scale)) (blur_scale_of fl) (fsub (center_of insz scale o) fhalf))
      (seq (bstart b) (bsize b)).

Lemma general_row_cases o : (o < outsz)%nat ->
  let row := snd (general_row fl insz (scale_of insz outsz) o) in
  let n := bsize (fst (general_row fl insz (scale_of insz outsz) o)) in
  exists vs ws, vals (raw_row o) vs /\ Forall pos_val vs /\ length ws = n /\
    (forall k, (k < n)%nat -> fin (nth k row f0) (nth k ws 0)) /\
    Forall (fun w => 0 <= w) ws /\
    (rsum vs = 0 /\ rsum ws = 0 \/ Rabs (rsum ws - 1) <= (INR n + 2) * / 4194304).
Proof.
  intro Ho. cbv zeta.
  pose proof (general_window insz outsz Hin1 Hin2 Hout1 Hout2 fl Hfl o ltac:(lia)) as W. cbv zeta in W.
  destruct (scale_fin insz outsz) as (s & Fs & Bs); try lia.
  assert (B23 : IZR (Zn insz) <= IZR (2 ^ 23)) by (apply IZR_le; lia).
  destruct (cutoff_fin insz outsz Hin1 fl _ s Fs Bs) as (ct & Fc & Bc).
  destruct (center_fin insz outsz Hin1 Hin2 _ s o Fs Bs ltac:(lia)) as (c & Fx & Bx).
  unfold raw_row. rewrite general_row_bound. cbv zeta. cbn [bstart bsize].
  unfold general_row. cbv zeta.
  set (ks := kernel_size_of fl (scale_of insz outsz)) in *.
  set (cx := center_of insz (scale_of insz outsz) o) in *.
  set (st := start_of cx (radius_of ks)) in *.
  set (sz := (end_of cx (radius_of ks) st ks insz - st)%nat) in *.
  destruct (raw_vals cx c (cutoff_of fl (scale_of insz outsz)) ct (seq st sz) Fx) as (vs & V & P); try lra; auto.
  { intros i Hi. apply in_seq in Hi. lia. }
  set (l := map _ (seq st sz)) in *.
  assert (Ll : length l = sz) by (unfold l; now rewrite map_length, seq_length).
  destruct Hpos as (_ & _ & NE). unfold smooth. rewrite NE. cbn [fst snd].
  destruct (normalise_pos l vs V P ltac:(lia)) as (ws & V' & P' & S).
  assert (Lw : length ws = sz).
  { rewrite <- (vals_length _ _ V'). unfold normalise. destruct (negb _); now rewrite map_length. }
  exists vs, ws. split; [exact V|]. split; [exact P|]. split; [exact Lw|]. split.
  { intros k Hk. rewrite pad_nth.
    - apply vals_nth; [exact V'|]. rewrite (vals_length _ _ V'). lia.
    - rewrite (vals_length _ _ V'). lia.
    - rewrite (vals_length _ _ V'). lia. }
  split; [exact P'|].
  destruct S as [S|(_ & S1 & S2)]; [now left|right].
  rewrite Ll in *.
  assert (Nu : INR sz * u <= 1 / 2).
  { unfold u. rewrite INR_IZR_INZ. assert (B : IZR (Zn sz) <= IZR (2 ^ 23)) by (apply IZR_le; lia).
    change (IZR (2 ^ 23)) with 8388608 in B. lra. }
  assert (U : 0 < u < 1 / 1000) by (unfold u; lra).
  pose proof (pos_INR sz) as N0.
  destruct (pow_u_lo sz) as [PL PH].
  assert (E4 : / 4194304 = 4 * u) by (unfold u; lra). rewrite E4.
  assert (N1 : 0 <= INR sz * u) by nra.
  apply Rabs_le. split.
  - assert ((1 - u) ^ 2 >= 1 - 2 * u) by nra.
    assert ((1 - 2 * u) * (1 - INR sz * u) <= rsum ws).
    { eapply Rle_trans; [|exact S1]. apply Rmult_le_compat; nra. }
    nra.
  - set (N := INR sz * u) in *.
    assert (rsum ws * (1 - N) <= (1 + u) ^ 2).
    { assert (0 <= rsum ws).
      { assert (0 <= (1 - u) ^ 2 * (1 - u) ^ sz) by (apply Rmult_le_pos; [nra|lra]). lra. }
      nra. }
    replace ((INR sz + 2) * (4 * u)) with (4 * N + 8 * u) by (unfold N; ring).
    assert ((1 + u) ^ 2 <= 1 + 3 * u) by nra.
    assert ((1 + (4 * N + 8 * u)) * (1 - N) >= 1 + 3 * u) by nra.
    nra.
Qed.

Lemma general_row_sums o : (o < outsz)%nat ->
  row_sums (snd (general_row fl insz (scale_of insz outsz) o)) (bsize (fst (general_row fl insz (scale_of insz outsz) o))).
Proof.
  intro Ho. destruct (general_row_cases o Ho) as (vs & ws & _ & _ & H1 & H2 & H3 & H4). cbv zeta in *.
  exists ws. split; [exact H1|]. split; [exact H2|]. split; [exact H3|]. destruct H4 as [[_ H4]|H4]; auto.
Qed.
End Rows.

(** ** Area rows (upsampling with the Area filter) *)
Lemma feqb_fin x y a b : fin x a -> fin y b -> feqb x y = true <-> a = b.
Proof.
  intros [Fx Vx] [Fy Vy]. unfold feqb. rewrite Bcompare_correct by assumption. rewrite Vx, Vy.
  destruct (Rcompare_spec a b); split; intros; try discriminate; try reflexivity; lra.
Qed.

(** The fraction dx of area_row is a float between 0 and 1. *)
Definition area_dx (scale : f32) (i : nat) : f32 :=
  let inv_scale := fdiv f1 scale in
  let sx := ffloor (fmul (f_of_nat i) scale) in
  let fx := fsub (f_of_nat (i + 1)) (fmul (fadd sx f1) inv_scale) in
  let dx := if fleb fx f0 then f0 else fsub fx (ffloor fx) in
  fabs dx.

Lemma area_row_shape insz scale i :
  let dx := area_dx scale i in
  let w0 := fsub f1 dx in
  let sz := bsize (fst (area_row insz scale i)) in
  let sum := if (1 <? sz)%nat then fadd (fadd f0 w0) dx else fadd f0 w0 in
  snd (area_row insz scale i) =
  if negb (feqb sum f0) then pad 2 (map (fun w => fmul w (fdiv f1 sum)) (firstn sz [w0; dx])) else [f1; f0].
Proof. reflexivity. Qed.

Section AreaSums.
Variables (insz outsz : nat).
Hypothesis Hin1 : (1 <= Zn insz)%Z.
Hypothesis Hout2 : (Zn outsz <= 2 ^ 22)%Z.
Hypothesis Hlt : (Zn insz < Zn outsz)%Z.

Lemma area_dx_fin i : (i < outsz)%nat -> exists d, fin (area_dx (scale_of insz outsz) i) d /\ 0 <= d <= 1.
Proof.
  intro Hi.
  set (I := IZR (Zn insz)). set (O := IZR (Zn outsz)).
  assert (II : 1 <= I <= 4194304) by (unfold I; split; apply IZR_le; lia).
  assert (OO : 1 <= O <= 4194304) by (unfold O; split; apply IZR_le; lia).
  assert (IO : I <= O) by (unfold I, O; apply IZR_le; lia).
  assert (Fi : fin (f_of_nat insz) I) by (apply f_of_nat_exact; lia).
  assert (Fo : fin (f_of_nat outsz) O) by (apply f_of_nat_exact; lia).
  assert (Fidx : fin (f_of_nat i) (IZR (Zn i))) by (apply f_of_nat_exact; lia).
  assert (Fidx1 : fin (f_of_nat (i + 1)) (IZR (Zn (i + 1)))) by (apply f_of_nat_exact; lia).
  set (n := IZR (Zn i)) in *. set (n1 := IZR (Zn (i + 1))) in *.
  assert (NN : 0 <= n <= 4194304) by (unfold n; split; apply IZR_le; lia).
  assert (NN1 : 0 <= n1 <= 4194304) by (unfold n1; split; apply IZR_le; lia).
  set (q := I / O).
  assert (Q0 : / 4194304 <= q).
  { unfold q. apply Rmult_le_reg_r with O; [lra|]. unfold Rdiv. rewrite Rmult_assoc, Rinv_l by lra. nra. }
  assert (Q1 : q <= 1).
  { unfold q. apply Rmult_le_reg_r with O; [lra|]. unfold Rdiv. rewrite Rmult_assoc, Rinv_l by lra. lra. }
  assert (Fs : fin (scale_of insz outsz) (rnd q)).
  { apply fdiv_fin; auto; [lra|]. fold q. apply moderate_pos; [lra|]. eapply Rle_trans; [exact Q1|]. apply IZR_le. lia. }
  set (s := rnd q) in *.
  assert (S0 : / 4194304 <= s).
  { apply rnd_ge_fmt; [|exact Q0]. replace (/ 4194304) with (bpow radix2 (-22)) by (cbn; lra).
    apply generic_format_bpow. unfold fe, FLT_exp. lia. }
  assert (S1 : s <= 1) by (apply rnd_le_fmt; [apply (fmt_IZR 1); lia|lra]).
  assert (Iv : 1 <= 1 / s <= 4194304).
  { split; (apply Rmult_le_reg_r with s; [lra|]); unfold Rdiv; rewrite Rmult_assoc, Rinv_l by lra; lra. }
  assert (Finv : fin (fdiv f1 (scale_of insz outsz)) (rnd (1 / s))).
  { apply fdiv_fin; [apply f1_fin|exact Fs|lra|]. apply moderate_pos; [lra|]. eapply Rle_trans; [apply Iv|]. apply IZR_le. lia. }
  assert (V0 : 0 <= rnd (1 / s)) by (apply rnd_ge_fmt; [apply fmt_0|lra]).
  assert (V1 : rnd (1 / s) <= 4194304) by (apply rnd_le_fmt; [apply (fmt_IZR 4194304); lia|lra]).
  assert (Fns : fin (fmul (f_of_nat i) (scale_of insz outsz)) (rnd (n * s))).
  { apply fmul_fin; auto. apply moderate_pos; [nra|]. apply Rle_trans with 4194304; [nra|]. apply IZR_le. lia. }
  assert (K0 : 0 <= rnd (n * s)) by (apply rnd_ge_fmt; [apply fmt_0|nra]).
  assert (K1 : rnd (n * s) <= 4194304) by (apply rnd_le_fmt; [apply (fmt_IZR 4194304); lia|nra]).
  pose proof (ffloor_fin _ _ Fns) as Fsx. set (z := Zfloor (rnd (n * s))) in *.
  assert (Z0 : (0 <= z)%Z) by (apply Zfloor_lub; exact K0).
  assert (Z1 : (z <= 4194304)%Z) by (apply le_IZR; eapply Rle_trans; [apply Zfloor_lb|exact K1]).
  assert (Fs1 : fin (fadd (ffloor (fmul (f_of_nat i) (scale_of insz outsz))) f1) (IZR (z + 1))).
  { rewrite <- (rnd_fmt (IZR (z + 1))) by (apply fmt_IZR; lia). rewrite plus_IZR.
    apply fadd_fin; [exact Fsx|apply f1_fin|]. rewrite <- plus_IZR. apply moderate_pos; apply IZR_le; lia. }
  assert (Zr : 0 <= IZR (z + 1) <= 4194305) by (split; apply IZR_le; lia).
  set (p := IZR (z + 1)) in *.
  assert (Fm : fin (fmul (fadd (ffloor (fmul (f_of_nat i) (scale_of insz outsz))) f1) (fdiv f1 (scale_of insz outsz))) (rnd (p * rnd (1 / s)))).
  { apply fmul_fin; auto. apply moderate_pos; [nra|]. apply Rle_trans with (4194305 * 4194304); [nra|]. rewrite <- mult_IZR. apply IZR_le. lia. }
  set (m := rnd (p * rnd (1 / s))) in *.
  assert (M0 : 0 <= m) by (apply rnd_ge_fmt; [apply fmt_0|nra]).
  assert (M1 : m <= IZR (2 ^ 50)).
  { apply rnd_le_fmt; [apply fmt_pow; lia|]. apply Rle_trans with (4194305 * 4194304); [nra|]. rewrite <- mult_IZR. apply IZR_le. lia. }
  assert (Ffx : fin (fsub (f_of_nat (i + 1)) (fmul (fadd (ffloor (fmul (f_of_nat i) (scale_of insz outsz))) f1) (fdiv f1 (scale_of insz outsz)))) (rnd (n1 - m))).
  { apply fsub_fin; auto. apply moderate_abs with (IZR (2 ^ 50) + 4194304); [apply Rabs_le; lra|].
    rewrite <- plus_IZR. apply IZR_le. lia. }
  set (x := rnd (n1 - m)) in *.
  unfold area_dx. cbv zeta. set (fx := fsub _ _) in *.
  destruct (fleb fx f0) eqn:E.
  - exists (Rabs 0). split; [apply fabs_fin, f0_fin|]. rewrite Rabs_R0. lra.
  - assert (X0 : 0 < x).
    { destruct (Rlt_or_le 0 x) as [|C]; [assumption|]. apply (fleb_fin _ _ _ _ Ffx f0_fin) in C. congruence. }
    assert (X1 : x <= 4194304) by (apply rnd_le_fmt; [apply (fmt_IZR 4194304); lia|lra]).
    pose proof (ffloor_fin _ _ Ffx) as Ff. pose proof (Zfloor_lb x) as L1. pose proof (Zfloor_ub x) as L2.
    assert (Fd : fin (fsub fx (ffloor fx)) (rnd (x - IZR (Zfloor x)))).
    { apply fsub_fin; auto. apply moderate_pos; [lra|]. apply Rle_trans with 1; [lra|apply IZR_le; lia]. }
    assert (B : 0 <= rnd (x - IZR (Zfloor x)) <= 1).
    { split; [apply rnd_ge_fmt; [apply fmt_0|lra]|apply rnd_le_fmt; [apply (fmt_IZR 1); lia|lra]]. }
    exists (Rabs (rnd (x - IZR (Zfloor x)))). split; [apply fabs_fin; exact Fd|]. rewrite Rabs_pos_eq; lra.
Qed.

Lemma rnd_prod x : 0 <= x <= 4 -> Rabs (rnd x - x) <= 5 * u /\ 0 <= rnd x.
Proof.
  intro H. split; [|apply rnd_ge_fmt; [apply fmt_0|lra]].
  destruct (rnd_err 0 0 x) as (d & e & D & E & ->). pose proof (tiny150 0 0) as T.
  apply Rabs_le_inv in D. apply Rabs_le_inv in E. apply Rabs_le. unfold u.
  assert (- (4 * / 16777216) <= x * d <= 4 * / 16777216) by (split; nra). lra.
Qed.

Lemma area_row_unit i : (i < outsz)%nat ->
  row_unit (snd (area_row insz (scale_of insz outsz) i)) (bsize (fst (area_row insz (scale_of insz outsz) i))).
Proof.
  intro Hi. pose proof (area_window insz outsz Hin1 Hout2 Hlt i Hi) as W. cbv zeta in W.
  destruct (area_dx_fin i Hi) as (d & Fd & Bd).
  pose proof (area_row_shape insz (scale_of insz outsz) i) as Sh. cbv zeta in Sh. rewrite Sh. clear Sh.
  set (sz := bsize _) in *. set (dx := area_dx _ i) in *.
  assert (Ud : 0 < u < / 10000000) by (unfold u; lra).
  set (a := rnd (1 - d)).
  assert (Fa : fin (fsub f1 dx) a).
  { apply fsub_fin; [apply f1_fin|exact Fd|]. apply moderate_pos; [lra|]. apply Rle_trans with 1; [lra|apply IZR_le; lia]. }
  assert (A0 : 0 <= a) by (apply rnd_ge_fmt; [apply fmt_0|lra]).
  assert (A1 : a <= 1) by (apply rnd_le_fmt; [apply (fmt_IZR 1); lia|lra]).
  destruct (rnd_plus_rel 1 (- d)) as (e1 & E1 & A2).
  { apply (fmt_IZR 1); lia. } { apply generic_format_opp. apply (fin_fmt _ _ Fd). }
  replace (1 + - d) with (1 - d) in A2 by ring. fold a in A2. apply Rabs_le_inv in E1.
  assert (Fa0 : fin (fadd f0 (fsub f1 dx)) a).
  { rewrite <- (rnd_fmt a) by (apply (fin_fmt _ _ Fa)). rewrite <- (Rplus_0_l a).
    apply fadd_fin; [apply f0_fin|exact Fa|]. apply moderate_pos; [lra|]. apply Rle_trans with 1; [lra|apply IZR_le; lia]. }
  destruct W as (W1 & W2 & _).
  assert (SZ : (sz = 1 \/ sz = 2)%nat) by lia.
  destruct SZ as [-> | ->].
  - change (1 <? 1)%nat with false. cbv iota. cbn [firstn map].
    destruct (feqb (fadd f0 (fsub f1 dx)) f0) eqn:E; cbn [negb].
    + exists [1]. split; [reflexivity|]. split.
      { intros k Hk. assert (k = 0)%nat by lia. subst. exact f1_fin. }
      split; [constructor; [lra|constructor]|]. cbn [rsum]. replace (1 + 0 - 1) with 0 by ring. rewrite Rabs_R0. cbn. lra.
    + assert (A3 : a <> 0).
      { intro C. apply (feqb_fin _ _ _ _ Fa0 f0_fin) in C. congruence. }
      assert (D1 : d <= 1 - u).
      { apply fmt_lt_1; [apply (fin_fmt _ _ Fd)|]. destruct (Rlt_or_le d 1) as [|C]; [assumption|].
        exfalso. apply A3. unfold a. replace d with 1 by lra. replace (1 - 1) with 0 by ring. apply (rnd_fmt 0 fmt_0). }
      assert (A4 : bpow radix2 (-25) <= a).
      { apply rnd_ge_fmt; [apply generic_format_bpow; unfold fe, FLT_exp; lia|]. unfold u in D1. cbn. lra. }
      assert (B25 : 0 < bpow radix2 (-25)) by apply bpow_gt_0.
      assert (Iv : 1 <= 1 / a <= 33554432).
      { split; (apply Rmult_le_reg_r with a; [lra|]); unfold Rdiv; rewrite Rmult_assoc, Rinv_l by lra; [lra|].
        replace 1 with (33554432 * bpow radix2 (-25)) at 1 by (cbn; lra). lra. }
      assert (Fr : fin (fdiv f1 (fadd f0 (fsub f1 dx))) (rnd (1 / a))).
      { apply fdiv_fin; [apply f1_fin|exact Fa0|lra|]. apply moderate_pos; [lra|]. apply Rle_trans with 33554432; [lra|apply IZR_le; lia]. }
      destruct (rnd_rel (1 / a)) as (e2 & E2 & R2).
      { rewrite Rabs_pos_eq by lra. apply Rle_trans with (bpow radix2 0); [apply bpow_le; lia|cbn; lra]. }
      apply Rabs_le_inv in E2.
      assert (P : a * rnd (1 / a) = 1 + e2) by (rewrite R2; field; lra).
      assert (Fw : fin (fmul (fsub f1 dx) (fdiv f1 (fadd f0 (fsub f1 dx)))) (rnd (a * rnd (1 / a)))).
      { apply fmul_fin; auto. rewrite P. apply moderate_pos; [lra|]. apply Rle_trans with 2; [lra|apply IZR_le; lia]. }
      destruct (rnd_prod (a * rnd (1 / a))) as [Rp Rn]; [rewrite P; lra|].
      rewrite P in Rp, Rn, Fw. apply Rabs_le_inv in Rp.
      exists [rnd (1 + e2)]. split; [reflexivity|]. split.
      { intros k Hk. assert (k = 0)%nat by lia. subst. exact Fw. }
      split; [constructor; [lra|constructor]|]. cbn [rsum]. apply Rabs_le. unfold u in *. cbn. lra.
  - change (1 <? 2)%nat with true. cbv iota. cbn [firstn map].
    assert (T1 : 1 - u <= a + d <= 1 + u) by (rewrite A2; nra).
    destruct (rnd_plus_rel a d) as (e2 & E2 & A3).
    { apply (fin_fmt _ _ Fa). } { apply (fin_fmt _ _ Fd). }
    apply Rabs_le_inv in E2. set (s := rnd (a + d)) in *.
    assert (Fs : fin (fadd (fadd f0 (fsub f1 dx)) dx) s).
    { apply fadd_fin; auto. apply moderate_pos; [lra|]. apply Rle_trans with 2; [lra|apply IZR_le; lia]. }
    assert (S0 : 1 - 3 * u <= s <= 1 + 3 * u) by (rewrite A3; nra).
    assert (E : feqb (fadd (fadd f0 (fsub f1 dx)) dx) f0 = false).
    { destruct (feqb _ f0) eqn:E; [|reflexivity]. apply (feqb_fin _ _ _ _ Fs f0_fin) in E. lra. }
    rewrite E. cbn [negb].
    assert (Iv : 1 - 3 * u <= 1 / s <= 1 + 4 * u).
    { split; (apply Rmult_le_reg_r with s; [lra|]); unfold Rdiv; rewrite Rmult_assoc, Rinv_l by lra; nra. }
    assert (Fr : fin (fdiv f1 (fadd (fadd f0 (fsub f1 dx)) dx)) (rnd (1 / s))).
    { apply fdiv_fin; [apply f1_fin|exact Fs|lra|]. apply moderate_pos; [lra|]. apply Rle_trans with 2; [lra|apply IZR_le; lia]. }
    destruct (rnd_rel (1 / s)) as (e3 & E3 & R3).
    { rewrite Rabs_pos_eq by lra. apply Rle_trans with (bpow radix2 (-1)); [apply bpow_le; lia|cbn; lra]. }
    apply Rabs_le_inv in E3. set (r := rnd (1 / s)) in *.
    assert (R0 : 1 - 5 * u <= r <= 1 + 6 * u) by (rewrite R3; nra).
    assert (Fw0 : fin (fmul (fsub f1 dx) (fdiv f1 (fadd (fadd f0 (fsub f1 dx)) dx))) (rnd (a * r))).
    { apply fmul_fin; auto. apply moderate_pos; [nra|]. apply Rle_trans with 2; [nra|apply IZR_le; lia]. }
    assert (Fw1 : fin (fmul dx (fdiv f1 (fadd (fadd f0 (fsub f1 dx)) dx))) (rnd (d * r))).
    { apply fmul_fin; auto. apply moderate_pos; [nra|]. apply Rle_trans with 2; [nra|apply IZR_le; lia]. }
    assert (X0 : exists e, Rabs e <= u /\ Rabs (rnd (a * r) - a * r) <= u * (a * r) + / 100000000000000000000).
    { destruct (rnd_err 0 0 (a * r)) as (x & y & X & Y & ->). pose proof (tiny150 0 0) as T. exists 0. split; [rewrite Rabs_R0; lra|].
      apply Rabs_le_inv in X. apply Rabs_le_inv in Y. apply Rabs_le. fold u in X. assert (0 <= a * r) by nra. split; nra. }
    assert (X1 : Rabs (rnd (d * r) - d * r) <= u * (d * r) + / 100000000000000000000).
    { destruct (rnd_err 0 0 (d * r)) as (x & y & X & Y & ->). pose proof (tiny150 0 0) as T.
      apply Rabs_le_inv in X. apply Rabs_le_inv in Y. apply Rabs_le. fold u in X. assert (0 <= d * r) by nra. split; nra. }
    destruct X0 as (_ & _ & X0). apply Rabs_le_inv in X0. apply Rabs_le_inv in X1.
    exists [rnd (a * r); rnd (d * r)]. split; [reflexivity|]. split.
    { intros k Hk. destruct k as [|[|k]]; [exact Fw0|exact Fw1|lia]. }
    split.
    { constructor; [apply rnd_ge_fmt; [apply fmt_0|nra]|]. constructor; [apply rnd_ge_fmt; [apply fmt_0|nra]|constructor]. }
    cbn [rsum]. rewrite Rplus_0_r.
    assert (G : 1 - 7 * u <= (a + d) * r <= 1 + 8 * u) by (split; nra).
    assert (tiny : / 100000000000000000000 <= / 100 * u) by (unfold u; lra).
    apply Rabs_le. change (INR 2) with 2. replace ((2 + 2) * / 4194304) with (16 * u) by (unfold u; lra).
    assert (PQ : a * r + d * r = (a + d) * r) by ring.
    assert (UG : u * (a * r) + u * (d * r) <= 2 * u).
    { replace (u * (a * r) + u * (d * r)) with (u * ((a + d) * r)) by ring. apply Rle_trans with (u * 2); [apply Rmult_le_compat_l; lra|lra]. }
    lra.
Qed.

Lemma area_row_sums i : (i < outsz)%nat ->
  row_sums (snd (area_row insz (scale_of insz outsz) i)) (bsize (fst (area_row insz (scale_of insz outsz) i))).
Proof. intro Hi. destruct (area_row_unit i Hi) as (ws & H1 & H2 & H3 & H4). exists ws. split; [exact H1|]. split; [exact H2|]. split; [exact H3|]. right; exact H4. Qed.
End AreaSums.
