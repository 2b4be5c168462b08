(** The weights are the normalised samples of the kernel at the ideal distances. *)
From Coq Require Import ZArith Reals Lra Lia Bool List Psatz.
From Flocq Require Import Core.Core IEEE754.BinarySingleNaN.
From Verif Require Import Base FixedPoint F32 F32Proofs Weights WeightsProofs Sampler SamplerProofs WeightSum FilterSums Center SpecKernels
  KernelAccuracy WindowPos.
Import ListNotations.
Local Open Scope R_scope.

(** ** One tap *)
Section Tap.
Variables (insz outsz o : nat).
Hypothesis Hin : (1 <= Zn insz <= 2 ^ 16)%Z.
Hypothesis Hout : (1 <= Zn outsz <= 2 ^ 16)%Z.
Hypothesis Ho : (o < outsz)%nat.
Variable fl : rfilter.
Variable m : Z.
Hypothesis Hm : (1 <= m <= 16)%Z.
Hypothesis Fm : fin (min_kernel fl) (IZR m).
Let I := IZR (Zn insz).
Let ratio := I / IZR (Zn outsz).
Let c := (IZR (Zn o) + 1 / 2) * ratio.
Let cut := if is_resizable fl then Rmax ratio 1 else 1.
Let b := fst (general_row fl insz (scale_of insz outsz) o).

Definition tap_arg (k : nat) : f32 :=
  fmul (fabs (fsub (f_of_nat k) (fsub (center_of insz (scale_of insz outsz) o) fhalf)))
       (fdiv f1 (cutoff_of fl (scale_of insz outsz))).

Lemma I_range16 : 1 <= I <= 65536.
Proof. unfold I. split; apply IZR_le || apply (IZR_le 1); lia. Qed.
Lemma tap_distance k : (k < insz)%nat ->
  exists a, fin (tap_arg k) a /\ 0 <= a /\ Rabs (a - Rabs (IZR (Zn k) + 1 / 2 - c) / cut) <= (I + 1) / cut / 1048576.
Proof.
  intros Hk. pose proof I_range16 as [I1 I2].
  destruct (center_pos insz outsz o ltac:(lia) ltac:(lia) Ho) as (cx & Fc & Bc & Rc).
  pose proof (c_range insz outsz o ltac:(lia) ltac:(lia) Ho) as CR. pose proof (ratio_range insz outsz o ltac:(lia) ltac:(lia) Ho) as RR.
  fold I in CR, RR, Rc. fold ratio in CR, RR, Bc. fold I in Bc. fold ratio in Bc. fold c in CR, Bc.
  destruct (cutoff_pos insz outsz o ltac:(lia) ltac:(lia) Ho fl) as (ct & Fct & Bct & Ct1).
  pose proof (cut_range insz outsz o ltac:(lia) ltac:(lia) Ho fl) as CUT. fold I in CUT, Bct. fold ratio in CUT, Bct. fold cut in CUT, Bct.
  assert (Kr : 0 <= IZR (Zn k) <= I - 1).
  { unfold I. rewrite <- minus_IZR. split; apply IZR_le; lia. }
  apply abs_le3 in Bc. apply abs_le3 in Bct. rewrite u_val in Bc, Bct.
  assert (Fe : fin (fsub (center_of insz (scale_of insz outsz) o) fhalf) (rnd (cx - 1 / 2))).
  { apply fsub_fin; [exact Fc|apply fhalf_fin|]. apply moderate_abs with 65537; [apply Rabs_le; lra|apply IZR_le; lia]. }
  pose proof (rnd_any (cx - 1 / 2)) as E1.
  assert (A1 : Rabs (cx - 1 / 2) <= I + 1) by (apply Rabs_le; lra).
  set (e := rnd (cx - 1 / 2)) in *. apply abs_le3 in E1. rewrite u_val in E1.
  assert (B1 : Rabs (e - (c - 1 / 2)) <= 5 * / 16777216 * (I + 1)) by (apply Rabs_le; lra).
  apply abs_le3 in B1.
  assert (Fd : fin (fsub (f_of_nat k) (fsub (center_of insz (scale_of insz outsz) o) fhalf)) (rnd (IZR (Zn k) - e))).
  { apply fsub_fin; [apply f_of_nat_exact; lia|exact Fe|]. apply moderate_abs with 200000; [apply Rabs_le; lra|apply IZR_le; lia]. }
  pose proof (rnd_any (IZR (Zn k) - e)) as E2.
  assert (A2 : Rabs (IZR (Zn k) - e) <= I + 2) by (apply Rabs_le; lra).
  set (d := rnd (IZR (Zn k) - e)) in *. apply abs_le3 in E2. rewrite u_val in E2.
  assert (B2 : Rabs (d - (IZR (Zn k) + 1 / 2 - c)) <= 7 * / 16777216 * (I + 1)) by (apply Rabs_le; lra).
  set (D := IZR (Zn k) + 1 / 2 - c) in *.
  assert (B3 : Rabs (Rabs d - Rabs D) <= 7 * / 16777216 * (I + 1)).
  { eapply Rle_trans; [apply Rabs_triang_inv2|exact B2]. }
  assert (AD : 0 <= Rabs D <= I + 1) by (split; [apply Rabs_pos|apply Rabs_le; unfold D; lra]).
  apply abs_le3 in B3. pose proof (Rabs_pos d) as D0.
  assert (Fs : fin (fdiv f1 (cutoff_of fl (scale_of insz outsz))) (rnd (1 / ct))).
  { apply fdiv_fin; [apply f1_fin|exact Fct|lra|]. apply moderate_pos.
    - apply Rmult_le_pos; [lra|left; apply Rinv_0_lt_compat; lra].
    - apply Rle_trans with 1; [|apply IZR_le; lia]. unfold Rdiv. rewrite Rmult_1_l, <- Rinv_1. apply Rinv_le; lra. }
  assert (Ic : / 65538 <= 1 / ct <= 1).
  { unfold Rdiv. rewrite Rmult_1_l. split; [apply Rinv_le; lra|]. rewrite <- Rinv_1. apply Rinv_le; lra. }
  pose proof (rnd_relp (1 / ct) ltac:(lra)) as E3. apply abs_le3 in E3. rewrite u_val in E3.
  set (s := rnd (1 / ct)) in *.
  (* s * cut is 1 up to 3u *)
  set (ic := / cut). assert (Hic : 0 < ic /\ ic * cut = 1 /\ ic <= 1).
  { unfold ic. split; [apply Rinv_0_lt_compat; lra|]. split; [apply Rinv_l; lra|]. rewrite <- Rinv_1. apply Rinv_le; lra. }
  assert (Q : 1 / ct * ct = 1) by (field; lra).
  assert (S1 : Rabs (s - ic) <= 3 * / 16777216 * ic).
  { destruct Hic as (H1 & H2 & H3). set (q := 1 / ct) in *. apply Rabs_le.
    assert (Q0 : 0 <= q) by lra.
    assert (EQ : q = ic * (cut * q)) by (rewrite <- Rmult_assoc, H2; ring).
    assert (Cb : ct * (1 - 2 * / 16777216) <= cut <= ct * (1 + 5 / 4 * / 16777216)) by (split; lra).
    assert (Hq : 1 - 2 * / 16777216 <= cut * q <= 1 + 5 / 4 * / 16777216).
    { pose proof (Rmult_le_compat_r q _ _ Q0 (proj1 Cb)) as X1. pose proof (Rmult_le_compat_r q _ _ Q0 (proj2 Cb)) as X2.
      replace (ct * (1 - 2 * / 16777216) * q) with ((q * ct) * (1 - 2 * / 16777216)) in X1 by ring.
      replace (ct * (1 + 5 / 4 * / 16777216) * q) with ((q * ct) * (1 + 5 / 4 * / 16777216)) in X2 by ring.
      rewrite Q in X1, X2. lra. }
    pose proof (Rmult_le_compat_l ic _ _ (Rlt_le _ _ H1) (proj1 Hq)) as Y1.
    pose proof (Rmult_le_compat_l ic _ _ (Rlt_le _ _ H1) (proj2 Hq)) as Y2.
    rewrite <- EQ in Y1, Y2. split; lra. }
  apply abs_le3 in S1. destruct Hic as (H1 & H2 & H3).
  assert (DS : Rabs (Rabs d * s - Rabs D * ic) <= 11 * / 16777216 * ((I + 1) * ic)).
  { replace (Rabs d * s - Rabs D * ic) with ((Rabs d - Rabs D) * s + Rabs D * (s - ic)) by ring.
    eapply Rle_trans; [apply Rabs_triang|]. rewrite !Rabs_mult, (Rabs_pos_eq s) by lra.
    rewrite (Rabs_pos_eq (Rabs D)) by lra.
    assert (X1 : Rabs (Rabs d - Rabs D) <= 7 * / 16777216 * (I + 1)) by (apply Rabs_le; lra).
    assert (X2 : Rabs (s - ic) <= 3 * / 16777216 * ic) by (apply Rabs_le; lra).
    pose proof (Rabs_pos (Rabs d - Rabs D)). pose proof (Rabs_pos (s - ic)).
    assert (Rabs (Rabs d - Rabs D) * s <= 7 * / 16777216 * (I + 1) * (ic * (1 + 3 * / 16777216))) by (apply Rmult_le_compat; lra).
    assert (Rabs D * Rabs (s - ic) <= (I + 1) * (3 * / 16777216 * ic)) by (apply Rmult_le_compat; lra).
    assert (0 <= (I + 1) * ic) by nra. nra. }
  assert (Ds0 : 0 <= Rabs d * s) by (apply Rmult_le_pos; lra).
  assert (Fx : fin (tap_arg k) (rnd (Rabs d * s))).
  { unfold tap_arg. apply fmul_fin; [apply fabs_fin; exact Fd|exact Fs|]. apply moderate_pos; [lra|].
    apply Rle_trans with (200000 * 2); [|rewrite <- mult_IZR; apply IZR_le; lia].
    apply Rmult_le_compat; lra. }
  exists (rnd (Rabs d * s)). split; [exact Fx|]. split; [apply rnd_ge_fmt; [apply fmt_0|exact Ds0]|].
  pose proof (rnd_any (Rabs d * s)) as E4. rewrite (Rabs_pos_eq _ Ds0), u_val in E4. apply abs_le3 in E4. apply abs_le3 in DS.
  unfold Rdiv. fold ic.
  assert (P1 : Rabs D * ic <= (I + 1) * ic) by (apply Rmult_le_compat_r; lra).
  assert (P2 : / 65537 <= (I + 1) * ic).
  { assert (/ 65536 <= ic) by (unfold ic; apply Rinv_le; lra). nra. }
  apply Rabs_le. lra.
Qed.

(** Every tap of the window lies within the support. *)
Lemma tap_near k : (bstart b <= k < bstart b + bsize b)%nat ->
  Rabs (IZR (Zn k) + 1 / 2 - c) / cut <= IZR m / 2 * (1 + 1 / 100000) + (4 / 5) / cut.
Proof.
  intros Hk. pose proof I_range16 as [I1 I2].
  pose proof (c_range insz outsz o ltac:(lia) ltac:(lia) Ho) as CR. pose proof (ratio_range insz outsz o ltac:(lia) ltac:(lia) Ho) as RR.
  fold I in CR, RR. fold ratio in CR, RR. fold c in CR.
  pose proof (cut_range insz outsz o ltac:(lia) ltac:(lia) Ho fl) as CUT. fold I in CUT. fold ratio in CUT. fold cut in CUT.
  destruct (window_position insz outsz o ltac:(lia) ltac:(lia) Ho fl m Hm Fm) as (p & q & P & Q & W1 & W2).
  fold I in P, Q. fold ratio in P, Q. fold c in P, Q. fold b in W1, W2.
  destruct (ksize_pos insz outsz o ltac:(lia) ltac:(lia) Ho fl m Hm Fm) as [KB KE].
  fold I in KE. fold ratio in KE. fold cut in KE.
  set (K := IZR (Zn (kernel_size_of fl (scale_of insz outsz)))) in *.
  set (start := bstart b) in *. set (size := bsize b) in *.
  assert (M : 1 <= IZR m <= 16) by (split; apply IZR_le || apply (IZR_le 1); lia).
  apply abs_le3 in P. apply abs_le3 in Q. apply abs_le3 in KE. rewrite u_val in KE.
  assert (L1 : p - 1 < IZR (Zn k)).
  { pose proof (Zfloor_ub p). assert (IZR (Zfloor p) <= IZR (Zn k)) by (apply IZR_le; lia). lra. }
  assert (L2 : IZR (Zn k) < q).
  { assert (IZR (Zn k) <= IZR (Zceil q) - 1).
    { change 1 with (IZR 1). rewrite <- minus_IZR. apply IZR_le. lia. }
    pose proof (Zceil_lb q). lra. }
  set (mc := IZR m * cut) in *. assert (MC : mc <= 16 * I) by (unfold mc; nra).
  assert (D : Rabs (IZR (Zn k) + 1 / 2 - c) <= mc / 2 * (1 + 1 / 100000) + 4 / 5).
  { (* distances at most K/2 + 1/2 + errors *)
    assert (E : (c + K / 2) / 2097152 <= 65536 / 2097152 + (mc + 2) / 2097152) by lra.
    assert (1 <= mc) by (unfold mc; nra).
    apply Rabs_le. split; lra. }
  apply Rmult_le_reg_r with cut; [lra|]. unfold Rdiv at 1. rewrite Rmult_assoc, Rinv_l, Rmult_1_r by lra.
  replace ((IZR m / 2 * (1 + 1 / 100000) + 4 / 5 / cut) * cut) with (mc / 2 * (1 + 1 / 100000) + 4 / 5) by (unfold mc; field; lra). exact D.
Qed.
End Tap.

(** ** Lists of weights *)
Lemma total_rsum l : total l = rsum l.
Proof. induction l as [|x l IH]; cbn; [reflexivity|]. unfold total in IH. rewrite IH. reflexivity. Qed.
Definition within (e : R) (l : list f32) (vs : list R) : Prop :=
  Forall2 (fun x g => exists v, fin x v /\ Rabs (v - g) <= e) l vs.
Lemma within_vals e l gs : within e l gs -> exists vs, vals l vs /\ Forall2 (fun v g => Rabs (v - g) <= e) vs gs.
Proof.
  induction 1 as [|x g l gs (v & F & B) H (vs & V & A)]; [exists []; split; constructor|].
  exists (v :: vs). split; constructor; auto.
Qed.
Lemma rsum_close e vs gs : Forall2 (fun v g => Rabs (v - g) <= e) vs gs -> Rabs (rsum vs - rsum gs) <= INR (length gs) * e.
Proof.
  induction 1 as [|v g vs gs B H IH]; [cbn; rewrite Rminus_0_r, Rabs_R0; lra|].
  cbn [rsum]. change (length (g :: gs)) with (S (length gs)). rewrite S_INR. replace (v + rsum vs - (g + rsum gs)) with ((v - g) + (rsum vs - rsum gs)) by ring.
  eapply Rle_trans; [apply Rabs_triang|]. lra.
Qed.
Lemma fsum_abs l : forall vs acc a, vals l vs -> Forall (fun v => Rabs v <= 3 / 2) vs -> fin acc a ->
  forall M, Rabs a + 8 / 5 * INR (length l) <= M -> M <= 1000 ->
  exists s, fin (fsum acc l) s /\ Rabs (s - (a + rsum vs)) <= INR (length l) * ((M + / 10) * u).
Proof.
  induction l as [|x l IH]; intros vs acc a V B F M N N2; cbn [fsum].
  - inversion V; subst. exists a. split; [exact F|]. cbn [rsum length]. rewrite Rplus_0_r, Rminus_diag_eq, Rabs_R0 by reflexivity. cbn [INR]. lra.
  - inversion V as [|? v ? vs' Fx V']; subst. pose proof (Forall_inv B) as Bv. apply Forall_inv_tail in B. cbn beta in Bv.
    change (length (x :: l)) with (S (length l)) in *. rewrite S_INR in N |- *. pose proof (pos_INR (length l)) as P.
    pose proof (Rabs_triang a v) as T.
    assert (F2 : fin (fadd acc x) (rnd (a + v))).
    { apply fadd_fin; auto. apply moderate_abs with 1000; [lra|apply IZR_le; lia]. }
    pose proof (rnd_any (a + v)) as E. rewrite u_val in E |- *.
    assert (E2 : Rabs (rnd (a + v) - (a + v)) <= (M + / 10) * / 16777216) by lra.
    assert (A2 : Rabs (rnd (a + v)) <= Rabs a + 8 / 5).
    { replace (rnd (a + v)) with ((rnd (a + v) - (a + v)) + (a + v)) by ring. eapply Rle_trans; [apply Rabs_triang|]. lra. }
    destruct (IH vs' _ _ V' B F2 M) as (s & Fs & Bs); [lra|exact N2|]. exists s. split; [exact Fs|]. cbn [rsum]. rewrite u_val in Bs.
    replace (s - (a + (v + rsum vs'))) with ((s - (rnd (a + v) + rsum vs')) + (rnd (a + v) - (a + v))) by ring.
    eapply Rle_trans; [apply Rabs_triang|]. lra.
Qed.

Lemma f07_fin : fin f07 (11744051 / 16777216).
Proof. replace (11744051 / 16777216) with (IZR 11744051 * bpow radix2 (-24)) by (cbn; lra). apply fZ_exact; lia. Qed.
Lemma f03_fin : fin (fsub f1 f07) (5033165 / 16777216).
Proof.
  replace (5033165 / 16777216) with (rnd (1 - 11744051 / 16777216)).
  - apply fsub_fin; [apply f1_fin|apply f07_fin|]. apply moderate_abs with 1; [apply Rabs_le; lra|apply IZR_le; lia].
  - replace (1 - 11744051 / 16777216) with (IZR 5033165 * bpow radix2 (-24)) by (cbn; lra).
    rewrite rnd_fmt by (apply fmt_F2R; lia). cbn. lra.
Qed.
Lemma blend_step e x p v s g gp : / 262144 <= e <= / 28000 -> fin x v -> fin p s -> Rabs (v - g) <= e -> Rabs (s - gp) <= 2 * e ->
  Rabs g <= 5 / 4 -> Rabs gp <= 5 / 4 ->
  exists w, fin (fadd (fmul f07 x) (fmul (fsub f1 f07) p)) w /\ Rabs (w - (7 / 10 * g + 3 / 10 * gp)) <= 2 * e.
Proof.
  intros He Fx Fp B1 B2 G1 G2.
  assert (V : Rabs v <= 3 / 2) by (replace v with ((v - g) + g) by ring; eapply Rle_trans; [apply Rabs_triang|]; lra).
  assert (S : Rabs s <= 3 / 2) by (replace s with ((s - gp) + gp) by ring; eapply Rle_trans; [apply Rabs_triang|]; lra).
  apply Rabs_le_inv in V. apply Rabs_le_inv in S.
  assert (F1 : fin (fmul f07 x) (rnd (11744051 / 16777216 * v))).
  { apply fmul_fin; [apply f07_fin|exact Fx|]. apply moderate_abs with 2; [apply Rabs_le; lra|apply IZR_le; lia]. }
  assert (F2 : fin (fmul (fsub f1 f07) p) (rnd (5033165 / 16777216 * s))).
  { apply fmul_fin; [apply f03_fin|exact Fp|]. apply moderate_abs with 2; [apply Rabs_le; lra|apply IZR_le; lia]. }
  pose proof (rnd_any (11744051 / 16777216 * v)) as E1. pose proof (rnd_any (5033165 / 16777216 * s)) as E2.
  assert (A1 : Rabs (11744051 / 16777216 * v) <= 2) by (apply Rabs_le; lra).
  assert (A2 : Rabs (5033165 / 16777216 * s) <= 2) by (apply Rabs_le; lra).
  set (r1 := rnd (11744051 / 16777216 * v)) in *. set (r2 := rnd (5033165 / 16777216 * s)) in *.
  assert (X1 : Rabs (r1 - 11744051 / 16777216 * v) <= 3 * / 16777216) by (rewrite u_val in E1; lra).
  assert (X2 : Rabs (r2 - 5033165 / 16777216 * s) <= 3 * / 16777216) by (rewrite u_val in E2; lra).
  apply Rabs_le_inv in X1. apply Rabs_le_inv in X2.
  exists (rnd (r1 + r2)). split.
  - apply fadd_fin; auto. apply moderate_abs with 4; [apply Rabs_le; lra|apply IZR_le; lia].
  - pose proof (rnd_any (r1 + r2)) as E3. assert (A3 : Rabs (r1 + r2) <= 4) by (apply Rabs_le; lra).
    assert (X3 : Rabs (rnd (r1 + r2) - (r1 + r2)) <= 5 * / 16777216) by (rewrite u_val in E3; lra).
    apply Rabs_le_inv in X3. apply Rabs_le_inv in B1. apply Rabs_le_inv in B2. apply Rabs_le_inv in G1. apply Rabs_le_inv in G2. apply Rabs_le. lra.
Qed.
Lemma blend_within e l : / 262144 <= e <= / 28000 -> forall gs p s gp, within e l gs -> Forall (fun g => Rabs g <= 5 / 4) gs ->
  fin p s -> Rabs (s - gp) <= 2 * e -> Rabs gp <= 5 / 4 ->
  within (2 * e) (ewa_smooth p l) (blend gp gs) /\ Forall (fun g => Rabs g <= 5 / 4) (blend gp gs).
Proof.
  intros He. induction l as [|x l IH]; intros gs p s gp W B Fp Bp Gp; inversion W as [|? g ? gs' (v & Fv & Bv) W']; subst; cbn [ewa_smooth blend].
  - split; constructor.
  - pose proof (Forall_inv B) as Bg. apply Forall_inv_tail in B. cbn beta in Bg.
    destruct (blend_step e x p v s g gp He Fv Fp Bv Bp Bg Gp) as (w & Fw & Bw).
    assert (Gn : Rabs (7 / 10 * g + 3 / 10 * gp) <= 5 / 4).
    { apply Rabs_le_inv in Bg. apply Rabs_le_inv in Gp. apply Rabs_le. lra. }
    cbv zeta. destruct (IH gs' _ w (7 / 10 * g + 3 / 10 * gp) W' B Fw Bw Gn) as [A1 A2].
    split; constructor; auto. exists w. auto.
Qed.
Lemma within_weaken e e' l gs : e <= e' -> within e l gs -> within e' l gs.
Proof.
  intros H W. induction W as [|x g l gs (v & F & B) W IH]; constructor; auto. exists v. split; [exact F|lra].
Qed.
Lemma within_length e l gs : within e l gs -> length l = length gs.
Proof. induction 1; cbn; congruence. Qed.

(** Division by the sum. *)
Lemma scaled_weight x v S s : fin x v -> Rabs v <= 3 / 2 -> fin S s -> / 16 <= s <= 2000 ->
  exists w, fin (fmul x (fdiv f1 S)) w /\ Rabs (w * s - v) <= / 1000000.
Proof.
  intros Fx Bv Fs Bs. apply Rabs_le_inv in Bv.
  assert (I0 : 1 / s * s = 1) by (field; lra).
  assert (I1 : / 2000 <= 1 / s <= 16).
  { unfold Rdiv. rewrite Rmult_1_l. split; [apply Rinv_le; lra|]. rewrite <- (Rinv_involutive 16) by lra. apply Rinv_le; lra. }
  assert (Fr : fin (fdiv f1 S) (rnd (1 / s))).
  { apply fdiv_fin; [apply f1_fin|exact Fs|lra|]. apply moderate_pos; [lra|]. apply Rle_trans with 16; [lra|apply IZR_le; lia]. }
  pose proof (rnd_relp (1 / s) ltac:(lra)) as E1. apply abs_le3 in E1. rewrite u_val in E1.
  set (r := rnd (1 / s)) in *.
  assert (R1 : / 3000 <= r <= 17) by lra.
  assert (Bvr : Rabs (v * r) <= 3 / 2 * r).
  { rewrite Rabs_mult, (Rabs_pos_eq r) by lra. apply Rmult_le_compat_r; [lra|]. apply Rabs_le. lra. }
  assert (Fw : fin (fmul x (fdiv f1 S)) (rnd (v * r))).
  { apply fmul_fin; auto. apply moderate_abs with 30; [lra|apply IZR_le; lia]. }
  exists (rnd (v * r)). split; [exact Fw|].
  pose proof (rnd_any (v * r)) as E2. rewrite u_val in E2.
  assert (RS : Rabs (r * s - 1) <= / 16777216).
  { rewrite <- I0. replace (r * s - 1 / s * s) with ((r - 1 / s) * s) by ring. rewrite Rabs_mult, (Rabs_pos_eq s) by lra.
    assert (X : Rabs (r - 1 / s) <= / 16777216 * (1 / s)) by (apply Rabs_le; lra).
    apply Rle_trans with (/ 16777216 * (1 / s) * s); [apply Rmult_le_compat_r; lra|]. rewrite Rmult_assoc, I0. lra. }
  assert (RS2 : r * s <= 2) by (apply Rabs_le_inv in RS; lra).
  replace (rnd (v * r) * s - v) with ((rnd (v * r) - v * r) * s + v * (r * s - 1)) by ring.
  eapply Rle_trans; [apply Rabs_triang|]. rewrite !Rabs_mult, (Rabs_pos_eq s) by lra.
  assert (Y1 : Rabs (rnd (v * r) - v * r) * s <= (/ 16777216 * (3 / 2 * r) + / 1000000000000000000000000000000000) * s).
  { apply Rmult_le_compat_r; lra. }
  assert (Y2 : Rabs v * Rabs (r * s - 1) <= 3 / 2 * / 16777216).
  { apply Rmult_le_compat; auto using Rabs_pos. apply Rabs_le. lra. }
  replace ((/ 16777216 * (3 / 2 * r) + / 1000000000000000000000000000000000) * s)
    with (/ 16777216 * (3 / 2) * (r * s) + / 1000000000000000000000000000000000 * s) in Y1 by ring. lra.
Qed.

(** The weights of a row against ideal samples gs with a sum bounded away from 0. *)
Lemma normalise_within e l gs S s : / 262144 <= e <= / 28000 -> within (2 * e) l gs -> Forall (fun g => Rabs g <= 5 / 4) gs ->
  fin S s -> Rabs (s - total gs) <= INR (length gs) * (4 * e) -> INR (length gs) <= 520 -> / 7 <= total gs -> total gs <= 1000 ->
  forall k, (k < length gs)%nat -> exists w, fin (nth k (normalise l S) f0) w /\
    Rabs (w * total gs - nth k gs 0) <= (1 + INR (length gs) * Rabs w) * (4 * e).
Proof.
  intros He W B Fs Bs N T1 T2 k Hk. apply abs_le3 in Bs.
  assert (N0 := pos_INR (length gs)).
  assert (NE : INR (length gs) * (4 * e) <= 520 * (4 * / 28000)) by (apply Rmult_le_compat; lra).
  assert (S0 : / 16 <= s <= 2000) by lra.
  unfold normalise. replace (feqb S f0) with false.
  2:{ symmetry. destruct (feqb S f0) eqn:E; [|reflexivity]. apply (feqb_fin S f0 s 0 Fs f0_fin) in E. lra. }
  cbn [negb]. cbv zeta.
  assert (NT : exists v, fin (nth k l f0) v /\ Rabs (v - nth k gs 0) <= 2 * e).
  { clear -W Hk. revert k Hk. induction W as [|x g l gs H W IH]; intros k Hk; [cbn in Hk; lia|].
    destruct k as [|k]; [exact H|]. cbn [nth length] in *. apply IH. lia. }
  destruct NT as (v & Fv & Bv).
  assert (Bg : Rabs (nth k gs 0) <= 5 / 4) by (apply (Forall_forall (fun g => Rabs g <= 5 / 4) gs) ; [exact B|apply nth_In; exact Hk]).
  assert (BV : Rabs v <= 3 / 2) by (replace v with ((v - nth k gs 0) + nth k gs 0) by ring; eapply Rle_trans; [apply Rabs_triang|]; lra).
  rewrite (nth_indep _ f0 (fmul f0 (fdiv f1 S))) by (rewrite map_length, (within_length _ _ _ W); exact Hk).
  rewrite (map_nth (fun w => fmul w (fdiv f1 S))).
  destruct (scaled_weight _ v S s Fv BV Fs S0) as (w & Fw & Bw). exists w. split; [exact Fw|].
  replace (w * total gs - nth k gs 0) with (w * (total gs - s) + ((w * s - v) + (v - nth k gs 0))) by ring.
  eapply Rle_trans; [apply Rabs_triang|]. rewrite Rabs_mult.
  assert (X : Rabs (total gs - s) <= INR (length gs) * (4 * e)) by (apply Rabs_le; lra).
  assert (Y : Rabs w * Rabs (total gs - s) <= Rabs w * (INR (length gs) * (4 * e))) by (apply Rmult_le_compat_l; [apply Rabs_pos|exact X]).
  pose proof (Rabs_triang (w * s - v) (v - nth k gs 0)). lra.
Qed.
