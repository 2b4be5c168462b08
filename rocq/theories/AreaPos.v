(** The weights of the Area branch (enlarging) against exact pixel coverage. *)
From Coq Require Import ZArith Reals Lra Lia Bool List Psatz.
From Flocq Require Import Core.Core IEEE754.BinarySingleNaN.
From Verif Require Import Base FixedPoint F32 F32Proofs Weights WeightsProofs Sampler SamplerProofs WeightSum FilterSums WindowPos SpecKernels.
Import ListNotations.
Local Open Scope R_scope.

Lemma div_le_iff a b c : 0 < b -> (a / b <= c <-> a <= c * b).
Proof.
  intro H. split; intro E.
  - apply Rmult_le_compat_r with (r := b) in E; [|lra]. unfold Rdiv in E. rewrite Rmult_assoc, Rinv_l in E by lra. lra.
  - apply Rmult_le_reg_r with b; [lra|]. unfold Rdiv. rewrite Rmult_assoc, Rinv_l by lra. lra.
Qed.
Lemma le_div_iff a b c : 0 < b -> (c <= a / b <-> c * b <= a).
Proof.
  intro H. split; intro E.
  - apply Rmult_le_compat_r with (r := b) in E; [|lra]. unfold Rdiv in E. rewrite Rmult_assoc, Rinv_l in E by lra. lra.
  - apply Rmult_le_reg_r with b; [lra|]. unfold Rdiv. rewrite Rmult_assoc, Rinv_l by lra. lra.
Qed.

Section AreaPos.
Variables (insz outsz o : nat).
Hypothesis Hin1 : (1 <= Zn insz)%Z.
Hypothesis Hlt : (Zn insz < Zn outsz)%Z.
Hypothesis Hprod : (Zn insz * Zn outsz <= 2 ^ 21)%Z.
Hypothesis Ho : (o < outsz)%nat.
Let I := IZR (Zn insz).
Let O := IZR (Zn outsz).
Let n := IZR (Zn o).
Let q := I / O.
Let a := (Zn o * Zn insz / Zn outsz)%Z.
Let b := (Zn o * Zn insz mod Zn outsz)%Z.
Hypothesis Hb : (o = 0%nat \/ 1 <= b)%Z.
Let X := (IZR a + 1) / q.
Let D := n + 1 - X.

Lemma base_facts : (1 <= Zn outsz <= 2 ^ 21)%Z /\ 1 <= I /\ I + 1 <= O <= 2097152 /\ I * O <= 2097152 /\ 0 <= n <= O - 1 /\ q * O = I /\ 0 < q < 1.
Proof.
  assert (OB : (1 <= Zn outsz <= 2 ^ 21)%Z) by nia.
  split; [exact OB|]. assert (I1 : 1 <= I) by (unfold I; apply IZR_le; lia). split; [exact I1|].
  assert (IO : I + 1 <= O <= 2097152).
  { unfold I, O. split; [rewrite <- plus_IZR; apply IZR_le; lia|apply IZR_le; lia]. }
  split; [exact IO|]. split; [unfold I, O; rewrite <- mult_IZR; apply IZR_le; lia|].
  split. { unfold n, O. split; [apply IZR_le; lia|]. rewrite <- minus_IZR. apply IZR_le. lia. }
  assert (QO : q * O = I) by (unfold q; field; lra). split; [exact QO|].
  split; [unfold q; apply Rdiv_lt_0_compat; lra|]. assert (q * O < 1 * O) by lra. apply Rmult_lt_reg_r with O; lra.
Qed.
(** Position of the left edge: pixel a, remainder b/O. *)
Lemma edge : n * I = IZR a * O + IZR b /\ 0 <= IZR b <= O - 1 /\ 0 <= IZR a <= n /\ IZR a <= I - 1 /\ (0 <= a < Zn insz)%Z.
Proof.
  destruct base_facts as (OB & _).
  pose proof (Z.div_mod (Zn o * Zn insz) (Zn outsz) ltac:(lia)) as DM. fold a in DM. fold b in DM.
  pose proof (Z.mod_pos_bound (Zn o * Zn insz) (Zn outsz) ltac:(lia)) as MB. fold b in MB.
  assert (A0 : (0 <= a)%Z) by (unfold a; apply Z.div_pos; lia).
  assert (A1 : (a <= Zn o)%Z) by nia.
  assert (A2 : (a < Zn insz)%Z) by nia.
  split. { unfold n, I, O. rewrite <- !mult_IZR, <- plus_IZR. f_equal. lia. }
  split. { unfold O. rewrite <- minus_IZR. split; apply IZR_le; lia. }
  split. { unfold n. split; apply IZR_le; lia. }
  split; [unfold I; rewrite <- minus_IZR; apply IZR_le; lia|lia].
Qed.
Lemma edge_q : n * q = IZR a + IZR b / O.
Proof.
  destruct base_facts as (_ & I1 & IO & _). destruct edge as (E & _). unfold q.
  apply Rmult_eq_reg_r with O; [|lra]. field_simplify; lra.
Qed.

Lemma scale_val : exists s, fin (scale_of insz outsz) s /\ Rabs (s - q) <= u * q /\ 0 < s < 1 + u.
Proof.
  destruct base_facts as (OB & I1 & IO & _ & _ & QO & Q). 
  destruct (scale_pos insz outsz o ltac:(lia) ltac:(lia) Ho) as (s & Fs & Bs). fold I O in Bs. fold q in Bs.
  exists s. split; [exact Fs|]. split; [exact Bs|]. apply abs_le3 in Bs. rewrite u_val in *. split; [|lra].
  apply Rlt_le_trans with (q - / 16777216 * q); lra.
Qed.
Lemma left_val : exists t, fin (fmul (f_of_nat o) (scale_of insz outsz)) t /\ Zfloor t = a.
Proof.
  destruct base_facts as (OB & I1 & IO & IOP & NO & QO & Q). destruct scale_val as (s & Fs & Bs & S0). apply abs_le3 in Bs.
  assert (Fn : fin (f_of_nat o) n) by (apply f_of_nat_exact; lia).
  assert (QL : / 2097152 <= q) by (unfold q; apply le_div_iff; lra).
  assert (NS : 0 <= n * s) by (apply Rmult_le_pos; lra).
  exists (rnd (n * s)). split.
  { apply fmul_fin; [exact Fn|exact Fs|]. apply moderate_pos; [exact NS|].
    apply Rle_trans with (2097152 * 2); [|rewrite <- mult_IZR; apply IZR_le; lia].
    rewrite u_val in S0. apply Rmult_le_compat; lra. }
  destruct Hb as [Z|B1].
  - assert (n = 0) by (unfold n; rewrite Z; reflexivity). rewrite H, Rmult_0_l, (rnd_fmt 0 fmt_0).
    rewrite Zfloor_IZR. unfold a. rewrite Z. change (Zn 0 * Zn insz)%Z with 0%Z. now rewrite Z.div_0_l by lia.
  - assert (N1 : 1 <= n).
    { unfold n. apply IZR_le. destruct (Nat.eq_dec o 0) as [C|C]; [|lia]. exfalso. revert B1. unfold b. rewrite C. change (Zn 0 * Zn insz)%Z with 0%Z. rewrite Z.mod_0_l by lia. lia. }
    destruct edge as (E & BO & AN & AI & AZ). pose proof edge_q as EQ.
    assert (B1' : 1 <= IZR b) by (apply IZR_le; lia).
    rewrite u_val in *.
    assert (NQ : n * s - n * q <= / 16777216 * I /\ - (/ 16777216 * I) <= n * s - n * q).
    { assert (n * (s - q) <= O * (/ 16777216 * q)) by (destruct (Rle_or_lt 0 (s - q)); [apply Rmult_le_compat; lra|apply Rle_trans with 0; [nra|apply Rmult_le_pos; lra]]).
      assert (n * (q - s) <= O * (/ 16777216 * q)) by (destruct (Rle_or_lt 0 (q - s)); [apply Rmult_le_compat; lra|apply Rle_trans with 0; [nra|apply Rmult_le_pos; lra]]).
      assert (O * (/ 16777216 * q) = / 16777216 * I) by (rewrite <- QO; ring). lra. }
    assert (NI : n * s <= I * (1 + / 16777216)).
    { assert (n * q <= I - q) by (replace (I - q) with ((O - 1) * q) by (rewrite <- QO; ring); apply Rmult_le_compat_r; lra). lra. }
    assert (LB : / 1000000000000000000 <= n * s).
    { apply Rle_trans with (1 * (/ 2097152 / 2)); [lra|]. apply Rmult_le_compat; lra. }
    pose proof (rnd_relp (n * s) LB) as RE. apply abs_le3 in RE. rewrite u_val in RE.
    assert (SM : / 2097152 * I <= 1 / O).
    { apply le_div_iff; [lra|]. lra. }
    assert (B2 : 1 / O <= IZR b / O <= 1 - 1 / O).
    { split; [apply Rmult_le_compat_r; [left; apply Rinv_0_lt_compat; lra|lra]|].
      replace (1 - 1 / O) with ((O - 1) / O) by (field; lra). apply Rmult_le_compat_r; [left; apply Rinv_0_lt_compat; lra|lra]. }
    apply Zfloor_imp. rewrite plus_IZR. split; lra.
Qed.
Lemma inv_val : exists v, fin (fdiv f1 (scale_of insz outsz)) v /\ Rabs (v - 1 / q) <= 21 / 10 * u * (1 / q).
Proof.
  destruct base_facts as (OB & I1 & IO & IOP & NO & QO & Q). destruct scale_val as (s & Fs & Bs & S0). apply abs_le3 in Bs.
  assert (QL : / 2097152 <= q) by (unfold q; apply le_div_iff; lra). rewrite u_val in *.
  assert (SL : / 4194304 <= s) by lra.
  assert (IS : 1 / s <= 4194304) by (apply div_le_iff; lra).
  assert (IL : 1 / 2 <= 1 / s) by (apply le_div_iff; lra).
  exists (rnd (1 / s)). split.
  { apply fdiv_fin; [exact f1_fin|exact Fs|lra|]. apply moderate_pos; [lra|]. apply Rle_trans with 4194304; [lra|apply IZR_le; lia]. }
  pose proof (rnd_relp (1 / s) ltac:(lra)) as RE. apply abs_le3 in RE. rewrite u_val in RE.
  set (w := 1 / q). assert (WQ : w * q = 1) by (unfold w; field; lra).
  assert (W0 : 0 < w) by (unfold w; apply Rdiv_lt_0_compat; lra).
  assert (R1 : 1 / s <= w * (1 + 101 / 100 * / 16777216)).
  { apply div_le_iff; [lra|]. apply Rle_trans with (w * (1 + 101 / 100 * / 16777216) * (q - / 16777216 * q)); [|apply Rmult_le_compat_l; [|lra]].
    - replace (w * (1 + 101 / 100 * / 16777216) * (q - / 16777216 * q)) with ((w * q) * ((1 + 101 / 100 * / 16777216) * (1 - / 16777216))) by ring. rewrite WQ. lra.
    - apply Rmult_le_pos; lra. }
  assert (R2 : w * (1 - 101 / 100 * / 16777216) <= 1 / s).
  { apply le_div_iff; [lra|]. apply Rle_trans with (w * (1 - 101 / 100 * / 16777216) * (q + / 16777216 * q)); [apply Rmult_le_compat_l; [apply Rmult_le_pos; lra|lra]|].
    replace (w * (1 - 101 / 100 * / 16777216) * (q + / 16777216 * q)) with ((w * q) * ((1 - 101 / 100 * / 16777216) * (1 + / 16777216))) by ring. rewrite WQ. lra. }
  apply Rabs_le. lra.
Qed.
Lemma X_facts : n + 1 / I <= X <= n + 1 / q /\ X = (IZR a + 1) * (1 / q) /\ 1 / q * I = O.
Proof.
  destruct base_facts as (OB & I1 & IO & IOP & NO & QO & Q). destruct edge as (E & BO & AN & AI & AZ).
  assert (XE : X = (IZR a + 1) * O / I) by (unfold X, q; field; lra).
  assert (WI : 1 / q = O / I) by (unfold q; field; lra).
  split; [|split; [unfold X; field; lra|rewrite WI; field; lra]].
  rewrite XE, WI. split.
  - apply le_div_iff; [lra|]. replace ((n + 1 / I) * I) with (n * I + 1) by (field; lra). lra.
  - apply div_le_iff; [lra|]. replace ((n + O / I) * I) with (n * I + O) by (field; lra). lra.
Qed.
Theorem dx_val : exists d, fin (area_dx (scale_of insz outsz) o) d /\ Rabs (d - Rmax 0 D) <= 7 * u * O.
Proof.
  destruct base_facts as (OB & I1 & IO & IOP & NO & QO & Q). destruct edge as (E & BO & AN & AI & AZ).
  destruct left_val as (t & Ft & Et). destruct inv_val as (v & Fv & Bv). destruct X_facts as ((X1 & X2) & XE & WI).
  set (w := 1 / q) in *. assert (W0 : 1 <= w) by (unfold w; apply le_div_iff; lra).
  assert (WO : w <= O).
  { apply Rle_trans with (w * I); [|lra]. replace w with (w * 1) at 1 by ring. apply Rmult_le_compat_l; lra. }
  apply abs_le3 in Bv. rewrite u_val in *.
  assert (Fn1 : fin (f_of_nat (o + 1)) (n + 1)).
  { unfold n. replace (IZR (Zn o) + 1) with (IZR (Zn (o + 1))) by (rewrite <- plus_IZR; f_equal; lia). apply f_of_nat_exact; lia. }
  assert (Fa1 : fin (fadd (ffloor (fmul (f_of_nat o) (scale_of insz outsz))) f1) (IZR a + 1)).
  { pose proof (ffloor_fin _ _ Ft) as Q1. rewrite Et in Q1.
    rewrite <- plus_IZR. rewrite <- (rnd_fmt (IZR (a + 1))) by (apply fmt_IZR; lia). rewrite plus_IZR.
    apply fadd_fin; [exact Q1|exact f1_fin|]. rewrite <- plus_IZR. apply moderate_pos; apply IZR_le; lia. }
  assert (A1 : 1 <= IZR a + 1 <= I) by lra.
  assert (V1 : 99 / 100 <= v <= 2 * O) by lra.
  assert (XB : 1 <= X <= 2 * O).
  { rewrite XE. split; [apply Rle_trans with (1 * 1); [lra|apply Rmult_le_compat; lra]|]. rewrite <- XE. lra. }
  assert (AV : X - 21 / 10 * / 16777216 * X <= (IZR a + 1) * v <= X + 21 / 10 * / 16777216 * X).
  { rewrite XE. split.
    - apply Rle_trans with ((IZR a + 1) * (w - 21 / 10 * / 16777216 * w)); [right; ring|apply Rmult_le_compat_l; lra].
    - apply Rle_trans with ((IZR a + 1) * (w + 21 / 10 * / 16777216 * w)); [apply Rmult_le_compat_l; lra|right; ring]. }
  set (m := rnd ((IZR a + 1) * v)).
  assert (Fm : fin (fmul (fadd (ffloor (fmul (f_of_nat o) (scale_of insz outsz))) f1) (fdiv f1 (scale_of insz outsz))) m).
  { apply fmul_fin; [exact Fa1|exact Fv|]. apply moderate_pos; [lra|]. apply Rle_trans with 100000000; [lra|apply IZR_le; lia]. }
  assert (MB : X - 32 / 10 * / 16777216 * X <= m <= X + 32 / 10 * / 16777216 * X).
  { pose proof (rnd_relp ((IZR a + 1) * v) ltac:(lra)) as RE. fold m in RE. apply abs_le3 in RE. rewrite u_val in RE. lra. }
  set (x := rnd (n + 1 - m)).
  assert (Ffx : fin (fsub (f_of_nat (o + 1)) (fmul (fadd (ffloor (fmul (f_of_nat o) (scale_of insz outsz))) f1) (fdiv f1 (scale_of insz outsz)))) x).
  { apply fsub_fin; [exact Fn1|exact Fm|]. apply moderate_abs with 100000000; [apply Rabs_le; lra|apply IZR_le; lia]. }
  pose proof (rnd_any (n + 1 - m)) as RX. fold x in RX. rewrite u_val in RX. apply abs_le3 in RX.
  set (ab := Rabs (n + 1 - m)) in *.
  assert (II : I * (1 / I) = 1) by (field; lra).
  assert (IOb : / 2097152 * O <= 1 / I) by (apply le_div_iff; lra).
  assert (XD : x < 1 /\ (x <= 0 -> Rmax 0 D <= 7 * / 16777216 * O) /\ (0 <= x -> Rabs (x - Rmax 0 D) <= 7 * / 16777216 * O)).
  { assert (DL : D <= 1 - 1 / I) by (unfold D; lra).
    destruct (Rle_or_lt D 0) as [C|C].
    - rewrite (Rmax_left 0 D) by lra. assert (NM : n + 1 - m <= 64 / 10 * / 16777216 * O) by (unfold D in C; lra).
      assert (XU : x <= 7 * / 16777216 * O).
      { destruct (Rle_or_lt 0 (n + 1 - m)) as [C2|C2].
        - unfold ab in RX. rewrite Rabs_pos_eq in RX by lra. lra.
        - assert (x <= 0) by (apply rnd_le_fmt; [apply fmt_0|lra]). lra. }
      split; [lra|]. split; [intros; lra|]. intros P. rewrite Rminus_0_r, Rabs_pos_eq by lra. exact XU.
    - rewrite (Rmax_right 0 D) by lra. assert (X < n + 1) by (unfold D in C; lra).
      assert (MD : - (32 / 10 * / 16777216 * O) <= (n + 1 - m) - D <= 32 / 10 * / 16777216 * O) by (unfold D; lra).
      assert (AB : ab <= 2) by (unfold ab; apply Rabs_le; lra).
      assert (XD : - (45 / 10 * / 16777216 * O) <= x - D <= 45 / 10 * / 16777216 * O) by lra.
      split; [lra|]. split; [intros; lra|]. intros _. apply Rabs_le. lra. }
  destruct XD as (X3 & X4 & X5).
  unfold area_dx. cbv zeta. set (fx := fsub _ _) in *.
  destruct (fleb fx f0) eqn:Ef.
  - apply (fleb_fin _ _ _ _ Ffx f0_fin) in Ef. specialize (X4 Ef).
    exists (Rabs 0). split; [apply fabs_fin, f0_fin|]. rewrite Rabs_R0. rewrite Rminus_0_l, Rabs_Ropp, Rabs_pos_eq; [exact X4|apply Rmax_l].
  - assert (X0 : 0 < x).
    { destruct (Rlt_or_le 0 x) as [|C]; [assumption|]. apply (fleb_fin _ _ _ _ Ffx f0_fin) in C. congruence. }
    pose proof (ffloor_fin _ _ Ffx) as Ff. replace (Zfloor x) with 0%Z in Ff by (symmetry; apply Zfloor_imp; cbn; lra).
    assert (Fd : fin (fsub fx (ffloor fx)) x).
    { rewrite <- (rnd_fmt x) by (apply (fin_fmt _ _ Ffx)). replace x with (x - 0) by ring.
      apply fsub_fin; [exact Ffx|exact Ff|]. apply moderate_pos; [lra|]. apply Rle_trans with 1; [lra|apply IZR_le; lia]. }
    exists (Rabs x). split; [apply fabs_fin; exact Fd|]. rewrite (Rabs_pos_eq x) by lra. apply X5. lra.
Qed.
Lemma area_bounds : Zn (bstart (fst (area_row insz (scale_of insz outsz) o))) = a /\
  Zn (bsize (fst (area_row insz (scale_of insz outsz) o))) = Z.min 2 (Zn insz - a).
Proof.
  destruct base_facts as (OB & I1 & IO & IOP & NO & QO & Q). destruct edge as (E & BO & AN & AI & AZ).
  destruct left_val as (t & Ft & Et). pose proof (ffloor_fin _ _ Ft) as Fsx. rewrite Et in Fsx.
  unfold area_row. cbv zeta. cbn [fst bsize bstart].
  set (sx := ffloor (fmul (f_of_nat o) (scale_of insz outsz))) in *.
  assert (Fst : fin (fmax (ffloor sx) f0) (IZR a)).
  { pose proof (fmax_fin _ _ _ _ (ffloor_fin _ _ Fsx) f0_fin) as P. rewrite Zfloor_IZR in P.
    rewrite Rmax_left in P; [exact P|]. apply IZR_le. lia. }
  rewrite (f_to_usize_Z _ _ Fst) by lia.
  assert (Fz : fin (f_of_nat (Z.to_nat a)) (IZR a)).
  { rewrite <- (Z2Nat.id a) at 2 by lia. apply f_of_nat_exact. lia. }
  assert (Fa : fin (fadd sx f2) (IZR (a + 2))).
  { rewrite <- (rnd_fmt (IZR (a + 2))) by (apply fmt_IZR; lia). rewrite plus_IZR.
    apply fadd_fin; [exact Fsx|apply f2_fin|]. rewrite <- plus_IZR.
    apply moderate_pos; apply IZR_le; lia. }
  assert (Fb : fin (fadd (f_of_nat (Z.to_nat a)) f2) (IZR (a + 2))).
  { rewrite <- (rnd_fmt (IZR (a + 2))) by (apply fmt_IZR; lia). rewrite plus_IZR.
    apply fadd_fin; [exact Fz|apply f2_fin|]. rewrite <- plus_IZR.
    apply moderate_pos; apply IZR_le; lia. }
  pose proof (fceil_fin _ _ Fa) as Fc. rewrite Zceil_IZR in Fc.
  assert (Fi : fin (f_of_nat insz) I) by (apply f_of_nat_exact; lia).
  assert (Fe := fmin_fin _ _ _ _ (fmin_fin _ _ _ _ Fc Fb) Fi).
  assert (Ev : Rmin (Rmin (IZR (a + 2)) (IZR (a + 2))) I = IZR (Z.min (a + 2) (Zn insz))).
  { rewrite (Rmin_left (IZR (a + 2)) (IZR (a + 2))) by lra. unfold I.
    destruct (Z.min_spec (a + 2) (Zn insz)) as [[H1 H2]|[H1 H2]]; rewrite H2.
    - apply Rmin_left. apply IZR_le. lia.
    - apply Rmin_right. apply IZR_le. lia. }
  rewrite Ev in Fe. rewrite (f_to_usize_Z _ _ Fe) by lia. lia.
Qed.
(** With two taps the second weight is dx up to a few ulps. *)
Lemma second_weight : bsize (fst (area_row insz (scale_of insz outsz) o)) = 2%nat ->
  forall d, fin (area_dx (scale_of insz outsz) o) d -> 0 <= d <= 1 ->
  exists w, fin (nth 1 (snd (area_row insz (scale_of insz outsz) o)) f0) w /\ Rabs (w - d) <= 10 * u.
Proof.
  intros SZ d Fd Bd. pose proof (area_row_shape insz (scale_of insz outsz) o) as Sh. cbv zeta in Sh. rewrite Sh. clear Sh.
  rewrite SZ. set (dx := area_dx _ o) in *.
  change (1 <? 2)%nat with true. cbv iota. cbn [firstn map].
  assert (Ud : 0 < u < / 10000000) by (unfold u; lra).
  set (c := rnd (1 - d)).
  assert (Fa : fin (fsub f1 dx) c).
  { apply fsub_fin; [apply f1_fin|exact Fd|]. apply moderate_pos; [lra|]. apply Rle_trans with 1; [lra|apply IZR_le; lia]. }
  assert (A0 : 0 <= c) by (apply rnd_ge_fmt; [apply fmt_0|lra]).
  assert (A1 : c <= 1) by (apply rnd_le_fmt; [apply (fmt_IZR 1); lia|lra]).
  destruct (rnd_plus_rel 1 (- d)) as (e1 & E1 & A2).
  { apply (fmt_IZR 1); lia. } { apply generic_format_opp. apply (fin_fmt _ _ Fd). }
  replace (1 + - d) with (1 - d) in A2 by ring. fold c in A2. apply Rabs_le_inv in E1.
  assert (Fa0 : fin (fadd f0 (fsub f1 dx)) c).
  { rewrite <- (rnd_fmt c) by (apply (fin_fmt _ _ Fa)). rewrite <- (Rplus_0_l c).
    apply fadd_fin; [apply f0_fin|exact Fa|]. apply moderate_pos; [lra|]. apply Rle_trans with 1; [lra|apply IZR_le; lia]. }
  assert (T1 : 1 - u <= c + d <= 1 + u) by (rewrite A2; clear -Ud E1 Bd; nra).
  destruct (rnd_plus_rel c d) as (e2 & E2 & A3).
  { apply (fin_fmt _ _ Fa). } { apply (fin_fmt _ _ Fd). }
  apply Rabs_le_inv in E2. set (s := rnd (c + d)) in *.
  assert (Fs : fin (fadd (fadd f0 (fsub f1 dx)) dx) s).
  { apply fadd_fin; auto. apply moderate_pos; [lra|]. apply Rle_trans with 2; [lra|apply IZR_le; lia]. }
  assert (S0 : 1 - 3 * u <= s <= 1 + 3 * u) by (rewrite A3; clear -Ud E2 T1; nra).
  assert (Ez : feqb (fadd (fadd f0 (fsub f1 dx)) dx) f0 = false).
  { destruct (feqb _ f0) eqn:E; [|reflexivity]. apply (feqb_fin _ _ _ _ Fs f0_fin) in E. lra. }
  rewrite Ez. cbn [negb].
  assert (Iv : 1 - 3 * u <= 1 / s <= 1 + 4 * u).
  { split; [apply le_div_iff|apply div_le_iff]; try lra; clear -Ud S0; nra. }
  assert (Fr : fin (fdiv f1 (fadd (fadd f0 (fsub f1 dx)) dx)) (rnd (1 / s))).
  { apply fdiv_fin; [apply f1_fin|exact Fs|lra|]. apply moderate_pos; [lra|]. apply Rle_trans with 2; [lra|apply IZR_le; lia]. }
  pose proof (rnd_relp (1 / s) ltac:(lra)) as R3. apply abs_le3 in R3. set (r := rnd (1 / s)) in *.
  assert (UU : 0 < u * u <= u * / 10000000) by (split; [apply Rmult_lt_0_compat|apply Rmult_le_compat_l]; lra).
  assert (U1 : u * (1 / s) <= u * (1 + 4 * u)) by (apply Rmult_le_compat_l; lra).
  assert (R0 : 1 - 5 * u <= r <= 1 + 6 * u) by lra.
  assert (DR : d - 5 * u <= d * r <= d + 6 * u).
  { split; [apply Rle_trans with (d * (1 - 5 * u))|apply Rle_trans with (d * (1 + 6 * u))]; try (apply Rmult_le_compat_l; lra);
    assert (0 <= d * u <= u) by (split; [apply Rmult_le_pos; lra|apply Rle_trans with (1 * u); [apply Rmult_le_compat_r; lra|lra]]); lra. }
  exists (rnd (d * r)). split.
  { cbn. apply fmul_fin; auto. apply moderate_pos; [apply Rmult_le_pos; lra|]. apply Rle_trans with 2; [lra|apply IZR_le; lia]. }
  destruct (rnd_any (d * r)) as [RA|RA]; apply Rabs_le.
  - apply Rlt_le in RA. apply abs_le3 in RA. rewrite (Rabs_pos_eq (d * r)) in RA by (apply Rmult_le_pos; lra).
    assert (u * (d * r) <= u * 2) by (apply Rmult_le_compat_l; lra). rewrite u_val in *. lra.
  - assert (RA' : Rabs (rnd (d * r) - d * r) <= u * Rabs (d * r) + / 1000000000000000000000000000000000) by lra. apply abs_le3 in RA'.
    rewrite (Rabs_pos_eq (d * r)) in RA' by (apply Rmult_le_pos; lra).
    assert (u * (d * r) <= u * 2) by (apply Rmult_le_compat_l; lra). rewrite u_val in *. lra.
Qed.
(** Coverage of each source pixel. *)
Lemma coverage_val k : coverage insz outsz o k =
  if (Zn k =? a)%Z then 1 - Rmax 0 D else if (Zn k =? a + 1)%Z then Rmax 0 D else 0.
Proof.
  destruct base_facts as (OB & I1 & IO & IOP & NO & QO & Q). destruct edge as (E & BO & AN & AI & AZ). pose proof edge_q as EQ.
  assert (BQ : 0 <= IZR b / O < 1).
  { split; [apply le_div_iff; lra|]. apply Rmult_lt_reg_r with O; [lra|]. unfold Rdiv. rewrite Rmult_assoc, Rinv_l by lra. lra. }
  unfold coverage. rewrite !INR_IZR_INZ. fold I O n. fold q. set (kk := IZR (Zn k)).
  assert (DQ : D * q = (n + 1) * q - (IZR a + 1)) by (unfold D, X; field; lra).
  assert (EE : (n + 1) * q = n * q + q) by ring.
  destruct (Z.eqb_spec (Zn k) a) as [Ek|Nk].
  - assert (KK : kk = IZR a) by (unfold kk; rewrite Ek; reflexivity). rewrite KK.
    rewrite (Rmax_left (n * q) (IZR a)) by lra.
    destruct (Rle_or_lt D 0) as [C|C].
    + rewrite (Rmax_left 0 D) by lra. assert (D * q <= 0) by (clear -C Q; nra).
      rewrite Rmin_left by lra. rewrite Rmax_right by lra. rewrite EE. field. lra.
    + rewrite (Rmax_right 0 D) by lra. assert (0 < D * q) by (apply Rmult_lt_0_compat; lra).
      rewrite Rmin_right by lra. rewrite Rmax_right by lra. unfold D, X. field. lra.
  - destruct (Z.eqb_spec (Zn k) (a + 1)) as [Ek|Nk2].
    + assert (KK : kk = IZR a + 1) by (unfold kk; rewrite Ek, plus_IZR; reflexivity). rewrite KK.
      rewrite (Rmax_right (n * q)) by lra. rewrite Rmin_left by lra.
      rewrite <- DQ. destruct (Rle_or_lt D 0) as [C|C].
      * rewrite (Rmax_left 0 D) by lra. rewrite Rmax_left by (clear -C Q; nra). unfold Rdiv. ring.
      * rewrite (Rmax_right 0 D) by lra. rewrite Rmax_right by (apply Rmult_le_pos; lra). field. lra.
    + assert (Z0 : Rmax 0 (Rmin ((n + 1) * q) (kk + 1) - Rmax (n * q) kk) = 0); [|rewrite Z0; unfold Rdiv; ring].
      apply Rmax_left. destruct (Z_lt_le_dec (Zn k) a) as [C|C].
      * assert (kk + 1 <= IZR a) by (unfold kk; rewrite <- plus_IZR; apply IZR_le; lia).
        pose proof (Rmin_r ((n + 1) * q) (kk + 1)). pose proof (Rmax_l (n * q) kk). lra.
      * assert (IZR a + 2 <= kk) by (unfold kk; rewrite <- plus_IZR; apply IZR_le; lia).
        pose proof (Rmin_l ((n + 1) * q) (kk + 1)). pose proof (Rmax_r (n * q) kk). lra.
Qed.
Definition given (k : nat) : R :=
  let bd := fst (area_row insz (scale_of insz outsz) o) in
  if ((bstart bd <=? k) && (k <? bstart bd + bsize bd))%nat then B2R (nth (k - bstart bd) (snd (area_row insz (scale_of insz outsz) o)) f0) else 0.
Theorem area_weights k : (k < insz)%nat -> Rabs (given k - coverage insz outsz o k) <= O / 524288.
Proof.
  intro Hk. destruct base_facts as (OB & I1 & IO & IOP & NO & QO & Q). destruct edge as (E & BO & AN & AI & AZ).
  destruct area_bounds as (Bs & Bz). rewrite coverage_val.
  destruct dx_val as (d & Fd & Dd). apply abs_le3 in Dd.
  destruct (area_dx_fin insz outsz ltac:(lia) ltac:(lia) ltac:(lia) o Ho) as (d' & Fd' & Bd').
  assert (d' = d) by (destruct Fd as [_ <-], Fd' as [_ <-]; reflexivity). subst d'. clear Fd'.
  destruct (area_row_unit insz outsz ltac:(lia) ltac:(lia) ltac:(lia) o Ho) as (ws & W1 & W2 & W3 & W4).
  unfold given. cbv zeta. set (bd := fst (area_row insz (scale_of insz outsz) o)) in *. set (row := snd (area_row insz (scale_of insz outsz) o)) in *.
  rewrite u_val in *.
  destruct (Z.eq_dec (Zn insz - a) 1) as [One|More].
  - assert (SZ : bsize bd = 1%nat) by lia. rewrite SZ in *.
    destruct ws as [|w [|? ?]]; try discriminate. cbn [rsum] in W4. apply abs_le3 in W4. change (INR 1) with 1 in W4.
    specialize (W2 0%nat ltac:(lia)). cbn [nth] in W2.
    assert (D0 : D <= 0).
    { assert (AI' : IZR a + 1 = I) by (unfold I; rewrite <- plus_IZR; f_equal; lia).
      unfold D, X. rewrite AI'. replace (I / q) with O by (rewrite <- QO; field; lra). lra. }
    rewrite (Rmax_left 0 D D0).
    destruct (Z.eqb_spec (Zn k) a) as [Ek|Nk].
    + replace ((bstart bd <=? k)%nat && (k <? bstart bd + 1)%nat) with true by (symmetry; apply andb_true_intro; split; [apply Nat.leb_le|apply Nat.ltb_lt]; lia).
      replace (k - bstart bd)%nat with 0%nat by lia. destruct W2 as [_ ->]. apply Rabs_le. lra.
    + assert (R0 : (if (bstart bd <=? k)%nat && (k <? bstart bd + 1)%nat then B2R (nth (k - bstart bd) row f0) else 0) = 0).
      { destruct ((bstart bd <=? k)%nat && (k <? bstart bd + 1)%nat) eqn:C; [|reflexivity].
        apply andb_prop in C. destruct C as [C1 C2]. apply Nat.leb_le in C1. apply Nat.ltb_lt in C2. lia. }
      rewrite R0. destruct (Z.eqb_spec (Zn k) (a + 1)); rewrite Rminus_0_r, Rabs_R0; lra.
  - assert (SZ : bsize bd = 2%nat) by lia.
    destruct (second_weight SZ d Fd Bd') as (w1 & Fw1 & Bw1). fold row in Fw1. rewrite SZ in *. rewrite u_val in Bw1. apply abs_le3 in Bw1.
    destruct ws as [|w [|w' [|? ?]]]; try discriminate. cbn [rsum] in W4. apply abs_le3 in W4. change (INR 2) with 2 in W4.
    pose proof (W2 0%nat ltac:(lia)) as F0. pose proof (W2 1%nat ltac:(lia)) as F1. cbn [nth] in F0, F1. fold row in F0, F1.
    assert (w' = w1) by (destruct F1 as [_ <-], Fw1 as [_ <-]; reflexivity). subst w'.
    destruct (Z.eqb_spec (Zn k) a) as [Ek|Nk]; [|destruct (Z.eqb_spec (Zn k) (a + 1)) as [Ek|Nk2]].
    + replace ((bstart bd <=? k)%nat && (k <? bstart bd + 2)%nat) with true by (symmetry; apply andb_true_intro; split; [apply Nat.leb_le|apply Nat.ltb_lt]; lia).
      replace (k - bstart bd)%nat with 0%nat by lia. destruct F0 as [_ ->]. apply Rabs_le. lra.
    + replace ((bstart bd <=? k)%nat && (k <? bstart bd + 2)%nat) with true by (symmetry; apply andb_true_intro; split; [apply Nat.leb_le|apply Nat.ltb_lt]; lia).
      replace (k - bstart bd)%nat with 1%nat by lia. destruct Fw1 as [_ ->]. apply Rabs_le. lra.
    + assert (R0 : (if (bstart bd <=? k)%nat && (k <? bstart bd + 2)%nat then B2R (nth (k - bstart bd) row f0) else 0) = 0).
      { destruct ((bstart bd <=? k)%nat && (k <? bstart bd + 2)%nat) eqn:C; [|reflexivity].
        apply andb_prop in C. destruct C as [C1 C2]. apply Nat.leb_le in C1. apply Nat.ltb_lt in C2. lia. }
      rewrite R0, Rminus_0_r, Rabs_R0. lra.
Qed.
End AreaPos.
