(** Rounding error of a sum of products computed in f32, in any order and with or without
    fused multiply-adds. *)
From Coq Require Import ZArith Reals Lra Lia Bool List Psatz Permutation.
From Flocq Require Import Core.Core IEEE754.BinarySingleNaN.
From Verif Require Import F32 F32Proofs WeightsProofs FloatErr SpecX86Float.
Import ListNotations.
Local Open Scope R_scope.

Lemma ffma_fin x y z a b c : fin x a -> fin y b -> fin z c -> moderate (a * b + c) -> fin (ffma x y z) (rnd (a * b + c)).
Proof.
  intros (Fx & <-) (Fy & <-) (Fz & <-) M. pose proof (bpow128_big _ M) as Ov.
  unfold ffma. pose proof (Bfma_correct 24 128 _ _ mode_NE x y z Fx Fy Fz) as C. cbv zeta in C.
  rewrite Rlt_bool_true in C by exact Ov.
  destruct C as (C1 & C2 & _). split; assumption.
Qed.

(** ** Sums over lists of taps *)
Fixpoint lsum (g : nat -> R) (l : list nat) : R := match l with [] => 0 | k :: l => g k + lsum g l end.
Lemma lsum_app g a b : lsum g (a ++ b) = lsum g a + lsum g b.
Proof. induction a as [|k a IH]; cbn [app lsum]; lra. Qed.
Lemma lsum_perm g a b : Permutation a b -> lsum g a = lsum g b.
Proof. induction 1; cbn [lsum] in *; lra. Qed.
Lemma lsum_ext g h l : (forall k, In k l -> g k = h k) -> lsum g l = lsum h l.
Proof. induction l as [|k l IH]; intro H; cbn [lsum]; [reflexivity|]. rewrite H by now left. rewrite IH; [reflexivity|]. intros; apply H; now right. Qed.
Lemma lsum_abs g l : Rabs (lsum g l) <= lsum (fun k => Rabs (g k)) l.
Proof.
  induction l as [|k l IH]; cbn [lsum]; [rewrite Rabs_R0; lra|].
  eapply Rle_trans; [apply Rabs_triang|]. lra.
Qed.
Lemma lsum_le g h l : (forall k, In k l -> g k <= h k) -> lsum g l <= lsum h l.
Proof. induction l as [|k l IH]; intro H; cbn [lsum]; [lra|]. pose proof (H k (or_introl eq_refl)). specialize (IH (fun k I => H k (or_intror I))). lra. Qed.
Lemma lsum_nonneg g l : (forall k, 0 <= g k) -> 0 <= lsum g l.
Proof. intro H. induction l as [|k l IH]; cbn [lsum]; [lra|]. specialize (H k). lra. Qed.

(** ** The analysis *)
Definition uu : R := / 16777216.
Definition eta : R := bpow radix2 (-150).
Definition GG : R := (1 + uu) * (1 + uu).
(** Bound on the error after [m] products whose absolute values add up to [A]. *)
Definition cost (m : nat) (A : R) : R :=
  GG ^ m * (A + INR m * (4 * eta)) - A - (match m with O => 0 | S _ => eta end).

Lemma eta_pos : 0 < eta. Proof. apply bpow_gt_0. Qed.
Lemma uu_pos : 0 < uu < 1 / 16. Proof. unfold uu. lra. Qed.
Lemma GG_ge : 1 <= GG. Proof. unfold GG. pose proof uu_pos. nra. Qed.
Lemma GG_pow m : 1 <= GG ^ m.
Proof. apply pow_R1_Rle, GG_ge. Qed.

(** G^m (1 - m (G - 1)) <= 1. *)
Lemma GG_pow_bound m : GG ^ m * (1 - INR m * (GG - 1)) <= 1.
Proof.
  induction m as [|m IH]; [cbn; lra|].
  rewrite S_INR. cbn [pow]. pose proof (GG_pow m). pose proof GG_ge. pose proof (pos_INR m).
  assert (0 <= INR m * (GG - 1)) by nra.
  assert (GG * GG ^ m * (1 - (INR m + 1) * (GG - 1)) <= GG ^ m * (1 - INR m * (GG - 1))); [|lra].
  replace (GG * GG ^ m * (1 - (INR m + 1) * (GG - 1))) with (GG ^ m * (GG * (1 - (INR m + 1) * (GG - 1)))) by ring.
  apply Rmult_le_compat_l; [lra|]. nra.
Qed.

Lemma INR_2_21 m : (Z.of_nat m <= 2 ^ 21)%Z -> INR m <= 2097152.
Proof. intro H. rewrite INR_IZR_INZ. change 2097152 with (IZR (2 ^ 21)). now apply IZR_le. Qed.
Lemma GG_small m : (Z.of_nat m <= 2 ^ 21)%Z -> GG ^ m - 1 <= INR m * / 4194304 /\ GG ^ m <= 2.
Proof.
  intro H. pose proof (INR_2_21 m H). pose proof (GG_pow_bound m). pose proof (GG_pow m). pose proof (pos_INR m).
  assert (Hg : GG - 1 = / 8388608 + / 281474976710656) by (unfold GG, uu; lra).
  assert (Hm : INR m * (GG - 1) <= 0.25001) by (rewrite Hg; lra).
  assert (Hb : 0 <= INR m * (GG - 1)) by (rewrite Hg; lra).
  set (g := INR m * (GG - 1)) in *.
  assert (Hle : GG ^ m <= 1.34) by nra.
  assert (GG ^ m - 1 <= GG ^ m * g) by nra.
  assert (GG ^ m * g <= 1.34 * g) by nra.
  assert (1.34 * g <= INR m * / 4194304). { unfold g. rewrite Hg. lra. }
  lra.
Qed.

Lemma cost_nonneg m A : 0 <= A -> 0 <= cost m A.
Proof.
  intro HA. unfold cost. pose proof (GG_pow m). pose proof eta_pos. destruct m as [|m]; [cbn [pow INR]; lra|].
  rewrite S_INR. pose proof (pos_INR m).
  assert (Hb : eta <= (INR m + 1) * (4 * eta)) by nra.
  set (b := (INR m + 1) * (4 * eta)) in *. set (g := GG ^ S m) in *. clearbody b g.
  assert (1 * (A + b) <= g * (A + b)) by (apply Rmult_le_compat_r; lra). lra.
Qed.
(** Adding a product. *)
Lemma cost_step m A p : 0 <= A -> 0 <= p ->
  (1 + uu) * (cost m A + uu * p + eta) + uu * (A + p) + eta <= cost (S m) (A + p).
Proof.
  intros HA Hp. unfold cost. pose proof (GG_pow m). pose proof eta_pos. pose proof uu_pos. pose proof (pos_INR m).
  rewrite S_INR. cbn [pow].
  set (g := GG ^ m) in *.
  assert (E : (match m with O => 0 | S _ => eta end) >= 0) by (destruct m; lra).
  set (x := match m with O => 0 | S _ => eta end) in *. clearbody x g.
  assert (HG : GG = (1 + uu) * (1 + uu)) by reflexivity.
  apply Rle_trans with ((1 + uu) * g * (A + INR m * (4 * eta)) - A + (GG - 1) * p + (2 + uu) * eta); [rewrite HG; nra|].
  assert (K1 : (1 + uu) * g <= GG * g) by (rewrite HG; nra).
  assert (K2 : 0 <= A + INR m * (4 * eta)) by nra.
  assert (K3 : (1 + uu) * g * (A + INR m * (4 * eta)) <= GG * g * (A + INR m * (4 * eta))) by (apply Rmult_le_compat_r; lra).
  assert (K4 : 1 <= g) by lra. pose proof GG_ge.
  assert (K7 : GG <= GG * g) by nra. assert (K8 : 1 <= GG * g) by nra.
  assert (K5 : GG * p <= GG * g * p) by (apply Rmult_le_compat_r; lra).
  assert (K6 : 1 * (4 * eta) <= GG * g * (4 * eta)) by (apply Rmult_le_compat_r; lra).
  assert (K9 : (2 + uu) * eta <= 3 * eta) by nra.
  replace (GG * g * (A + p + (INR m + 1) * (4 * eta))) with
    (GG * g * (A + INR m * (4 * eta)) + GG * g * p + GG * g * (4 * eta)) by ring.
  lra.
Qed.
Lemma pow_le_r m n : GG ^ m <= GG ^ (m + n).
Proof. rewrite pow_add. pose proof (GG_pow m). pose proof (GG_pow n). nra. Qed.
(** Adding two partial sums. *)
Lemma cost_join m n A B : 0 <= A -> 0 <= B -> (0 < m)%nat -> (0 < n)%nat ->
  (1 + uu) * (cost m A + cost n B) + uu * (A + B) + eta <= cost (m + n) (A + B).
Proof.
  intros HA HB Hm Hn. unfold cost. pose proof (GG_pow m). pose proof (GG_pow n). pose proof eta_pos. pose proof uu_pos.
  pose proof (pos_INR m). pose proof (pos_INR n). pose proof GG_ge.
  rewrite plus_INR.
  assert (Hx : forall q, (0 < q)%nat -> (match q with O => 0 | S _ => eta end) = eta) by (intros [|q] Hq; [lia|reflexivity]).
  rewrite !Hx by lia.
  assert (HmG : (1 + uu) * GG ^ m <= GG ^ (m + n)).
  { rewrite pow_add. destruct n as [|n]; [lia|]. cbn [pow]. pose proof (GG_pow n).
    assert (1 + uu <= GG * GG ^ n) by (assert (1 + uu <= GG) by (unfold GG; nra); nra). nra. }
  assert (HnG : (1 + uu) * GG ^ n <= GG ^ (m + n)).
  { rewrite pow_add. destruct m as [|m]; [lia|]. cbn [pow]. pose proof (GG_pow m).
    assert (1 + uu <= GG * GG ^ m) by (assert (1 + uu <= GG) by (unfold GG; nra); nra). nra. }
  set (a := A + INR m * (4 * eta)) in *. set (b := B + INR n * (4 * eta)) in *.
  assert (0 <= a) by (unfold a; nra). assert (0 <= b) by (unfold b; nra).
  replace (A + B + (INR m + INR n) * (4 * eta)) with (a + b) by (unfold a, b; ring).
  assert ((1 + uu) * GG ^ m * a <= GG ^ (m + n) * a) by (apply Rmult_le_compat_r; lra).
  assert ((1 + uu) * GG ^ n * b <= GG ^ (m + n) * b) by (apply Rmult_le_compat_r; lra).
  nra.
Qed.

Lemma cost_bound m A : (Z.of_nat m <= 2 ^ 21)%Z -> 0 <= A ->
  cost m A <= INR m * / 4194304 * A + INR m * bpow radix2 (-147).
Proof.
  intros Hm HA. destruct (GG_small m Hm) as (H1 & H2). pose proof eta_pos. pose proof (pos_INR m). pose proof (GG_pow m).
  assert (E : bpow radix2 (-147) = 8 * eta).
  { unfold eta. change 8 with (bpow radix2 3). rewrite <- bpow_plus. reflexivity. }
  rewrite E. unfold cost.
  assert (0 <= match m with O => 0 | S _ => eta end) by (destruct m; lra).
  assert (0 <= INR m * (4 * eta)) by nra.
  assert (GG ^ m * (INR m * (4 * eta)) <= 2 * (INR m * (4 * eta))) by nra.
  nra.
Qed.
Lemma modA A r m s : (Z.of_nat m <= 2 ^ 21)%Z -> 0 <= A <= IZR (2 ^ 98) -> Rabs s <= A -> Rabs (r - s) <= cost m A -> Rabs r <= A + cost m A.
Proof. intros _ HA Hs Hr. replace r with (s + (r - s)) by ring. eapply Rle_trans; [apply Rabs_triang|]. lra. Qed.

Lemma bpow_147_small : bpow radix2 (-147) <= 1.
Proof. change 1 with (bpow radix2 0). apply bpow_le. lia. Qed.
Lemma cost_moderate m A : (Z.of_nat m <= 2 ^ 21)%Z -> 0 <= A <= IZR (2 ^ 98) -> A + cost m A <= 2 * IZR (2 ^ 98).
Proof.
  intros Hm HA. pose proof (cost_bound m A Hm (proj1 HA)). pose proof (INR_2_21 m Hm). pose proof (pos_INR m). pose proof bpow_147_small.
  pose proof (bpow_gt_0 radix2 (-147)).
  assert (INR m * / 4194304 * A <= 1 / 2 * A) by nra.
  assert (INR m * bpow radix2 (-147) <= 2097152) by nra.
  assert (4194304 <= IZR (2 ^ 98)) by (apply IZR_le; lia). lra.
Qed.

Section Sum.
Variables (n : nat) (x w : nat -> f32) (X W : nat -> R).
Hypothesis FX : forall k, (k < n)%nat -> fin (x k) (X k).
Hypothesis FW : forall k, (k < n)%nat -> fin (w k) (W k).
Let P (k : nat) : R := X k * W k.
Let AA (l : list nat) : R := lsum (fun k => Rabs (P k)) l.
Let SS (l : list nat) : R := lsum P l.

Theorem summed_error l v : summed n x w l v -> AA l <= IZR (2 ^ 98) -> (Z.of_nat (length l) <= 2 ^ 21)%Z ->
  exists r, fin v r /\ Rabs (r - SS l) <= cost (length l) (AA l).
Proof using FX FW.
  revert l v.
  assert (B100 : 4 * IZR (2 ^ 98) <= IZR (2 ^ 100)) by (rewrite <- mult_IZR; apply IZR_le; lia).
  assert (A0 : forall l, 0 <= AA l) by (intro; apply lsum_nonneg; intro; apply Rabs_pos).
  assert (SA : forall l, Rabs (SS l) <= AA l) by (intro; apply lsum_abs).
  pose proof eta_pos as Epos. pose proof uu_pos as Upos.
  assert (ROUND : forall z s e t, Rabs (z - s) <= e -> Rabs s <= t -> Rabs (rnd z - s) <= (1 + uu) * e + uu * t + eta).
  { intros z s e t H1 H2. pose proof (rnd_abs z) as Hr. fold uu in Hr. fold eta in Hr.
    assert (Rabs z <= e + t). { replace z with ((z - s) + s) by ring. eapply Rle_trans; [apply Rabs_triang|]. lra. }
    replace (rnd z - s) with ((rnd z - z) + (z - s)) by ring. eapply Rle_trans; [apply Rabs_triang|]. nra. }
  assert (PRODUCT : forall k, (k < n)%nat -> Rabs (P k) <= IZR (2 ^ 98) -> fin (fmul (x k) (w k)) (rnd (P k)) /\ Rabs (rnd (P k) - P k) <= uu * Rabs (P k) + eta).
  { intros k Hk Hp. split; [|apply rnd_abs]. apply fmul_fin; auto. unfold moderate. fold (P k). lra. }
  assert (UNF : forall l a k, (k < n)%nat -> AA (k :: l) <= IZR (2 ^ 98) -> (Z.of_nat (length (k :: l)) <= 2 ^ 21)%Z ->
    fin (a) (B2R a) -> Rabs (B2R a - SS l) <= cost (length l) (AA l) ->
    moderate (rnd (P k) + B2R a) /\ Rabs (rnd (rnd (P k) + B2R a) - SS (k :: l)) <= cost (length (k :: l)) (AA (k :: l))).
  { intros l a k Hk HA Hl Fa Ha. cbn [length] in *.
    assert (HP : 0 <= Rabs (P k)) by apply Rabs_pos.
    assert (HAk : AA (k :: l) = AA l + Rabs (P k)) by (unfold AA; cbn [lsum]; ring).
    assert (HSk : SS (k :: l) = P k + SS l) by reflexivity.
    pose proof (A0 l). destruct (PRODUCT k Hk ltac:(lra)) as (_ & Pr).
    pose proof (cost_step (length l) (AA l) (Rabs (P k)) (A0 l) HP) as CS.
    assert (D : Rabs (rnd (P k) + B2R a - SS (k :: l)) <= cost (length l) (AA l) + uu * Rabs (P k) + eta).
    { rewrite HSk. replace (rnd (P k) + B2R a - (P k + SS l)) with ((B2R a - SS l) + (rnd (P k) - P k)) by ring.
      eapply Rle_trans; [apply Rabs_triang|]. lra. }
    split.
    - unfold moderate. pose proof (cost_moderate (length l) (AA l) ltac:(lia) ltac:(lra)).
      replace (rnd (P k) + B2R a) with (SS (k :: l) + (rnd (P k) + B2R a - SS (k :: l))) by ring.
      eapply Rle_trans; [apply Rabs_triang|]. pose proof (SA (k :: l)).
      assert (eta <= 1) by (unfold eta; change 1 with (bpow radix2 0); apply bpow_le; lia).
      assert (4 <= IZR (2 ^ 98)) by (apply IZR_le; lia). nra.
    - eapply Rle_trans; [eapply ROUND; [exact D|apply SA]|]. rewrite HAk. lra. }
  assert (ZERO : forall z : f32, (z = f0 \/ exists k, (k < n)%nat /\ z = w k) -> exists q, fin z q).
  { intros z [->|(k & Hk & ->)]; [exists 0; apply f0_fin|eauto]. }
  assert (SAME : forall a r l, fin a r -> AA l <= IZR (2 ^ 98) -> (Z.of_nat (length l) <= 2 ^ 21)%Z -> Rabs (r - SS l) <= cost (length l) (AA l) -> moderate r /\ rnd r = r).
  { intros a r l Fr HA Hl Hr. split; [|apply rnd_fmt; eapply fin_fmt; eassumption].
    unfold moderate. pose proof (modA (AA l) r (length l) (SS l) Hl (conj (A0 l) HA) (SA l) Hr).
    pose proof (cost_moderate (length l) (AA l) Hl (conj (A0 l) HA)). lra. }
  induction 1 as [|k Hk|l a k Hk _ IH|l a k Hk _ IH|l a k Hk _ IH|l a z Hz _ IH|l a z Hz _ IH|l m a b Sl IHl Sm IHm]; intros HA Hlen.
  - exists 0. split; [apply f0_fin|]. unfold SS, cost. cbn. rewrite Rminus_0_r, Rabs_R0. lra.
  - assert (HAk : AA [k] = 0 + Rabs (P k)) by (unfold AA; cbn [lsum]; ring).
    assert (HSk : SS [k] = P k) by (unfold SS; cbn [lsum]; ring).
    destruct (PRODUCT k Hk ltac:(lra)) as (F & E). exists (rnd (P k)). split; [exact F|].
    pose proof (cost_step 0 0 (Rabs (P k)) ltac:(lra) (Rabs_pos _)) as CS. rewrite HAk, HSk. cbn [length].
    eapply Rle_trans; [exact E|]. eapply Rle_trans; [|exact CS].
    pose proof (cost_nonneg 0 0 ltac:(lra)). pose proof (Rabs_pos (P k)). nra.
  - assert (HAk : AA (k :: l) = AA l + Rabs (P k)) by (unfold AA; cbn [lsum]; ring).
    assert (HSk : SS (k :: l) = P k + SS l) by reflexivity.
    cbn [length] in *. pose proof (Rabs_pos (P k)) as HP.
    destruct IH as (r & Fr & Er); [lra|lia|].
    pose proof (cost_step (length l) (AA l) (Rabs (P k)) (A0 l) HP) as CS.
    assert (D : Rabs (P k + r - SS (k :: l)) <= cost (length l) (AA l)).
    { rewrite HSk. replace (P k + r - (P k + SS l)) with (r - SS l) by ring. exact Er. }
    exists (rnd (P k + r)). split.
    + apply ffma_fin; auto. fold (P k). unfold moderate.
      pose proof (cost_moderate (length l) (AA l) ltac:(lia) ltac:(pose proof (A0 l); lra)).
      replace (P k + r) with (SS (k :: l) + (P k + r - SS (k :: l))) by ring.
      eapply Rle_trans; [apply Rabs_triang|]. pose proof (SA (k :: l)). pose proof (A0 l). lra.
    + eapply Rle_trans; [eapply ROUND; [exact D|apply SA]|]. rewrite HAk in *. nra.
  - destruct IH as (r & Fr & Er); [unfold AA in *; cbn [lsum] in HA; pose proof (Rabs_pos (P k)); lra|cbn [length] in Hlen; lia|].
    destruct Fr as (Fa & <-). destruct (UNF l a k Hk HA Hlen ltac:(now split) Er) as (M & E).
    exists (rnd (rnd (P k) + B2R a)). split; [|exact E].
    apply fadd_fin; [|now split|exact M]. apply PRODUCT; auto. unfold AA in HA. cbn [lsum] in HA. pose proof (A0 l). unfold AA in *. lra.
  - destruct IH as (r & Fr & Er); [unfold AA in *; cbn [lsum] in HA; pose proof (Rabs_pos (P k)); lra|cbn [length] in Hlen; lia|].
    destruct Fr as (Fa & <-). destruct (UNF l a k Hk HA Hlen ltac:(now split) Er) as (M & E).
    exists (rnd (B2R a + rnd (P k))). split; [|rewrite (Rplus_comm (B2R a)); exact E].
    apply fadd_fin; [now split| |rewrite Rplus_comm; exact M]. apply PRODUCT; auto. unfold AA in HA. cbn [lsum] in HA. pose proof (A0 l). unfold AA in *. lra.
  - destruct IH as (r & Fr & Er); auto. destruct (ZERO z Hz) as (q & Fq). destruct (SAME a r l Fr HA Hlen Er) as (M & Rr).
    exists r. split; [|exact Er]. replace r with (rnd (0 * q + r)) by (rewrite Rmult_0_l, Rplus_0_l; exact Rr).
    apply ffma_fin; auto using f0_fin. rewrite Rmult_0_l, Rplus_0_l. exact M.
  - destruct IH as (r & Fr & Er); auto. destruct (ZERO z Hz) as (q & Fq). destruct (SAME a r l Fr HA Hlen Er) as (M & Rr).
    assert (F0 : fin (fmul f0 z) 0).
    { replace 0 with (rnd (0 * q)) by (rewrite Rmult_0_l; apply rnd_fmt, fmt_0). apply fmul_fin; auto using f0_fin.
      unfold moderate. rewrite Rmult_0_l, Rabs_R0. apply IZR_le. lia. }
    exists r. split; [|exact Er]. replace r with (rnd (0 + r)) by (rewrite Rplus_0_l; exact Rr).
    apply fadd_fin; auto. rewrite Rplus_0_l. exact M.
  - rewrite app_length in Hlen. assert (HAA : AA (l ++ m) = AA l + AA m) by apply lsum_app.
    assert (HSS : SS (l ++ m) = SS l + SS m) by apply lsum_app. pose proof (A0 l). pose proof (A0 m).
    destruct IHl as (r & Fr & Er); [lra|lia|]. destruct IHm as (s & Fs & Es); [lra|lia|].
    rewrite HAA, HSS, app_length in *.
    assert (D : Rabs (r + s - (SS l + SS m)) <= cost (length l) (AA l) + cost (length m) (AA m)).
    { replace (r + s - (SS l + SS m)) with ((r - SS l) + (s - SS m)) by ring. eapply Rle_trans; [apply Rabs_triang|]. lra. }
    assert (M : moderate (r + s)).
    { unfold moderate. eapply Rle_trans; [apply Rabs_triang|].
      pose proof (modA (AA l) r (length l) (SS l) ltac:(lia) ltac:(lra) (SA l) Er).
      pose proof (modA (AA m) s (length m) (SS m) ltac:(lia) ltac:(lra) (SA m) Es).
      pose proof (cost_moderate (length l) (AA l) ltac:(lia) ltac:(lra)). pose proof (cost_moderate (length m) (AA m) ltac:(lia) ltac:(lra)). lra. }
    exists (rnd (r + s)). split; [now apply fadd_fin|].
    assert (Z0 : forall q : list nat, length q = 0%nat -> AA q = 0 /\ SS q = 0) by (intros [|]; [split; reflexivity|discriminate]).
    assert (C00 : cost 0 0 = 0) by (unfold cost; cbn; lra).
    destruct (Nat.eq_dec (length l) 0) as [El|Nl].
    + destruct (Z0 l El) as (Za & Zs). rewrite El, Za, Zs, C00 in *. rewrite Rminus_0_r in Er.
      assert (r = 0) by (clear - Er; revert Er; unfold Rabs; destruct (Rcase_abs r); lra). subst r. rewrite !Rplus_0_l. cbn [Nat.add].
      rewrite (rnd_fmt s) by (eapply fin_fmt; eassumption). exact Es.
    + destruct (Nat.eq_dec (length m) 0) as [Em|Nm].
      * destruct (Z0 m Em) as (Za & Zs). rewrite Em, Za, Zs, C00 in *. rewrite Rminus_0_r in Es.
        assert (s = 0) by (clear - Es; revert Es; unfold Rabs; destruct (Rcase_abs s); lra). subst s. rewrite !Rplus_0_r, Nat.add_0_r.
        rewrite (rnd_fmt r) by (eapply fin_fmt; eassumption). exact Er.
      * eapply Rle_trans; [eapply ROUND; [exact D|]|].
        -- eapply Rle_trans; [apply Rabs_triang|]. apply Rplus_le_compat; apply SA.
        -- apply cost_join; auto; lia.
Qed.
End Sum.
