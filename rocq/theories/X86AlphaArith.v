(** The arithmetic of the x86 alpha code. *)
From Coq Require Import ZArith Reals List Lia Lra Bool ZifyBool ZifyNat Psatz.
From Flocq Require Import Core.Core IEEE754.BinarySingleNaN.
From Verif Require Import Base ImageStore FixedPoint Spec SpecApi SpecAlpha F32 F32Proofs FloatErr Alpha AlphaArith
  Simd SimdProofs X86Alpha X86AlphaProofs SpecX86Alpha.
Import ListNotations.
Local Open Scope Z_scope.

Lemma simd_div_spec v : 0 <= v <= 65025 -> simd_div v = vector_div255 v.
Proof.
  intro H. unfold simd_div, vector_div255, nearest_div, short_by_one. change (2 * 255) with 510.
  pose proof (Z.div_mod v 255 ltac:(lia)) as E. pose proof (Z.mod_pos_bound v 255 ltac:(lia)) as B.
  set (q := v / 255) in *. set (r := v mod 255) in *. clearbody q r. subst v.
  assert (Hq : 0 <= q <= 255) by lia.
  replace ((2 * (255 * q + r) + 255) / 510) with (q + (if 128 <=? r then 1 else 0)).
  2:{ destruct (Z.leb_spec 128 r); [apply Z.div_unique with (r := 2 * r - 255)|apply Z.div_unique with (r := 2 * r + 255)]; lia. }
  destruct (Z.eqb_spec r 128); destruct (Z.eqb_spec r 129); destruct (Z.leb_spec 130 q); destruct (Z.leb_spec 128 r); cbn [orb andb]; try lia.
Qed.

(** ** Reciprocals *)
Local Open Scope R_scope.
Lemma cvtps_fin x r : fin x r -> Rabs r <= 2 ^ 30 -> cvtps x = ZnearestE r.
Proof.
  intros [F V] B.
  assert (N : IZR (ZnearestE r) = B2R (Bnearbyint mode_NE x)).
  { destruct (Bnearbyint_correct 24 128 _ mode_NE x) as [R _]. rewrite R, V. now rewrite round_FIX0. }
  assert (C : cvtps x = let t := Btrunc (Bnearbyint mode_NE x) in if ((- 2 ^ 31 <=? t) && (t <? 2 ^ 31))%Z%bool then t else (- 2 ^ 31)%Z).
  { unfold cvtps. destruct x; try discriminate; reflexivity. }
  rewrite C. cbv zeta. rewrite Btrunc_val, <- N, Ztrunc_IZR.
  assert (- 2 ^ 31 <= ZnearestE r < 2 ^ 31)%Z.
  { assert (Q : Rabs (IZR (ZnearestE r) - r) <= / 2) by (rewrite Rabs_minus_sym; apply Znearest_half).
    apply Rabs_le_inv in B. apply Rabs_le_inv in Q. split.
    - apply le_IZR. change (IZR (- 2 ^ 31)) with (-2147483648). lra.
    - apply lt_IZR. change (IZR (2 ^ 31)) with 2147483648. lra. }
  destruct (Z.leb_spec (- 2 ^ 31) (ZnearestE r)); destruct (Z.ltb_spec (ZnearestE r) (2 ^ 31)); cbn [andb]; try lia.
Qed.
Lemma quotient_ok rcp c a : rcp_accurate rcp -> (0 <= c <= 255)%Z -> (1 <= a <= 255)%Z ->
  exists v, scaled_quotient rcp c a = ZnearestE v /\ Rabs (v * IZR a - 255 * IZR c) <= 255 * IZR c * (3 / 8000).
Proof.
  intros Hr Hc Ha. destruct (Hr a Ha) as (r & F & E).
  assert (C0 : 0 <= IZR c <= 255) by (split; apply IZR_le; lia).
  assert (A0 : 1 <= IZR a <= 255) by (split; apply IZR_le; lia).
  assert (P1 : fin (fmul (fZ c 0) (fZ 255 0)) (IZR c * 255)).
  { replace (IZR c * 255) with (rnd (IZR c * 255)). 
    - apply fmul_fin; [apply fint_exact; lia|apply fint_exact; lia|]. unfold moderate. rewrite Rabs_pos_eq by lra.
      apply Rle_trans with 65025; [lra|]. apply IZR_le. lia.
    - apply rnd_fmt. rewrite <- mult_IZR. apply fmt_IZR. lia. }
  assert (Rr : Rabs (IZR c * 255 * r) <= 2 ^ 20).
  { apply Rabs_le_inv in E. apply Rabs_le. 
    assert (r <= 2) by nra. assert (0 <= r) by nra. split; nra. }
  assert (P2 : fin (fmul (fmul (fZ c 0) (fZ 255 0)) (rcp (fZ a 0))) (rnd (IZR c * 255 * r))).
  { apply fmul_fin; [exact P1|exact F|]. unfold moderate. eapply Rle_trans; [exact Rr|]. change (2 ^ 20) with (2 ^ 20). rewrite pow_IZR. apply IZR_le. cbn. lia. }
  pose proof (rnd_abs (IZR c * 255 * r)) as D.
  set (v := rnd (IZR c * 255 * r)) in *. exists v.
  assert (Tb : bpow radix2 (-150) <= / 1267650600228229401496703205376) by (change (bpow radix2 (-150)) with (/ IZR (2 ^ 150)); apply Rinv_le; [lra|apply IZR_le; cbn; lia]).
  split.
  - unfold scaled_quotient. apply cvtps_fin; [exact P2|]. 
    assert (Rabs v <= Rabs (v - IZR c * 255 * r) + Rabs (IZR c * 255 * r)) by (eapply Rle_trans; [|apply Rabs_triang]; right; f_equal; ring).
    lra.
  - destruct (Z.eq_dec c 0) as [->|Nc].
    + unfold v. rewrite Rmult_0_l, Rmult_0_l, rnd_fmt by apply fmt_0. rewrite Rmult_0_l, Rmult_0_r, Rminus_0_r, Rabs_R0. lra.
    + assert (C1 : 1 <= IZR c) by (apply IZR_le; lia).
      replace (v * IZR a - 255 * IZR c) with ((v - IZR c * 255 * r) * IZR a + 255 * IZR c * (r * IZR a - 1)) by ring.
      eapply Rle_trans; [apply Rabs_triang|]. rewrite !Rabs_mult. rewrite (Rabs_pos_eq (IZR a)), (Rabs_pos_eq 255), (Rabs_pos_eq (IZR c)) by lra.
      set (X := 255 * IZR c) in *. assert (0 <= X) by (unfold X; lra).
      assert (r <= 2) by (apply Rabs_le_inv in E; nra). assert (0 <= r) by (apply Rabs_le_inv in E; nra).
      assert (Q1 : Rabs (v - IZR c * 255 * r) * IZR a <= (/ 16777216 * Rabs (IZR c * 255 * r) + bpow radix2 (-150)) * IZR a) by (apply Rmult_le_compat_r; lra).
      assert (Q2 : Rabs (IZR c * 255 * r) * IZR a <= X * (1 + 3 / 8192)).
      { rewrite Rabs_pos_eq by (unfold X in *; nra). replace (IZR c * 255 * r * IZR a) with (X * (r * IZR a)) by (unfold X; ring).
        apply Rmult_le_compat_l; [lra|]. apply Rabs_le_inv in E. lra. }
      assert (Q3 : X * Rabs (r * IZR a - 1) <= X * (3 / 8192)) by (apply Rmult_le_compat_l; lra).
      assert (255 <= X) by (unfold X; lra).
      assert (Q4 : bpow radix2 (-150) * IZR a <= / 1267650600228229401496703205376 * 255) by (apply Rmult_le_compat; try lra; apply bpow_ge_0).
      lra.
Qed.
Lemma nearest_bounds v : v - / 2 <= IZR (ZnearestE v) <= v + / 2.
Proof. pose proof (Znearest_half (fun x => negb (Z.even x)) v) as H. apply Rabs_le_inv in H. lra. Qed.
Lemma un_sse_value rcp c a : rcp_accurate rcp -> (0 <= c <= 255)%Z -> (1 <= a <= 255)%Z -> unassociated c a (un_sse rcp c a).
Proof.
  intros Hr Hc Ha. destruct (quotient_ok rcp c a Hr Hc Ha) as (v & E & B). unfold unassociated, un_sse.
  replace (a =? 0)%Z with false by lia. rewrite E. pose proof (nearest_bounds v) as N. set (n := ZnearestE v) in *.
  assert (C0 : 0 <= IZR c <= 255) by (split; apply IZR_le; lia).
  assert (A0 : 1 <= IZR a <= 255) by (split; apply IZR_le; lia).
  apply Rabs_le_inv in B. 
  (* bounds on a * n *)
  assert (L1 : IZR a * IZR n <= 255 * IZR c * (1 + 3 / 8000) + IZR a / 2) by nra.
  assert (L2 : 255 * IZR c * (1 - 3 / 8000) - IZR a / 2 <= IZR a * IZR n) by nra.
  assert (Z1 : (16000 * (a * n) <= 2 * 255 * c * 8003 + 8000 * a)%Z).
  { apply le_IZR. rewrite !plus_IZR, !mult_IZR. lra. }
  assert (Z2 : (2 * 255 * c * 7997 - 8000 * a <= 16000 * (a * n))%Z).
  { apply le_IZR. rewrite !minus_IZR, !mult_IZR. lra. }
  unfold clampZ. destruct (Z.le_gt_cases 0 n); [|assert (a * n <= - a)%Z by nia].
  2:{ replace (Z.max 0 (Z.min 255 n)) with 0%Z by lia. assert (c = 0)%Z by nia. subst c. lia. }
  destruct (Z.le_gt_cases n 255).
  - replace (Z.max 0 (Z.min 255 n)) with n by lia. destruct (Z.le_gt_cases c a).
    + rewrite Z.min_l by lia. assert (2 * 255 * c * 3 <= 1530 * a)%Z by lia. lia.
    + rewrite Z.min_r by lia. assert (a * n <= 255 * a)%Z by nia. lia.
  - replace (Z.max 0 (Z.min 255 n)) with 255%Z by lia. assert (256 * a <= a * n)%Z by nia.
    destruct (Z.le_gt_cases c a); [|lia]. rewrite Z.min_l by lia. lia.
Qed.
Lemma un_avx_cases rcp c a : rcp_accurate rcp -> (0 <= c <= 255)%Z -> (0 <= a <= 255)%Z ->
  un_avx rcp c a = if ((a =? 1) && (129 <=? c))%Z then 0%Z else un_sse rcp c a.
Proof.
  intros Hr Hc Ha. unfold un_avx, un_sse. destruct (Z.eqb_spec a 0) as [->|Na]; [reflexivity|].
  destruct (quotient_ok rcp c a Hr Hc ltac:(lia)) as (v & E & B). rewrite E. pose proof (nearest_bounds v) as N. set (n := ZnearestE v) in *.
  assert (C0 : 0 <= IZR c <= 255) by (split; apply IZR_le; lia).
  assert (A0 : 1 <= IZR a <= 255) by (split; apply IZR_le; lia).
  apply Rabs_le_inv in B. 
  assert (L1 : IZR a * IZR n <= 255 * IZR c * (1 + 3 / 8000) + IZR a / 2) by nra.
  assert (L2 : 255 * IZR c * (1 - 3 / 8000) - IZR a / 2 <= IZR a * IZR n) by nra.
  assert (Z1 : (16000 * (a * n) <= 2 * 255 * c * 8003 + 8000 * a)%Z).
  { apply le_IZR. rewrite !plus_IZR, !mult_IZR. lra. }
  assert (Z2 : (2 * 255 * c * 7997 - 8000 * a <= 16000 * (a * n))%Z).
  { apply le_IZR. rewrite !minus_IZR, !mult_IZR. lra. }
  destruct (Z.eqb_spec a 1) as [->|N1]; cbn [andb].
  - destruct (Z.leb_spec 129 c); destruct (Z.leb_spec 32768 n); try reflexivity; lia.
  - destruct (Z.leb_spec 32768 n); [|reflexivity]. assert (65536 <= a * n)%Z by nia. nia.
Qed.
(** The correctly rounded reciprocal is accurate enough. *)
Lemma exact_rcp_accurate : rcp_accurate (fdiv f1).
Proof.
  intros a Ha. assert (A0 : 1 <= IZR a <= 255) by (split; apply IZR_le; lia).
  assert (I0 : 0 < / IZR a <= 1) by (split; [apply Rinv_0_lt_compat; lra|rewrite <- Rinv_1; apply Rinv_le; lra]).
  exists (rnd (1 / IZR a)). split.
  - apply fdiv_fin; [apply f1_fin|apply fint_exact; lia|lra|]. unfold moderate. unfold Rdiv. rewrite Rmult_1_l, Rabs_pos_eq by lra.
    apply Rle_trans with 1; [lra|]. apply IZR_le. lia.
  - pose proof (rnd_abs (1 / IZR a)) as D. unfold Rdiv in *. rewrite Rmult_1_l in *. rewrite (Rabs_pos_eq (/ IZR a)) in D by lra.
    assert (Tb : bpow radix2 (-150) <= / 1267650600228229401496703205376) by (change (bpow radix2 (-150)) with (/ IZR (2 ^ 150)); apply Rinv_le; [lra|apply IZR_le; cbn; lia]).
    replace (rnd (/ IZR a) * IZR a - 1) with ((rnd (/ IZR a) - / IZR a) * IZR a) by (field; lra).
    rewrite Rabs_mult, (Rabs_pos_eq (IZR a)) by lra.
    apply Rle_trans with ((/ 16777216 + / 1267650600228229401496703205376) * 255); [|lra].
    apply Rmult_le_compat; try lra; apply Rabs_pos.
Qed.
