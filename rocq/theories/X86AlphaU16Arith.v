(** The arithmetic of the 16-bit x86 alpha code. *)
From Coq Require Import ZArith Reals List Lia Lra Bool ZifyBool ZifyNat Psatz.
From Flocq Require Import Core.Core IEEE754.BinarySingleNaN.
From Verif Require Import Base ImageStore FixedPoint Spec SpecApi SpecAlpha F32 F32Proofs FloatErr FloatSumErr WeightSum Alpha AlphaArith AlphaArith16
  X86Alpha X86AlphaU16 X86AlphaArith SpecX86AlphaU16.
Import ListNotations.
Local Open Scope Z_scope.

(** ** Integer premultiplication *)
Lemma signed_small n c a : 1 <= n <= 16 -> 0 <= c <= 2 ^ n - 1 -> 0 <= a <= 2 ^ n - 1 -> c <= 32767 -> a <= 32767 ->
  signed_associate n c a = nearest_div (c * a) (2 ^ n - 1).
Proof.
  intros Hn Hc Ha Hc' Ha'. unfold signed_associate, signed16.
  replace (c <? 32768) with true by lia. replace (a <? 32768) with true by lia.
  pose proof (shift_div n (2 ^ n - 1) (c * a) ltac:(lia) eq_refl) as S.
  assert (P0 : 0 <= c * a <= (2 ^ n - 1) * (2 ^ n - 1)) by nia.
  assert (P1 : c * a <= 32767 * 32767) by nia.
  specialize (S P0).
  assert (B : 0 < 2 ^ (n - 1) <= 32768) by (split; [apply Z.pow_pos_nonneg; lia|change 32768 with (2 ^ 15); apply Z.pow_le_mono_r; lia]).
  assert (B' : 2 <= 2 ^ n <= 65536) by (split; [change 2 with (2 ^ 1) at 1|change 65536 with (2 ^ 16)]; apply Z.pow_le_mono_r; lia).
  cbv zeta. set (v := c * a + 2 ^ (n - 1)) in *.
  assert (V : 0 <= v <= 2 ^ 31) by (unfold v; lia).
  rewrite (Z.mod_small v) by lia.
  assert (D : 0 <= v / 2 ^ n <= v / 2) by (split; [apply Z.div_pos; lia|apply Z.div_le_compat_l; lia]).
  rewrite (Z.mod_small (v + v / 2 ^ n)).
  2:{ assert (v / 2 <= 2 ^ 30) by (apply Z.div_le_upper_bound; lia). lia. }
  rewrite (Z.add_comm v), S. apply Z.min_r.
  unfold nearest_div. apply Z.div_le_upper_bound; nia.
Qed.
Lemma signed_opaque c : 0 <= c <= 65535 -> signed_associate 16 c 65535 = if c =? 32768 then 1 else 0.
Proof.
  intro Hc. unfold signed_associate. change (signed16 65535) with (-1). cbv zeta. change (2 ^ (16 - 1)) with 32768. change (2 ^ 16) with 65536. change (2 ^ 32) with 4294967296.
  assert (S : 1 <= signed16 c * -1 + 32768 <= 65536 /\ (signed16 c * -1 + 32768 = 65536 <-> c = 32768)).
  { unfold signed16. destruct (Z.ltb_spec c 32768); lia. }
  set (v := signed16 c * -1 + 32768) in *. clearbody v. destruct S as (S1 & S2). rewrite (Z.mod_small v) by lia.
  destruct (Z.eqb_spec c 32768) as [E|E].
  - rewrite (proj2 S2 E). reflexivity.
  - assert (v <> 65536) by tauto. rewrite (Z.div_small v) by lia. rewrite Z.mod_small by lia. rewrite (Z.div_small (v + 0)) by lia. reflexivity.
Qed.

(** ** Floats *)
Local Open Scope R_scope.
Lemma rel_up x : / 10000000000 <= x -> exists d, - / 16777216 <= d <= / 16777216 /\ rnd x = x * (1 + d).
Proof.
  intro H. destruct (rnd_rel x) as (d & D & E).
  - rewrite Rabs_pos_eq by lra. pose proof b120. lra.
  - exists d. split; [apply Rabs_le_inv; exact D|exact E].
Qed.
Lemma mod30 x : Rabs x <= 2 ^ 33 -> moderate x.
Proof. intro H. unfold moderate. eapply Rle_trans; [exact H|]. rewrite pow_IZR. apply IZR_le. apply Z.pow_le_mono_r; lia. Qed.
Lemma half_fin : fin (fZ 1 (-1)) (/ 2).
Proof. replace (/ 2) with (1 / 2) by field. exact fhalf_fin. Qed.
(** Rounding to an integer before the conversion changes nothing. *)
Lemma cvtps_round x r : fin x r -> Rabs r <= 2 ^ 29 -> cvtps (Bnearbyint mode_NE x) = ZnearestE r.
Proof.
  intros [F V] B.
  destruct (Bnearbyint_correct 24 128 _ mode_NE x) as (R & Fn & _). rewrite V, round_FIX0 in R.
  rewrite (cvtps_fin _ (IZR (ZnearestE r))).
  - apply Znearest_imp. rewrite Rminus_eq_0, Rabs_R0. lra.
  - split; [now rewrite Fn|exact R].
  - pose proof (nearest_bounds r) as N. apply Rabs_le_inv in B. apply Rabs_le.
    assert (2 ^ 29 = 536870912) by ring. assert (2 ^ 30 = 1073741824) by ring. lra.
Qed.

(** A value near the quotient. *)
Definition near_by (Q v h : R) : Prop := Q * (1 - 3 / 8000) + h <= v <= Q * (1 + 3 / 8000) + h.

Section Un.
Variables (rcp : f32 -> f32) (M c a : Z).
Hypothesis (Hr : rcp_accurate16 rcp) (Ha : (1 <= a <= M)%Z) (HM : (M <= 65535)%Z) (Hc : (0 <= c <= a)%Z).
Let Q := IZR M * IZR c / IZR a.
Lemma un_factor : exists s, fin (fmul (rcp (fZ a 0)) (fZ M 0)) s /\ IZR M / IZR a * (1 - 3 / 8180) <= s <= IZR M / IZR a * (1 + 3 / 8180).
Proof using Hr Ha HM.
  destruct (Hr a ltac:(lia)) as (r & F & E). apply Rabs_le_inv in E.
  assert (A0 : 1 <= IZR a <= IZR M) by (split; apply IZR_le; lia).
  assert (M0 : IZR M <= 65535) by (apply IZR_le; lia).
  assert (R0 : r = / IZR a * (1 + (r * IZR a - 1))) by (field; lra).
  set (e := r * IZR a - 1) in *.
  assert (I0 : / 65535 <= / IZR a <= 1) by (split; [apply Rinv_le; lra|rewrite <- Rinv_1; apply Rinv_le; lra]).
  assert (P : r * IZR M = IZR M / IZR a * (1 + e)) by (rewrite R0; unfold Rdiv; ring).
  assert (G : 1 <= IZR M / IZR a <= 65535).
  { unfold Rdiv. split.
    - rewrite <- (Rinv_r (IZR a)) by lra. apply Rmult_le_compat_r; lra.
    - apply Rle_trans with (IZR M * 1); [apply Rmult_le_compat_l; lra|lra]. }
  set (g := IZR M / IZR a) in *.
  assert (B : 0.9 <= r * IZR M <= 70000) by (rewrite P; split; nra).
  destruct (rel_up (r * IZR M)) as (d & D & Ed). { lra. }
  exists (rnd (r * IZR M)). split.
  - apply fmul_fin; [exact F|apply fint_exact; lia|]. apply mod30. rewrite Rabs_pos_eq by lra. assert (2 ^ 33 = 8589934592) by ring. lra.
  - rewrite Ed, P. replace (g * (1 + e) * (1 + d)) with (g * ((1 + e) * (1 + d))) by ring.
    assert (1 - 3 / 8180 <= (1 + e) * (1 + d) <= 1 + 3 / 8180) by (split; nra). nra.
Qed.
(** The three forms of the product. *)
Lemma un_values x s : fin x s -> IZR M / IZR a * (1 - 3 / 8180) <= s <= IZR M / IZR a * (1 + 3 / 8180) ->
  0 <= Q <= 65535 /\
  (exists v, fin (fmul (fZ c 0) x) v /\ near_by Q v 0) /\
  (exists v, fin (ffma (fZ c 0) x (fZ 1 (-1))) v /\ near_by Q v (/ 2)) /\
  (exists v, fin (fadd (fZ 1 (-1)) (fmul (fZ c 0) x)) v /\ near_by Q v (/ 2)).
Proof using Ha HM Hc.
  intros F B. unfold near_by.
  assert (A0 : 1 <= IZR a <= IZR M) by (split; apply IZR_le; lia).
  assert (M0 : IZR M <= 65535) by (apply IZR_le; lia).
  assert (C0 : 0 <= IZR c <= IZR a) by (split; apply IZR_le; lia).
  assert (I0 : / 65535 <= / IZR a <= 1) by (split; [apply Rinv_le; lra|rewrite <- Rinv_1; apply Rinv_le; lra]).
  assert (EQ : Q = IZR c * (IZR M / IZR a)) by (unfold Q, Rdiv; ring).
  assert (G : 1 <= IZR M / IZR a <= 65535).
  { unfold Rdiv. split.
    - rewrite <- (Rinv_r (IZR a)) by lra. apply Rmult_le_compat_r; lra.
    - apply Rle_trans with (IZR M * 1); [apply Rmult_le_compat_l; lra|lra]. }
  assert (Q0 : 0 <= Q <= 65535).
  { split; [rewrite EQ; nra|]. unfold Q. apply Rle_trans with (IZR M * IZR a / IZR a); [|unfold Rdiv; rewrite Rmult_assoc, Rinv_r; lra].
    unfold Rdiv. apply Rmult_le_compat_r; [lra|]. apply Rmult_le_compat_l; lra. }
  clearbody Q.
  set (g := IZR M / IZR a) in *. 
  assert (FC : fin (fZ c 0) (IZR c)) by (apply fint_exact; lia).
  assert (P33 : 2 ^ 33 = 8589934592) by ring.
  assert (PB : Q * (1 - 3 / 8180) <= IZR c * s <= Q * (1 + 3 / 8180)).
  { rewrite EQ. split.
    - replace (IZR c * g * (1 - 3 / 8180)) with (IZR c * (g * (1 - 3 / 8180))) by ring. apply Rmult_le_compat_l; lra.
    - replace (IZR c * g * (1 + 3 / 8180)) with (IZR c * (g * (1 + 3 / 8180))) by ring. apply Rmult_le_compat_l; lra. }
  set (p := IZR c * s) in *.
  assert (FP : fin (fmul (fZ c 0) x) (rnd p)).
  { apply fmul_fin; [exact FC|exact F|]. apply mod30. fold p. rewrite Rabs_pos_eq by lra. lra. }
  assert (FF : fin (ffma (fZ c 0) x (fZ 1 (-1))) (rnd (p + / 2))).
  { apply ffma_fin; [exact FC|exact F|exact half_fin|]. apply mod30. fold p. rewrite Rabs_pos_eq by lra. lra. }
  destruct (Z.eq_dec c 0) as [Ec|Nc].
  - assert (p = 0) by (unfold p; rewrite Ec; lra). assert (Q = 0) by (rewrite EQ, Ec; lra).
    assert (R0 : rnd 0 = 0) by (apply rnd_fmt, fmt_0).
    assert (RH : rnd (/ 2) = / 2).
    { apply rnd_fmt. replace (/ 2) with (bpow radix2 (-1)) by (cbn; lra). apply generic_format_bpow. cbn. lia. }
    split; [exact Q0|]. rewrite H in *. rewrite R0 in FP. rewrite Rplus_0_l, RH in FF.
    split; [|split].
    + exists 0. split; [exact FP|lra].
    + exists (/ 2). split; [exact FF|lra].
    + exists (rnd (/ 2 + 0)). split; [apply fadd_fin; [exact half_fin|exact FP|apply mod30; rewrite Rabs_pos_eq; lra]|]. rewrite Rplus_0_r, RH. lra.
  - assert (C1 : 1 <= IZR c) by (apply IZR_le; lia).
    assert (Q1 : 1 <= Q) by (rewrite EQ; nra).
    destruct (rel_up p) as (d & D & Ed); [lra|].
    destruct (rel_up (p + / 2)) as (d' & D' & Ed'); [lra|].
    assert (RP : Q * (1 - 3 / 8100) <= rnd p <= Q * (1 + 3 / 8100)).
    { rewrite Ed. split; nra. }
    destruct (rel_up (/ 2 + rnd p)) as (d2 & D2 & E2); [lra|].
    split; [exact Q0|]. split; [|split].
    + exists (rnd p). split; [exact FP|lra].
    + exists (rnd (p + / 2)). split; [exact FF|]. rewrite Ed'. split; nra.
    + exists (rnd (/ 2 + rnd p)). split; [apply fadd_fin; [exact half_fin|exact FP|apply mod30; rewrite Rabs_pos_eq; lra]|]. rewrite E2. split; nra.
Qed.
(** Back to integers. *)
Lemma near_quotient v t : near_by Q v 0 -> t = ZnearestE v -> quotient_nearest M c a t /\ (-1 <= t)%Z.
Proof using Ha HM Hc.
  intros H ->. unfold near_by in H. pose proof (nearest_bounds v) as N. set (n := ZnearestE v) in *. clearbody n.
  assert (A0 : 1 <= IZR a) by (apply IZR_le; lia).
  assert (EQ : IZR a * Q = IZR M * IZR c) by (unfold Q; field; lra).
  assert (Q0 : 0 <= Q).
  { unfold Q, Rdiv. apply Rmult_le_pos; [apply Rmult_le_pos; apply IZR_le; lia|]. left. apply Rinv_0_lt_compat. lra. }
  clearbody Q.
  assert (L1 : IZR a * IZR n <= IZR a * (Q * (1 + 3 / 8000) + / 2)) by (apply Rmult_le_compat_l; lra).
  assert (L2 : IZR a * (Q * (1 - 3 / 8000) - / 2) <= IZR a * IZR n) by (apply Rmult_le_compat_l; lra).
  replace (IZR a * (Q * (1 + 3 / 8000) + / 2)) with (IZR a * Q * (1 + 3 / 8000) + IZR a / 2) in L1 by field.
  replace (IZR a * (Q * (1 - 3 / 8000) - / 2)) with (IZR a * Q * (1 - 3 / 8000) - IZR a / 2) in L2 by field.
  rewrite EQ in *.
  assert (Z1 : (16000 * (a * n - M * c) <= 8000 * a + 6 * (M * c))%Z) by (apply le_IZR; rewrite plus_IZR, !mult_IZR, minus_IZR, !mult_IZR; lra).
  assert (Z2 : (- (8000 * a + 6 * (M * c)) <= 16000 * (a * n - M * c))%Z) by (apply le_IZR; rewrite opp_IZR, plus_IZR, !mult_IZR, minus_IZR, !mult_IZR; lra).
  unfold quotient_nearest. split; [lia|]. apply le_IZR. nra.
Qed.
Lemma near_above v t : near_by Q v (/ 2) -> t = ZnearestE v -> quotient_above M c a t /\ (0 <= t)%Z.
Proof using Ha HM Hc.
  intros H ->. unfold near_by in H. pose proof (nearest_bounds v) as N. set (n := ZnearestE v) in *. clearbody n.
  assert (A0 : 1 <= IZR a) by (apply IZR_le; lia).
  assert (EQ : IZR a * Q = IZR M * IZR c) by (unfold Q; field; lra).
  assert (Q0 : 0 <= Q).
  { unfold Q, Rdiv. apply Rmult_le_pos; [apply Rmult_le_pos; apply IZR_le; lia|]. left. apply Rinv_0_lt_compat. lra. }
  clearbody Q.
  assert (L1 : IZR a * IZR n <= IZR a * (Q * (1 + 3 / 8000) + 1)) by (apply Rmult_le_compat_l; lra).
  assert (L2 : IZR a * (Q * (1 - 3 / 8000)) <= IZR a * IZR n) by (apply Rmult_le_compat_l; lra).
  replace (IZR a * (Q * (1 + 3 / 8000) + 1)) with (IZR a * Q * (1 + 3 / 8000) + IZR a) in L1 by field.
  replace (IZR a * (Q * (1 - 3 / 8000))) with (IZR a * Q * (1 - 3 / 8000)) in L2 by field.
  rewrite EQ in *.
  assert (Z1 : (16000 * (a * n - M * c) <= 16000 * a + 6 * (M * c))%Z) by (apply le_IZR; rewrite plus_IZR, !mult_IZR, minus_IZR, !mult_IZR; lra).
  assert (Z2 : (- 6 * (M * c) <= 16000 * (a * n - M * c))%Z) by (apply le_IZR; rewrite !mult_IZR, minus_IZR, !mult_IZR; lra).
  unfold quotient_above. split; [lia|]. apply le_IZR. nra.
Qed.
(** Capping at a value not below the largest sample. *)
Lemma cap_nearest t hi : (M <= hi)%Z -> quotient_nearest M c a t -> quotient_nearest M c a (Z.max 0 (Z.min hi t)).
Proof using Ha HM Hc.
  unfold quotient_nearest. intros Hh H. assert (M * c <= M * a)%Z by nia. assert (0 <= M * c)%Z by nia.
  destruct (Z.le_gt_cases t hi); [rewrite (Z.min_r hi t) by lia|rewrite (Z.min_l hi t) by lia].
  - destruct (Z.le_gt_cases 0 t); [now rewrite Z.max_r by lia|]. rewrite Z.max_l by lia. assert (a * t <= - a)%Z by nia. lia.
  - rewrite Z.max_r by lia. assert (a * (hi + 1) <= a * t)%Z by nia. assert (M * a <= a * hi)%Z by nia. lia.
Qed.
Lemma cap_above t hi : (M <= hi)%Z -> (0 <= t)%Z -> quotient_above M c a t -> quotient_above M c a (Z.max 0 (Z.min hi t)).
Proof using Ha HM Hc.
  unfold quotient_above. intros Hh H0 H. assert (M * c <= M * a)%Z by nia. assert (0 <= M * c)%Z by nia.
  destruct (Z.le_gt_cases t hi); [rewrite (Z.min_r hi t) by lia; now rewrite Z.max_r by lia|rewrite (Z.min_l hi t) by lia].
  rewrite Z.max_r by lia. assert (a * (hi + 1) <= a * t)%Z by nia. assert (M * a <= a * hi)%Z by nia. lia.
Qed.
Lemma value_small v h : 0 <= h <= / 2 -> near_by Q v h -> 0 <= Q <= 65535 -> Rabs v <= 2 ^ 29.
Proof. intros Hh H HQ. unfold near_by in H. assert (2 ^ 29 = 536870912) by ring. apply Rabs_le. lra. Qed.
Lemma value_small' v h : 0 <= h <= / 2 -> near_by Q v h -> 0 <= Q <= 65535 -> Rabs v <= 2 ^ 30.
Proof. intros Hh H HQ. unfold near_by in H. assert (2 ^ 30 = 1073741824) by ring. apply Rabs_le. lra. Qed.
Lemma scaled_ok fma : let t := scaled fma c (fmul (rcp (fZ a 0)) (fZ M 0)) in
  (0 <= t <= 65535)%Z /\ if fma then quotient_above M c a t else quotient_nearest M c a t.
Proof using All.
  destruct un_factor as (s & F & B). destruct (un_values _ s F B) as (Q0 & (v1 & F1 & N1) & (v2 & F2 & N2) & _).
  unfold scaled. destruct fma; cbv zeta; (split; [lia|]).
  - rewrite (cvtps_fin _ v2 F2) by (apply value_small' with (/ 2); auto; lra).
    destruct (near_above v2 _ N2 eq_refl) as (A1 & A2). apply cap_above; auto.
  - rewrite (cvtps_round _ v1 F1) by (apply value_small with 0; auto; lra).
    destruct (near_quotient v1 _ N1 eq_refl) as (A1 & A2). apply cap_nearest; auto.
Qed.
Lemma sse_ok : (M <= 32767)%Z -> let t := word (cvtps (fadd (fZ 1 (-1)) (fmul (fZ c 0) (fmul (rcp (fZ a 0)) (fZ M 0))))) in
  (0 <= t <= 32767)%Z /\ quotient_above M c a t.
Proof using All.
  intro HM'. destruct un_factor as (s & F & B). destruct (un_values _ s F B) as (Q0 & _ & _ & (v & Fv & N)).
  cbv zeta. rewrite (cvtps_fin _ v Fv) by (apply value_small' with (/ 2); auto; lra).
  destruct (near_above v _ N eq_refl) as (A1 & A2). set (t := ZnearestE v) in *. unfold word.
  replace (Z.max (-32768) (Z.min 32767 t) mod 65536)%Z with (Z.max 0 (Z.min 32767 t)).
  2:{ rewrite Z.mod_small; lia. }
  split; [lia|]. apply cap_above; auto.
Qed.
Lemma sse_cap x : (0 <= x)%Z -> (word x <= 32767)%Z.
Proof. intro H. unfold word. rewrite Z.mod_small; lia. Qed.
End Un.
