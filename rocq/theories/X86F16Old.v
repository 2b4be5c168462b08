(** The conversions of processors with SSE4.1 but without F16C. *)
From Coq Require Import ZArith Reals List Bool Lia Lra ZifyBool.
From Flocq Require Import Core.Core IEEE754.BinarySingleNaN.
From Verif Require Import Base F32 F32Proofs Alpha AlphaU16 CApi CApiF16 CApiF16Proofs F16 F16Arith F16Range X86F16 X86F16Tables.
Local Open Scope Z_scope.

Local Instance prec16 : Prec_gt_0 11. Proof. reflexivity. Qed.
Local Instance vexp16 : Valid_exp (SpecFloat.fexp 11 16). Proof. exact (fexp_correct 11 16 eq_refl). Qed.

Lemma up_fallback_exact (x : f16) : is_finite x = true -> up_fallback x = as_f32 x.
Proof.
  intro F. pose proof (bits16_range x) as R. pose proof (all_below_ok _ _ _ up_all (f16_bits x) ltac:(lia)) as H.
  unfold up_agrees in H. rewrite bits16_round_trip, F in H. unfold up_fallback. apply Z.eqb_eq in H. rewrite <- H. apply CApiProofs.bits_round_trip.
Qed.

(** ** Narrowing: the sign is lost *)
Lemma lor_small n a b : 0 <= n -> 0 <= a < 2 ^ n -> 0 <= b < 2 ^ n -> 0 <= Z.lor a b < 2 ^ n.
Proof.
  intros N A B. assert (P : 0 <= Z.lor a b) by (apply Z.lor_nonneg; lia). split; [exact P|].
  destruct (Z.eq_dec (Z.lor a b) 0) as [->|Nz]; [apply Z.pow_pos_nonneg; lia|].
  apply Z.log2_lt_pow2; [lia|]. rewrite Z.log2_lor by lia.
  destruct (Z.eq_dec a 0) as [->|]; [destruct (Z.eq_dec b 0) as [->|]; [now rewrite Z.lor_0_l in Nz|]|destruct (Z.eq_dec b 0) as [->|]].
  - rewrite Z.max_r by apply Z.log2_nonneg. apply Z.log2_lt_pow2; lia.
  - rewrite Z.max_l by apply Z.log2_nonneg. apply Z.log2_lt_pow2; lia.
  - apply Z.max_lub_lt; apply Z.log2_lt_pow2; lia.
Qed.
Lemma shift_bound e m : 101 < e < 113 -> 0 <= m < 2 ^ 23 -> 0 <= ((8384512 + m) / 2 ^ ((125 - e) mod 32) + 1) / 2 <= 1024.
Proof.
  intros E M. rewrite Z.mod_small by lia.
  assert (P : 2 ^ 13 <= 2 ^ (125 - e)) by (apply Z.pow_le_mono_r; lia). change (2 ^ 13) with 8192 in P. change (2 ^ 23) with 8388608 in M.
  set (q := 2 ^ (125 - e)) in *.
  assert (0 <= (8384512 + m) / q < 2048).
  { split; [apply Z.div_pos; lia|]. apply Z.le_lt_trans with ((8384512 + m) / 8192); [apply Z.div_le_compat_l; lia|]. apply Z.div_lt_upper_bound; lia. }
  split; [apply Z.div_pos; lia|apply Z.div_le_upper_bound; lia].
Qed.
Lemma down_bits_range w : 0 <= down_bits w < 2 ^ 15.
Proof.
  unfold down_bits. cbv zeta. set (b := (w + 4096) mod 2 ^ 32). set (e := (b / 2 ^ 23) mod 256). set (m := b mod 2 ^ 23).
  assert (M : 0 <= m < 2 ^ 23) by (apply Z.mod_pos_bound; lia). assert (Re : 0 <= e < 256) by (apply Z.mod_pos_bound; lia). clearbody b e m.
  assert (J1 : 0 <= (if 112 <? e then Z.lor (Z.land ((e - 112) * 2 ^ 10) 31744) (m / 2 ^ 13) else 0) < 2 ^ 15).
  { destruct (112 <? e) eqn:E; [|lia]. apply lor_small; [lia| |].
    - apply land_range. lia.
    - split; [apply Z.div_pos; lia|]. apply Z.div_lt_upper_bound; [lia|]. change (2 ^ 13 * 2 ^ 15) with (2 ^ 28). change (2 ^ 23) with 8388608 in M. lia. }
  assert (J2 : 0 <= (if (e <? 113) && (101 <? e) then ((8384512 + m) / 2 ^ ((125 - e) mod 32) + 1) / 2 else 0) < 2 ^ 15).
  { destruct ((e <? 113) && (101 <? e)) eqn:E; [|lia]. pose proof (shift_bound e m ltac:(lia) M). change (2 ^ 15) with 32768. lia. }
  assert (J3 : 0 <= (if 143 <? e then 32767 else 0) < 2 ^ 15) by (destruct (143 <? e); lia).
  set (j1 := if 112 <? e then _ else _) in *. set (j2 := if (_ && _)%bool then _ else _) in *. set (j3 := if 143 <? e then _ else _) in *.
  pose proof (lor_small 15 _ _ ltac:(lia) (lor_small 15 _ _ ltac:(lia) J1 J2) J3) as H. change (2 ^ 15) with 32768 in *. lia.
Qed.
Lemma down_never_negative v : Bsign (down_fallback v) = false.
Proof.
  unfold down_fallback. pose proof (down_bits_range (f32_bits v)) as R. change (2 ^ 15) with 32768 in R.
  pose proof (all_below_ok _ _ _ sign_all (down_bits (f32_bits v)) ltac:(lia)) as H. now apply negb_true_iff in H.
Qed.

(** ** Narrowing: the magnitude is rounded to nearest, ties away from zero *)
Definition rnd_away : R -> R := round radix2 (SpecFloat.fexp 11 16) (Znearest (Z.leb 0)).
Lemma nearest_half_up (x : R) : (0 <= x)%R -> Znearest (Z.leb 0) x = Zfloor (x + / 2).
Proof.
  intro P. assert (F : 0 <= Zfloor x) by (apply Zfloor_lub; exact P).
  unfold Znearest. pose proof (Zfloor_lb x) as LB. pose proof (Zfloor_ub x) as UB.
  destruct (Rcompare_spec (x - IZR (Zfloor x)) (/ 2)) as [H|H|H].
  - symmetry. apply Zfloor_imp. rewrite plus_IZR. lra.
  - replace (0 <=? Zfloor x) with true by (symmetry; apply Z.leb_le; lia).
    assert (N : IZR (Zfloor x) <> x) by lra. rewrite Zceil_floor_neq by exact N. symmetry. apply Zfloor_imp. rewrite !plus_IZR. lra.
  - assert (N : IZR (Zfloor x) <> x) by lra. rewrite Zceil_floor_neq by exact N. symmetry. apply Zfloor_imp. rewrite !plus_IZR. lra.
Qed.
Lemma nearest_div m s : 0 <= m -> 1 <= s -> Znearest (Z.leb 0) (IZR m / IZR (2 ^ s)) = (m + 2 ^ (s - 1)) / 2 ^ s.
Proof.
  intros M S. assert (P : (0 < IZR (2 ^ s))%R) by (apply IZR_lt, Z.pow_pos_nonneg; lia).
  rewrite nearest_half_up by (apply Rmult_le_pos; [apply IZR_le; exact M|left; now apply Rinv_0_lt_compat]).
  rewrite <- (Zfloor_div (m + 2 ^ (s - 1)) (2 ^ s)) by (apply Z.pow_nonzero; lia). f_equal.
  rewrite plus_IZR. assert (E : IZR (2 ^ s) = (2 * IZR (2 ^ (s - 1)))%R).
  { replace s with (1 + (s - 1)) at 1 by lia. rewrite Z.pow_add_r by lia. now rewrite mult_IZR. }
  rewrite E. assert ((0 < IZR (2 ^ (s - 1)))%R) by (apply IZR_lt, Z.pow_pos_nonneg; lia). field. lra.
Qed.
(** Of a normal number. *)
Lemma rnd_away_normal m q (t := Z.max q (- 37)) : 2 ^ 23 <= m < 2 ^ 24 -> 1 <= t + 13 - q ->
  rnd_away (IZR m * bpow radix2 q) = (IZR ((m + 2 ^ (t + 13 - q - 1)) / 2 ^ (t + 13 - q)) * bpow radix2 (t + 13))%R.
Proof.
  intros M S. unfold rnd_away, round.
  assert (C : cexp radix2 (SpecFloat.fexp 11 16) (IZR m * bpow radix2 q) = t + 13).
  { unfold cexp. rewrite mag_mult_bpow by (apply IZR_neq; lia).
    rewrite (mag_unique radix2 (IZR m) 24).
    - unfold SpecFloat.fexp, SpecFloat.emin. unfold t. lia.
    - rewrite Rabs_pos_eq by (apply IZR_le; lia). change (bpow radix2 (24 - 1)) with (IZR (2 ^ 23)). change (bpow radix2 24) with (IZR (2 ^ 24)).
      split; [apply IZR_le|apply IZR_lt]; lia. }
  unfold scaled_mantissa. rewrite C. unfold F2R. cbn [Fnum Fexp]. f_equal. f_equal.
  rewrite <- nearest_div by lia. f_equal. rewrite Rmult_assoc, <- bpow_plus. unfold Rdiv. f_equal.
  replace (q + - (t + 13)) with (- (t + 13 - q)) by lia. rewrite bpow_opp. f_equal. symmetry. apply (IZR_Zpower radix2). lia.
Qed.
Lemma pattern a k : 0 <= k <= 2048 -> 0 <= a -> a = 0 \/ 1024 <= k -> a * 1024 + k < 31744 ->
  is_finite (f16_of_bits (a * 1024 + k)) = true /\ B2R (f16_of_bits (a * 1024 + k)) = (IZR k * bpow radix2 (a - 24))%R.
Proof.
  intros K A H B. unfold f16_of_bits. cbv zeta. change (2 ^ 15) with 32768. change (2 ^ 10) with 1024.
  replace (32768 <=? a * 1024 + k) with false by lia.
  assert (Q : forall e m, a * 1024 + k = e * 1024 + m -> 0 <= m < 1024 -> (a * 1024 + k) / 1024 mod 32 = e mod 32 /\ (a * 1024 + k) mod 1024 = m).
  { intros e m E M. rewrite E. split; [f_equal; symmetry; apply Z.div_unique with (r := m); lia|symmetry; apply Z.mod_unique with (q := e); lia]. }
  assert (HZ : forall m e, 0 < m < 2048 -> -24 <= e <= 5 -> (1024 <= m \/ e = -24) -> is_finite (hZ m e) = true /\ B2R (hZ m e) = (IZR m * bpow radix2 e)%R).
  { intros m e M E C. destruct m as [|m|m]; try lia.
    pose proof (hZ_finite false m e (bounded16_intro m e ltac:(lia) ltac:(lia) ltac:(lia))) as X. cbv iota in X. rewrite X. split; reflexivity. }
  destruct (Z.ltb_spec k 1024) as [L|L].
  - destruct H as [->|H]; [|lia]. destruct (Q 0 k ltac:(lia) ltac:(lia)) as (-> & ->). cbn [Z.eqb Z.modulo Z.div_eucl]. change (0 mod 32) with 0. cbn [Z.eqb].
    destruct (Z.eqb_spec k 0) as [->|N]; [split; [reflexivity|cbn; lra]|]. change (0 - 24) with (-24). apply HZ; lia.
  - destruct (Z.eq_dec k 2048) as [->|N].
    + destruct (Q (a + 2) 0 ltac:(lia) ltac:(lia)) as (-> & ->). rewrite Z.mod_small by lia.
      replace (a + 2 =? 31) with false by lia. replace (a + 2 =? 0) with false by lia. change (0 + 1024) with 1024.
      destruct (HZ 1024 (a + 2 - 25) ltac:(lia) ltac:(lia) ltac:(lia)) as (F & ->). split; [exact F|].
      replace (a + 2 - 25) with (1 + (a - 24)) by lia. rewrite bpow_plus. change (bpow radix2 1) with 2%R. lra.
    + destruct (Q (a + 1) (k - 1024) ltac:(lia) ltac:(lia)) as (-> & ->). rewrite Z.mod_small by lia.
      replace (a + 1 =? 31) with false by lia. replace (a + 1 =? 0) with false by lia. replace (k - 1024 + 1024) with k by lia.
      replace (a + 1 - 25) with (a - 24) by lia. apply HZ; lia.
Qed.
(** Numbers below half the smallest one. *)
Lemma rnd_away_tiny (x : R) : (0 <= x < bpow radix2 (-25))%R -> rnd_away x = 0%R.
Proof.
  intros H. unfold rnd_away. apply Rle_antisym.
  - apply (round_N_le_midp radix2 (SpecFloat.fexp 11 16)); [apply generic_format_0|]. destruct (succ16_gap 0%R ltac:(lra)) as (A & B). lra.
  - apply (round_ge_generic radix2 (SpecFloat.fexp 11 16)); [|apply generic_format_0|lra]. apply valid_rnd_N.
Qed.

(** down_bits, case by case; [b] is the bit pattern with half a unit of the f16 added. *)
Lemma down_bits_low b0 e m w : w = b0 + 2 ^ 31 \/ w = b0 -> 0 <= b0 -> b0 + 4096 = e * 2 ^ 23 + m -> 0 <= m < 2 ^ 23 -> 0 <= e < 256 ->
  down_bits w = Z.min (Z.lor (Z.lor
     (if 112 <? e then Z.lor (Z.land ((e - 112) * 2 ^ 10) 31744) (m / 2 ^ 13) else 0)
     (if (e <? 113) && (101 <? e) then ((8384512 + m) / 2 ^ ((125 - e) mod 32) + 1) / 2 else 0))
     (if 143 <? e then 32767 else 0)) 65535.
Proof.
  intros W B E M R. unfold down_bits. cbv zeta.
  change (2 ^ 23) with 8388608 in *. change (2 ^ 32) with 4294967296. change (2 ^ 31) with 2147483648 in W.
  assert (X : exists t, (t = 0 \/ t = 1) /\ (w + 4096) mod 4294967296 = (t * 256 + e) * 8388608 + m).
  { destruct W as [->| ->].
    - exists 1. split; [auto|]. rewrite Z.mod_small by lia. lia.
    - exists 0. split; [auto|]. rewrite Z.mod_small by lia. lia. }
  destruct X as (t & Ht & ->).
  replace (((t * 256 + e) * 8388608 + m) / 8388608) with (t * 256 + e) by (apply Z.div_unique with (r := m); lia).
  replace (((t * 256 + e) * 8388608 + m) mod 8388608) with m by (apply Z.mod_unique with (q := t * 256 + e); lia).
  replace ((t * 256 + e) mod 256) with e by (apply Z.mod_unique with (q := t); lia). reflexivity.
Qed.

Lemma min_id a : 0 <= a <= 65535 -> Z.min a 65535 = a. Proof. lia. Qed.

(** Normal numbers: E is the exponent field, m the mantissa with its leading bit. *)
Lemma down_bits_normal w E m (b0 := E * 2 ^ 23 + (m - 2 ^ 23)) : w = b0 + 2 ^ 31 \/ w = b0 -> 2 ^ 23 <= m < 2 ^ 24 -> 1 <= E -> 113 <= E ->
  E * 2 ^ 23 + (m - 2 ^ 23) + 4096 < 143 * 2 ^ 23 -> down_bits w = (E - 113) * 1024 + (m + 4096) / 8192.
Proof.
  intros W M E1 E2 U. change (2 ^ 24) with 16777216 in M.
  set (b := b0 + 4096).
  assert (Bb : b = (b / 2 ^ 23) * 2 ^ 23 + b mod 2 ^ 23) by (rewrite Z.mul_comm; apply Z.div_mod; lia).
  assert (Rm : 0 <= b mod 2 ^ 23 < 2 ^ 23) by (apply Z.mod_pos_bound; lia).
  assert (Re : 113 <= b / 2 ^ 23 < 143).
  { unfold b, b0. change (2 ^ 23) with 8388608 in *. split; [apply Z.div_le_lower_bound; lia|apply Z.div_lt_upper_bound; lia]. }
  rewrite (down_bits_low b0 (b / 2 ^ 23) (b mod 2 ^ 23)); [|exact W|unfold b0; change (2 ^ 23) with 8388608 in *; lia|exact Bb|exact Rm|lia].
  set (e := b / 2 ^ 23) in *. set (r := b mod 2 ^ 23) in *.
  replace (112 <? e) with true by lia. replace ((e <? 113) && (101 <? e)) with false by lia. replace (143 <? e) with false by lia.
  rewrite !Z.lor_0_r. rewrite join_is.
  2: lia. 2: { split; [apply Z.div_pos; lia|]. apply Z.div_lt_upper_bound; [lia|]. change (2 ^ 23) with 8388608 in Rm. change (2 ^ 13 * 1024) with 8388608. lia. }
  assert (D : (e - 112) * 1024 + r / 2 ^ 13 = (E - 113) * 1024 + (m + 4096) / 8192).
  { change (2 ^ 13) with 8192. rewrite <- !Z.div_add_l by lia. f_equal. unfold b, b0 in Bb. change (2 ^ 23) with 8388608 in Bb. lia. }
  rewrite D. apply min_id. split; [apply Z.add_nonneg_nonneg; [lia|apply Z.div_pos; change (2 ^ 23) with 8388608 in M; lia]|].
  assert ((m + 4096) / 8192 < 2050) by (apply Z.div_lt_upper_bound; lia). change (2 ^ 23) with 8388608 in *. nia.
Qed.

(** Numbers below 2^-14. *)
Lemma down_bits_small w E m (b0 := E * 2 ^ 23 + (m - 2 ^ 23)) : w = b0 + 2 ^ 31 \/ w = b0 -> 2 ^ 23 <= m < 2 ^ 24 -> 1 <= E <= 112 ->
  down_bits w = if E <? 102 then 0 else (m + 2 ^ (125 - E)) / 2 ^ (126 - E).
Proof.
  intros W M R. change (2 ^ 24) with 16777216 in M.
  destruct (Z.ltb_spec (m + 4096) 16777216) as [C|C].
  - rewrite (down_bits_low b0 E (m + 4096 - 2 ^ 23)) by (first [exact W|unfold b0; change (2 ^ 23) with 8388608 in *; lia|lia]).
    replace (112 <? E) with false by lia. replace (143 <? E) with false by lia. replace (E <? 113) with true by lia. rewrite Z.lor_0_r, Z.lor_0_l.
    replace (8384512 + (m + 4096 - 2 ^ 23)) with m by (change (2 ^ 23) with 8388608; lia).
    destruct (Z.ltb_spec E 102) as [L|L]; [replace (101 <? E) with false by lia; reflexivity|].
    replace (101 <? E) with true by lia. cbn [andb]. rewrite Z.mod_small by lia.
    assert (Q : 0 < 2 ^ (125 - E)) by (apply Z.pow_pos_nonneg; lia). set (q := 2 ^ (125 - E)) in *.
    replace (2 ^ (126 - E)) with (q * 2) by (unfold q; replace (126 - E) with (Z.succ (125 - E)) by lia; rewrite Z.pow_succ_r by lia; lia).
    rewrite <- Z.div_div by lia. replace (m + q) with (m + 1 * q) by lia. rewrite Z.div_add by lia. apply min_id.
    change (2 ^ 23) with 8388608 in M.
    assert (8192 <= q) by (change 8192 with (2 ^ 13); apply Z.pow_le_mono_r; lia).
    assert (0 <= m / q < 2048) by (split; [apply Z.div_pos; lia|apply Z.div_lt_upper_bound; nia]).
    split; [apply Z.div_pos; lia|apply Z.div_le_upper_bound; lia].
  - rewrite (down_bits_low b0 (E + 1) (m + 4096 - 2 ^ 24)) by (first [exact W|unfold b0; change (2 ^ 23) with 8388608 in *; change (2 ^ 24) with 16777216; lia|change (2 ^ 23) with 8388608; change (2 ^ 24) with 16777216; lia]).
    change (2 ^ 24) with 16777216. replace (143 <? E + 1) with false by lia. rewrite Z.lor_0_r.
    destruct (Z.eq_dec E 112) as [->|N].
    + change (112 <? 112 + 1) with true. change ((112 + 1 <? 113) && (101 <? 112 + 1)) with false. cbv iota.
      rewrite Z.lor_0_r. rewrite join_is; [|lia|]; change (2 ^ 13) with 8192; [|split; [apply Z.div_pos; lia|apply Z.div_lt_upper_bound; lia]].
      change (112 <? 102) with false. cbv iota. change (2 ^ (125 - 112)) with 8192. change (2 ^ (126 - 112)) with 16384.
      rewrite (Z.div_small (m + 4096 - 16777216)) by lia.
      replace ((m + 8192) / 16384) with 1024; [reflexivity|]. apply Z.div_unique with (r := m + 8192 - 16777216); lia.
    + replace (112 <? E + 1) with false by lia. replace (E + 1 <? 113) with true by lia. rewrite Z.lor_0_l. cbn [andb].
      destruct (Z.ltb_spec E 101) as [L|L].
      { replace (E <? 102) with true by lia. replace (101 <? E + 1) with false by lia. reflexivity. }
      replace (101 <? E + 1) with true by lia. rewrite Z.mod_small by lia.
      replace (8384512 + (m + 4096 - 16777216)) with (m - 8388608) by lia.
      assert (HE : E = 101 \/ E = 102 \/ E = 103 \/ E = 104 \/ E = 105 \/ E = 106 \/ E = 107 \/ E = 108 \/ E = 109 \/ E = 110 \/ E = 111) by lia.
      assert (G : forall k, 4096 < 2 ^ k -> 8388608 mod 2 ^ k = 0 -> 0 < k -> (m - 8388608) / 2 ^ k = 8388608 / 2 ^ k - 1).
      { intros k K D P. pose proof (Z.div_mod 8388608 (2 ^ k) ltac:(lia)) as DM. rewrite D in DM. set (q := 2 ^ k) in *. set (z := 8388608 / q) in *.
        symmetry. apply Z.div_unique with (r := m - 16777216 + q); nia. }
      assert (G2 : forall k, 4096 < 2 ^ k -> 16777216 mod 2 ^ (k + 2) = 0 -> 0 < k -> (m + 2 ^ (k + 1)) / 2 ^ (k + 2) = 16777216 / 2 ^ (k + 2)).
      { intros k K D P. pose proof (Z.div_mod 16777216 (2 ^ (k + 2)) ltac:(pose proof (Z.pow_pos_nonneg 2 (k + 2)); lia)) as DM. rewrite D in DM.
        rewrite !Z.pow_add_r in * by lia. change (2 ^ 1) with 2 in *. change (2 ^ 2) with 4 in *. set (q := 2 ^ k) in *. set (z := 16777216 / (q * 4)) in *.
        symmetry. apply Z.div_unique with (r := m - 16777216 + q * 2); nia. }
      destruct HE as [->|[->|[->|[->|[->|[->|[->|[->|[->|[->| ->]]]]]]]]]].
      { change (101 <? 102) with true. cbv iota. change (125 - (101 + 1)) with 23. rewrite (G 23 eq_refl eq_refl eq_refl). reflexivity. }
      all: match goal with |- context [?x <? 102] => change (x <? 102) with false end; cbv iota;
        match goal with |- context [2 ^ (126 - ?x)] =>
          let k := eval vm_compute in (124 - x) in
          change (126 - x) with (k + 2); change (125 - (x + 1)) with k; change (125 - x) with (k + 1); rewrite (G k eq_refl eq_refl eq_refl);
          first [rewrite (G2 k eq_refl eq_refl eq_refl) | idtac]
        end; try reflexivity.
Qed.

Lemma abs_finite s m e (H : SpecFloat.bounded 24 128 m e = true) : Rabs (B2R (B754_finite s m e H : f32)) = (IZR (Z.pos m) * bpow radix2 e)%R.
Proof. cbn [B2R]. rewrite <- F2R_Zabs. replace (Z.abs (cond_Zopp s (Z.pos m))) with (Z.pos m) by (destruct s; reflexivity). reflexivity. Qed.

Theorem down_fallback_rounds (v : f32) : is_finite v = true -> (Rabs (B2R v) < 65520)%R ->
  is_finite (down_fallback v) = true /\ B2R (down_fallback v) = rnd_away (Rabs (B2R v)).
Proof.
  intros F L. destruct v as [s|s| |s m e H]; try discriminate.
  { replace (down_fallback (B754_zero s)) with h0 by (apply B2SF_inj; destruct s; vm_compute; reflexivity).
    split; [reflexivity|]. cbn [B2R]. rewrite Rabs_R0. symmetry. apply round_0. apply valid_rnd_N. }
  rewrite abs_finite in *. pose proof (finite_parts s m e H) as (H1 & H2 & H3).
  assert (Zero : forall x, down_bits x = 0 -> is_finite (f16_of_bits (down_bits x)) = true /\ B2R (f16_of_bits (down_bits x)) = 0%R).
  { intros x ->. split; [reflexivity|]. reflexivity. }
  unfold down_fallback. unfold f32_bits. set (w := _ + _).
  clear F H. set (M := Z.pos m) in *. clearbody M.
  destruct (Z.ltb_spec M (2 ^ 23)) as [Sm|Nm].
  - assert (e = -149) as -> by (apply H3; exact Sm).
    assert (DZ : down_bits w = 0).
    { change (2 ^ 23) with 8388608 in Sm. destruct (Z.ltb_spec (M + 4096) 8388608) as [C|C].
      - rewrite (down_bits_low M 0 (M + 4096)); [reflexivity| | | | |]; try (change (2 ^ 23) with 8388608); try lia. unfold w. destruct s; lia.
      - rewrite (down_bits_low M 1 (M + 4096 - 8388608)); [reflexivity| | | | |]; try (change (2 ^ 23) with 8388608); try lia. unfold w. destruct s; lia. }
    destruct (Zero w DZ) as (Fz & Vz). split; [exact Fz|]. rewrite Vz. symmetry. apply rnd_away_tiny.
    split; [apply Rmult_le_pos; [apply IZR_le; lia|apply bpow_ge_0]|].
    apply Rlt_le_trans with (bpow radix2 23 * bpow radix2 (-149))%R.
    + apply Rmult_lt_compat_r; [apply bpow_gt_0|]. change (bpow radix2 23) with (IZR (2 ^ 23)). apply IZR_lt. exact Sm.
    + rewrite <- bpow_plus. apply bpow_le. lia.
  - assert (Mb : 2 ^ 23 <= M < 2 ^ 24) by (split; [exact Nm|apply H1]).
    assert (Ww : w = (e + 150) * 2 ^ 23 + (M - 2 ^ 23) + 2 ^ 31 \/ w = (e + 150) * 2 ^ 23 + (M - 2 ^ 23)) by (unfold w; destruct s; lia).
    assert (M24 : (IZR (2 ^ 23) <= IZR M < IZR (2 ^ 24))%R) by (split; [apply IZR_le|apply IZR_lt]; lia).
    destruct (Z.ltb_spec (e + 150) 113) as [Lo|Hi].
    + pose proof (down_bits_small w (e + 150) M Ww Mb ltac:(lia)) as D.
      destruct (Z.ltb_spec (e + 150) 102) as [T|T].
      * destruct (Zero w D) as (Fz & Vz). split; [exact Fz|]. rewrite Vz. symmetry. apply rnd_away_tiny.
        split; [apply Rmult_le_pos; [apply IZR_le; lia|apply bpow_ge_0]|].
        apply Rlt_le_trans with (bpow radix2 24 * bpow radix2 e)%R.
        -- apply Rmult_lt_compat_r; [apply bpow_gt_0|]. change (bpow radix2 24) with (IZR (2 ^ 24)). apply M24.
        -- rewrite <- bpow_plus. apply bpow_le. lia.
      * rewrite D. rewrite rnd_away_normal by (auto; lia). rewrite Z.max_r by lia.
        replace (-37 + 13 - e - 1) with (125 - (e + 150)) by lia. replace (-37 + 13 - e) with (126 - (e + 150)) by lia.
        set (k := (M + 2 ^ (125 - (e + 150))) / 2 ^ (126 - (e + 150))).
        assert (K : 0 <= k <= 1024).
        { unfold k. assert (2 ^ 13 <= 2 ^ (125 - (e + 150))) by (apply Z.pow_le_mono_r; lia).
          replace (2 ^ (126 - (e + 150))) with (2 ^ (125 - (e + 150)) * 2) by (replace (126 - (e + 150)) with (Z.succ (125 - (e + 150))) by lia; rewrite Z.pow_succ_r by lia; lia).
          set (q := 2 ^ (125 - (e + 150))) in *. change (2 ^ 13) with 8192 in *. change (2 ^ 24) with 16777216 in *. change (2 ^ 23) with 8388608 in *.
          split; [apply Z.div_pos; lia|]. apply Z.lt_succ_r. apply Z.div_lt_upper_bound; lia. }
        pose proof (pattern 0 k ltac:(lia) ltac:(lia) ltac:(lia) ltac:(lia)) as P. change (0 * 1024 + k) with k in P. change (0 - 24) with (-37 + 13) in P. exact P.
    + assert (e <= -8) as Hb.
      { destruct (Z.le_gt_cases e (-8)) as [?|G]; [assumption|]. exfalso.
        assert (IZR (2 ^ 23) * bpow radix2 (-7) <= IZR M * bpow radix2 e)%R.
        { apply Rmult_le_compat; [apply IZR_le; lia|apply bpow_ge_0|apply M24|apply bpow_le; lia]. }
        change (bpow radix2 (-7)) with (/ 128)%R in *. change (2 ^ 23) with 8388608 in *. lra. }
      assert (U : e = -8 -> M + 4096 < 16777216).
      { intros ->. change (bpow radix2 (-8)) with (/ 256)%R in L. apply lt_IZR. rewrite plus_IZR. lra. }
      rewrite (down_bits_normal w (e + 150) M Ww Mb) by (change (2 ^ 23) with 8388608 in *; change (2 ^ 24) with 16777216 in *; lia).
      rewrite rnd_away_normal by (auto; lia). rewrite Z.max_l by lia.
      replace (e + 13 - e - 1) with 12 by lia. replace (e + 13 - e) with 13 by lia. change (2 ^ 12) with 4096. change (2 ^ 13) with 8192.
      set (k := (M + 4096) / 8192). change (2 ^ 23) with 8388608 in *. change (2 ^ 24) with 16777216 in *.
      assert (K : 1024 <= k <= 2048) by (unfold k; split; [apply Z.div_le_lower_bound; lia|apply Z.lt_succ_r; apply Z.div_lt_upper_bound; lia]).
      assert (K8 : e = -8 -> k < 2048) by (intro He; unfold k; apply Z.div_lt_upper_bound; [lia|]; specialize (U He); lia).
      destruct (pattern (e + 150 - 113) k ltac:(lia) ltac:(lia) ltac:(lia) ltac:(destruct (Z.eq_dec e (-8)) as [He|He]; [specialize (K8 He)|]; lia)) as (P1 & P2).
      split; [exact P1|]. rewrite P2. f_equal. f_equal. lia.
Qed.
