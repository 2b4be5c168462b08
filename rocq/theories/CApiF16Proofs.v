(** The C interface for f16 images. *)
From Coq Require Import ZArith Reals List Bool Lia Lra ZifyBool ZifyNat.
From Flocq Require Import Core.Core IEEE754.BinarySingleNaN.
From Verif Require Import Base BaseProofs ImageStore Resize F32 F32Proofs Sampler Alpha AlphaU16 Spec SpecApi CApi SpecC CApiProofs
  Threading F16 F16Arith CApiF16.
Import ListNotations.
Local Open Scope nat_scope.

(** ** Bits *)
Lemma p16 : FLX.Prec_gt_0 11. Proof. reflexivity. Qed.
Lemma e16 : Prec_lt_emax 11 16. Proof. reflexivity. Qed.
Lemma hZ_finite s m e (H : SpecFloat.bounded 11 16 m e = true) : hZ (if (s : bool) then Z.neg m else Z.pos m) e = B754_finite s m e H.
Proof.
  assert (V : F2R (Float radix2 (if s then Z.neg m else Z.pos m) e) = B2R (B754_finite s m e H : f16)) by (destruct s; reflexivity).
  pose proof (binary_normalize_correct 11 16 eq_refl eq_refl mode_NE (if s then Z.neg m else Z.pos m) e false) as C.
  cbv zeta in C. rewrite V in C.
  rewrite round_generic in C by (try apply valid_rnd_round_mode; apply generic_format_B2R).
  rewrite Rlt_bool_true in C by apply abs_B2R_lt_emax.
  destruct C as (C1 & C2 & C3).
  apply B2R_Bsign_inj; auto.
  - unfold hZ. rewrite C3. cbn [Bsign].
    destruct s; [rewrite Rcompare_Lt; [reflexivity|]|rewrite Rcompare_Gt; [reflexivity|]]; cbn [B2R SpecFloat.cond_Zopp].
    + apply F2R_lt_0. reflexivity.
    + apply F2R_gt_0. reflexivity.
Qed.
Lemma finite_parts16 (s : bool) m e (H : SpecFloat.bounded 11 16 m e = true) :
  (0 < Z.pos m < 2 ^ 11 /\ -24 <= e <= 5 /\ (Z.pos m < 2 ^ 10 -> e = -24))%Z.
Proof.
  pose proof H as H'. unfold SpecFloat.bounded in H'. apply andb_prop in H' as [H1 H2]. apply Zle_bool_imp_le in H2.
  unfold SpecFloat.canonical_mantissa in H1. apply Zeq_bool_eq in H1. unfold SpecFloat.fexp, SpecFloat.emin in H1.
  rewrite Digits.Zpos_digits2_pos in H1.
  pose proof (Digits.Zdigits_correct radix2 (Z.pos m)) as [D1 D2]. rewrite Z.abs_eq in D1, D2 by lia.
  assert (DG : (Digits.Zdigits radix2 (Z.pos m) <= 11)%Z) by lia.
  split; [|split].
  - split; [lia|]. eapply Z.lt_le_trans; [exact D2|]. apply (Zpower_le radix2 _ 11). lia.
  - lia.
  - intro L. destruct (Z.eq_dec (Digits.Zdigits radix2 (Z.pos m)) 11) as [E|]; [|lia].
    exfalso. rewrite E in D1. change (Zpower radix2 (11 - 1)) with (2 ^ 10)%Z in D1. lia.
Qed.
Lemma bits16_range x : (0 <= f16_bits x < 2 ^ 16)%Z.
Proof.
  destruct x as [s|s| |s m e H]; [destruct s; cbn; lia|destruct s; cbn; lia|cbn; lia|].
  destruct (finite_parts16 s m e H) as (H1 & H2 & H3). unfold f16_bits.
  change (2 ^ 10)%Z with 1024%Z in *. change (2 ^ 15)%Z with 32768%Z in *. change (2 ^ 11)%Z with 2048%Z in *. change (2 ^ 16)%Z with 65536%Z.
  destruct (Z.ltb_spec (Z.pos m) 1024), s; lia.
Qed.
Lemma bits16_round_trip x : f16_of_bits (f16_bits x) = x.
Proof.
  destruct x as [s|s| |s m e H].
  - destruct s; reflexivity.
  - destruct s; reflexivity.
  - reflexivity.
  - transitivity (hZ (if s then Z.neg m else Z.pos m) e); [|apply hZ_finite]. destruct (finite_parts16 s m e H) as (H1 & H2 & H3).
    unfold f16_bits, f16_of_bits.
    change (2 ^ 10)%Z with 1024%Z in *. change (2 ^ 15)%Z with 32768%Z in *. change (2 ^ 11)%Z with 2048%Z in *.
    destruct (Z.ltb_spec (Z.pos m) 1024).
    + specialize (H3 ltac:(lia)). subst e.
      set (w := ((if s then 32768 else 0) + Z.pos m)%Z).
      assert (E1 : (w / 1024 = if s then 32 else 0)%Z) by (unfold w; destruct s; symmetry; apply Z.div_unique with (Z.pos m); lia).
      assert (E2 : (w mod 1024 = Z.pos m)%Z) by (unfold w; destruct s; symmetry; [apply Z.mod_unique with 32%Z|apply Z.mod_unique with 0%Z]; lia).
      assert (E3 : (32768 <=? w)%Z = s) by (unfold w; destruct s; lia).
      cbv zeta. rewrite E1, E2, E3. replace ((if s then 32 else 0) mod 32)%Z with 0%Z by (destruct s; reflexivity).
      cbn [Z.eqb]. destruct s; reflexivity.
    + set (w := ((if s then 32768 else 0) + ((e + 25) * 1024 + (Z.pos m - 1024)))%Z).
      assert (E1 : (w / 1024 = (if s then 32 else 0) + (e + 25))%Z) by (unfold w; destruct s; symmetry; apply Z.div_unique with (Z.pos m - 1024)%Z; lia).
      assert (E2 : (w mod 1024 = Z.pos m - 1024)%Z) by (unfold w; destruct s; symmetry; [apply Z.mod_unique with (32 + (e + 25))%Z|apply Z.mod_unique with (e + 25)%Z]; lia).
      assert (E3 : (32768 <=? w)%Z = s) by (unfold w; destruct s; lia).
      cbv zeta. rewrite E1, E2, E3.
      replace (((if s then 32 else 0) + (e + 25)) mod 32)%Z with (e + 25)%Z.
      2:{ destruct s; [apply Z.mod_unique with 1%Z|symmetry; apply Z.mod_small]; lia. }
      replace (e + 25 =? 31)%Z with false by lia. replace (e + 25 =? 0)%Z with false by lia.
      replace (Z.pos m - 1024 + 1024)%Z with (Z.pos m) by lia. replace (e + 25 - 25)%Z with e by lia. destruct s; reflexivity.
Qed.
Lemma lays_f16 : lays_out elem_f16.
Proof.
  split; cbn [esize eenc edec elem_f16 length nth]; auto. intro v.
  replace (_ + _)%Z with (f16_bits v); [apply bits16_round_trip|].
  set (w := f16_bits v). pose proof (Z.div_mod w 256 ltac:(lia)). lia.
Qed.
Lemma bounded16_intro m e : (Z.pos m < 2 ^ 11 -> -24 <= e <= 5 -> (2 ^ 10 <= Z.pos m \/ e = -24) -> SpecFloat.bounded 11 16 m e = true)%Z.
Proof.
  intros H1 H2 H3. unfold SpecFloat.bounded, SpecFloat.canonical_mantissa. apply andb_true_intro. split; [|apply Z.leb_le; lia].
  apply Zeq_bool_true. unfold SpecFloat.fexp, SpecFloat.emin. change (3 - 16 - 11)%Z with (-24)%Z.
  rewrite Digits.Zpos_digits2_pos.
  assert (D : (Zdigits radix2 (Z.pos m) <= 11)%Z) by (apply Zdigits_le_Zpower; cbn [Z.abs]; exact H1).
  assert (P : (0 < Zdigits radix2 (Z.pos m))%Z) by (apply Zdigits_gt_0; lia).
  destruct H3 as [H3| ->]; [|lia].
  assert (G : (10 < Zdigits radix2 (Z.pos m))%Z) by (apply Zdigits_gt_Zpower; cbn [Z.abs]; exact H3). lia.
Qed.
Lemma bits16_of_bits w : (0 <= w < 2 ^ 16)%Z -> f16_of_bits w <> B754_nan -> f16_bits (f16_of_bits w) = w.
Proof.
  intros R N. unfold f16_of_bits in *. cbv zeta in *.
  change (2 ^ 15)%Z with 32768%Z in *. change (2 ^ 16)%Z with 65536%Z in *. change (2 ^ 10)%Z with 1024%Z in *.
  set (s := (32768 <=? w)%Z) in *. set (e := ((w / 1024) mod 32)%Z) in *. set (m := (w mod 1024)%Z) in *.
  assert (Rm : (0 <= m < 1024)%Z) by (apply Z.mod_pos_bound; lia).
  assert (Re : (0 <= e < 32)%Z) by (apply Z.mod_pos_bound; lia).
  assert (Ew : w = ((if s then 32768 else 0) + (e * 1024 + m))%Z).
  { unfold s. pose proof (Z.div_mod w 1024 ltac:(lia)) as D. fold m in D. pose proof (Z.div_mod (w / 1024) 32 ltac:(lia)) as D2. fold e in D2.
    destruct (Z.leb_spec 32768 w); lia. }
  clearbody s e m. subst w. clear R.
  destruct (Z.eqb_spec e 31) as [E1|E1].
  { destruct (Z.eqb_spec m 0) as [E2|E2]; [|congruence]. rewrite E1, E2. clear. destruct s; reflexivity. }
  destruct (Z.eqb_spec e 0) as [E2|E2].
  - destruct (Z.eqb_spec m 0) as [E3|E3]; [rewrite E2, E3; clear; destruct s; reflexivity|]. destruct m as [|m|m]; try lia. clear N.
    assert (B : SpecFloat.bounded 11 16 m (-24) = true) by (apply bounded16_intro; lia).
    replace (if s then (- Z.pos m)%Z else Z.pos m) with (if s then Z.neg m else Z.pos m) by (destruct s; reflexivity).
    rewrite (hZ_finite s m (-24) B). unfold f16_bits. change (2 ^ 10)%Z with 1024%Z. change (2 ^ 15)%Z with 32768%Z.
    replace (Z.pos m <? 1024)%Z with true by lia. lia.
  - destruct (m + 1024)%Z as [|p|p] eqn:Ep; try lia.
    assert (B : SpecFloat.bounded 11 16 p (e - 25) = true) by (apply bounded16_intro; lia).
    replace (if s then (- Z.pos p)%Z else Z.pos p) with (if s then Z.neg p else Z.pos p) by (destruct s; reflexivity).
    rewrite (hZ_finite s p (e - 25) B). unfold f16_bits. change (2 ^ 10)%Z with 1024%Z. change (2 ^ 15)%Z with 32768%Z.
    replace (Z.pos p <? 1024)%Z with false by lia. lia.
Qed.

(** Every aligned 16-bit word of the memory read as an f16 is a number. *)
Definition no_nans16 (m : list Z) : Prop :=
  forall j, j * 2 + 2 <= length m -> edec elem_f16 (firstn 2 (skipn (j * 2) m)) <> B754_nan.
Lemma intact_f16 m : bytes m -> no_nans16 m -> intact elem_f16 m.
Proof.
  intros B N j Hj. specialize (N j Hj). cbn [esize elem_f16] in *. fold (sub m (j * 2) 2) in N.
  assert (Bs : bytes (sub m (j * 2) 2)) by (now apply Forall_sub). pose proof (sub_len m (j * 2) 2 Hj) as Ls.
  set (l := sub m (j * 2) 2) in *. clearbody l. destruct l as [|a [|b [|]]]; try discriminate Ls.
  inversion Bs as [|? ? Ba B1]; subst. inversion B1 as [|? ? Bb B2]; subst.
  cbn [edec eenc elem_f16 nth] in *. rewrite bits16_of_bits by (auto; lia).
  set (w := (a + 256 * b)%Z).
  replace (w mod 256)%Z with a by (apply Z.mod_unique with b; unfold w; lia).
  replace (w / 256)%Z with b by (apply Z.div_unique with a; unfold w; lia). reflexivity.
Qed.

(** ** An aligned call, with the destination memory in closed form *)
Section Form.
Context {T : Type}.
Variable e : elem T.
Hypothesis L : lays_out e.
Let sz := esize e.
Lemma aligned_form N (src dst : block) pitch w h pitch' w' h' depth :
  0 < N -> 0 < w -> 0 < h -> 0 < w' -> 0 < h' ->
  w * N * sz <= pitch -> pitch * h <= length (mem src) -> fits_usize (pitch * h) ->
  w' * N * sz <= pitch' -> pitch' * h' <= length (mem dst) -> fits_usize (pitch' * h') ->
  (addr src mod ealign e = 0 /\ pitch mod sz = 0) \/ N = sz ->
  addr dst mod ealign e = 0 -> pitch' mod sz = 0 ->
  let into := mkImage (decode e (mem dst) (h' * (pitch' / sz))) N w' h' (pitch' / sz) depth in
  exists store, describes e N (mem src) pitch w h depth store /\ describes e N (mem dst) pitch' w' h' depth into /\ from_memory e (mem src) store /\
    forall scale v out, scale store into = Returned v out ->
      c_scale e N scale src pitch w h dst pitch' w' h' depth =
      CDone (code_of v, encode e (buf out) ++ skipn (h' * (pitch' / sz) * sz) (mem dst)).
Proof using L.
  intros HN Hw Hh Hw' Hh' Hp Hm Hf Hp' Hm' Hf' Hal Ha' Hd' into. pose proof (lo_size e L) as Hsz. fold sz in Hsz.
  destruct (source_ok e L N src pitch w h depth) as (store & E & D & FM); auto.
  assert (Ep : pitch' = pitch' / sz * sz) by (pose proof (Nat.div_mod pitch' sz ltac:(lia)); lia).
  assert (Wm : wmul h' (pitch' / sz) = h' * (pitch' / sz)).
  { apply wmul_small. unfold fits_usize in *. pose proof (div_le_self pitch' sz h' Hsz). lia. }
  assert (Fit : h' * (pitch' / sz) * sz <= length (mem dst)) by (rewrite Ep in Hm'; lia).
  exists store. split; [exact D|]. split.
  { destruct (source_ok e L N (mkBlock 0 (mem dst)) pitch' w' h' depth) as (i2 & E2 & D2 & _); auto.
    { left. cbn [addr]. split; [|exact Hd']. destruct (ealign e); [reflexivity|]. now apply Nat.mod_0_l. }
    unfold c_source in E2. fold sz in E2. rewrite Hd' in E2.
    replace (addr {| addr := 0; mem := mem dst |} mod ealign e) with 0 in E2.
    2:{ cbn [addr]. destruct (ealign e); [reflexivity|]. now rewrite Nat.mod_0_l. }
    cbn [Nat.eqb negb orb] in E2. rewrite Nat.mul_comm in Wm. unfold raw_parts in E2. fold sz in E2.
    replace (addr {| addr := 0; mem := mem dst |} mod ealign e) with 0 in E2.
    2:{ cbn [addr]. destruct (ealign e); [reflexivity|]. now rewrite Nat.mod_0_l. }
    cbn [Nat.eqb negb mem] in E2.
    assert (Wm2 : wmul (pitch' / sz) h' = h' * (pitch' / sz)).
    { rewrite wmul_small; [lia|]. unfold fits_usize in *. pose proof (div_le_self pitch' sz h' Hsz). lia. }
    rewrite Wm2 in E2. replace (length (mem dst) <? h' * (pitch' / sz) * sz) with false in E2 by lia. cbn [cbind] in E2.
    injection E2 as <-. exact D2. }
  split; [exact FM|]. intros scale v out Sc.
  unfold c_scale. rewrite E. cbn [cbind]. fold sz. rewrite Ha'. cbn [Nat.eqb negb andb]. rewrite Wm. unfold raw_parts. fold sz.
  rewrite Ha'. cbn [Nat.eqb negb]. replace (length (mem dst) <? h' * (pitch' / sz) * sz) with false by lia. cbn [cbind].
  fold into. rewrite Sc. reflexivity.
Qed.

(** The same written bytes over memory whose rows were cleared before. *)
Lemma cleared_decode (m : list Z) n : decode e (repeat 0%Z (n * sz) ++ m) n = repeat (edec e (repeat 0%Z sz)) n.
Proof using.
  apply list_ext. intro i. destruct (Nat.lt_ge_cases i n) as [G|G].
  - rewrite decode_nth by exact G. fold sz. rewrite nth_error_repeat_case. replace (i <? n) with true by lia. f_equal. f_equal.
    apply (sub_eq e); [|apply repeat_length]. intros b Hb. assert (i * sz + sz <= n * sz) by (apply row_fits; lia).
    rewrite nth_error_app1 by (rewrite repeat_length; lia). rewrite !nth_error_repeat_case.
    replace (i * sz + b <? n * sz) with true by lia. now replace (b <? sz) with true by lia.
  - assert (A : nth_error (decode e (repeat 0%Z (n * sz) ++ m) n) i = None) by (apply nth_error_None; rewrite decode_length; lia).
    rewrite A. symmetry. apply nth_error_None. rewrite repeat_length. lia.
Qed.
End Form.
