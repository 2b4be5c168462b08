(** 16-bit alpha: pixel arithmetic at any depth. *)
From Coq Require Import ZArith Reals Lra List Lia Bool Psatz ZifyBool ZifyNat.
From Flocq Require Import Core.Core IEEE754.BinarySingleNaN.
From Verif Require Import Base BaseProofs ImageStore F32 F32Proofs WeightSum Alpha SpecApi SpecAlpha AlphaArith AlphaArith16
  DispatchProofs AlphaProofs AlphaScan.
Import ListNotations.
Local Open Scope Z_scope.

Lemma pow_range d : (1 <= d <= 16)%nat -> 2 <= 2 ^ Z.of_nat d <= 65536.
Proof.
  intro H. split.
  - change 2 with (2 ^ 1) at 1. apply Z.pow_le_mono_r; lia.
  - change 65536 with (2 ^ 16). apply Z.pow_le_mono_r; lia.
Qed.

(** Within one unit below and 1/64 unit above the exact quotient. *)
Lemma premul_u16_close d c a : (1 <= d <= 16)%nat -> let M := max_colors d in
  0 <= c <= M -> 0 <= a <= M -> let r := premul_ch_u16 M c a in
  0 <= r <= M /\ r <= a /\ 64 * (M * r - c * a) <= 32 * M /\ 64 * (c * a - M * r) < 65 * M.
Proof.
  intros Hd M Hc Ha. pose proof (pow_range d Hd) as Hp. unfold max_colors in M. subst M. set (M := 2 ^ Z.of_nat d - 1) in *.
  assert (MR : 1 <= M <= 65535) by lia.
  cbv zeta. unfold premul_ch_u16.
  assert (ND : forall r, r = nearest_div (c * a) M -> 0 <= r <= M /\ r <= a /\ 64 * (M * r - c * a) <= 32 * M /\ 64 * (c * a - M * r) < 65 * M).
  { intros r ->. pose proof (nearest_div_le c a M ltac:(lia) ltac:(lia) ltac:(lia)) as K.
    split; [lia|]. split; [lia|]. unfold nearest_div in *.
    pose proof (Z.div_mod (2 * (c * a) + M) (2 * M) ltac:(lia)) as E. pose proof (Z.mod_pos_bound (2 * (c * a) + M) (2 * M) ltac:(lia)) as B.
    set (q := (2 * (c * a) + M) / (2 * M)) in *. set (m := (2 * (c * a) + M) mod (2 * M)) in *.
    generalize dependent (c * a). intros. nia. }
  destruct (Z.eqb_spec M 1023) as [E|N1].
  { apply ND. pose proof (premul_u16_exact 10 c a ltac:(auto) ltac:(lia) ltac:(lia)) as X. rewrite E. exact X. }
  destruct (Z.eqb_spec M 4096) as [E|N2].
  { exfalso. assert (T : Z.odd M = true). { unfold M. replace d with (S (d - 1)) by lia. rewrite Nat2Z.inj_succ, Z.pow_succ_r by lia.
      rewrite Z.odd_sub, Z.odd_mul. reflexivity. } rewrite E in T. discriminate. }
  destruct (Z.eqb_spec M 65535) as [E|N3].
  { apply ND. pose proof (premul_u16_exact 16 c a ltac:(auto) ltac:(lia) ltac:(lia)) as X. rewrite E. exact X. }
  unfold premul_float_u16.
  assert (CA : 0 <= c * a <= 65535 * M) by nia. assert (CM : c * a <= M * a) by nia.
  assert (W : wrap_u32 (c * a) = c * a). { unfold wrap_u32. apply Z.mod_small. nia. }
  rewrite W. destruct (trunc_ratio (2 ^ 32 - 1) (c * a) M ltac:(nia) MR ltac:(nia) ltac:(lia)) as (T1 & T2 & T3).
  cbv zeta in *. set (r := f_to_int 0 (2 ^ 32 - 1) _) in *.
  assert (RA : r <= a) by (generalize dependent (c * a); intros; nia).
  rewrite Z.min_l by lia. unfold wrap16. rewrite Z.mod_small by lia. lia.
Qed.

Lemma unpremul_u16_close d c a : (1 <= d <= 16)%nat -> let M := max_colors d in
  0 < a <= M -> 0 <= c <= a -> let r := unpremul_ch_u16 M c a in
  0 <= r <= M /\ 64 * (a * r - c * M) <= a /\ 64 * (c * M - a * r) < 65 * a.
Proof.
  intros Hd M Ha Hc. pose proof (pow_range d Hd) as Hp. unfold max_colors in M. subst M. set (M := 2 ^ Z.of_nat d - 1) in *.
  assert (MR : 1 <= M <= 65535) by lia. cbv zeta. unfold unpremul_ch_u16.
  assert (CM : 0 <= c * M <= a * M) by nia. assert (AM : a * M <= 65535 * a) by nia.
  assert (W : wrap_u32 (c * M) = c * M). { unfold wrap_u32. apply Z.mod_small. nia. }
  rewrite W. destruct (trunc_ratio_16 (c * M) a ltac:(nia) ltac:(lia) ltac:(nia)) as (T1 & T2 & T3). cbv zeta in *.
  set (r := f_to_int 0 (2 ^ 16 - 1) _) in *.
  split; [|split; [exact T2|exact T3]]. split; [lia|]. generalize dependent (c * M). intros. nia.
Qed.

(** The alpha sample becomes the maximum, or one less. *)
Lemma unpremul_u16_alpha d a : (1 <= d <= 16)%nat -> let M := max_colors d in
  0 < a <= M -> M - 1 <= unpremul_ch_u16 M a a <= M.
Proof.
  intros Hd M Ha. destruct (unpremul_u16_close d a a Hd Ha ltac:(lia)) as (T1 & T2 & T3). fold M in T1, T2, T3.
  set (r := unpremul_ch_u16 M a a) in *. split; [|lia]. nia.
Qed.

(** Colours above alpha saturate at the 16-bit range only. *)
Lemma unpremul_u16_escape : unpremul_ch_u16 1023 1023 1 = 65535.
Proof. vm_compute. reflexivity. Qed.

(** ** f32 bit patterns *)
Lemma finite_parts (s : bool) m e (H : SpecFloat.bounded 24 128 m e = true) : 
  0 < Z.pos m < 2 ^ 24 /\ -149 <= e <= 104 /\ (Z.pos m < 2 ^ 23 -> e = -149).
Proof.
  pose proof H as H'. unfold SpecFloat.bounded in H'. apply andb_prop in H' as [H1 H2]. apply Zle_bool_imp_le in H2.
  unfold SpecFloat.canonical_mantissa in H1. apply Zeq_bool_eq in H1. unfold SpecFloat.fexp, SpecFloat.emin in H1.
  rewrite Digits.Zpos_digits2_pos in H1.
  pose proof (Digits.Zdigits_correct radix2 (Z.pos m)) as [D1 D2]. rewrite Z.abs_eq in D1, D2 by lia.
  assert (DG : Digits.Zdigits radix2 (Z.pos m) <= 24) by lia.
  split; [|split].
  - split; [lia|]. eapply Z.lt_le_trans; [exact D2|]. apply (Zpower_le radix2 _ 24). lia.
  - lia.
  - intro L. destruct (Z.eq_dec (Digits.Zdigits radix2 (Z.pos m)) 24) as [E|]; [|lia].
    exfalso. rewrite E in D1. change (Zpower radix2 (24 - 1)) with (2 ^ 23) in D1. lia.
Qed.

Lemma f32_bits_range (x : f32) : 0 <= f32_bits x < 2 ^ 32.
Proof.
  destruct x as [s|s| |s m e H].
  - destruct s; vm_compute; split; congruence.
  - destruct s; vm_compute; split; congruence.
  - vm_compute; split; congruence.
  - destruct (finite_parts s m e H) as (H1 & H2 & H3). unfold f32_bits.
    destruct (Z.ltb_spec (Z.pos m) (2 ^ 23)); destruct s; lia.
Qed.

Lemma f32_bits_inj (x y : f32) : f32_bits x = f32_bits y -> x = y.
Proof.
  assert (FF : forall (s s' : bool) m e (H : SpecFloat.bounded 24 128 m e = true) m' e' (H' : SpecFloat.bounded 24 128 m' e' = true),
    f32_bits (B754_finite s m e H) = f32_bits (B754_finite s' m' e' H') -> B754_finite s m e H = B754_finite s' m' e' H').
  { intros s s' m e H m' e' H' E. pose proof (finite_parts s m e H) as (A1 & A2 & A3). pose proof (finite_parts s' m' e' H') as (B1 & B2 & B3).
    unfold f32_bits in E.
    assert (K : s = s' /\ Z.pos m = Z.pos m' /\ e = e').
    { destruct s, s', (Z.ltb_spec (Z.pos m) (2 ^ 23)), (Z.ltb_spec (Z.pos m') (2 ^ 23)); lia. }
    destruct K as (-> & Km & ->). injection Km as ->. f_equal. apply Eqdep_dec.UIP_dec. decide equality. }
  destruct x as [s|s| |s m e H], y as [s'|s'| |s' m' e' H']; intro E;
    try (apply FF; exact E); try reflexivity;
    try (destruct s); try (destruct s'); try reflexivity; try discriminate E;
    exfalso; revert E; unfold f32_bits.
  all: try (pose proof (finite_parts true m e H) as (A1 & A2 & A3); destruct (Z.ltb_spec (Z.pos m) (2 ^ 23)); lia).
  all: try (pose proof (finite_parts true m' e' H') as (A1 & A2 & A3); destruct (Z.ltb_spec (Z.pos m') (2 ^ 23)); lia).
Qed.

(** The scan of f32 images. *)
Lemma scan_f32 (im : image f32) : Z.of_nat (width im) <= 2 ^ 32 -> good 4 im ->
  exists res, alpha_needed_f32 im = Done res /\
    (res = true <-> exists x y, (x < width im)%nat /\ (y < height im)%nat /\ alpha_at im x y <> alpha_at im 0 0).
Proof.
  intros Hw G. set (im' := mkImage (map f32_bits (buf im)) (channels im) (width im) (height im) (stride im) (bit_depth im)).
  assert (G' : good 4 im'). { destruct G as [G1 G2 G3 G4]. constructor; cbn [im' width height stride buf]; auto. now rewrite map_length. }
  destruct (scan_ok 32 (2 ^ 64) im') as (res & R & I); auto; try lia.
  { cbn [im' width]. lia. }
  { cbn [im' buf]. apply Forall_forall. intros v Hv. apply in_map_iff in Hv as (x & <- & _). apply f32_bits_range. }
  exists res. split; [exact R|]. rewrite I. clear I R.
  assert (E : forall x y, alpha_at im' x y = option_map f32_bits (alpha_at im x y)).
  { intros. unfold alpha_at, sample. cbn [im' buf stride]. apply nth_error_map. }
  assert (Inj : forall a b : option f32, option_map f32_bits a = option_map f32_bits b -> a = b).
  { intros [a|] [b|]; cbn; intro H; try discriminate; auto. inversion H. f_equal. now apply f32_bits_inj. }
  split; intros (x & y & Hx & Hy & D); exists x, y; repeat split; auto.
  - intro Q. apply D. rewrite !E. now rewrite Q.
  - intro Q. apply D. rewrite !E in Q. now apply Inj.
Qed.
