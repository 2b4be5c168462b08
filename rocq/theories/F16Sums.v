(** f16 calls: sums of windows, constants, opaque pixels. *)
From Coq Require Import ZArith Reals List Lra Lia Bool Permutation ZifyBool ZifyNat.
From Flocq Require Import Core.Core IEEE754.BinarySingleNaN.
From Verif Require Import Base BaseProofs ImageStore FixedPoint Dispatch FloatConv Resize Spec SpecApi SpecAlpha SpecFloat SpecX86Float SpecKernels SpecAccuracy
  SpecFloatAccuracy F32 F32Proofs Weights Sampler
  KernelProofs DispatchProofs ResizeProofs NoFail ImageProofs PoolProofs PortableProofs Center SamplerProofs
  Api ApiFloat Alpha ApiProofs DriverProofs FloatApiProofs AlphaProofs AlphaScan AlphaU16 RgbaProofs RgbaFloat
  X86FloatCalls FloatAccuracy FloatAccuracyCalls QuantSums DeepCalls F16 F16Arith F16Proofs F16Calls SpecF16 F16Range.
From Verif Require FloatSumErr X86FloatKernels X86FloatRows.
Import ListNotations.
Local Open Scope nat_scope.

Lemma sums_once W o p v : X86FloatKernels.sums_taps X86FloatKernels.no_extra (tsize W o) (fun k => p (tstart W o + k)) (tweight W o) v -> each_tap_once W o p v.
Proof. apply no_extra_once. Qed.

(** The same with the rounding function. *)
Definition narrowed_sum (W : taps f32) (o : nat) (p : nat -> f16) (r : f16) : Prop :=
  exists v, each_tap_once W o (fun k => as_f32 (p k)) v /\ r = as_f16 v.
Lemma narrowed_sum_at W o p r : narrowed_sum W o p r -> f16_sum_at W o p r.
Proof. intros (v & Q & ->). exists v. split; [exact Q|apply as_f16_nearest]. Qed.

Lemma pass_sum k W o (p : nat -> f16) :
  narrowed_sum W o p (as_f16 (SpecFloat.weighted f0 fmul (mlaf k) (tsize W o) (fun i => as_f32 (p (tstart W o + i))) (tweight W o))).
Proof.
  eexists. split; [|reflexivity]. apply (no_extra_once W o (fun i => as_f32 (p i))). apply weighted_sums.
Qed.

Theorem f16_sums_is k L f N pool (store into : image f16) :
  f <> Nearest -> valid_call N false f store into -> changes_size store into -> pool_ok pool ->
  exists out (mid : nat -> nat -> nat -> f16), resize_f16 k L f N pool store into = Returned Ok out /\ only_pixels_differ N (prepared store into) out /\
    (forall y x c, y < height into -> x < width store -> c < N ->
      if height store =? height into then sample N store x y c = Some (mid y x c)
      else narrowed_sum (filter_taps (resampling_filter L f) (height store) (height into)) y (fun i => stored16 N store i x c) (mid y x c)) /\
    (forall y x c, y < height into -> x < width into -> c < N ->
      exists v, sample N out x y c = Some v /\
      if width store =? width into then v = mid y x c
      else narrowed_sum (filter_taps (resampling_filter L f) (width store) (width into)) x (fun i => mid y i c) v).
Proof.
  intros Hf V D P. destruct (f16_paints k L f N pool store into Hf V D P) as (out & R & O & S).
  destruct (valid_good V) as [Gs Gi]. pose proof (vc_N _ _ _ _ _ V) as HN.
  set (Tv := filter_taps (resampling_filter L f) (height store) (height into)) in *.
  set (mid := fun y x c => if height store =? height into then stored16 N store y x c
                           else as_f16 (SpecFloat.weighted f0 fmul (mlaf k) (tsize Tv y) (fun i => as_f32 (stored16 N store (tstart Tv y + i) x c)) (tweight Tv y))).
  exists out, mid. split; [exact R|]. split; [exact O|].
  assert (SZ : width out = width into /\ height out = height into).
  { destruct (prepared_fields store into) as (E1 & E2 & _). rewrite (opd_width _ _ _ O), (opd_height _ _ _ O). auto. }
  split.
  - intros y x c Hy Hx Hc. unfold mid. destruct (Nat.eqb_spec (height store) (height into)) as [E|E].
    + unfold sample, stored16. rewrite Nat.add_assoc. apply nth_error_nth'. pose proof (g_len _ _ Gs). pose proof (g_stride _ _ Gs). nia.
    + apply (pass_sum k Tv y (fun i => stored16 N store i x c)).
  - intros y x c Hy Hx Hc. eexists. split; [apply S; [rewrite (proj1 SZ)|rewrite (proj2 SZ)|]; assumption|].
    unfold f16_passes, float_resample. fold Tv. destruct (Nat.eqb_spec (width store) (width into)) as [E|E]; cbn [negb].
    + unfold mid. destruct (height store =? height into); cbn [negb]; reflexivity.
    + set (Th := filter_taps (resampling_filter L f) (width store) (width into)).
      replace (fun i => mid y i c) with (fun i => (if negb (height store =? height into) then float_v f0 fmul (mlaf k) as_f32 as_f16 Tv
          (fun y x c => nth (y * stride store + (x * N + c)) (buf store) h0) else (fun y x c => nth (y * stride store + (x * N + c)) (buf store) h0)) y i c).
      * apply pass_sum.
      * unfold mid. destruct (height store =? height into); reflexivity.
Qed.

(** ** Averaging filters *)
Section Averaging.
Local Open Scope R_scope.
Variables (L : libm) (f : resampling_function).
Hypothesis A : averaging f = true.

Lemma narrowed_blend W o p r : narrowed_sum W o p r -> exists v, blend_at W o (fun i => as_f32 (p i)) v /\ r = as_f16 v.
Proof.
  intros (v & Q & H). exists v. split; [|exact H]. apply sums_blend. exact (proj2 (no_extra_once _ _ _ _) Q).
Qed.

Lemma as_f32_B2R (x : f16) : is_finite x = true -> is_finite (as_f32 x) = true /\ B2R (as_f32 x) = B2R x.
Proof. intro F. destruct (as_f32_exact x F) as (a & b & _). auto. Qed.

Lemma B16_lt (x : f16) : is_finite x = true -> Rabs (B2R x) <= 65504.
Proof.
  intro F. rewrite <- (rnd16_fmt (B2R x) (fmt16_B2R x)). apply rnd16_small.
  destruct (Rle_lt_dec 65520 (Rabs (B2R x))) as [H|H]; [|exact H]. exfalso.
  apply rnd16_big in H. rewrite (rnd16_fmt _ (fmt16_B2R x)) in H. pose proof (abs_B2R_lt_emax 11 16 x) as Q.
  change (bpow radix2 16) with 65536 in Q. lra.
Qed.

Lemma slack_small t (M : R) : (1 <= t <= 150)%Z -> 0 <= M -> M * (6 * IZR t + 2) * / 4194304 + bpow radix2 (-120) <= small_err M.
Proof.
  intros Ht HM. unfold small_err. assert (IZR t <= 150) by (apply IZR_le; lia).
  assert (M * ((6 * IZR t + 2) * / 4194304) <= M * (902 / 4194304)) by (apply Rmult_le_compat_l; lra). lra.
Qed.

Lemma big_80 : 65504 <= IZR (2 ^ 80).
Proof. apply (IZR_le 65504). lia. Qed.

Lemma pass_bounded insz outsz t o (p : nat -> f16) r (m : R) : sides_ok f insz outsz -> (1 <= t <= 150)%Z -> (Z.of_nat insz <= t * Z.of_nat outsz)%Z -> (o < outsz)%nat ->
  narrowed_sum (filter_taps (resampling_filter L f) insz outsz) o p r -> fmt16 m -> 0 <= m <= 65504 ->
  (forall i, (i < insz)%nat -> is_finite (p i) = true /\ Rabs (B2R (p i)) <= m) ->
  is_finite r = true /\ Rabs (B2R r) <= m.
Proof using A.
  intros S Ht Hr Ho Q Fm Hm Hp. destruct (narrowed_blend _ _ _ _ Q) as (v & B & ->).
  destruct (blend_range L f A insz outsz t o _ v (- m) m m S ltac:(lia) Hr Ho B) as (Fv & Rv).
  - rewrite Rabs_Ropp, Rabs_pos_eq by lra. lra.
  - rewrite Rabs_pos_eq by lra. lra.
  - pose proof big_80. lra.
  - intros i Hi. destruct (Hp i Hi) as (F & B'). destruct (as_f32_B2R _ F) as (F' & ->). split; [exact F'|]. apply Rabs_le_inv in B'. lra.
  - pose proof (slack_small t m Ht ltac:(lra)) as Sl.
    assert (C : Rabs (rnd16 (B2R v)) <= m).
    { apply cap16_abs; auto; [lra|]. apply Rabs_le. lra. }
    destruct (as_f16_rounds v Fv) as (X & Y & _).
    { change (bpow radix2 16) with 65536. lra. }
    split; [exact X|]. rewrite Y. exact C.
Qed.

Lemma pass_constant insz outsz t o (p : nat -> f16) r (a : R) : sides_ok f insz outsz -> (1 <= t <= 150)%Z -> (Z.of_nat insz <= t * Z.of_nat outsz)%Z -> (o < outsz)%nat ->
  narrowed_sum (filter_taps (resampling_filter L f) insz outsz) o p r -> fmt16 a -> Rabs a <= 65504 ->
  (forall i, (i < insz)%nat -> is_finite (p i) = true /\ B2R (p i) = a) ->
  is_finite r = true /\ B2R r = a.
Proof using A.
  intros S Ht Hr Ho Q Fm Hm Hp. destruct (narrowed_blend _ _ _ _ Q) as (v & B & ->).
  destruct (blend_range L f A insz outsz t o _ v a a (Rabs a) S ltac:(lia) Hr Ho B) as (Fv & Rv).
  - lra.
  - lra.
  - pose proof big_80. lra.
  - intros i Hi. destruct (Hp i Hi) as (F & B'). destruct (as_f32_B2R _ F) as (F' & ->). split; [exact F'|]. lra.
  - pose proof (slack_small t (Rabs a) Ht (Rabs_pos a)) as Sl.
    assert (C : rnd16 (B2R v) = a).
    { apply steady16; auto. apply Rabs_le. lra. }
    destruct (as_f16_rounds v Fv) as (X & Y & _).
    { change (bpow radix2 16) with 65536. rewrite C. lra. }
    split; [exact X|]. now rewrite Y.
Qed.

Lemma sample16_stored N (im : image f16) x y c v : sample N im x y c = Some v -> stored16 N im y x c = v.
Proof. unfold sample, stored16. intro H. apply nth_error_nth with (d := h0) in H. rewrite <- H. f_equal. lia. Qed.

(** Both passes. *)
Section TwoPasses.
Variables (k : mlaf_kind) (N : nat) (pool : pool_t) (store into out : image f16) (t : Z) (c : nat).
Hypothesis V : valid_call N false f store into.
Hypothesis D : changes_size store into.
Hypothesis Hf : f <> Nearest.
Hypothesis P : pool_ok pool.
Hypothesis Ht : (1 <= t <= 150)%Z.
Hypothesis DS : downscale_at_most t store into.
Hypothesis Hc : (c < N)%nat.
Hypothesis R : resize_f16 k L f N pool store into = Returned Ok out.

Lemma two_pass_inv (I : f16 -> Prop) :
  (forall insz outsz o p r, sides_ok f insz outsz -> (Z.of_nat insz <= t * Z.of_nat outsz)%Z -> (o < outsz)%nat ->
     narrowed_sum (filter_taps (resampling_filter L f) insz outsz) o p r -> (forall i, (i < insz)%nat -> I (p i)) -> I r) ->
  (forall x y, (x < width store)%nat -> (y < height store)%nat -> exists v, sample N store x y c = Some v /\ I v) ->
  forall x y, (x < width into)%nat -> (y < height into)%nat -> exists v, sample N out x y c = Some v /\ I v.
Proof using A V D Hf P DS Hc R.
  intros HI HS x y Hx Hy. destruct (f16_sums_is k L f N pool store into Hf V D P) as (o & mid & R' & O & M & S).
  rewrite R in R'. inversion R'; subst o. destruct (valid_sides V) as (SdV & SdH). destruct DS as [DSw DSh].
  assert (HM : forall xx, (xx < width store)%nat -> I (mid y xx c)).
  { intros xx Hxx. specialize (M y xx c Hy Hxx Hc). destruct (Nat.eqb_spec (height store) (height into)) as [E|E].
    - destruct (HS xx y Hxx ltac:(lia)) as (v & Sv & Iv). congruence.
    - refine (HI _ _ y _ _ SdV DSh Hy M _). intros i Hi. destruct (HS xx i Hxx Hi) as (v & Sv & Iv).
      now rewrite (sample16_stored _ _ _ _ _ _ Sv). }
  destruct (S y x c Hy Hx Hc) as (v & Sv & Q). exists v. split; [exact Sv|].
  destruct (Nat.eqb_spec (width store) (width into)) as [E|E].
  - subst v. apply HM. lia.
  - refine (HI _ _ x _ _ SdH DSw Hx Q _). exact HM.
Qed.
End TwoPasses.
End Averaging.
