(** Calls on processors with SSE4.1 but without F16C. *)
From Coq Require Import ZArith Reals List Lra Lia Bool Permutation ZifyBool ZifyNat.
From Flocq Require Import Core.Core IEEE754.BinarySingleNaN.
From Verif Require Import Base BaseProofs ImageStore FixedPoint Dispatch FloatConv Resize Spec SpecApi SpecFloat SpecX86Float SpecAccuracy SpecFloatAccuracy F32 F32Proofs Weights Sampler
  KernelProofs Center SamplerProofs DispatchProofs ResizeProofs ImageProofs PoolProofs PortableProofs ApiProofs Api ApiFloat DriverProofs FloatApiProofs X86FloatRows
  X86FloatCalls FloatAccuracy FloatAccuracyCalls QuantSums DeepCalls F16 F16Arith F16Proofs F16Calls SpecF16 F16Range F16Sums
  X86Dispatch X86F16 X86F16Calls X86F16Sums X86F16Tables X86F16Old.
Import ListNotations.
Local Open Scope nat_scope.

Definition old (c : hcpu) : Prop := sse41 (hbase c) = true /\ f16c c = false.
Lemma old_up c : old c -> cvt_up c = up_fallback. Proof. intros [_ H]. unfold cvt_up. now rewrite H. Qed.
Lemma old_down c : old c -> cvt_down c = down_fallback. Proof. intros [_ H]. unfold cvt_down. now rewrite H. Qed.

(** One result of the vector kernels. *)
Definition fallback_sum (W : taps f32) (o : nat) (p : nat -> f16) (r : f16) : Prop :=
  exists v, each_tap_once W o (fun k => up_fallback (p k)) v /\ r = down_fallback v.
Lemma fallback_exact_up W o p r : fallback_sum W o p r -> (forall j, j < tsize W o -> is_finite (p (tstart W o + j)) = true) ->
  exists v, each_tap_once W o (fun k => as_f32 (p k)) v /\ r = down_fallback v.
Proof.
  intros (v & Q & ->) F. exists v. split; [|reflexivity]. apply no_extra_once in Q. apply no_extra_once.
  apply (sums_respects _ _ _ _ _ _ _) with (3 := Q); [|reflexivity]. intros j Hj. cbv beta. apply up_fallback_exact. now apply F.
Qed.

Lemma old_v_sum k c fw (p : nat -> nat -> nat -> f16) y x ch : old c ->
  fallback_sum (taps_of f0 fw) y (fun i => p i x ch) (x86h_v k c fw p y x ch).
Proof.
  intros HC. unfold x86h_v. cbv zeta. rewrite (proj1 HC), (proj2 HC), andb_false_r, old_up, old_down by exact HC.
  eexists. split; [|reflexivity]. apply (no_extra_once (taps_of f0 fw) y (fun i => up_fallback (p i x ch))). eapply X86FloatKernels.in_order_sums. reflexivity.
Qed.
Lemma old_h_sum k c N fw (p : nat -> nat -> nat -> f16) y x ch : old c -> 1 <= N <= 4 -> ch < N -> 1 <= tsize (taps_of f0 fw) x ->
  if 3 <=? N then fallback_sum (taps_of f0 fw) x (fun i => p y i ch) (x86h_h k c N fw p y x ch)
  else narrowed_sum (taps_of f0 fw) x (fun i => p y i ch) (x86h_h k c N fw p y x ch).
Proof.
  intros HC HN Hc Hn. unfold x86h_h. destruct (f16_pixel c N) as [px|] eqn:E.
  - replace (3 <=? N) with true.
    2: { destruct N as [|[|[|[|[|N]]]]]; cbn [f16_pixel] in E; try discriminate; try lia; reflexivity. }
    rewrite old_up, old_down by exact HC. destruct (f16_kernel_ok c N px E) as [KG KL KR].
    eexists. split; [|reflexivity]. apply (no_extra_once (taps_of f0 fw) x (fun i => up_fallback (p y i ch))).
    exact (px_val_is N px _ KG KR _ _ _ ch Hn Hc).
  - replace (3 <=? N) with false; [apply (pass_sum k (taps_of f0 fw) x (fun i => p y i ch))|].
    symmetry. apply Nat.leb_gt. destruct HC as [S _]. destruct N as [|[|[|[|[|N]]]]]; cbn [f16_pixel] in E; try lia; rewrite S in E; [discriminate|].
    destruct (avx2 (hbase c) && f16c c); discriminate.
Qed.

Theorem old_sums_is k c L f N pool (store into : image f16) : old c ->
  f <> Nearest -> valid_call N false f store into -> changes_size store into -> pool_ok pool ->
  exists out (mid : nat -> nat -> nat -> f16), resize_f16_x86 k c L f N pool store into = Returned Ok out /\ only_pixels_differ N (x86_prepared c N store into) out /\
    (forall y x ch, y < height into -> x < width store -> ch < N ->
      if height store =? height into then sample N store x y ch = Some (mid y x ch)
      else fallback_sum (filter_taps (resampling_filter L f) (height store) (height into)) y (fun i => stored16 N store i x ch) (mid y x ch)) /\
    (forall y x ch, y < height into -> x < width into -> ch < N ->
      exists v, sample N out x y ch = Some v /\
      if width store =? width into then v = mid y x ch
      else if 3 <=? N then fallback_sum (filter_taps (resampling_filter L f) (width store) (width into)) x (fun i => mid y i ch) v
      else narrowed_sum (filter_taps (resampling_filter L f) (width store) (width into)) x (fun i => mid y i ch) v).
Proof.
  intros HC Hf V D P. destruct (x86_f16_paints k c L f N pool store into Hf V D P) as (out & R & O & S).
  destruct (valid_good V) as [Gs Gi]. pose proof (vc_N _ _ _ _ _ V) as HN.
  set (fwv := generate_weights (resampling_filter L f) (height store) (height into)).
  set (fwh := generate_weights (resampling_filter L f) (width store) (width into)).
  set (mid := fun y x ch => if height store =? height into then stored16 N store y x ch
                           else x86h_v k c fwv (shown h0 N store) y x ch).
  exists out, mid. split; [exact R|]. split; [exact O|].
  assert (SZ : width out = width into /\ height out = height into).
  { destruct (x86_prepared_fields c N store into) as (E1 & E2 & _). rewrite (opd_width _ _ _ O), (opd_height _ _ _ O). auto. }
  split.
  - intros y x ch Hy Hx Hc. unfold mid. destruct (Nat.eqb_spec (height store) (height into)) as [E|E].
    + unfold sample, stored16. rewrite Nat.add_assoc. apply nth_error_nth'. pose proof (g_len _ _ Gs). pose proof (g_stride _ _ Gs). nia.
    + apply (old_v_sum k c fwv (shown h0 N store)). exact HC.
  - intros y x ch Hy Hx Hc. eexists. split; [apply S; [rewrite (proj1 SZ)|rewrite (proj2 SZ)|]; assumption|].
    unfold x86_f16_passes, g_passes, two_passes. cbn [gen x86_tidy_f16]. fold fwv fwh.
    destruct (Nat.eqb_spec (width store) (width into)) as [E|E]; cbn [negb].
    + unfold mid. destruct (height store =? height into); cbn [negb]; [|reflexivity]. reflexivity.
    + replace (fun i => mid y i ch) with (fun i => (if negb (height store =? height into) then x86h_v k c fwv (shown h0 N store) else shown h0 N store) y i ch).
      * apply (old_h_sum k c N fwh); auto.
        pose proof (sane_wf_h (valid_sane L V)) as W. fold fwh in W. pose proof (wf_nth fwh _ _ x W Hx) as Q. cbv zeta in Q. cbn [taps_of tsize]. lia.
      * unfold mid. destruct (height store =? height into); reflexivity.
Qed.

(** ** Rounding *)
Local Instance prec16 : Prec_gt_0 11. Proof. reflexivity. Qed.
Local Instance vexp16 : Valid_exp (SpecFloat.fexp 11 16). Proof. exact (fexp_correct 11 16 eq_refl). Qed.
Lemma away_nearest (v : f32) : is_finite v = true -> (Rabs (B2R v) < 65520)%R -> nearest16 (Rabs (B2R v)) (down_fallback v).
Proof.
  intros F L. destruct (down_fallback_rounds v F L) as (X & Y). pose proof (Rabs_pos (B2R v)) as P.
  split; [|split; intro; exfalso; lra]. intros _. split; [exact X|]. intros q Fq. rewrite Y.
  assert (PT := round_N_pt radix2 (SpecFloat.fexp 11 16) (Z.leb 0) (Rabs (B2R v))).
  destruct PT as (_ & PT). exact (PT _ (fmt16_B2R q)).
Qed.
Lemma away_steady m x : fmt16 m -> (0 <= m)%R -> (0 <= x)%R -> (Rabs (x - m) <= small_err m)%R -> rnd_away x = m.
Proof.
  intros F P Px H. apply Rabs_le_inv in H.
  destruct (Req_dec m 0) as [->|N0].
  - apply rnd_away_tiny. split; [exact Px|]. destruct (small_err_lt 0%R ltac:(lra)); lra.
  - unfold rnd_away. apply Rle_antisym.
    + apply (round_N_le_midp radix2 (SpecFloat.fexp 11 16)); [exact F|]. destruct (succ16_gap m P) as (A & B). destruct (small_err_lt m P); lra.
    + apply (round_N_ge_midp radix2 (SpecFloat.fexp 11 16)); [exact F|]. destruct (pred16_gap m ltac:(lra) F) as (A & B). destruct (small_err_lt m P); lra.
Qed.

Lemma away_fmt (v : f32) : is_finite v = true -> (Rabs (B2R v) < 65520)%R -> fmt16 (rnd_away (Rabs (B2R v))).
Proof. intros F L. destruct (down_fallback_rounds v F L) as (_ & <-). apply fmt16_B2R. Qed.
Lemma away_cap m x : fmt16 m -> (0 <= m)%R -> (Rabs x <= m + small_err m)%R -> (rnd_away (Rabs x) <= m)%R.
Proof.
  intros F P H. apply (round_N_le_midp radix2 (SpecFloat.fexp 11 16)); [exact F|].
  destruct (succ16_gap m P) as (A & B). destruct (small_err_lt m P); lra.
Qed.
Lemma away_pos x : (0 <= rnd_away (Rabs x))%R.
Proof. unfold rnd_away. apply (round_ge_generic radix2 (SpecFloat.fexp 11 16) _ 0); [apply generic_format_0|apply Rabs_pos]. Qed.

Lemma fallback_blend W o p r : fallback_sum W o p r -> exists v, blend_at W o (fun i => up_fallback (p i)) v /\ r = down_fallback v.
Proof. intros (v & Q & H). exists v. split; [|exact H]. apply sums_blend. exact (proj2 (no_extra_once _ _ _ _) Q). Qed.
Lemma up_B2R (x : f16) : is_finite x = true -> is_finite (up_fallback x) = true /\ B2R (up_fallback x) = B2R x.
Proof. intro F. rewrite (up_fallback_exact x F). exact (as_f32_B2R x F). Qed.

Section Averaging.
Variables (L : libm) (f : resampling_function).
Hypothesis A : averaging f = true.

Lemma old_pass_bounded insz outsz t o (p : nat -> f16) r (m : R) : sides_ok f insz outsz -> (1 <= t <= 150)%Z -> (Z.of_nat insz <= t * Z.of_nat outsz)%Z -> o < outsz ->
  fallback_sum (filter_taps (resampling_filter L f) insz outsz) o p r -> fmt16 m -> (0 <= m <= 65504)%R ->
  (forall i, i < insz -> is_finite (p i) = true /\ (Rabs (B2R (p i)) <= m)%R) ->
  is_finite r = true /\ (0 <= B2R r <= m)%R.
Proof using A.
  intros S Ht Hr Ho Q Fm Hm Hp. destruct (fallback_blend _ _ _ _ Q) as (v & B & ->).
  destruct (blend_range L f A insz outsz t o _ v (- m)%R m m S ltac:(lia) Hr Ho B) as (Fv & Rv).
  - rewrite Rabs_Ropp, Rabs_pos_eq by lra. lra.
  - rewrite Rabs_pos_eq by lra. lra.
  - pose proof (big_80 f A). lra.
  - intros i Hi. destruct (Hp i Hi) as (F & B'). destruct (up_B2R _ F) as (F' & ->). split; [exact F'|]. apply Rabs_le_inv in B'. lra.
  - pose proof (slack_small f A t m Ht ltac:(lra)) as Sl.
    assert (C : (Rabs (B2R v) <= m + small_err m)%R) by (apply Rabs_le; lra).
    assert (C2 : (small_err m < 16)%R).
    { unfold small_err. assert ((bpow radix2 (-120) <= 1)%R) by (apply (bpow_le radix2 (-120) 0); lia). lra. }
    destruct (down_fallback_rounds v Fv ltac:(lra)) as (X & Y). split; [exact X|]. rewrite Y. split; [apply away_pos|]. apply away_cap; auto. lra.
Qed.

Lemma old_pass_constant insz outsz t o (p : nat -> f16) r (a : R) : sides_ok f insz outsz -> (1 <= t <= 150)%Z -> (Z.of_nat insz <= t * Z.of_nat outsz)%Z -> o < outsz ->
  fallback_sum (filter_taps (resampling_filter L f) insz outsz) o p r -> fmt16 a -> (Rabs a <= 65504)%R ->
  (forall i, i < insz -> is_finite (p i) = true /\ B2R (p i) = a) ->
  is_finite r = true /\ B2R r = Rabs a.
Proof using A.
  intros S Ht Hr Ho Q Fm Hm Hp. destruct (fallback_blend _ _ _ _ Q) as (v & B & ->).
  destruct (blend_range L f A insz outsz t o _ v a a (Rabs a) S ltac:(lia) Hr Ho B) as (Fv & Rv).
  - lra.
  - lra.
  - pose proof (big_80 f A). lra.
  - intros i Hi. destruct (Hp i Hi) as (F & B'). destruct (up_B2R _ F) as (F' & ->). split; [exact F'|]. lra.
  - pose proof (slack_small f A t (Rabs a) Ht (Rabs_pos a)) as Sl.
    assert (C : (Rabs (B2R v - a) <= small_err (Rabs a))%R) by (apply Rabs_le; lra).
    assert (C3 : (Rabs (Rabs (B2R v) - Rabs a) <= small_err (Rabs a))%R) by (eapply Rle_trans; [apply Rabs_triang_inv2|exact C]).
    assert (C2 : (small_err (Rabs a) < 16)%R).
    { unfold small_err. assert ((bpow radix2 (-120) <= 1)%R) by (apply (bpow_le radix2 (-120) 0); lia). lra. }
    assert (C4 : (Rabs (B2R v) < 65520)%R) by (apply Rabs_le_inv in C3; lra).
    destruct (down_fallback_rounds v Fv C4) as (X & Y). split; [exact X|]. rewrite Y.
    apply away_steady; auto using Rabs_pos. apply generic_format_abs. exact Fm.
Qed.
End Averaging.

(** A call that runs one of the vector kernels last or first. *)
Definition converts (N : nat) (store into : image f16) : Prop := height store <> height into \/ (3 <= N /\ width store <> width into).

Section TwoPassesOld.
Variables (k : mlaf_kind) (c : hcpu) (L : libm) (f : resampling_function) (N : nat) (pool : pool_t) (store into out : image f16) (t : Z) (ch : nat).
Hypothesis HC : old c.
Hypothesis V : valid_call N false f store into.
Hypothesis D : changes_size store into.
Hypothesis A : averaging f = true.
Hypothesis Hf : f <> Nearest.
Hypothesis P : pool_ok pool.
Hypothesis Ht : (1 <= t <= 150)%Z.
Hypothesis DS : downscale_at_most t store into.
Hypothesis Hc : ch < N.
Hypothesis HR : resize_f16_x86 k c L f N pool store into = Returned Ok out.

Lemma old_constant (a : f16) : is_finite a = true -> converts N store into -> (forall x y, x < width store -> y < height store -> sample N store x y ch = Some a) ->
  forall x y, x < width into -> y < height into -> exists v, sample N out x y ch = Some v /\ is_finite v = true /\ B2R v = Rabs (B2R a).
Proof using All.
  intros Fa CV HS x y Hx Hy. destruct (old_sums_is k c L f N pool store into HC Hf V D P) as (o & mid & R' & O & M & S).
  rewrite HR in R'. inversion R'; subst o. destruct (valid_sides V) as (SdV & SdH). destruct DS as [DSw DSh].
  pose proof (B16_lt a Fa) as Ba. pose proof (fmt16_B2R a) as Fm.
  assert (HM : forall xx, xx < width store -> is_finite (mid y xx ch) = true /\ B2R (mid y xx ch) = if height store =? height into then B2R a else Rabs (B2R a)).
  { intros xx Hxx. specialize (M y xx ch Hy Hxx Hc). destruct (Nat.eqb_spec (height store) (height into)) as [E|E].
    - rewrite (HS xx y Hxx ltac:(lia)) in M. assert (EM : mid y xx ch = a) by congruence. rewrite EM. auto.
    - refine (old_pass_constant L f A _ _ t y _ _ (B2R a) SdV Ht DSh Hy M Fm Ba _). intros i Hi. 
      rewrite (sample16_stored Bilinear eq_refl _ _ _ _ _ _ (HS xx i Hxx Hi)). auto. }
  destruct (S y x ch Hy Hx Hc) as (v & Sv & Q). exists v. split; [exact Sv|].
  destruct (Nat.eqb_spec (width store) (width into)) as [E|E].
  - subst v. destruct CV as [CV|[_ CV]]; [|lia]. destruct (HM x ltac:(lia)) as (X & Y). split; [exact X|]. rewrite Y.
    replace (height store =? height into) with false by (symmetry; now apply Nat.eqb_neq). reflexivity.
  - destruct (Nat.leb_spec 3 N) as [N3|N3].
    + destruct (Nat.eqb_spec (height store) (height into)) as [E'|E'].
      * exact (old_pass_constant L f A _ _ t x _ _ (B2R a) SdH Ht DSw Hx Q Fm Ba HM).
      * rewrite <- (Rabs_Rabsolu (B2R a)).
        apply (old_pass_constant L f A _ _ t x _ _ (Rabs (B2R a)) SdH Ht DSw Hx Q); [now apply generic_format_abs|now rewrite Rabs_Rabsolu|exact HM].
    + destruct CV as [CV|[CV _]]; [|lia]. apply Nat.eqb_neq in CV. rewrite CV in HM.
      apply (pass_constant L f A _ _ t x _ _ (Rabs (B2R a)) SdH Ht DSw Hx Q); [now apply generic_format_abs|now rewrite Rabs_Rabsolu|exact HM].
Qed.

Lemma old_bounded (m : R) : fmt16 m -> (0 <= m <= 65504)%R ->
  (forall x y, x < width store -> y < height store -> exists v, sample N store x y ch = Some v /\ is_finite v = true /\ (Rabs (B2R v) <= m)%R) ->
  forall x y, x < width into -> y < height into -> exists v, sample N out x y ch = Some v /\ is_finite v = true /\ (Rabs (B2R v) <= m)%R.
Proof using All.
  intros Fm Bm HS x y Hx Hy. destruct (old_sums_is k c L f N pool store into HC Hf V D P) as (o & mid & R' & O & M & S).
  rewrite HR in R'. inversion R'; subst o. destruct (valid_sides V) as (SdV & SdH). destruct DS as [DSw DSh].
  assert (HM : forall xx, xx < width store -> is_finite (mid y xx ch) = true /\ (Rabs (B2R (mid y xx ch)) <= m)%R).
  { intros xx Hxx. specialize (M y xx ch Hy Hxx Hc). destruct (Nat.eqb_spec (height store) (height into)) as [E|E].
    - destruct (HS xx y Hxx ltac:(lia)) as (v & Sv & Q). assert (EM : mid y xx ch = v) by congruence. rewrite EM. exact Q.
    - destruct (old_pass_bounded L f A _ _ t y _ _ m SdV Ht DSh Hy M Fm Bm) as (X & Y).
      + intros i Hi. destruct (HS xx i Hxx Hi) as (v & Sv & Q). rewrite (sample16_stored Bilinear eq_refl _ _ _ _ _ _ Sv). exact Q.
      + split; [exact X|]. rewrite Rabs_pos_eq; lra. }
  destruct (S y x ch Hy Hx Hc) as (v & Sv & Q). exists v. split; [exact Sv|].
  destruct (Nat.eqb_spec (width store) (width into)) as [E|E].
  - subst v. apply HM. lia.
  - destruct (3 <=? N).
    + destruct (old_pass_bounded L f A _ _ t x _ _ m SdH Ht DSw Hx Q Fm Bm HM) as (X & Y). split; [exact X|]. rewrite Rabs_pos_eq; lra.
    + exact (pass_bounded L f A _ _ t x _ _ m SdH Ht DSw Hx Q Fm Bm HM).
Qed.
End TwoPassesOld.

Lemma old_never_negative k c L f N pool (store into out : image f16) : old c -> f <> Nearest -> valid_call N false f store into -> pool_ok pool ->
  resize_f16_x86 k c L f N pool store into = Returned Ok out ->
  (height store <> height into /\ width store = width into) \/ (3 <= N /\ width store <> width into) ->
  forall x y ch, x < width into -> y < height into -> ch < N -> exists v, sample N out x y ch = Some v /\ Bsign v = false.
Proof.
  intros HC Hf V P R CV x y ch Hx Hy Hc. assert (D : changes_size store into) by (unfold changes_size; lia).
  destruct (old_sums_is k c L f N pool store into HC Hf V D P) as (o & mid & R' & O & M & S).
  rewrite R in R'. inversion R'; subst o. destruct (S y x ch Hy Hx Hc) as (v & Sv & Q). exists v. split; [exact Sv|].
  destruct (Nat.eqb_spec (width store) (width into)) as [E|E].
  - subst v. destruct CV as [[CV _]|[_ CV]]; [|lia]. specialize (M y x ch Hy ltac:(lia) Hc).
    apply Nat.eqb_neq in CV. rewrite CV in M. destruct M as (w & _ & ->). apply down_never_negative.
  - destruct CV as [[_ CV]|[CV _]]; [lia|]. replace (3 <=? N) with true in Q by (symmetry; now apply Nat.leb_le).
    destruct Q as (w & _ & ->). apply down_never_negative.
Qed.
