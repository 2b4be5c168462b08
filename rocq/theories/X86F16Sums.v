(** f16 calls on x86-64: sums of windows, for machines whose conversions are exact. *)
From Coq Require Import ZArith Reals List Lra Lia Bool Permutation ZifyBool ZifyNat.
From Flocq Require Import Core.Core IEEE754.BinarySingleNaN.
From Verif Require Import Base BaseProofs ImageStore FixedPoint Dispatch FloatConv Resize Spec SpecApi SpecAlpha SpecFloat SpecX86Float SpecKernels SpecAccuracy
  SpecFloatAccuracy F32 F32Proofs Weights Sampler
  KernelProofs DispatchProofs ResizeProofs NoFail ImageProofs PoolProofs PortableProofs Center SamplerProofs
  Api ApiFloat Alpha ApiProofs DriverProofs FloatApiProofs AlphaProofs AlphaScan AlphaU16 RgbaProofs RgbaFloat
  X86Dispatch X86Float X86FloatRows X86FloatCalls FloatAccuracy FloatAccuracyCalls QuantSums DeepCalls F16 F16Arith F16Proofs F16Calls SpecF16 F16Range F16Sums
  X86F16 X86F16Proofs X86F16Calls Witness F16Alpha.
From Verif Require FloatSumErr X86FloatKernels.
Import ListNotations.
Local Open Scope nat_scope.

(** Machines that convert between f16 and f32 with F16C instructions or with the portable code. *)
Definition exact_f16 (c : hcpu) : Prop := f16c c = true \/ sse41 (hbase c) = false.

Lemma exact_up c : f16c c = true -> cvt_up c = as_f32. Proof. unfold cvt_up. now intros ->. Qed.
Lemma exact_down c : f16c c = true -> cvt_down c = as_f16. Proof. unfold cvt_down. now intros ->. Qed.

Lemma x86_v_sum k c fw (p : nat -> nat -> nat -> f16) y x ch : exact_f16 c ->
  narrowed_sum (taps_of f0 fw) y (fun i => p i x ch) (x86h_v k c fw p y x ch).
Proof.
  intros HC. unfold x86h_v. cbv zeta. destruct (avx2 (hbase c) && f16c c) eqn:E.
  - eexists. split; [|reflexivity]. apply (no_extra_once (taps_of f0 fw) y (fun i => as_f32 (p i x ch))). eapply X86FloatKernels.in_order_sums. reflexivity.
  - destruct (sse41 (hbase c)) eqn:S.
    + destruct HC as [HC|HC]; [|congruence]. rewrite exact_up, exact_down by exact HC.
      eexists. split; [|reflexivity]. apply (no_extra_once (taps_of f0 fw) y (fun i => as_f32 (p i x ch))). eapply X86FloatKernels.in_order_sums. reflexivity.
    + apply (pass_sum k (taps_of f0 fw) y (fun i => p i x ch)).
Qed.
Lemma x86_h_sum k c N fw (p : nat -> nat -> nat -> f16) y x ch : exact_f16 c -> ch < N -> 1 <= tsize (taps_of f0 fw) x ->
  narrowed_sum (taps_of f0 fw) x (fun i => p y i ch) (x86h_h k c N fw p y x ch).
Proof.
  intros HC Hc Hn. unfold x86h_h. destruct (f16_pixel c N) as [px|] eqn:E.
  - assert (F : f16c c = true).
    { destruct HC as [HC|HC]; [exact HC|]. destruct N as [|[|[|[|[|N]]]]]; cbn [f16_pixel] in E; try discriminate; rewrite HC in E.
      - discriminate.
      - destruct (avx2 (hbase c)); [|discriminate]. destruct (f16c c); [reflexivity|discriminate]. }
    rewrite exact_up, exact_down by exact F. destruct (f16_kernel_ok c N px E) as [KG KL KR].
    eexists. split; [|reflexivity]. apply (no_extra_once (taps_of f0 fw) x (fun i => as_f32 (p y i ch))).
    exact (px_val_is N px _ KG KR _ _ _ ch Hn Hc).
  - apply (pass_sum k (taps_of f0 fw) x (fun i => p y i ch)).
Qed.

Theorem x86_f16_sums_is k c L f N pool (store into : image f16) : exact_f16 c ->
  f <> Nearest -> valid_call N false f store into -> changes_size store into -> pool_ok pool ->
  exists out (mid : nat -> nat -> nat -> f16), resize_f16_x86 k c L f N pool store into = Returned Ok out /\ only_pixels_differ N (x86_prepared c N store into) out /\
    (forall y x ch, y < height into -> x < width store -> ch < N ->
      if height store =? height into then sample N store x y ch = Some (mid y x ch)
      else narrowed_sum (filter_taps (resampling_filter L f) (height store) (height into)) y (fun i => stored16 N store i x ch) (mid y x ch)) /\
    (forall y x ch, y < height into -> x < width into -> ch < N ->
      exists v, sample N out x y ch = Some v /\
      if width store =? width into then v = mid y x ch
      else narrowed_sum (filter_taps (resampling_filter L f) (width store) (width into)) x (fun i => mid y i ch) v).
Proof.
  intros HC Hf V D P. destruct (x86_f16_paints k c L f N pool store into Hf V D P) as (out & R & O & S).
  destruct (valid_good V) as [Gs Gi]. pose proof (vc_N _ _ _ _ _ V) as HN.
  set (fwv := generate_weights (resampling_filter L f) (height store) (height into)).
  set (fwh := generate_weights (resampling_filter L f) (width store) (width into)).
  set (mid := fun y x ch => if height store =? height into then stored16 N store y x ch
                           else x86h_v k c fwv (shown h0 N store) y x ch).
  exists out, mid. split; [exact R|]. split; [exact O|].
  assert (SZ : width out = width into /\ height out = height into).
  { destruct (x86_prepared_fields c N store into) as (E1 & E2 & _). rewrite (opd_width _ _ _ O), (opd_height _ _ _ O). auto. }
  split.
  - intros y x ch Hy Hx Hc. unfold mid. destruct (Nat.eqb_spec (height store) (height into)) as [E|E].
    + unfold sample, stored16. rewrite Nat.add_assoc. apply nth_error_nth'. pose proof (g_len _ _ Gs). pose proof (g_stride _ _ Gs). nia.
    + apply (x86_v_sum k c fwv (shown h0 N store)). exact HC.
  - intros y x ch Hy Hx Hc. eexists. split; [apply S; [rewrite (proj1 SZ)|rewrite (proj2 SZ)|]; assumption|].
    unfold x86_f16_passes, g_passes, two_passes. cbn [gen x86_tidy_f16]. fold fwv fwh.
    destruct (Nat.eqb_spec (width store) (width into)) as [E|E]; cbn [negb].
    + unfold mid. destruct (height store =? height into); cbn [negb]; [|reflexivity]. reflexivity.
    + replace (fun i => mid y i ch) with (fun i => (if negb (height store =? height into) then x86h_v k c fwv (shown h0 N store) else shown h0 N store) y i ch).
      * apply (x86_h_sum k c N fwh); auto.
        pose proof (sane_wf_h (valid_sane L V)) as W. fold fwh in W. pose proof (wf_nth fwh _ _ x W Hx) as Q. cbv zeta in Q. cbn [taps_of tsize]. lia.
      * unfold mid. destruct (height store =? height into); reflexivity.
Qed.

(** Both passes. *)
Lemma x86_two_pass_inv k c L f N pool (store into out : image f16) (t : Z) ch (I : f16 -> Prop) : exact_f16 c ->
  valid_call N false f store into -> changes_size store into -> f <> Nearest -> pool_ok pool -> downscale_at_most t store into -> ch < N ->
  resize_f16_x86 k c L f N pool store into = Returned Ok out ->
  (forall insz outsz o p r, sides_ok f insz outsz -> (Z.of_nat insz <= t * Z.of_nat outsz)%Z -> o < outsz ->
     narrowed_sum (filter_taps (resampling_filter L f) insz outsz) o p r -> (forall i, i < insz -> I (p i)) -> I r) ->
  (forall x y, x < width store -> y < height store -> exists v, sample N store x y ch = Some v /\ I v) ->
  forall x y, x < width into -> y < height into -> exists v, sample N out x y ch = Some v /\ I v.
Proof.
  intros HC V D Hf P DS Hc R HI HS x y Hx Hy. destruct (x86_f16_sums_is k c L f N pool store into HC Hf V D P) as (o & mid & R' & O & M & S).
  rewrite R in R'. inversion R'; subst o. destruct (valid_sides V) as (SdV & SdH). destruct DS as [DSw DSh].
  assert (HM : forall xx, xx < width store -> I (mid y xx ch)).
  { intros xx Hxx. specialize (M y xx ch Hy Hxx Hc). destruct (Nat.eqb_spec (height store) (height into)) as [E|E].
    - destruct (HS xx y Hxx ltac:(lia)) as (v & Sv & Iv). congruence.
    - refine (HI _ _ y _ _ SdV DSh Hy M _). intros i Hi. destruct (HS xx i Hxx Hi) as (v & Sv & Iv).
      rewrite (sample16_stored Bilinear eq_refl _ _ _ _ _ _ Sv); exact Iv. }
  destruct (S y x ch Hy Hx Hc) as (v & Sv & Q). exists v. split; [exact Sv|].
  destruct (Nat.eqb_spec (width store) (width into)) as [E|E].
  - subst v. apply HM. lia.
  - refine (HI _ _ x _ _ SdH DSw Hx Q _). exact HM.
Qed.

(** Two calls compared. *)
Theorem x86_f16_local k c L f N pool pool' (store store' into into' out out' : image f16) x y ch : f <> Nearest ->
  valid_call N false f store into -> valid_call N false f store' into' -> pool_ok pool -> pool_ok pool' ->
  width store = width store' -> height store = height store' -> width into = width into' -> height into = height into' ->
  changes_size store into ->
  resize_f16_x86 k c L f N pool store into = Returned Ok out -> resize_f16_x86 k c L f N pool' store' into' = Returned Ok out' ->
  x < width into -> y < height into -> ch < N ->
  (forall sx sy, in_window (resampling_filter L f) store into x y sx sy -> sample N store sx sy ch = sample N store' sx sy ch) ->
  sample N out x y ch = sample N out' x y ch.
Proof.
  intros Hf V V' P P' E1 E2 E3 E4 D R R' Hx Hy Hc Hw.
  destruct (x86_f16_paints k c L f N pool store into Hf V D P) as (o & R1 & O & S).
  assert (D' : changes_size store' into') by (unfold changes_size in *; lia).
  destruct (x86_f16_paints k c L f N pool' store' into' Hf V' D' P') as (o' & R1' & O' & S').
  rewrite R in R1. rewrite R' in R1'. inversion R1; inversion R1'; subst o o'. clear R1 R1'.
  destruct (x86_prepared_fields c N store into) as (A1 & A2 & _). destruct (x86_prepared_fields c N store' into') as (B1 & B2 & _).
  rewrite S, S'; auto; rewrite ?(opd_width _ _ _ O), ?(opd_width _ _ _ O'), ?(opd_height _ _ _ O), ?(opd_height _ _ _ O'); try lia.
  f_equal. unfold x86_f16_passes, g_passes, two_passes. rewrite <- E1, <- E2, <- E3, <- E4.
  pose proof (g_local_passes L f N false _ _ _ (x86_tidy_conv k c N L f (fun _ _ _ => Panic) (fun _ _ => Panic) (fun _ => Panic)) store into
    (shown h0 N store) (shown h0 N store') x y ch eq_refl ltac:(pose proof (vc_N _ _ _ _ _ V); unfold cn_ok; lia)) as G.
  refine (G _). clear G. intros sx sy Hin. specialize (Hw sx sy Hin).
  destruct (in_window_bounds L N false f store into x y sx sy V Hx Hy Hin) as [X1 X2].
  destruct (valid_good V) as [G1 _]. destruct (valid_good V') as [G1' _].
  rewrite (good_shown h0 N), (good_shown h0 N) in Hw by (auto; lia).
  now inversion Hw.
Qed.

Lemma x86h_h_row k c N fw p y x ch y' : x86h_h k c N fw p y x ch = x86h_h k c N fw (fun _ => p y) y' x ch.
Proof. reflexivity. Qed.

Theorem x86_f16_rows k c L f N pool pool' (store into out out' : image f16) y : f <> Nearest ->
  valid_call N false f store into -> pool_ok pool -> pool_ok pool' ->
  height store = height into -> width store <> width into -> y < height into ->
  resize_f16_x86 k c L f N pool store into = Returned Ok out ->
  resize_f16_x86 k c L f N pool' (row_image store y) (row_image into y) = Returned Ok out' ->
  forall x ch, x < width into -> ch < N -> sample N out x y ch = sample N out' x 0 ch.
Proof.
  intros Hf V P P' Hh Hw Hy R R' x ch Hx Hc.
  pose proof (row_valid L f N false _ _ _ (x86_tidy_conv k c N L f (fun _ _ _ => Panic) (fun _ _ => Panic) (fun _ => Panic)) store into y V Hh Hy) as V'.
  destruct (valid_good V) as [G1 G2].
  assert (D : changes_size store into) by (left; exact Hw).
  assert (D' : changes_size (row_image store y) (row_image into y)) by (left; exact Hw).
  rewrite resize_f16_x86_is, x86_f16_is_tidy in R by assumption. rewrite resize_f16_x86_is, x86_f16_is_tidy in R' by assumption.
  destruct (x86_prepared_fields c N store into) as (A1 & A2 & _). pose proof (x86_prepared_valid c _ _ _ _ _ V) as VP.
  assert (EP : x86_prepared c N (row_image store y) (row_image into y) = row_image (x86_prepared c N store into) y).
  { unfold x86_prepared. destruct (keeps c N); [reflexivity|].
    unfold prepared. cbn [row_image width]. replace (width store =? width into) with false by lia.
    unfold blanked, row_image, set_buf. cbn [buf width height stride channels bit_depth]. f_equal.
    rewrite skipn_repeat'. rewrite firstn_length, skipn_length.
    clear. generalize (length (buf into) - y * stride into) as n. intro n.
    revert n; induction (stride into) as [|s IH]; intros [|n]; cbn; f_equal; auto. }
  rewrite EP in R'.
  eapply (g_rows L f N false _ _ _ (x86_tidy_conv k c N L f (fun _ _ _ => Panic) (fun _ _ => Panic) (fun _ => Panic))
    (fun d fw p y x ch y' => x86h_h_row k c N fw p y x ch y') pool pool' store (x86_prepared c N store into)); eauto; rewrite ?A1, ?A2; auto.
Qed.
