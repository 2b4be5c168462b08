(** C66-C69: f32 images on x86-64, and the accuracy of f32 resizing. *)
From Coq Require Import ZArith Reals List Bool Lia Lra Psatz Permutation ZifyBool ZifyNat.
From Flocq Require Import Core.Core IEEE754.BinarySingleNaN.
From Verif Require Import Base BaseProofs FixedPoint FloatConv ImageStore Dispatch Resize Spec SpecApi SpecFloat SpecKernels SpecAccuracy F32 F32Proofs Weights Sampler
  Center SamplerProofs PortableProofs ResizeProofs NoFail PoolProofs ApiProofs Api Alpha ApiFloat DriverProofs FloatApiProofs KernelProofs X86Dispatch X86Float
  FloatSumErr SpecX86Float SpecFloatAccuracy X86FloatKernels X86FloatRows X86FloatCalls FloatAccuracy FloatAccuracyCalls Witness QuantSums DeepCalls AlphaU16 Properties4 Properties8.
From Verif Require FloatConvProofs.
From Verif Require Import ImageProofs.
Import ListNotations.
Local Open Scope nat_scope.

Definition flat_f32 (w h : nat) (l : list f32) : image f32 := mkImage l 1 w h w 0.
Ltac valid_f32 := constructor; cbn [width height stride buf channels bit_depth length repeat app concat map firstn flat_f32]; unfold fits_usize, usize_mod; repeat split; try lia; try discriminate.

(** ** C66 Every f32 sample is the sum of the products of its window, each counted once.
    Columns first, then rows; a direction whose size does not change is copied. *)
Theorem C66_each_tap_once : forall k L f N pool (store into : image f32),
  f <> Nearest -> valid_call N false f store into -> changes_size store into -> pool_ok pool ->
  exists out (mid : nat -> nat -> nat -> f32), resize_f32 k L f N pool store into = Returned Ok out /\ only_pixels_differ N into out /\
    (forall y x c, y < height into -> x < width store -> c < N ->
      if height store =? height into then sample N store x y c = Some (mid y x c)
      else each_tap_once (filter_taps (resampling_filter L f) (height store) (height into)) y (fun k => stored N store k x c) (mid y x c)) /\
    (forall y x c, y < height into -> x < width into -> c < N ->
      exists v, sample N out x y c = Some v /\
      if width store =? width into then v = mid y x c
      else each_tap_once (filter_taps (resampling_filter L f) (width store) (width into)) x (fun k => mid y k c) v).
Proof. intros k L f N pool store into Hf V D P. exact (portable_taps k L f N pool store into Hf V D P). Qed.
Print Assumptions C66_each_tap_once.
(** On x86-64 except where [counted_once] fails. *)
Theorem C66_each_tap_once_x86_partial : forall k c L f N pool (store into : image f32),
  f <> Nearest -> valid_call N false f store into -> changes_size store into -> pool_ok pool ->
  exists out (mid : nat -> nat -> nat -> f32), resize_f32_x86 k c L f N pool store into = Returned Ok out /\ only_pixels_differ N into out /\
    (forall y x ch, y < height into -> x < width store -> ch < N ->
      if height store =? height into then sample N store x y ch = Some (mid y x ch)
      else each_tap_once (filter_taps (resampling_filter L f) (height store) (height into)) y (fun k => stored N store k x ch) (mid y x ch)) /\
    (forall y x ch, y < height into -> x < width into -> ch < N ->
      exists v, sample N out x y ch = Some v /\
      if width store =? width into then v = mid y x ch
      else counted_once (sse41 (base_cpu c)) N (height into) (filter_taps (resampling_filter L f) (width store) (width into)) y x ->
           each_tap_once (filter_taps (resampling_filter L f) (width store) (width into)) x (fun k => mid y k ch) v).
Proof. intros k c L f N pool store into Hf V D P. exact (x86_taps k c L f N pool store into Hf V D P). Qed.
Print Assumptions C66_each_tap_once_x86_partial.
(** In the remaining case (one channel, a row of the last incomplete group of four, more than
    16 taps) the taps from the ninth on are counted twice, up to a multiple of eight. *)
Theorem C66_leftover_rows_x86 : forall k c L f pool (store into : image f32) out y x v,
  f <> Nearest -> valid_call 1 false f store into -> pool_ok pool -> sse41 (base_cpu c) = true ->
  height store = height into -> width store <> width into -> 4 * (height into / 4) <= y -> y < height into -> x < width into ->
  resize_f32_x86 k c L f 1 pool store into = Returned Ok out -> sample 1 out x y 0 = Some v ->
  let W := filter_taps (resampling_filter L f) (width store) (width into) in
  exists l, Permutation l (seq 0 (tsize W x) ++ seq 8 (8 * ((tsize W x - 9) / 8))) /\
    summed (tsize W x) (fun j => stored 1 store y (tstart W x + j) 0) (tweight W x) l v.
Proof.
  intros k c L f pool store into out y x v Hf V P Sse Hh Hw Hy1 Hy Hx R Sv W. rewrite resize_f32_x86_is in R.
  destruct (g_paints L f 1 false _ _ _ (engine_h_conv k c 1 L f (fun _ _ _ => Panic) (fun _ _ => Panic) (fun _ => Panic) (height into)) pool store into Hf V ltac:(left; exact Hw) P) as (out' & R' & O & S).
  assert (out' = out) by congruence. subst out'.
  rewrite S in Sv by (rewrite ?(opd_width _ _ _ O), ?(opd_height _ _ _ O); auto). injection Sv as <-.
  unfold g_passes, two_passes. rewrite Hh, Nat.eqb_refl. destruct (Nat.eqb_spec (width store) (width into)) as [E|E]; [contradiction|]. cbn [negb].
  pose proof (x86f_h_sums k c 1 (height into) (generate_weights (resampling_filter L f) (width store) (width into)) (stored 1 store) y x 0 _ _
    (sane_wf_h (valid_sane L V)) Hx ltac:(lia)) as Q.
  rewrite Sse in Q. replace (y <? 4 * (height into / 4)) with false in Q by lia. exact Q.
Qed.
Print Assumptions C66_leftover_rows_x86.
(** Reading computed results: the bits of sample (x, y, c) of a result. *)
Definition bits_at (N : nat) (r : callres f32) (x y c : nat) : option Z :=
  match r with Returned Ok out => option_map f32_bits (sample N out x y c) | _ => None end.
Lemma bits_at_is N r x y c v : bits_at N r x y c = Some (f32_bits v) -> exists out, r = Returned Ok out /\ sample N out x y c = Some v.
Proof.
  unfold bits_at. destruct r as [[|e] out|]; try discriminate. intro H. exists out. split; [reflexivity|].
  destruct (sample N out x y c) as [u|]; [|discriminate]. cbn [option_map] in H. f_equal. apply f32_bits_inj. congruence.
Qed.
Definition any_libm : libm := mkLibm (fun x => x) (fun x => x) (fun x => x) (fun x => x) (fun x => x).
Definition sse_only : fcpu := mkFcpu (mkCpu true false) false.
Definition avx2_fma : fcpu := mkFcpu (mkCpu true true) true.
(** So a white line of 20 samples averaged to one sample becomes 1.4 instead of 1, with SSE 4.1. *)
Theorem C66_each_tap_once_x86_refuted : forall k L,
  exists out v, resize_f32_x86 k sse_only L Box 1 None (flat_f32 20 1 (repeat f1 20)) (flat_f32 1 1 [f0]) = Returned Ok out /\
    sample 1 out 0 0 0 = Some v /\ is_finite v = true /\ (1.39 < B2R v < 1.41)%R.
Proof.
  intros k L. unfold resize_f32_x86, x86_engine_f32. cbn [Nat.eqb].
  change (resampling_filter L Box) with (resampling_filter any_libm Box).
  match goal with |- exists out v, ?r = _ /\ _ => destruct (bits_at_is 1 r 0 0 0 (fZ 11744052 (-23))) as (out & R & S) end.
  { destruct k; vm_compute; reflexivity. }
  destruct (fZ_exact 11744052 (-23) ltac:(lia) ltac:(lia)) as (F1 & F2).
  exists out, (fZ 11744052 (-23)). split; [exact R|]. split; [exact S|]. split; [exact F1|]. rewrite F2.
  replace (bpow radix2 (-23)) with (/ 8388608)%R by reflexivity. lra.
Qed.
Print Assumptions C66_each_tap_once_x86_refuted.
Example C66_nonvacuous : valid_call 1 false Bilinear (flat_f32 2 1 [f1; fhalf]) (flat_f32 3 1 [f0; f0; f0]) /\
  counted_once true 1 1 (filter_taps (resampling_filter any_libm Bilinear) 2 3) 0 1 /\
  valid_call 1 false Box (flat_f32 20 1 (repeat f1 20)) (flat_f32 1 1 [f0]).
Proof. split; [valid_f32|]. split; [right; right; right; vm_compute; lia|valid_f32]. Qed.

(** ** C67 Rounding errors of f32 resizing are bounded *)
(** Any filter: each pass computes its weighted sums up to rounding. *)
Theorem C67_rounding : forall k L f N pool (store into : image f32),
  f <> Nearest -> valid_call N false f store into -> changes_size store into -> pool_ok pool ->
  exists out (mid : nat -> nat -> nat -> f32), resize_f32 k L f N pool store into = Returned Ok out /\
    (forall y x c, y < height into -> x < width store -> c < N ->
      if height store =? height into then sample N store x y c = Some (mid y x c)
      else blend_at (filter_taps (resampling_filter L f) (height store) (height into)) y (fun k => stored N store k x c) (mid y x c)) /\
    (forall y x c, y < height into -> x < width into -> c < N ->
      exists v, sample N out x y c = Some v /\
      if width store =? width into then v = mid y x c
      else blend_at (filter_taps (resampling_filter L f) (width store) (width into)) x (fun k => mid y k c) v).
Proof.
  intros k L f N pool store into Hf V D P. destruct (portable_taps k L f N pool store into Hf V D P) as (out & mid & R & _ & M & S).
  exists out, mid. split; [exact R|]. split.
  - intros y x c Hy Hx Hc. specialize (M y x c Hy Hx Hc). destruct (height store =? height into); [exact M|]. exact (sums_blend _ _ _ _ (proj2 (no_extra_once _ _ _ _) M)).
  - intros y x c Hy Hx Hc. destruct (S y x c Hy Hx Hc) as (v & Sv & Q). exists v. split; [exact Sv|].
    destruct (width store =? width into); [exact Q|]. exact (sums_blend _ _ _ _ (proj2 (no_extra_once _ _ _ _) Q)).
Qed.
Print Assumptions C67_rounding.
Theorem C67_rounding_x86_partial : forall k c L f N pool (store into : image f32),
  f <> Nearest -> valid_call N false f store into -> changes_size store into -> pool_ok pool ->
  exists out (mid : nat -> nat -> nat -> f32), resize_f32_x86 k c L f N pool store into = Returned Ok out /\
    (forall y x ch, y < height into -> x < width store -> ch < N ->
      if height store =? height into then sample N store x y ch = Some (mid y x ch)
      else blend_at (filter_taps (resampling_filter L f) (height store) (height into)) y (fun k => stored N store k x ch) (mid y x ch)) /\
    (forall y x ch, y < height into -> x < width into -> ch < N ->
      exists v, sample N out x y ch = Some v /\
      if width store =? width into then v = mid y x ch
      else counted_once (sse41 (base_cpu c)) N (height into) (filter_taps (resampling_filter L f) (width store) (width into)) y x ->
           blend_at (filter_taps (resampling_filter L f) (width store) (width into)) x (fun k => mid y k ch) v).
Proof.
  intros k c L f N pool store into Hf V D P. destruct (x86_taps k c L f N pool store into Hf V D P) as (out & mid & R & _ & M & S).
  exists out, mid. split; [exact R|]. split.
  - intros y x ch Hy Hx Hc. specialize (M y x ch Hy Hx Hc). destruct (height store =? height into); [exact M|]. exact (sums_blend _ _ _ _ (proj2 (no_extra_once _ _ _ _) M)).
  - intros y x ch Hy Hx Hc. destruct (S y x ch Hy Hx Hc) as (v & Sv & Q). exists v. split; [exact Sv|].
    destruct (width store =? width into); [exact Q|]. intro CO. exact (sums_blend _ _ _ _ (proj2 (no_extra_once _ _ _ _) (Q CO))).
Qed.
Print Assumptions C67_rounding_x86_partial.

(** The polynomial filters: the result is the textbook one, in both builds. *)
Definition textbook_call (once : nat -> nat -> Prop) (f : resampling_function) (K : R -> R) (N : nat) (store into out : image f32) (mid : nat -> nat -> nat -> f32) : Prop :=
  (forall y x c, y < height into -> x < width store -> c < N ->
      if height store =? height into then sample N store x y c = Some (mid y x c)
      else textbook_f32_at f K (height store) (height into) y (fun k => stored N store k x c) (mid y x c)) /\
  (forall y x c, y < height into -> x < width into -> c < N ->
      exists v, sample N out x y c = Some v /\
      if width store =? width into then v = mid y x c
      else once y x -> textbook_f32_at f K (width store) (width into) x (fun k => mid y k c) v).
Theorem C67_textbook_f32_partial : forall k c L f K N pool (store into : image f32),
  coded_kernel f = Some K -> valid_call N false f store into -> changes_size store into -> pool_ok pool ->
  (Z.of_nat (width store) <= 65536)%Z -> (Z.of_nat (height store) <= 65536)%Z ->
  (Z.of_nat (width into) <= 65536)%Z -> (Z.of_nat (height into) <= 65536)%Z ->
  downscale_at_most (downscale_limit f) store into ->
  (f = Area -> width into <= width store /\ height into <= height store) ->
  (exists out mid, resize_f32 k L f N pool store into = Returned Ok out /\ textbook_call (fun _ _ => True) f K N store into out mid) /\
  (exists out mid, resize_f32_x86 k c L f N pool store into = Returned Ok out /\
    textbook_call (counted_once (sse41 (base_cpu c)) N (height into) (filter_taps (resampling_filter L f) (width store) (width into))) f K N store into out mid).
Proof.
  intros k c L f K N pool store into HK V D P W1 H1 W2 H2 [DSw DSh] AR.
  assert (Hf : f <> Nearest) by (intros ->; discriminate).
  assert (V0 := V). destruct V as [VN (S1 & S2 & S3 & S4) (D1 & D2 & D3 & D4) VC VF VD VS VA].
  assert (TV : forall y p v, y < height into -> blend_at (filter_taps (resampling_filter L f) (height store) (height into)) y p v -> textbook_f32_at f K (height store) (height into) y p v).
  { intros y p v Hy B. apply (one_direction_f32 L f K); auto; try lia; intro e; apply AR in e; tauto. }
  assert (TH : forall x p v, x < width into -> blend_at (filter_taps (resampling_filter L f) (width store) (width into)) x p v -> textbook_f32_at f K (width store) (width into) x p v).
  { intros x p v Hx B. apply (one_direction_f32 L f K); auto; try lia; intro e; apply AR in e; tauto. }
  split.
  - destruct (C67_rounding k L f N pool store into Hf V0 D P) as (out & mid & R & M & S). exists out, mid. split; [exact R|]. split.
    + intros y x ch Hy Hx Hc. specialize (M y x ch Hy Hx Hc). destruct (height store =? height into); auto.
    + intros y x ch Hy Hx Hc. destruct (S y x ch Hy Hx Hc) as (v & Sv & Q). exists v. split; [exact Sv|]. destruct (width store =? width into); auto.
  - destruct (C67_rounding_x86_partial k c L f N pool store into Hf V0 D P) as (out & mid & R & M & S). exists out, mid. split; [exact R|]. split.
    + intros y x ch Hy Hx Hc. specialize (M y x ch Hy Hx Hc). destruct (height store =? height into); auto.
    + intros y x ch Hy Hx Hc. destruct (S y x ch Hy Hx Hc) as (v & Sv & Q). exists v. split; [exact Sv|]. destruct (width store =? width into); auto.
Qed.
Print Assumptions C67_textbook_f32_partial.

(** Averaging filters do not leave the range of the samples, up to rounding, in both builds. *)
Definition in_range (N : nat) (im : image f32) (c : nat) (lo hi : R) : Prop :=
  forall x y, x < width im -> y < height im -> exists v, sample N im x y c = Some v /\ is_finite v = true /\ (lo <= B2R v <= hi)%R.
Definition range_slack (t : Z) (M : R) : R := (M * (7 * IZR t + 3) / 2097152 + bpow radix2 (-110))%R.

Lemma two_pass_range L f N (store into out : image f32) (mid : nat -> nat -> nat -> f32) t c lo hi M :
  averaging f = true -> valid_call N false f store into -> (1 <= t <= 10000)%Z -> downscale_at_most t store into -> c < N ->
  width out = width into -> height out = height into ->
  (Rabs lo <= M)%R -> (Rabs hi <= M)%R -> (M <= IZR (2 ^ 78))%R -> in_range N store c lo hi ->
  (forall y x c, y < height into -> x < width store -> c < N ->
      if height store =? height into then sample N store x y c = Some (mid y x c)
      else blend_at (filter_taps (resampling_filter L f) (height store) (height into)) y (fun k => stored N store k x c) (mid y x c)) ->
  (forall y x c, y < height into -> x < width into -> c < N ->
      exists v, sample N out x y c = Some v /\
      if width store =? width into then v = mid y x c
      else blend_at (filter_taps (resampling_filter L f) (width store) (width into)) x (fun k => mid y k c) v) ->
  in_range N out c (lo - range_slack t M) (hi + range_slack t M).
Proof.
  intros A V Ht [DSw DSh] Hc WO HO Hlo Hhi HM IR M1 S1 x y Hx Hy. rewrite WO in Hx. rewrite HO in Hy.
  destruct (valid_sides V) as (SdV & SdH).
  destruct V as [VN (B1 & B2 & B3 & B4) (D1 & D2 & D3 & D4) VC VF VD VS VA].
  assert (M0 : (0 <= M)%R) by (eapply Rle_trans; [apply Rabs_pos|exact Hlo]).
  set (q := ((6 * IZR t + 2) * / 4194304)%R).
  assert (Q1 : (0 <= q <= 0.015)%R).
  { assert (1 <= IZR t <= 10000)%R by (split; apply IZR_le; lia). unfold q. lra. }
  set (e0 := bpow radix2 (-120)).
  assert (E0 : (0 < e0 <= 1)%R) by (split; [apply bpow_gt_0|change 1%R with (bpow radix2 0); apply bpow_le; lia]).
  assert (ET : (4 * e0 <= bpow radix2 (-110))%R).
  { apply Rle_trans with (bpow radix2 2 * e0)%R; [change (bpow radix2 2) with 4%R; lra|]. unfold e0. rewrite <- bpow_plus. apply bpow_le. lia. }
  set (e1 := (M * q + e0)%R).
  assert (Mq : (0 <= M * q <= 0.015 * M)%R) by (split; [apply Rmult_le_pos; lra|rewrite (Rmult_comm 0.015); apply Rmult_le_compat_l; lra]).
  assert (HMid : forall xx, xx < width store -> is_finite (mid y xx c) = true /\ (lo - e1 <= B2R (mid y xx c) <= hi + e1)%R).
  { intros xx Hxx. specialize (M1 y xx c Hy Hxx Hc). destruct (Nat.eqb_spec (height store) (height into)) as [E|E].
    - destruct (IR xx y Hxx ltac:(lia)) as (v & Sv & Fv & Rv). assert (v = mid y xx c) by congruence. subst v. split; [exact Fv|]. unfold e1. lra.
    - destruct (blend_range L f A (height store) (height into) t y _ _ lo hi M SdV Ht DSh Hy M1 Hlo Hhi) as (Fv & Rv).
      + eapply Rle_trans; [exact HM|]. apply IZR_le. lia.
      + intros yy Hyy. destruct (IR xx yy Hxx Hyy) as (v & Sv & Fv & Rv).
        assert (stored N store yy xx c = v) as ->; [|split; assumption].
        unfold stored. unfold sample in Sv. apply nth_error_nth with (d := f0) in Sv. rewrite <- Sv. f_equal. lia.
      + split; [exact Fv|]. unfold e1, q, e0. rewrite <- Rmult_assoc. lra. }
  assert (SL : (e1 <= range_slack t M)%R /\ (e1 + ((M + e1) * q + e0) <= range_slack t M)%R).
  { assert (RS : (M * q * 2.1 + 4 * e0 <= range_slack t M)%R).
    { unfold range_slack, Rdiv. replace (M * q * 2.1)%R with (M * (q * 2.1))%R by ring.
      assert (T1 : (1 <= IZR t)%R) by (apply IZR_le; lia).
      assert (q * 2.1 <= (7 * IZR t + 3) * / 2097152)%R by (unfold q; lra).
      rewrite Rmult_assoc. assert (M * (q * 2.1) <= M * ((7 * IZR t + 3) * / 2097152))%R by (apply Rmult_le_compat_l; lra). lra. }
    assert (e1 * q <= 0.015 * (M * q) + e0)%R.
    { unfold e1. assert (M * q * q <= 0.015 * (M * q))%R by (rewrite (Rmult_comm 0.015); apply Rmult_le_compat_l; lra).
      assert (e0 * q <= e0 * 1)%R by (apply Rmult_le_compat_l; lra). lra. }
    split; [unfold e1 in *; lra|].
    replace (e1 + ((M + e1) * q + e0))%R with (M * q + e0 + M * q + e1 * q + e0)%R by (unfold e1; ring). lra. }
  destruct (S1 y x c Hy Hx Hc) as (v & Sv & Q). exists v. split; [exact Sv|].
  destruct (Nat.eqb_spec (width store) (width into)) as [E|E].
  - subst v. destruct (HMid x ltac:(lia)) as (F & B). split; [exact F|]. lra.
  - destruct (blend_range L f A (width store) (width into) t x _ _ (lo - e1)%R (hi + e1)%R (M + e1)%R SdH Ht DSw Hx Q) as (Fv & Rv).
    + apply Rabs_le. apply Rabs_le_inv in Hlo. unfold e1 in *. lra.
    + apply Rabs_le. apply Rabs_le_inv in Hhi. unfold e1 in *. lra.
    + assert (2 * IZR (2 ^ 78) + 1 <= IZR (2 ^ 80))%R by (rewrite <- mult_IZR, <- plus_IZR; apply IZR_le; lia). unfold e1. lra.
    + intros xx Hxx. apply HMid. exact Hxx.
    + split; [exact Fv|]. fold e0 in Rv. rewrite Rmult_assoc in Rv. fold q in Rv. lra.
Qed.

Theorem C67_range : forall k L f N pool (store into out : image f32) t c lo hi M,
  averaging f = true -> f <> Nearest -> valid_call N false f store into -> changes_size store into -> pool_ok pool ->
  (1 <= t <= 10000)%Z -> downscale_at_most t store into -> c < N ->
  (Rabs lo <= M)%R -> (Rabs hi <= M)%R -> (M <= IZR (2 ^ 78))%R -> in_range N store c lo hi ->
  resize_f32 k L f N pool store into = Returned Ok out ->
  in_range N out c (lo - range_slack t M) (hi + range_slack t M).
Proof.
  intros k L f N pool store into out t c lo hi M A Hf V D P Ht DS Hc Hlo Hhi HM IR R.
  destruct (C67_rounding k L f N pool store into Hf V D P) as (out' & mid & R' & M1 & S1).
  pose proof (C14_padding_f32_partial k L f N pool store into out Hf V D P R) as O.
  assert (out' = out) by congruence. subst out'.
  apply (two_pass_range L f N store into out mid t c lo hi M); auto; apply O.
Qed.
Print Assumptions C67_range.

(** With SSE 4.1 the one-channel rows of the last incomplete group of four count taps twice
    when the window is longer than 16, so a bound is needed on the downscale there. *)
Theorem C67_range_x86_partial : forall k c L f N pool (store into out : image f32) t ch lo hi M,
  averaging f = true -> f <> Nearest -> valid_call N false f store into -> changes_size store into -> pool_ok pool ->
  (1 <= t <= 10000)%Z -> downscale_at_most t store into -> ch < N ->
  sse41 (base_cpu c) = false \/ N <> 1 \/ height into mod 4 = 0 \/ (t <= 8)%Z ->
  (Rabs lo <= M)%R -> (Rabs hi <= M)%R -> (M <= IZR (2 ^ 78))%R -> in_range N store ch lo hi ->
  resize_f32_x86 k c L f N pool store into = Returned Ok out ->
  in_range N out ch (lo - range_slack t M) (hi + range_slack t M).
Proof.
  intros k c L f N pool store into out t ch lo hi M A Hf V D P Ht DS Hc CO Hlo Hhi HM IR R.
  destruct (C67_rounding_x86_partial k c L f N pool store into Hf V D P) as (out' & mid & R' & M1 & S1).
  destruct (x86_taps k c L f N pool store into Hf V D P) as (out2 & mid2 & R2 & O & _ & _).
  assert (out' = out) by congruence. assert (out2 = out) by congruence. subst out' out2.
  apply (two_pass_range L f N store into out mid t ch lo hi M); auto; try apply O.
  intros y x cc Hy Hx Hcc. destruct (S1 y x cc Hy Hx Hcc) as (v & Sv & Q). exists v. split; [exact Sv|].
  destruct (width store =? width into); [exact Q|]. apply Q. unfold counted_once.
  destruct CO as [CO|[CO|[CO|CO]]]; [tauto|tauto| |].
  - right. right. left. pose proof (Nat.div_mod (height into) 4 ltac:(lia)). lia.
  - right. right. right. destruct DS as [DSw DSh]. destruct (valid_sides V) as (_ & SdH).
    destruct (taps_size L f 8 A ltac:(lia) (width store) (width into) t x SdH Ht DSw Hx) as (Z1 & _). lia.
Qed.
Print Assumptions C67_range_x86_partial.
(** Without such a bound the claim is false: see C66_each_tap_once_x86_refuted, where white
    samples in [0, 1] give more than 1.39. *)
Example C67_nonvacuous :
  let store := flat_f32 3 1 [f1; fhalf; f0] in let into := flat_f32 2 1 [f0; f0] in
  valid_call 1 false Bilinear store into /\ changes_size store into /\ downscale_at_most 2 store into /\
  coded_kernel Bilinear <> None /\ averaging Bilinear = true /\ in_range 1 store 0 0 1.
Proof.
  cbv zeta. split; [valid_f32|]. split; [left; discriminate|]. split; [split; cbn; lia|]. split; [discriminate|]. split; [reflexivity|].
  assert (B1 : is_finite f1 = true /\ B2R f1 = 1%R) by exact f1_fin.
  assert (Bh : is_finite fhalf = true /\ B2R fhalf = (1 / 2)%R) by exact fhalf_fin.
  assert (B0 : is_finite f0 = true /\ B2R f0 = 0%R) by (split; reflexivity).
  intros x y Hx Hy. cbn [flat_f32 width height] in Hx, Hy. assert (y = 0) by lia. subst y.
  destruct x as [|[|[|x]]]; [| | |lia]; (eexists; split; [reflexivity|]; split; [tauto|]); destruct B1 as [_ ->] || destruct Bh as [_ ->] || destruct B0 as [_ ->]; lra.
Qed.

(** ** C68 Equal rows give equal rows, on x86-64 *)
(** The cases where the rows of complete groups of four and the leftover rows are computed alike:
    two or three channels; one channel without SSE 4.1 or with at most 16 taps; four channels
    without AVX2 or without FMA; or y and y' of the same kind. *)
Definition computed_alike (c : fcpu) (N h taps y y' : nat) : Prop :=
  N = 2 \/ N = 3 \/ (N = 1 /\ (sse41 (base_cpu c) = false \/ taps <= 16)) \/
  (N = 4 /\ (avx2 (base_cpu c) = false \/ has_fma c = false)) \/ (y < 4 * (h / 4) <-> y' < 4 * (h / 4)).

Lemma ftaps_skip {S} b step slack (body : S -> nat -> outcome S) jx s : bsize b <= jx + slack -> ftaps b step slack body jx s = Done (jx, s).
Proof. intro H. unfold ftaps. destruct (bsize b) eqn:E; cbn [while_tiles]; replace (jx + slack <? _) with false by lia; reflexivity. Qed.
Lemma plane_short fma src b ws : bsize b <= 16 -> plane_sse_f32 fma 16 src b ws = plane_sse_f32 fma 8 src b ws.
Proof. intro H. unfold plane_sse_f32. cbv zeta. rewrite !(ftaps_skip b _ 16) by lia. reflexivity. Qed.

Lemma x86f_h_alike k c N h fw p y y' x ch insz outsz : wf_fw fw insz outsz -> 1 <= N <= 4 -> x < outsz -> ch < N ->
  computed_alike c N h (tsize (taps_of f0 fw) x) y y' ->
  (forall j, p y j ch = p y' j ch) -> x86f_h k c N h fw p y x ch = x86f_h k c N h fw p y' x ch.
Proof.
  intros Wf HN Hx Hc CA E. unfold x86f_h.
  assert (G : forall o, (match o with Some px => px = px | None => True end) -> kernel_pass k N o fw p y x ch = kernel_pass k N o fw p y' x ch).
  { intros o _. destruct o as [px|]; cbn [kernel_pass].
    - unfold px_val. f_equal. replace (flat_map (fun k0 => repeat (p y (tstart (taps_of f0 fw) x + k0) ch) N) (seq 0 (tsize (taps_of f0 fw) x)))
        with (flat_map (fun k0 => repeat (p y' (tstart (taps_of f0 fw) x + k0) ch) N) (seq 0 (tsize (taps_of f0 fw) x))); [reflexivity|].
      apply flat_map_ext. intro a. now rewrite E.
    - unfold float_h. apply (FloatConvProofs.weighted_ext f0 fmul (mlaf k) (fun v : f32 => v) (fun v : f32 => v) f0). intros i Hi. split; [apply E|reflexivity]. }
  assert (H41 : f32_pixel_4 c N = f32_pixel_1 c N \/ (N = 1 /\ tsize (taps_of f0 fw) x <= 16 /\ sse41 (base_cpu c) = true) \/ (y <? 4 * (h / 4)) = (y' <? 4 * (h / 4))).
  { destruct CA as [->|[->|[[-> [S|S]]|[[-> [S|S]]|S]]]]; [now left|now left| | | | |right; right; lia].
    - left. cbn. now rewrite S.
    - destruct (sse41 (base_cpu c)) eqn:Es; [right; left; auto|left; cbn; now rewrite Es].
    - left. cbn. now rewrite S.
    - left. cbn. now rewrite S. }
  destruct H41 as [H|[(-> & Hs & Es)|H]].
  - rewrite H. destruct (y <? _), (y' <? _); apply G; destruct (f32_pixel_1 c N); auto.
  - cbn [f32_pixel_4 f32_pixel_1]. rewrite Es.
    assert (K : forall yy, kernel_pass k 1 (Some (plane_sse_f32 (has_fma c) 16)) fw p yy x ch = kernel_pass k 1 (Some (plane_sse_f32 (has_fma c) 8)) fw p yy x ch).
    { intro yy. cbn [kernel_pass]. unfold px_val. rewrite plane_short by exact Hs. reflexivity. }
    destruct (y <? _), (y' <? _); rewrite ?K; apply G; reflexivity.
  - rewrite H. apply G. destruct (if y' <? _ then _ else _); auto.
Qed.
Theorem C68_equal_rows_x86_partial : forall k c L f N pool (store into out : image f32) y y' x ch,
  f <> Nearest -> valid_call N false f store into -> pool_ok pool -> height store = height into -> width store <> width into ->
  y < height into -> y' < height into -> x < width into -> ch < N ->
  computed_alike c N (height into) (tsize (filter_taps (resampling_filter L f) (width store) (width into)) x) y y' ->
  (forall j, j < width store -> sample N store j y ch = sample N store j y' ch) ->
  resize_f32_x86 k c L f N pool store into = Returned Ok out ->
  sample N out x y ch = sample N out x y' ch.
Proof.
  intros k c L f N pool store into out y y' x ch Hf V P Hh Hw Hy Hy' Hx Hc CA E R. rewrite resize_f32_x86_is in R.
  destruct (g_paints L f N false _ _ _ (engine_h_conv k c N L f (fun _ _ _ => Panic) (fun _ _ => Panic) (fun _ => Panic) (height into)) pool store into Hf V ltac:(left; exact Hw) P) as (out' & R' & O & S).
  assert (out' = out) by congruence. subst out'.
  rewrite !S by (rewrite ?(opd_width _ _ _ O), ?(opd_height _ _ _ O); auto). f_equal.
  unfold g_passes, two_passes. rewrite Hh, Nat.eqb_refl. destruct (Nat.eqb_spec (width store) (width into)) as [Ew|_]; [contradiction|]. cbn [negb].
  cbn [gen engine_h].
  set (fw := generate_weights (resampling_filter L f) (width store) (width into)).
  assert (Wf : wf_fw fw (width store) (width into)) by exact (sane_wf_h (valid_sane L V)).
  set (p := fun (yy xx cc : nat) => if xx <? width store then shown f0 N store yy xx cc else f0).
  assert (X : forall yy, x86f_h k c N (height into) fw (shown f0 N store) yy x ch = x86f_h k c N (height into) fw p yy x ch).
  { intro yy. pose proof (ce_forms _ _ _ _ _ _ _ (engine_h_conv k c N L f (fun _ _ _ => Panic) (fun _ _ => Panic) (fun _ => Panic) (height into)) 0 (ltac:(unfold cn_ok; pose proof (vc_N _ _ _ _ _ V); lia))) as PF.
    refine (pf_hl _ _ _ _ _ PF fw _ _ yy x ch _). intros j Hj. unfold p.
    destruct (wf_win _ _ _ Wf x (nth x (bounds fw) (mkBound 0 0))) as (_ & _ & B).
    { apply nth_error_nth'. rewrite (wf_blen _ _ _ Wf). exact Hx. }
    replace (j <? width store) with true by lia. reflexivity. }
  cbn [dflt engine_h]. rewrite !X.
  apply (x86f_h_alike k c N (height into) fw p y y' x ch _ _ Wf (vc_N _ _ _ _ _ V) Hx Hc CA).
  intro j. unfold p. destruct (Nat.ltb_spec j (width store)) as [Hj|]; [|reflexivity].
  specialize (E j Hj). unfold sample in E. unfold shown.
  pose proof V as [VN (B1 & B2 & B3 & B4) (D1 & D2 & D3 & D4) VC VF VD VS VA].
  assert (G : forall yy, yy < height into -> nth_error (buf store) (yy * stride store + j * N + ch) = Some (nth (yy * stride store + (j * N + ch)) (buf store) f0)).
  { intros yy Hyy. rewrite (nth_error_nth' _ f0); [do 2 f_equal; lia|]. rewrite B4. nia. }
  rewrite !G in E by assumption. congruence.
Qed.
Print Assumptions C68_equal_rows_x86_partial.

(** In the remaining cases the claim is false.  One channel, SSE 4.1, window of 20: of five equal
    white rows averaged to one column the first is 1 and the last is 1.4. *)
Theorem C68_equal_rows_gray_refuted : forall k L,
  exists out u v, resize_f32_x86 k sse_only L Box 1 None (flat_f32 20 5 (repeat f1 100)) (flat_f32 1 5 (repeat f0 5)) = Returned Ok out /\
    sample 1 out 0 0 0 = Some u /\ sample 1 out 0 4 0 = Some v /\ f32_bits u <> f32_bits v.
Proof.
  intros k L. unfold resize_f32_x86, x86_engine_f32. cbn [Nat.eqb].
  change (resampling_filter L Box) with (resampling_filter any_libm Box).
  match goal with |- exists out u v, ?r = _ /\ _ => destruct (bits_at_is 1 r 0 0 0 (fZ 1 0)) as (out & R & S); [destruct k; vm_compute; reflexivity|];
    destruct (bits_at_is 1 r 0 4 0 (fZ 11744052 (-23))) as (out' & R' & S'); [destruct k; vm_compute; reflexivity|] end.
  assert (out' = out) by congruence. subst out'.
  exists out, (fZ 1 0), (fZ 11744052 (-23)). split; [exact R|]. split; [exact S|]. split; [exact S'|]. vm_compute. discriminate.
Qed.
Print Assumptions C68_equal_rows_gray_refuted.
(** Four channels, AVX2 and FMA: five equal rows of twelve pixels; the last row is rounded
    differently. *)
Definition q (a b : Z) : f32 := fdiv (fZ a 0) (fZ b 0).
Definition twelve_px : list f32 :=
  let r := [q 1 3; q 2 7; q 5 11; q 3 13; q 4 7; q 5 13; q 1 19; q 5 23; q 6 7; q 1 9; q 7 17; q 11 23]%Z in
  (r ++ r) ++ map (fun v => fmul v (q 5 7)) (r ++ r).
Definition flat_rgba (w h : nat) (l : list f32) : image f32 := mkImage l 4 w h (w * 4) 0.
Theorem C68_equal_rows_rgba_refuted : forall k L,
  exists out u v, resize_f32_x86 k avx2_fma L Bilinear 4 None (flat_rgba 12 5 (concat (repeat twelve_px 5))) (flat_rgba 1 5 (repeat f0 20)) = Returned Ok out /\
    sample 4 out 0 0 3 = Some u /\ sample 4 out 0 4 3 = Some v /\ f32_bits u <> f32_bits v.
Proof.
  intros k L. unfold resize_f32_x86, x86_engine_f32. cbn [Nat.eqb].
  change (resampling_filter L Bilinear) with (resampling_filter any_libm Bilinear).
  match goal with |- exists out u v, ?r = _ /\ _ => destruct (bits_at_is 4 r 0 0 3 (fZ 8925522 (-25))) as (out & R & S); [destruct k; vm_compute; reflexivity|];
    destruct (bits_at_is 4 r 0 4 3 (fZ 8925521 (-25))) as (out' & R' & S'); [destruct k; vm_compute; reflexivity|] end.
  assert (out' = out) by congruence. subst out'.
  exists out, (fZ 8925522 (-25)), (fZ 8925521 (-25)). split; [exact R|]. split; [exact S|]. split; [exact S'|]. vm_compute. discriminate.
Qed.
Print Assumptions C68_equal_rows_rgba_refuted.
Example C68_nonvacuous : valid_call 1 false Bilinear (flat_f32 3 5 (repeat f1 15)) (flat_f32 2 5 (repeat f0 10)) /\
  computed_alike avx2_fma 1 5 (tsize (filter_taps (resampling_filter any_libm Bilinear) 3 2) 0) 0 4.
Proof. split; [valid_f32|]. right. right. left. split; [reflexivity|]. right. vm_compute. lia. Qed.

(** ** C69 The guarantees of f32 calls, on x86-64 *)
Theorem C69_refusals_x86_f32 : forall k c L f N pool (store into : image f32),
  match first_error (refusal_table N false store into) with
  | Some e => resize_f32_x86 k c L f N pool store into = Returned (Err e) into
  | None => resize_f32_x86 k c L f N pool store into = Panicked \/ exists out, resize_f32_x86 k c L f N pool store into = Returned Ok out
  end.
Proof.
  intros. rewrite resize_f32_x86_is. match goal with |- context[generic_resize N ?E] => apply (generic_resize_cases N E) end.
  apply (ce_nofail _ _ _ _ _ _ _ (engine_h_conv k c N L f _ _ _ (height into))).
Qed.
Print Assumptions C69_refusals_x86_f32.
Theorem C69_failure_is_clean_x86_f32 : forall k c L f N pool (store into out : image f32) e,
  resize_f32_x86 k c L f N pool store into = Returned (Err e) out -> out = into.
Proof.
  intros k c L f N pool store into out e H. pose proof (C69_refusals_x86_f32 k c L f N pool store into) as C.
  destruct (first_error _); [congruence|]. destruct C as [C|[o C]]; congruence.
Qed.
Print Assumptions C69_failure_is_clean_x86_f32.
Theorem C69_schedule_independent_x86_f32 : forall k c L f N pool (store into : image f32), pool_ok pool ->
  resize_f32_x86 k c L f N pool store into = resize_f32_x86 k c L f N None store into.
Proof.
  intros k c L f N pool store into P. rewrite !resize_f32_x86_is. apply generic_resize_pool; auto.
  apply (ce_pool _ _ _ _ _ _ _ (engine_h_conv k c N L f _ _ _ (height into))).
Qed.
Print Assumptions C69_schedule_independent_x86_f32.
Theorem C69_valid_calls_succeed_x86_f32 : forall k c L f N pool (store into : image f32),
  f <> Nearest -> valid_call N false f store into -> pool_ok pool ->
  exists out, resize_f32_x86 k c L f N pool store into = Returned Ok out.
Proof.
  intros k c L f N pool store into Hf V P. rewrite resize_f32_x86_is.
  exact (g_success L f N false _ _ _ (engine_h_conv k c N L f _ _ _ (height into)) pool store into Hf V P).
Qed.
Print Assumptions C69_valid_calls_succeed_x86_f32.
Theorem C69_same_size_x86_f32 : forall k c L f N pool (store into : image f32),
  valid_call N false f store into -> width store = width into -> height store = height into ->
  exists out, resize_f32_x86 k c L f N pool store into = Returned Ok out /\ same_picture N store out /\
    width out = width into /\ height out = height into /\ stride out = stride into /\ bit_depth out = bit_depth into.
Proof.
  intros k c L f N pool store into V. rewrite resize_f32_x86_is.
  exact (g_same L f N false _ _ _ (engine_h_conv k c N L f _ _ _ (height into)) pool store into V).
Qed.
Print Assumptions C69_same_size_x86_f32.
Theorem C69_nearest_x86_f32 : forall k c L N pool (store into : image f32),
  valid_call N false Nearest store into -> changes_size store into -> pool_ok pool ->
  stride store = width store * N -> stride into = width into * N ->
  exists cx cy out, resize_f32_x86 k c L Nearest N pool store into = Returned Ok out /\ only_pixels_differ N into out /\
    (forall x, x < width into -> cx x < width store) /\ (forall y, y < height into -> cy y < height store) /\
    (forall x x', x <= x' -> x' < width into -> cx x <= cx x') /\ (forall y y', y <= y' -> y' < height into -> cy y <= cy y') /\
    forall x y ch, x < width into -> y < height into -> ch < N -> sample N out x y ch = sample N store (cx x) (cy y) ch.
Proof.
  intros k c L N pool store into. rewrite resize_f32_x86_is.
  exact (g_nearest L N false _ _ _ pool store into (engine_h_conv k c N L Nearest _ _ _ (height into))).
Qed.
Print Assumptions C69_nearest_x86_f32.
Theorem C69_padding_x86_f32 : forall k c L f N pool (store into out : image f32),
  f <> Nearest -> valid_call N false f store into -> changes_size store into -> pool_ok pool ->
  resize_f32_x86 k c L f N pool store into = Returned Ok out -> only_pixels_differ N into out.
Proof.
  intros k c L f N pool store into out Hf V D P. rewrite resize_f32_x86_is.
  exact (g_padding L f N false _ _ _ (engine_h_conv k c N L f _ _ _ (height into)) pool store into out Hf V D P).
Qed.
Print Assumptions C69_padding_x86_f32.
Theorem C69_locality_x86_f32 : forall k c L f N pool pool' (store store' into into' out out' : image f32) x y ch,
  f <> Nearest -> valid_call N false f store into -> valid_call N false f store' into' -> pool_ok pool -> pool_ok pool' ->
  width store = width store' -> height store = height store' -> width into = width into' -> height into = height into' ->
  bit_depth into = bit_depth into' -> changes_size store into ->
  resize_f32_x86 k c L f N pool store into = Returned Ok out -> resize_f32_x86 k c L f N pool' store' into' = Returned Ok out' ->
  x < width into -> y < height into -> ch < N ->
  (forall sx sy, in_window (resampling_filter L f) store into x y sx sy -> sample N store sx sy ch = sample N store' sx sy ch) ->
  sample N out x y ch = sample N out' x y ch.
Proof.
  intros k c L f N pool pool' store store' into into' out out' x y ch Hf V V' P P' E1 E2 E3 E4 E5 D R R'.
  rewrite resize_f32_x86_is in R, R'. rewrite <- E4 in R'.
  exact (g_local L f N false _ _ _ (engine_h_conv k c N L f _ _ _ (height into)) pool pool' store store' into into' out out' x y ch Hf V V' P P' E1 E2 E3 E4 E5 D R R').
Qed.
Print Assumptions C69_locality_x86_f32.
Example C69_nonvacuous :
  first_error (refusal_table 1 false (flat_f32 0 1 []) (flat_f32 2 1 [f0; f0])) <> None /\
  valid_call 4 false Lanczos3 (flat_rgba 2 1 (repeat f1 8)) (flat_rgba 3 1 (repeat f0 12)) /\
  valid_call 4 false Nearest (flat_rgba 2 1 (repeat f1 8)) (flat_rgba 3 1 (repeat f0 12)).
Proof. split; [discriminate|]. split; unfold flat_rgba; valid_f32. Qed.
