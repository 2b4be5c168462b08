(** C51: the resized image against textbook resampling over the real numbers. *)
From Coq Require Import ZArith Reals List Bool Lia Lra Psatz.
From Flocq Require Import Core.Core IEEE754.BinarySingleNaN.
From Verif Require Import Base BaseProofs FixedPoint F32 F32Proofs Weights WeightsProofs QuantProofs Sampler SamplerProofs Center.
From Verif Require Import ImageStore Resize Api Witness Spec SpecApi SpecKernels SpecAccuracy Accuracy KernelAccuracy KernelFacts WindowPos WeightTable KernelProofs
  QuantSums FilterSums DispatchProofs PoolProofs Properties2 Properties7.
Import ListNotations.
Local Open Scope R_scope.

(** The largest downscale covered. *)
Definition downscale_limit (f : resampling_function) : Z := if averaging f then 170 else 42.

Lemma tau_bound f K n : coded_kernel f = Some K -> (Z.of_nat n <= Z.max 2 (e_support (filter_entry f) * downscale_limit f))%Z ->
  0 <= weight_tolerance f n /\ INR n * weight_tolerance f n <= / 28.
Proof.
  intros HK Hn. rewrite INR_IZR_INZ.
  assert (N0 : 0 <= IZR (Z.of_nat n)) by (apply IZR_le; lia).
  unfold weight_tolerance. rewrite INR_IZR_INZ.
  set (x := IZR (Z.of_nat n)) in *.
  destruct (averaging f) eqn:E.
  - assert (kernel_tolerance f = / 262144) as -> by (destruct f; try discriminate; reflexivity).
    assert (X : x <= 340). { unfold x. apply IZR_le. unfold downscale_limit in Hn. rewrite E in Hn. destruct f; try discriminate; cbn in Hn; lia. }
    rewrite Rmax_right by lra. split; [lra|]. nra.
  - assert (KT : / 262144 <= kernel_tolerance f <= / 32768) by (destruct f; cbn; lra).
    assert (X : x <= 252). { unfold x. apply IZR_le. unfold downscale_limit in Hn. rewrite E in Hn. destruct f; cbn in HK, Hn; try discriminate; try lia. }
    assert (M : Rmax (kernel_tolerance f) (/ 262144 + (x + 3) / 16777216) <= / 32768) by (apply Rmax_lub; lra).
    pose proof (Rmax_l (kernel_tolerance f) (/ 262144 + (x + 3) / 16777216)).
    set (mx := Rmax _ _) in *. split; [lra|]. assert (x * (4 * mx) <= 252 * (4 * / 32768)) by (apply Rmult_le_compat; lra). lra.
Qed.

(** One output position in one direction. *)
Lemma one_direction L f K insz outsz o (p : nat -> Z) : coded_kernel f = Some K ->
  (1 <= Z.of_nat insz <= 65536)%Z -> (1 <= Z.of_nat outsz <= 65536)%Z -> (Z.of_nat insz <= downscale_limit f * Z.of_nat outsz)%Z ->
  (f = Area -> (outsz <= insz)%nat) -> (o < outsz)%nat -> (forall k, (k < insz)%nat -> (0 <= p k <= 255)%Z) ->
  let W := filter_windows (resampling_filter L f) insz outsz in
  let v := zsum (wsize W o) (fun k => wcoef W o k * p (wstart W o + k)%nat)%Z in
  textbook_at f K insz outsz o p (floor_q15 255 v) 1 /\ textbook_at f K insz outsz o p (round_q15 255 v) (1 / 2).
Proof.
  intros HK Hi Ho Hr Ha H Hp W v.
  assert (DL : (downscale_limit f <= 170)%Z) by (unfold downscale_limit; destruct (averaging f); lia).
  assert (DL1 : (1 <= downscale_limit f)%Z) by (unfold downscale_limit; destruct (averaging f); lia).
  destruct (C48_weights_are_kernel_partial L f K insz outsz o HK Hi Ho ltac:(nia) Ha H) as (al & Ea & Da & Hrest). cbv zeta in Hrest.
  destruct Hrest as (T & Ws).
  assert (W47 := C47_window_position L f insz outsz o ltac:(lia) ltac:(lia) Ha H). cbv zeta in W47.
  set (fw := generate_weights (resampling_filter L f) insz outsz) in *.
  assert (Es : wsize W o = win_size fw o) by reflexivity.
  assert (Et : wstart W o = Z.to_nat (win_start fw o)) by (unfold win_start; rewrite Nat2Z.id; reflexivity).
  set (n := win_size fw o) in *.
  set (g := kernel_samples f (map K al)) in *.
  assert (Lg : length g = n) by (unfold g; rewrite samples_length, map_length; exact Ea).
  assert (SO : sides_ok f insz outsz) by (split; [lia|split; [lia|intros _; lia]]).
  assert (Hn : (Z.of_nat n <= Z.max 2 (e_support (filter_entry f) * downscale_limit f))%Z).
  { change n with (wsize W o). apply window_length; [exact SO|lia|exact Hr|exact H]. }
  destruct (tau_bound f K n HK Hn) as [Ht0 Ht1].
  pose proof (sides_wf L f insz outsz SO) as WF. pose proof (wf_nth _ _ _ o WF H) as Q. cbv zeta in Q. fold fw in Q.
  assert (Hin : forall k, (k < n)%nat -> (0 <= p (wstart W o + k)%nat <= 255)%Z).
  { intros k Hk. apply Hp. destruct Q as (_ & _ & Q). change (wstart W o + n <= insz)%nat in Q. lia. }
  assert (Main : Forall (fun x => Rabs x <= total g) g ->
    Rabs (IZR v / 32768 - weighted g (fun k => IZR (p (wstart W o + k)%nat))) <= blend_tolerance f g).
  { intros FG.
    assert (Hg : forall k, (k < n)%nat -> Rabs (nth k g 0) <= total g).
    { intros k Hk. rewrite Forall_nth in FG. apply FG. lia. }
    set (w := fun k => B2R (win_weight fw o k)).
    assert (Hw : forall k, (k < n)%nat -> fin (win_weight fw o k) (w k) /\ Rabs (w k * total g - nth k g 0) <= (1 + INR n * Rabs (w k)) * weight_tolerance f n).
    { intros k Hk. destruct (Ws k Hk) as (w' & Fw & Bw). assert (w k = w') by (destruct Fw; assumption). subst w'. split; [exact Fw|exact Bw]. }
    unfold v. rewrite Es. fold n. unfold weighted. rewrite total_map_seq, Lg. unfold blend_tolerance. rewrite total_abs, Lg.
    apply blend_error with (w := w) (g := fun k => nth k g 0) (q := wcoef W o) (p := fun k => p (wstart W o + k)%nat).
    - lra.
    - exact Ht0.
    - lra.
    - intros k Hk. exact (proj2 (Hw k Hk)).
    - exact Hg.
    - intros k Hk. destruct (Hw k Hk) as [Fw Bw].
      assert (Hal : (k < aligned_size fw)%nat) by (change (1 <= n /\ n <= aligned_size fw /\ wstart W o + n <= insz)%nat in Q; lia).
      unfold W. rewrite wcoef_row by assumption. unfold quant_row. rewrite <- weights_nth by assumption. fold fw. change (nth (o * aligned_size fw + k) (weights fw) f0) with (win_weight fw o k).
      apply quant_fin; [exact Fw|].
      specialize (Hg k Hk). set (G := total g) in *. set (x := w k) in *. set (y := nth k g 0) in *. set (tau := weight_tolerance f n) in *.
      assert (N1 : 1 <= INR n) by (change 1 with (INR 1); apply le_INR; lia).
      assert (tau <= / 28) by nra.
      assert (B1 : (1 + INR n * Rabs x) * tau <= / 28 + Rabs x * / 28).
      { replace ((1 + INR n * Rabs x) * tau) with (tau + Rabs x * (INR n * tau)) by ring. pose proof (Rabs_pos x).
        assert (Rabs x * (INR n * tau) <= Rabs x * / 28) by (apply Rmult_le_compat_l; lra). lra. }
      assert (B2 : Rabs x * G <= Rabs (x * G - y) + Rabs y).
      { replace (Rabs x * G) with (Rabs (x * G)) by (rewrite Rabs_mult, (Rabs_pos_eq G); lra).
        replace (x * G) with ((x * G - y) + y) at 1 by ring. apply Rabs_triang. }
      assert (B3 : Rabs x <= 2).
      { destruct (Rle_lt_dec (Rabs x) 2) as [|C]; [assumption|exfalso]. nra. }
      eapply Rle_trans; [exact B3|]. apply IZR_le. lia.
    - exact Hin. }
  assert (WN : window_near f insz outsz o (wstart W o) (wsize W o)).
  { unfold window_near. destruct W47 as (n' & p' & q' & A & B & C & D & E). exists n', p', q'.
    split; [exact A|]. split; [exact B|]. split; [exact C|]. split; [exact D|exact E]. }
  split; exists (wstart W o), (wsize W o), al; (split; [exact WN|]); (split; [exact Ea|]); (split; [intros k Hk; rewrite Et; exact (Da k Hk)|]);
    cbv zeta; fold g; (split; [exact T|]); intros FG; specialize (Main FG).
  - apply floor_q15_near. exact Main.
  - apply round_q15_near. exact Main.
Qed.

(** ** C51 The resized picture is the textbook one *)
(** Columns first, rounded down; then rows, rounded to nearest; a direction whose size does
    not change is copied. *)
Theorem C51_textbook_result_partial : forall L f K N pool (store into : image Z),
  coded_kernel f = Some K -> valid_call N false f store into -> changes_size store into -> pool_ok pool -> samples_in 255 (buf store) ->
  (Z.of_nat (width store) <= 65536)%Z -> (Z.of_nat (height store) <= 65536)%Z ->
  (Z.of_nat (width into) <= 65536)%Z -> (Z.of_nat (height into) <= 65536)%Z ->
  downscale_at_most (downscale_limit f) store into ->
  (f = Area -> (width into <= width store)%nat /\ (height into <= height store)%nat) ->
  exists out (mid : picture), resize_u8 L f N pool store into = Returned Ok out /\
    (forall y x c, (y < height into)%nat -> (x < width store)%nat -> (c < N)%nat ->
      (0 <= mid y x c <= 255)%Z /\
      if (height store =? height into)%nat then sample N store x y c = Some (mid y x c)
      else textbook_at f K (height store) (height into) y (fun k => picture_of N store k x c) (mid y x c) 1) /\
    (forall y x c, (y < height into)%nat -> (x < width into)%nat -> (c < N)%nat ->
      exists v, sample N out x y c = Some v /\
      if (width store =? width into)%nat then v = mid y x c
      else textbook_at f K (width store) (width into) x (fun k => mid y k c) v (1 / 2)).
Proof.
  intros L f K N pool store into HK V CS P SI W1 H1 W2 H2 DS AR.
  assert (NN : f <> Nearest) by (intros ->; discriminate).
  assert (R : exists out, resize_u8 L f N pool store into = Returned Ok out /\ only_pixels_differ N into out /\
    shows N out (two_pass L f store into (picture_of N store))).
  { destruct (averaging f) eqn:E.
    - apply C11_convolution_averaging; assumption.
    - apply C11_convolution_partial; try assumption. unfold downscale_limit in DS. rewrite E in DS. exact DS. }
  destruct R as (out & R & OD & SH).
  set (V1 := filter_windows (resampling_filter L f) (height store) (height into)) in *.
  set (mid := if (height store =? height into)%nat then picture_of N store else resample_v 255 V1 (picture_of N store)).
  exists out, mid. split; [exact R|].
  destruct V as [VN (S1 & S2 & S3 & S4) (D1 & D2 & D3 & D4) VC VF VD VS VA].
  assert (PS : forall y x c, (y < height store)%nat -> (x < width store)%nat -> (c < N)%nat -> (0 <= picture_of N store y x c <= 255)%Z /\ sample N store x y c = Some (picture_of N store y x c)).
  { intros y x c Hy Hx Hc. unfold picture_of, sample.
    assert (I : (y * stride store + (x * N + c) < length (buf store))%nat) by (rewrite S4; nia).
    split. { unfold samples_in in SI. rewrite Forall_nth in SI. apply SI. exact I. }
    replace (y * stride store + x * N + c)%nat with (y * stride store + (x * N + c))%nat by lia.
    apply nth_error_nth'. exact I. }
  assert (MR : forall y x c, (y < height into)%nat -> (x < width store)%nat -> (c < N)%nat -> (0 <= mid y x c <= 255)%Z).
  { intros y x c Hy Hx Hc. unfold mid. destruct (Nat.eqb_spec (height store) (height into)) as [E|E].
    - apply PS; lia.
    - unfold resample_v, floor_q15, clampZ. lia. }
  destruct DS as [DSw DSh].
  split.
  - intros y x c Hy Hx Hc. split; [apply MR; assumption|]. unfold mid. destruct (Nat.eqb_spec (height store) (height into)) as [E|E].
    + apply PS; lia.
    + refine (proj1 (one_direction L f K (height store) (height into) y (fun k => picture_of N store k x c) HK ltac:(lia) ltac:(lia) DSh (fun e => proj2 (AR e)) Hy _)).
      intros k Hk. apply PS; lia.
  - intros y x c Hy Hx Hc. destruct OD as [OW OH _ _ _ _ _].
    eexists. split; [apply SH; [rewrite OW|rewrite OH|]; assumption|].
    unfold two_pass, resample. fold V1.
    assert (EM : (if negb (height store =? height into)%nat then resample_v 255 V1 (picture_of N store) else picture_of N store) = mid).
    { unfold mid. destruct (height store =? height into)%nat; reflexivity. }
    rewrite EM. destruct (Nat.eqb_spec (width store) (width into)) as [E|E]; cbn [negb]; [reflexivity|].
    refine (proj2 (one_direction L f K (width store) (width into) x (fun k => mid y k c) HK ltac:(lia) ltac:(lia) DSw (fun e => proj1 (AR e)) Hx _)).
    intros k Hk. apply MR; lia.
Qed.
Print Assumptions C51_textbook_result_partial.
Example C51_nonvacuous : let store := gray 2 5 2 (repeat 200%Z 10) in let into := gray 3 4 4 (repeat 0%Z 16) in
  coded_kernel BSpline <> None /\ valid_call 1 false BSpline store into /\ changes_size store into /\ samples_in 255 (buf store) /\
  downscale_at_most (downscale_limit BSpline) store into.
Proof.
  cbv zeta. split; [discriminate|]. split; [valid_tac|]. split; [left; cbn; lia|].
  split; [cbn; repeat constructor; lia|]. unfold downscale_at_most; cbn; lia.
Qed.

(** The proviso of [textbook_at] always holds for the kernels without negative lobes. *)
Definition without_lobes (f : resampling_function) : bool :=
  match f with Bilinear | Box | Area | Welch | Quadric | EwaQuadric | Cubic | BSpline | Hermite => true | _ => false end.
Lemma nonneg_bounded g : Forall (fun x => 0 <= x) g -> Forall (fun x => Rabs x <= total g) g /\ 0 <= total g.
Proof.
  induction 1 as [|x g Hx H [IH T]]; [split; [constructor|cbn; lra]|]. change (total (x :: g)) with (x + total g). split; [|lra]. constructor; [rewrite Rabs_pos_eq; lra|].
  eapply Forall_impl; [|exact IH]. intros a Ha. cbv beta in *. lra.
Qed.
Lemma blend_nonneg g : Forall (fun x => 0 <= x) g -> forall p, 0 <= p -> Forall (fun x => 0 <= x) (blend p g).
Proof. induction 1 as [|x g Hx H IH]; intros p Hp; cbn; constructor; [lra|apply IH; lra]. Qed.
Lemma kernel_nonneg f K : coded_kernel f = Some K -> without_lobes f = true -> forall a, 0 <= a -> 0 <= K a.
Proof.
  intros HK W a Ha. destruct f; try discriminate; injection HK as <-;
    unfold triangle, flat, parabola, quadratic_bspline, bc_cubic; repeat destruct Rlt_dec; try lra; try nra.
  all: try (assert (0 <= (a - 3 / 2) ^ 2) by apply pow2_ge_0; lra).
  all: try (assert (0 <= (2 - a) ^ 3) by (apply Rfunctions.pow_le; lra); lra).
  all: assert (0 <= (1 - a) ^ 2 * (1 + 2 * a)) by (apply Rmult_le_pos; [apply pow2_ge_0|lra]); lra.
Qed.
Theorem C51_no_clipping_without_lobes : forall f K al, coded_kernel f = Some K -> without_lobes f = true -> Forall (fun a => 0 <= a) al ->
  Forall (fun x => Rabs x <= total (kernel_samples f (map K al))) (kernel_samples f (map K al)).
Proof.
  intros f K al HK W Ha. apply nonneg_bounded.
  assert (P : Forall (fun x => 0 <= x) (map K al)).
  { rewrite Forall_map. eapply Forall_impl; [|exact Ha]. intros a. cbv beta. apply (kernel_nonneg f K HK W). }
  destruct (map K al) as [|v r]; [constructor|]. cbn [kernel_samples]. destruct (elliptical f); [|exact P].
  pose proof (Forall_inv P) as P1. pose proof (Forall_inv_tail P) as P2. constructor; [exact P1|]. apply blend_nonneg; assumption.
Qed.
Print Assumptions C51_no_clipping_without_lobes.
