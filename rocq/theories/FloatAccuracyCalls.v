(** Accuracy of f32 resize calls, portable and x86-64. *)
From Coq Require Import ZArith Reals Lra Lia Bool List Psatz Permutation ZifyBool ZifyNat.
From Flocq Require Import Core.Core IEEE754.BinarySingleNaN.
From Verif Require Import WeightSum FilterSums Center QuantSums WeightTable Accuracy DeepSums DeepCalls SpecKernels Base BaseProofs FixedPoint FloatConv ImageStore Dispatch Resize Spec SpecApi SpecFloat F32 F32Proofs Weights Sampler SamplerProofs PortableProofs PoolProofs
  Api Alpha ApiFloat ApiProofs DriverProofs FloatApiProofs KernelProofs X86Dispatch X86Float SpecX86Float FloatSumErr SpecFloatAccuracy X86FloatKernels X86FloatRows X86FloatCalls FloatAccuracy.
Import ListNotations.
Local Open Scope nat_scope.

Lemma no_extra_once W o p v : sums_taps no_extra (tsize W o) (fun k => p (tstart W o + k)) (tweight W o) v <-> each_tap_once W o p v.
Proof.
  unfold sums_taps, each_tap_once, no_extra. split; intros (l & P & S); exists l; (split; [|exact S]).
  - now rewrite app_nil_r in P.
  - now rewrite app_nil_r.
Qed.

Section Calls.
Variables (L : libm) (f : resampling_function) (N : nat) (E : engine f32 f32)
  (PV PH : nat -> fweights f32 -> (nat -> nat -> nat -> f32) -> nat -> nat -> nat -> f32).
Hypothesis CE : conv_engine L f N false E PV PH.
Hypothesis DE : dflt E = f0.
Variables (store into : image f32) (once : nat -> nat -> Prop).
Let Tv := filter_taps (resampling_filter L f) (height store) (height into).
Let Th := filter_taps (resampling_filter L f) (width store) (width into).
Hypothesis SV : forall d fw p y x c,
  sums_taps no_extra (tsize (taps_of f0 fw) y) (fun k => p (tstart (taps_of f0 fw) y + k) x c) (tweight (taps_of f0 fw) y) (PV d fw p y x c).
Hypothesis SH : forall d fw p y x c, wf_fw fw (width store) (width into) -> y < height into -> x < width into -> c < N ->
  fw = generate_weights (resampling_filter L f) (width store) (width into) -> once y x ->
  sums_taps no_extra (tsize (taps_of f0 fw) x) (fun k => p y (tstart (taps_of f0 fw) x + k) c) (tweight (taps_of f0 fw) x) (PH d fw p y x c).

Lemma g_taps pool : f <> Nearest -> valid_call N false f store into -> changes_size store into -> pool_ok pool ->
  exists out (mid : nat -> nat -> nat -> f32), generic_resize N E pool store into = Returned Ok out /\ only_pixels_differ N into out /\
    (forall y x c, y < height into -> x < width store -> c < N ->
      if height store =? height into then sample N store x y c = Some (mid y x c)
      else each_tap_once Tv y (fun k => stored N store k x c) (mid y x c)) /\
    (forall y x c, y < height into -> x < width into -> c < N ->
      exists v, sample N out x y c = Some v /\
      if width store =? width into then v = mid y x c
      else once y x -> each_tap_once Th x (fun k => mid y k c) v).
Proof using CE DE SV SH.
  intros Hf V D P.
  destruct (g_paints L f N false E PV PH CE pool store into Hf V D P) as (out & R & O & S).
  rewrite DE in S.
  set (fwv := generate_weights (resampling_filter L f) (height store) (height into)) in *.
  set (mid := if height store =? height into then stored N store else PV (bit_depth into) fwv (stored N store)).
  exists out, mid. split; [exact R|]. split; [exact O|].
  pose proof V as V0. destruct V as [VN (S1 & S2 & S3 & S4) (D1 & D2 & D3 & D4) VC VF VD VS VA].
  split.
  - intros y x c Hy Hx Hc. unfold mid. destruct (Nat.eqb_spec (height store) (height into)) as [Eh|Eh].
    + unfold sample, stored. replace (y * stride store + x * N + c) with (y * stride store + (x * N + c)) by lia.
      apply nth_error_nth'. rewrite S4. nia.
    + apply no_extra_once. apply (SV (bit_depth into) fwv (stored N store) y x c).
  - intros y x c Hy Hx Hc. eexists. split; [apply S; [rewrite (opd_width _ _ _ O)|rewrite (opd_height _ _ _ O)|]; assumption|].
    unfold g_passes, two_passes. rewrite (ce_gen _ _ _ _ _ _ _ CE).
    change (shown f0 N store) with (stored N store). fold fwv.
    assert (EM : (if negb (height store =? height into) then PV (bit_depth into) fwv (stored N store) else stored N store) = mid).
    { unfold mid. destruct (height store =? height into); reflexivity. }
    cbv zeta. rewrite EM. destruct (Nat.eqb_spec (width store) (width into)) as [Ew|Ew]; cbn [negb]; [reflexivity|].
    intro Ho. apply no_extra_once.
    refine (SH (bit_depth into) (generate_weights (resampling_filter L f) (width store) (width into)) mid y x c _ Hy Hx Hc eq_refl Ho).
    exact (sane_wf_h (valid_sane L V0)).
Qed.
End Calls.

(** ** The two builds *)
Lemma portable_taps k L f N pool (store into : image f32) : f <> Nearest -> valid_call N false f store into -> changes_size store into -> pool_ok pool ->
  let Tv := filter_taps (resampling_filter L f) (height store) (height into) in
  let Th := filter_taps (resampling_filter L f) (width store) (width into) in
  exists out (mid : nat -> nat -> nat -> f32), resize_f32 k L f N pool store into = Returned Ok out /\ only_pixels_differ N into out /\
    (forall y x c, y < height into -> x < width store -> c < N ->
      if height store =? height into then sample N store x y c = Some (mid y x c)
      else each_tap_once Tv y (fun k => stored N store k x c) (mid y x c)) /\
    (forall y x c, y < height into -> x < width into -> c < N ->
      exists v, sample N out x y c = Some v /\
      if width store =? width into then v = mid y x c
      else each_tap_once Th x (fun k => mid y k c) v).
Proof.
  intros Hf V D P Tv Th.
  destruct (g_taps L f N _ _ _ (engine_f32_conv k L f N (fun _ _ _ => Panic) (fun _ _ => Panic) (fun _ => Panic)) eq_refl store into (fun _ _ => True)) with (pool := pool)
    as (out & mid & R & O & M & S); auto.
  - intros d fw p y x c. apply weighted_sums.
  - intros d fw p y x c _ _ _ _ _ _. apply (weighted_sums k).
  - exists out, mid. split; [exact R|]. split; [exact O|]. split; [exact M|].
    intros y x c Hy Hx Hc. destruct (S y x c Hy Hx Hc) as (v & Sv & Q). exists v. split; [exact Sv|].
    destruct (width store =? width into); auto.
Qed.

Lemma x86f_v_sums k c fw p y x ch :
  sums_taps no_extra (tsize (taps_of f0 fw) y) (fun j => p (tstart (taps_of f0 fw) y + j) x ch) (tweight (taps_of f0 fw) y) (x86f_v k c fw p y x ch).
Proof.
  unfold x86f_v. cbv zeta. destruct (avx2 (base_cpu c)); [apply in_order_sums with (fma := has_fma c); reflexivity|].
  destruct (sse41 (base_cpu c)); [apply in_order_sums with (fma := false); reflexivity|]. apply weighted_sums.
Qed.
Lemma x86f_h_sums k c N h fw p y x ch insz outsz : wf_fw fw insz outsz -> x < outsz -> ch < N ->
  sums_taps (if (y <? 4 * (h / 4)) || negb (sse41 (base_cpu c)) then no_extra else leftover N) (tsize (taps_of f0 fw) x)
    (fun j => p y (tstart (taps_of f0 fw) x + j) ch) (tweight (taps_of f0 fw) x) (x86f_h k c N h fw p y x ch).
Proof.
  intros WF Hx Hc. pose proof (wf_nth _ _ _ x WF Hx) as Q. cbv zeta in Q. destruct Q as (Q1 & _).
  change (1 <= tsize (taps_of f0 fw) x) in Q1.
  unfold x86f_h, kernel_pass. destruct (y <? 4 * (h / 4)) eqn:Ey; cbn [orb].
  - destruct (f32_pixel_4 c N) as [px|] eqn:Ep.
    + destruct (kernel_4_ok c N px Ep) as [G _ Rs]. exact (px_val_is N px _ G Rs _ _ _ ch Q1 Hc).
    + apply (weighted_sums k).
  - destruct (f32_pixel_1 c N) as [px|] eqn:Ep.
    + destruct (negb (sse41 (base_cpu c))) eqn:Es.
      * assert (N <> 1). { intros ->. cbn in Ep. destruct (sse41 (base_cpu c)); discriminate. }
        destruct (kernel_1_ok c N px Ep) as [G _ Rs]. assert (leftover N = no_extra) as EL by (unfold leftover; destruct (Nat.eqb_spec N 1); [lia|reflexivity]).
        rewrite EL in *. exact (px_val_is N px _ G Rs _ _ _ ch Q1 Hc).
      * destruct (kernel_1_ok c N px Ep) as [G _ Rs]. exact (px_val_is N px _ G Rs _ _ _ ch Q1 Hc).
    + assert (EL : (if negb (sse41 (base_cpu c)) then no_extra else leftover N) = no_extra).
      { unfold leftover. destruct (Nat.eqb_spec N 1) as [->|]; [|destruct (sse41 (base_cpu c)); reflexivity].
        cbn in Ep. destruct (sse41 (base_cpu c)); [discriminate|reflexivity]. }
      rewrite EL. apply (weighted_sums k).
Qed.

Lemma x86_taps k c L f N pool (store into : image f32) : f <> Nearest -> valid_call N false f store into -> changes_size store into -> pool_ok pool ->
  let Tv := filter_taps (resampling_filter L f) (height store) (height into) in
  let Th := filter_taps (resampling_filter L f) (width store) (width into) in
  exists out (mid : nat -> nat -> nat -> f32), resize_f32_x86 k c L f N pool store into = Returned Ok out /\ only_pixels_differ N into out /\
    (forall y x ch, y < height into -> x < width store -> ch < N ->
      if height store =? height into then sample N store x y ch = Some (mid y x ch)
      else each_tap_once Tv y (fun k => stored N store k x ch) (mid y x ch)) /\
    (forall y x ch, y < height into -> x < width into -> ch < N ->
      exists v, sample N out x y ch = Some v /\
      if width store =? width into then v = mid y x ch
      else counted_once (sse41 (base_cpu c)) N (height into) Th y x -> each_tap_once Th x (fun k => mid y k ch) v).
Proof.
  intros Hf V D P Tv Th. rewrite resize_f32_x86_is.
  eapply (g_taps L f N _ _ _ (engine_h_conv k c N L f _ _ _ (height into)) eq_refl store into (counted_once (sse41 (base_cpu c)) N (height into) Th)); auto.
  - intros d fw p y x ch. apply x86f_v_sums.
  - intros d fw p y x ch WF Hy Hx Hc Efw O.
    pose proof (x86f_h_sums k c N (height into) fw p y x ch _ _ WF Hx Hc) as S.
    unfold counted_once in O. destruct O as [O|[O|[O|O]]].
    + rewrite O in S. cbn [negb] in S. rewrite orb_true_r in S. exact S.
    + assert (EL : leftover N = no_extra) by (unfold leftover; destruct (Nat.eqb_spec N 1); [lia|reflexivity]).
      rewrite EL in S. destruct (_ || _) in S; exact S.
    + apply Nat.ltb_lt in O. rewrite O in S. exact S.
    + subst Th. unfold filter_taps in O. rewrite <- Efw in O. destruct (_ || _) in S; [exact S|].
      unfold leftover in S. destruct (N =? 1); [|exact S].
      destruct S as (l & Pm & Sm). exists l. split; [|exact Sm]. unfold twice_taps in Pm.
      replace (tsize (taps_of f0 fw) x - 9) with (tsize (taps_of f0 fw) x - 9) in Pm by reflexivity.
      rewrite (Nat.div_small (tsize (taps_of f0 fw) x - 9) 8) in Pm by lia. exact Pm.
Qed.

(** ** Averaging filters stay in the range of the samples *)
Section Range.
Local Open Scope R_scope.
Variables (L : libm) (f : resampling_function).
Hypothesis A : averaging f = true.

Lemma blend_range insz outsz t o p v lo hi M : sides_ok f insz outsz -> (1 <= t <= 10000)%Z -> (Z.of_nat insz <= t * Z.of_nat outsz)%Z -> (o < outsz)%nat ->
  blend_at (filter_taps (resampling_filter L f) insz outsz) o p v ->
  Rabs lo <= M -> Rabs hi <= M -> M <= IZR (2 ^ 80) ->
  (forall k, (k < insz)%nat -> is_finite (p k) = true /\ lo <= B2R (p k) <= hi) ->
  is_finite v = true /\ lo - M * (6 * IZR t + 2) * / 4194304 - bpow radix2 (-120) <= B2R v <= hi + M * (6 * IZR t + 2) * / 4194304 + bpow radix2 (-120).
Proof using A.
  intros S Ht Hr Ho HB Hlo Hhi HM Hp.
  destruct (taps_size L f 8 A ltac:(lia) insz outsz t o S Ht Hr Ho) as (Z1 & Z2).
  destruct (averaging_weights L f insz outsz o A S Ho) as (ws & EW). unfold DeepSums.row_weights in EW. destruct EW as (E1 & E2 & E3 & E4).
  set (T := filter_taps (resampling_filter L f) insz outsz) in *.
  unfold blend_at in HB. cbv zeta in HB. set (n := tsize T o) in *.
  set (x := fun k => B2R (p (tstart T o + k)%nat)) in *. set (w := fun k => B2R (tweight T o k)) in *.
  assert (Nn : INR n <= 2 * IZR t) by (rewrite INR_IZR_INZ, <- mult_IZR; apply IZR_le; lia).
  assert (Nt : 1 <= IZR t <= 10000) by (split; apply IZR_le; lia).
  assert (N0 := pos_INR n).
  assert (M0 : 0 <= M) by (pose proof (Rabs_pos lo); lra).
  assert (Ew : forall k, (k < n)%nat -> w k = nth k ws 0 /\ 0 <= w k /\ is_finite (tweight T o k) = true).
  { intros k Hk. destruct (E2 k Hk) as (F1 & F2). unfold w. rewrite F2. split; [reflexivity|]. split; [|exact F1].
    rewrite Forall_nth in E3. apply E3. lia. }
  assert (SWs : rsumn n w = rsum ws).
  { rewrite <- E1. clear - E1 Ew. assert (H : forall k, (k < length ws)%nat -> w k = nth k ws 0) by (intros k Hk; apply Ew; lia).
    rewrite (rsumn_ext _ _ _ H). rewrite <- total_nth. clear. induction ws as [|a l IH]; [reflexivity|]. cbn [rsum]. unfold total. cbn [fold_right]. fold (total l). now rewrite IH. }
  assert (Sw : Rabs (rsumn n w - 1) <= (2 * IZR t + 2) * / 4194304).
  { rewrite SWs. eapply Rle_trans; [exact E4|]. apply Rmult_le_compat_r; [lra|]. lra. }
  assert (Sw2 : 0 <= rsumn n w <= 2) by (apply Rabs_le_inv in Sw; lra).
  assert (Hx : forall k, (k < n)%nat -> is_finite (p (tstart T o + k)%nat) = true /\ lo <= x k <= hi) by (intros k Hk; apply Hp; lia).
  assert (Hxa : forall k, (k < n)%nat -> Rabs (x k) <= M).
  { intros k Hk. destruct (Hx k Hk) as (_ & B). apply Rabs_le_inv in Hlo, Hhi. apply Rabs_le. lra. }
  assert (SZ : sum_to n (fun k => Rabs (x k * w k)) <= M * rsumn n w).
  { rewrite sum_to_rsumn, <- rsumn_scal. apply rsumn_ge. intros k Hk. rewrite Rabs_mult. destruct (Ew k Hk) as (_ & W0 & _).
    rewrite (Rabs_pos_eq (w k)) by exact W0. apply Rmult_le_compat_r; auto. }
  assert (MW : M * rsumn n w <= M * 2) by (apply Rmult_le_compat_l; lra).
  destruct (HB ltac:(lia)) as (Fv & Ev).
  { intros k Hk. split; [apply Hx; exact Hk|apply Ew; exact Hk]. }
  { change (sum_to n (fun k => Rabs (x k * w k)) <= IZR (2 ^ 98)).
    assert (2 * IZR (2 ^ 80) <= IZR (2 ^ 98)) by (rewrite <- mult_IZR; apply IZR_le; lia). lra. }
  change (Rabs (B2R v - sum_to n (fun k => x k * w k)) <= INR n * / 4194304 * sum_to n (fun k => Rabs (x k * w k)) + INR n * bpow radix2 (-147)) in Ev.
  split; [exact Fv|]. rewrite (sum_to_rsumn n (fun k => x k * w k)) in Ev.
  assert (Up : rsumn n (fun k => x k * w k) <= hi * rsumn n w).
  { rewrite <- rsumn_scal. apply rsumn_ge. intros k Hk. apply Rmult_le_compat_r; [apply Ew; exact Hk|apply Hx; exact Hk]. }
  assert (Dn : lo * rsumn n w <= rsumn n (fun k => x k * w k)).
  { rewrite <- rsumn_scal. apply rsumn_ge. intros k Hk. apply Rmult_le_compat_r; [apply Ew; exact Hk|apply Hx; exact Hk]. }
  assert (B47 : INR n * bpow radix2 (-147) <= bpow radix2 (-120)).
  { apply Rle_trans with (bpow radix2 15 * bpow radix2 (-147)); [|rewrite <- bpow_plus; apply bpow_le; lia].
    apply Rmult_le_compat_r; [apply bpow_ge_0|]. change (bpow radix2 15) with 32768. lra. }
  assert (Er : INR n * / 4194304 * sum_to n (fun k => Rabs (x k * w k)) <= M * (4 * IZR t) * / 4194304).
  { apply Rle_trans with (2 * IZR t * / 4194304 * (M * 2)); [|lra]. apply Rmult_le_compat; try lra.
    rewrite sum_to_rsumn, <- total_map_seq, <- lsum_seq. apply lsum_nonneg. intro; apply Rabs_pos. }
  assert (H1 : Rabs (hi * (rsumn n w - 1)) <= M * (2 * IZR t + 2) * / 4194304).
  { rewrite Rabs_mult, Rmult_assoc. apply Rmult_le_compat; auto using Rabs_pos. }
  assert (H2 : Rabs (lo * (rsumn n w - 1)) <= M * (2 * IZR t + 2) * / 4194304).
  { rewrite Rabs_mult, Rmult_assoc. apply Rmult_le_compat; auto using Rabs_pos. }
  apply Rabs_le_inv in H1, H2, Ev. lra.
Qed.
End Range.
