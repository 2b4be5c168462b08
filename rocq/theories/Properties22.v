(** C90: f16 images on x86-64 processors that have SSE4.1 but not F16C: the crate converts
    between f16 and f32 with its own SSE code. *)
From Coq Require Import ZArith Reals List Bool Lia Lra ZifyBool ZifyNat.
From Flocq Require Import Core.Core IEEE754.BinarySingleNaN.
From Verif Require Import Base BaseProofs ImageStore FixedPoint Dispatch FloatConv Resize Spec SpecApi SpecAlpha SpecFloat SpecX86Float SpecKernels SpecAccuracy SpecFloatAccuracy
  F32 F32Proofs Weights Sampler Center SamplerProofs ResizeProofs DispatchProofs NoFail ImageProofs PoolProofs ApiProofs Api Alpha ApiFloat DriverProofs
  FloatApiProofs KernelProofs PortableProofs X86FloatCalls FloatAccuracy FloatAccuracyCalls QuantSums DeepCalls Witness
  F16 F16Arith F16Proofs F16Calls SpecF16 F16Range F16Sums F16Alpha Properties17 X86Dispatch X86F16 X86F16Calls X86F16Sums Properties21 X86F16Tables X86F16Old X86F16OldCalls X86AlphaF16 X86F16AnyAlpha X86AlphaF16Proofs X86AlphaF16Calls X86AlphaF16Facts.
Import ListNotations.
Local Open Scope nat_scope.

(** The machines this is about. *)
Definition without_f16c (d : hcpu) : Prop := sse41 (hbase d) = true /\ f16c d = false.

(** [r] is never negative; if the samples under the window are finite it is the f16 value
    nearest to the magnitude of the f32 sum of the window, whenever that magnitude is below 65520. *)
Definition magnitude_sum_at (W : taps f32) (o : nat) (p : nat -> f16) (r : f16) : Prop :=
  Bsign r = false /\
  ((forall j, j < tsize W o -> is_finite (p (tstart W o + j)) = true) ->
   exists v, each_tap_once W o (fun i => as_f32 (p i)) v /\
     (is_finite v = true -> (Rabs (B2R v) < 65520)%R -> nearest16 (Rabs (B2R v)) r)).

(** ** The conversions *)
Theorem C90_widening_is_exact : forall d (x : f16), without_f16c d -> is_finite x = true ->
  is_finite (cvt_up d x) = true /\ B2R (cvt_up d x) = B2R x.
Proof. intros d x HC F. rewrite (old_up d HC). exact (up_B2R x F). Qed.
Print Assumptions C90_widening_is_exact.
Theorem C90_narrowing_loses_the_sign : forall d (v : f32), without_f16c d ->
  Bsign (cvt_down d v) = false /\
  (is_finite v = true -> (Rabs (B2R v) < 65520)%R -> nearest16 (Rabs (B2R v)) (cvt_down d v)).
Proof.
  intros d v HC. rewrite (old_down d HC). split; [apply down_never_negative|]. intros F B. now apply away_nearest.
Qed.
Print Assumptions C90_narrowing_loses_the_sign.

Lemma fallback_magnitude W o p r : fallback_sum W o p r -> magnitude_sum_at W o p r.
Proof.
  intro Q. split; [destruct Q as (v & _ & ->); apply down_never_negative|].
  intro F. destruct (fallback_exact_up W o p r Q F) as (v & T & ->). exists v. split; [exact T|]. intros Fv B. now apply away_nearest.
Qed.

(** ** The calls *)
Theorem C90_magnitudes_f16_x86 : forall k d L f N pool (store into : image f16),
  without_f16c d -> f <> Nearest -> valid_call N false f store into -> changes_size store into -> pool_ok pool ->
  exists out (mid : nat -> nat -> nat -> f16), resize_f16_x86 k d L f N pool store into = Returned Ok out /\
    (forall y x c, y < height into -> x < width store -> c < N ->
      if height store =? height into then sample N store x y c = Some (mid y x c)
      else magnitude_sum_at (filter_taps (resampling_filter L f) (height store) (height into)) y (fun i => stored16 N store i x c) (mid y x c)) /\
    (forall y x c, y < height into -> x < width into -> c < N ->
      exists v, sample N out x y c = Some v /\
      if width store =? width into then v = mid y x c
      else if 3 <=? N then magnitude_sum_at (filter_taps (resampling_filter L f) (width store) (width into)) x (fun i => mid y i c) v
      else f16_sum_at (filter_taps (resampling_filter L f) (width store) (width into)) x (fun i => mid y i c) v).
Proof.
  intros k d L f N pool store into HC Hf V D P. destruct (old_sums_is k d L f N pool store into HC Hf V D P) as (out & mid & R & _ & M & S).
  exists out, mid. split; [exact R|]. split.
  - intros y x c Hy Hx Hc. specialize (M y x c Hy Hx Hc). destruct (height store =? height into); [exact M|now apply fallback_magnitude].
  - intros y x c Hy Hx Hc. destruct (S y x c Hy Hx Hc) as (v & Sv & Q). exists v. split; [exact Sv|].
    destruct (width store =? width into); [exact Q|]. destruct (3 <=? N); [now apply fallback_magnitude|now apply narrowed_sum_at].
Qed.
Print Assumptions C90_magnitudes_f16_x86.

(** The last pass is one of the vector kernels. *)
Definition ends_in_vector_pass (N : nat) (store into : image f16) : Prop :=
  (height store <> height into /\ width store = width into) \/ (3 <= N /\ width store <> width into).
Theorem C90_never_negative_f16_x86 : forall k d L f N pool (store into out : image f16) x y c,
  without_f16c d -> f <> Nearest -> valid_call N false f store into -> pool_ok pool -> ends_in_vector_pass N store into ->
  resize_f16_x86 k d L f N pool store into = Returned Ok out ->
  x < width into -> y < height into -> c < N -> exists v, sample N out x y c = Some v /\ Bsign v = false.
Proof.
  intros k d L f N pool store into out x y c HC Hf V P E R Hx Hy Hc.
  exact (old_never_negative k d L f N pool store into out HC Hf V P R E x y c Hx Hy Hc).
Qed.
Print Assumptions C90_never_negative_f16_x86.

Theorem C90_no_overshoot_f16_x86_partial : forall k d L f N pool (store into out : image f16) t c m,
  without_f16c d -> averaging f = true -> f <> Nearest -> valid_call N false f store into -> changes_size store into -> pool_ok pool ->
  (1 <= t <= 150)%Z -> downscale_at_most t store into -> c < N ->
  (exists q : f16, is_finite q = true /\ Rabs (B2R q) = m) -> at_most16 N store c m ->
  resize_f16_x86 k d L f N pool store into = Returned Ok out -> at_most16 N out c m.
Proof.
  intros k d L f N pool store into out t c m HC A Hf V D P Ht DS Hc (q & Fq & Mq) B R.
  assert (Om : (0 <= m <= 65504)%R) by (rewrite <- Mq; split; [apply Rabs_pos|now apply B16_lt]).
  assert (Fm : fmt16 m) by (rewrite <- Mq; apply generic_format_abs, fmt16_B2R).
  destruct (C87_padding_f16_x86 k d L f N pool false store into out Hf V D P (or_introl R)) as (W & H & _).
  intros x y Hx Hy. rewrite W in Hx. rewrite H in Hy.
  exact (old_bounded k d L f N pool store into out t c HC V D A Hf P Ht DS Hc R m Fm Om B x y Hx Hy).
Qed.
Print Assumptions C90_no_overshoot_f16_x86_partial.
(** A constant channel stays constant up to the sign, which is lost. *)
Theorem C90_constants_lose_the_sign_f16_x86_partial : forall k d L f N pool (store into out : image f16) t c (a : f16),
  without_f16c d -> averaging f = true -> f <> Nearest -> valid_call N false f store into -> pool_ok pool ->
  height store <> height into \/ (3 <= N /\ width store <> width into) ->
  (1 <= t <= 150)%Z -> downscale_at_most t store into -> c < N -> is_finite a = true ->
  (forall x y, x < width store -> y < height store -> sample N store x y c = Some a) ->
  resize_f16_x86 k d L f N pool store into = Returned Ok out ->
  forall x y, x < width into -> y < height into -> exists v, sample N out x y c = Some v /\ is_finite v = true /\ B2R v = Rabs (B2R a).
Proof.
  intros k d L f N pool store into out t c a HC A Hf V P CV Ht DS Hc Fa B R x y Hx Hy.
  assert (D : changes_size store into) by (unfold changes_size; lia).
  exact (old_constant k d L f N pool store into out t c HC V D A Hf P Ht DS Hc R a Fa CV B x y Hx Hy).
Qed.
Print Assumptions C90_constants_lose_the_sign_f16_x86_partial.

(** ** Alpha *)
(** [p] is the product of colour [c] and alpha [a] without its sign, rounded once. *)
Definition associated_magnitude (c a p : f16) : Prop :=
  Bsign p = false /\
  (is_finite c = true -> is_finite a = true -> (Rabs (B2R c * B2R a) < 65520)%R -> nearest16 (Rabs (B2R c * B2R a)) p).
Lemma fallback_associated c a : associated_magnitude c a (down_fallback (fmul (up_fallback c) (up_fallback a))).
Proof.
  split; [apply down_never_negative|]. intros Fc Fa B. rewrite (up_fallback_exact c Fc), (up_fallback_exact a Fa).
  destruct (product_exact c a Fc Fa) as (F & E). rewrite <- E in *. now apply away_nearest.
Qed.
Lemma fallback_zero v a : B2R a = 0%R -> is_finite a = true -> associated_magnitude v a h0.
Proof.
  intros Z Fa. split; [reflexivity|]. intros Fv _ _. rewrite Z, Rmult_0_r, Rabs_R0. split; [|split; intro; exfalso; lra].
  intros _. split; [reflexivity|]. intros q _. change (B2R h0) with 0%R. rewrite Rminus_0_r, Rabs_R0. apply Rabs_pos.
Qed.
(** Whole blocks of eight pixels go through the vector code, at both ends. *)
Theorem C90_pipeline_f16_x86 : forall k d L f pool (store into : image f16),
  without_f16c d -> valid_call 4 false f store into -> changes_size store into -> f <> Nearest -> pool_ok pool ->
  exists src mid out,
    width src = width store /\ height src = height store /\
    (forall x y r g b a, x < width store -> y < height store -> pixel store x y r g b a ->
       exists r' g' b', pixel src x y r' g' b' a /\
         (if x <? 8 * (width store / 8) then associated_magnitude r a r' /\ associated_magnitude g a g' /\ associated_magnitude b a b'
          else associated16 r a r' /\ associated16 g a g' /\ associated16 b a b')) /\
    resize_f16_x86 k d L f 4 pool src into = Returned Ok mid /\
    resize_rgba_f16_x86 k d L f pool true store into = Returned Ok out /\
    (forall x y r g b a, x < width into -> y < height into -> pixel mid x y r g b a ->
       exists r' g' b', pixel out x y r' g' b' a /\
         (is_finite a = true ->
          if x <? 8 * (width into / 8) then associated_magnitude r a r' /\ associated_magnitude g a g' /\ associated_magnitude b a b'
          else recovered16 r a r' /\ recovered16 g a g' /\ recovered16 b a b') /\
         (B2R a = 0%R /\ is_finite a = true -> r' = h0 /\ g' = h0 /\ b' = h0)).
Proof.
  intros k d L f pool store into HC V D Hf P.
  destruct (rgba_pipeline_f16_any k d L f pool store into V D Hf P) as (src & mid & out & Q1 & VS & Ws & Hs & Rm & Om & R & Q2 & _).
  destruct (x86_prepared_fields d 4 store into) as (E1 & E2 & _).
  assert (B8 : block_f16 d = 8) by (unfold block_f16; destruct HC as [H1 H2]; now rewrite H1, H2, andb_false_r).
  exists src, mid, out. split; [exact Ws|]. split; [exact Hs|]. split; [|split; [exact Rm|split; [exact R|]]].
  - destruct Q1 as (_ & _ & Q). intros x y r g b a Hx Hy Px. destruct (Q x y r g b a Hx Hy Px) as (r' & g' & b' & a' & E & P').
    unfold pre_any in E. rewrite B8 in E. destruct (x <? 8 * (width store / 8)).
    + unfold premul_blk in E. rewrite (old_up d HC), (old_down d HC) in E. inversion E; subst. do 3 eexists. split; [exact P'|].
      split; [|split]; apply fallback_associated.
    + unfold premul_px_f16 in E. rewrite as_f16_f32 in E. inversion E; subst. do 3 eexists. split; [exact P'|].
      split; [|split]; apply premul_associated.
  - intros x y r g b a Hx Hy Px.
    assert (Sx : forall i, i < 4 -> sample 4 out x y i = nth_error (un_any d (width into) x r g b a) i).
    { intros i Hi. rewrite (Q2 x y r g b a) by (rewrite ?(opd_width _ _ _ Om), ?(opd_height _ _ _ Om); auto; lia).
      now rewrite (opd_width _ _ _ Om), E1. }
    unfold un_any in Sx. rewrite B8 in Sx. destruct (x <? 8 * (width into / 8)).
    + unfold unmul_blk in Sx. rewrite (old_up d HC), (old_down d HC) in Sx. cbv zeta in Sx. destruct (feqb (up_fallback a) f0) eqn:Ez.
      * replace (down_fallback f0) with h0 in Sx by (apply B2SF_inj; vm_compute; reflexivity).
        exists h0, h0, h0. split; [repeat split; apply Sx; lia|]. split; [|auto]. intro Fa. rewrite (up_fallback_exact a Fa) in Ez.
        pose proof (zero_is_zero a Ez Fa) as Z. split; [|split]; now apply fallback_zero.
      * do 3 eexists. split; [split; [exact (Sx 0 ltac:(lia))|split; [exact (Sx 1 ltac:(lia))|split; [exact (Sx 2 ltac:(lia))|exact (Sx 3 ltac:(lia))]]]|].
        split; [intros _; split; [|split]; apply fallback_associated|].
        intros (Z & Fa). rewrite (up_fallback_exact a Fa) in Ez. destruct (nonzero_is_nonzero a Ez Z Fa).
    + unfold unpremul_px_f16 in Sx. destruct (feqb (as_f32 a) f0) eqn:Ez.
      * exists h0, h0, h0. split; [repeat split; apply Sx; lia|]. split; [|auto]. intros _.
        assert (W : forall v, recovered16 v a h0) by (intros v _ Fa Na _; exfalso; now apply Na, zero_is_zero).
        split; [apply W|]. split; apply W.
      * cbv zeta in Sx. do 3 eexists. split; [split; [exact (Sx 0 ltac:(lia))|split; [exact (Sx 1 ltac:(lia))|split; [exact (Sx 2 ltac:(lia))|exact (Sx 3 ltac:(lia))]]]|]. split; [intros _; split; [|split]; apply unpremul_recovered|].
        intros (Z & Fa). destruct (nonzero_is_nonzero a Ez Z Fa).
Qed.
Print Assumptions C90_pipeline_f16_x86.
Definition h_minus1 : f16 := @B754_finite 11 16 true 1024 (-10) eq_refl.
(** So on these machines the calls do not keep constant images: C88's statement fails. *)
Theorem C90_constants_refuted : forall k d L, without_f16c d -> ~ forall f N pool (store into out : image f16) t c (a : f16),
  averaging f = true -> f <> Nearest -> valid_call N false f store into -> changes_size store into -> pool_ok pool ->
  (1 <= t <= 150)%Z -> downscale_at_most t store into -> c < N -> is_finite a = true ->
  (forall x y, x < width store -> y < height store -> sample N store x y c = Some a) ->
  resize_f16_x86 k d L f N pool store into = Returned Ok out ->
  forall x y, x < width into -> y < height into -> exists v, sample N out x y c = Some v /\ is_finite v = true /\ B2R v = B2R a.
Proof.
  intros k d L HC H. set (store := flat_f16 1 1 1 [h_minus1]). set (into := flat_f16 1 1 2 [h0; h0]).
  assert (V : valid_call 1 false Bilinear store into) by (unfold store, into; valid_f16).
  assert (D : changes_size store into) by (right; cbn; lia).
  assert (E : is_finite h_minus1 = true /\ B2R h_minus1 = (- 1)%R).
  { split; [reflexivity|]. cbn [h_minus1 B2R]. unfold F2R. change (bpow radix2 _) with (/ 1024)%R. cbn [Fnum Fexp]. simpl. lra. }
  assert (DS : downscale_at_most 1 store into) by (split; cbn; lia).
  assert (W : forall x y, x < width store -> y < height store -> sample 1 store x y 0 = Some h_minus1).
  { intros x y Hx Hy. cbn in Hx, Hy. destruct x; [|lia]. destruct y; [|lia]. reflexivity. }
  destruct (C90_magnitudes_f16_x86 k d L Bilinear 1 None store into HC ltac:(discriminate) V D I) as (out & mid & R & _).
  assert (T1 : (1 <= 1 <= 150)%Z) by lia. assert (T0 : 0 < 1) by lia. assert (TW : 0 < width into) by (cbn; lia). assert (TH : 0 < height into) by (cbn; lia).
  assert (CV : height store <> height into) by (cbn; lia).
  destruct (H Bilinear 1 None store into out 1%Z 0 h_minus1 eq_refl ltac:(discriminate) V D I T1 DS T0 (proj1 E) W R 0 0 TW TH) as (v & Sv & _ & Bv).
  destruct (C90_constants_lose_the_sign_f16_x86_partial k d L Bilinear 1 None store into out 1%Z 0 h_minus1 HC eq_refl ltac:(discriminate) V I (or_introl CV) T1 DS T0 (proj1 E) W R 0 0 TW TH) as (v' & Sv' & _ & Bv').
  assert (v = v') by congruence. subst v'. rewrite Bv, (proj2 E) in Bv'. pose proof (Rabs_pos (-1)). rewrite <- Bv' in *. lra.
Qed.
Print Assumptions C90_constants_refuted.
Example C90_nonvacuous : without_f16c h_old /\
  (let store := flat_f16 1 2 1 [h1; h0] in let into := flat_f16 1 3 1 [h0; h0; h0] in
   valid_call 1 false Lanczos3 store into /\ valid_call 1 false Nearest store into /\ changes_size store into) /\
  (let store := flat_f16 4 1 2 (repeat h1 8) in let into := flat_f16 4 3 2 (repeat h0 24) in
   valid_call 4 false Bicubic store into /\ changes_size store into /\ ends_in_vector_pass 4 store into) /\
  (let store := flat_f16 1 300 1 (repeat h1 300) in let into := flat_f16 1 2 1 [h0; h0] in
   averaging Box = true /\ valid_call 1 false Box store into /\ changes_size store into /\ downscale_at_most 150 store into /\
   at_most16 1 store 0 1%R /\ (exists q : f16, is_finite q = true /\ Rabs (B2R q) = 1%R) /\
   forall x y, x < width store -> y < height store -> sample 1 store x y 0 = Some h1).
Proof.
  split; [split; reflexivity|]. destruct C87_nonvacuous as (_ & _ & _ & _ & X & Y1 & Y2 & Y3). split; [exact X|].
  split; [split; [exact Y1|split; [exact Y2|right; split; cbn; lia]]|exact C83_nonvacuous].
Qed.
