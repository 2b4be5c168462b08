(** C80-C84: f16 images (feature nightly_f16), portable code.  [k] says whether the crate was
    compiled with fused multiply-add. *)
From Coq Require Import ZArith Reals List Bool Lia Lra ZifyBool ZifyNat.
From Flocq Require Import Core.Core IEEE754.BinarySingleNaN.
From Verif Require Import Base BaseProofs ImageStore FixedPoint Dispatch FloatConv Resize Spec SpecApi SpecAlpha SpecFloat SpecX86Float SpecKernels SpecAccuracy SpecFloatAccuracy
  F32 F32Proofs Weights Sampler Center SamplerProofs ResizeProofs DispatchProofs NoFail ImageProofs PoolProofs ApiProofs Api Alpha ApiFloat DriverProofs
  FloatApiProofs KernelProofs PortableProofs AlphaProofs AlphaScan AlphaU16 RgbaProofs RgbaFloat Properties8 X86FloatCalls FloatAccuracy FloatAccuracyCalls QuantSums DeepCalls Witness
  F16 F16Arith F16Proofs F16Calls SpecF16 F16Range F16Sums F16Alpha.
Import ListNotations.
Local Open Scope nat_scope.

Definition flat_f16 (N w h : nat) (l : list f16) : image f16 := mkImage l N w h (w * N) 0.
Ltac valid_f16 := constructor; cbn [width height stride buf channels bit_depth length repeat app concat map firstn flat_f16 Nat.mul Nat.add];
  unfold fits_usize, usize_mod; repeat split; try lia; try discriminate.

(** ** C80 The calls *)
Theorem C80_refusals_f16 : forall k L f N pool (store into : image f16),
  match first_error (refusal_table N false store into) with
  | Some e => resize_f16 k L f N pool store into = Returned (Err e) into
  | None => resize_f16 k L f N pool store into = Panicked \/ exists out, resize_f16 k L f N pool store into = Returned Ok out
  end.
Proof.
  intros. unfold resize_f16. match goal with |- context[generic_resize N ?E] => apply (generic_resize_cases N E) end.
  apply f16_nofail.
Qed.
Print Assumptions C80_refusals_f16.
Theorem C80_refusals_rgba_f16 : forall k L f pool premultiply (store into : image f16),
  match first_error (refusal_table 4 false store into) with
  | Some e => resize_rgba_f16 k L f pool premultiply store into = Returned (Err e) into
  | None => resize_rgba_f16 k L f pool premultiply store into = Panicked \/
            exists out, resize_rgba_f16 k L f pool premultiply store into = Returned Ok out
  end.
Proof.
  intros. apply (generic_resize_with_alpha_cases 4 (rgba_engine_f16 k L f)); [|apply alpha_nofail_f16]. apply f16_nofail.
Qed.
Print Assumptions C80_refusals_rgba_f16.
Theorem C80_failure_is_clean_f16 : forall k L f N pool premultiply (store into out : image f16) e,
  resize_f16 k L f N pool store into = Returned (Err e) out \/
  (N = 4 /\ resize_rgba_f16 k L f pool premultiply store into = Returned (Err e) out) -> out = into.
Proof.
  intros k L f N pool pm store into out e [H|[-> H]].
  - pose proof (C80_refusals_f16 k L f N pool store into) as C.
    destruct (first_error _); [congruence|]. destruct C as [C|[o C]]; congruence.
  - pose proof (C80_refusals_rgba_f16 k L f pool pm store into) as C.
    destruct (first_error _); [congruence|]. destruct C as [C|[o C]]; congruence.
Qed.
Print Assumptions C80_failure_is_clean_f16.
Theorem C80_schedule_independent_f16 : forall k L f N pool premultiply (store into : image f16), pool_ok pool ->
  resize_f16 k L f N pool store into = resize_f16 k L f N None store into /\
  resize_rgba_f16 k L f pool premultiply store into = resize_rgba_f16 k L f None premultiply store into.
Proof.
  intros k L f N pool pm store into P. split.
  - apply generic_resize_pool; auto. apply f16_pool_blind.
  - apply generic_resize_with_alpha_pool; auto; [apply f16_pool_blind|apply pool_blind_alpha_f16].
Qed.
Print Assumptions C80_schedule_independent_f16.
Theorem C80_same_size_f16 : forall k L f N pool (store into : image f16),
  valid_call N false f store into -> width store = width into -> height store = height into ->
  exists out, resize_f16 k L f N pool store into = Returned Ok out /\ same_picture N store out /\
    width out = width into /\ height out = height into /\ stride out = stride into /\ bit_depth out = bit_depth into.
Proof.
  intros k L f N pool store into V Hw Hh. unfold resize_f16. rewrite f16_no_pass by auto.
  exact (g_same L f N false _ _ _ (tidy_conv k L f N _ _ _) pool store into V Hw Hh).
Qed.
Print Assumptions C80_same_size_f16.
(** The alpha flag does nothing when it is off, when the size stays, and with Nearest. *)
Theorem C80_flag_off_f16 : forall k L f pool premultiply (store into : image f16),
  premultiply = false \/ f = Nearest \/ (width store = width into /\ height store = height into) ->
  resize_rgba_f16 k L f pool premultiply store into = resize_f16 k L f 4 pool store into.
Proof.
  intros k L f pool pm store into [->|[->|[Hw Hh]]]; unfold resize_rgba_f16, rgba_engine_f16.
  - rewrite with_alpha_off. apply f16_plain.
  - rewrite with_alpha_nearest by reflexivity. apply f16_plain.
  - rewrite with_alpha_same_g by assumption. apply f16_plain.
Qed.
Print Assumptions C80_flag_off_f16.
Theorem C80_valid_calls_succeed_f16 : forall k L f N pool premultiply (store into : image f16),
  f <> Nearest -> valid_call N false f store into -> pool_ok pool ->
  (exists out, resize_f16 k L f N pool store into = Returned Ok out) /\
  (N = 4 -> exists out, resize_rgba_f16 k L f pool premultiply store into = Returned Ok out).
Proof.
  intros k L f N pool pm store into Hf V P.
  assert (A : forall store', valid_call N false f store' into -> exists out, resize_f16 k L f N pool store' into = Returned Ok out).
  { intros s V'. destruct (Nat.eq_dec (width s) (width into)) as [E1|E1]; [destruct (Nat.eq_dec (height s) (height into)) as [E2|E2]|].
    - destruct (C80_same_size_f16 k L f N pool s into V' E1 E2) as (o & R & _). now exists o.
    - destruct (f16_paints k L f N pool s into Hf V' (or_intror E2) P) as (o & R & _). now exists o.
    - destruct (f16_paints k L f N pool s into Hf V' (or_introl E1) P) as (o & R & _). now exists o. }
  split; [now apply A|]. intros ->.
  destruct pm; [|rewrite C80_flag_off_f16 by auto; now apply A].
  destruct (Nat.eq_dec (width store) (width into)) as [E1|E1]; [destruct (Nat.eq_dec (height store) (height into)) as [E2|E2]|].
  - rewrite C80_flag_off_f16 by auto. now apply A.
  - destruct (rgba_pipeline_f16 k L f pool store into V (or_intror E2) Hf P) as (s & m & o & _ & _ & _ & _ & _ & _ & R & _). now exists o.
  - destruct (rgba_pipeline_f16 k L f pool store into V (or_introl E1) Hf P) as (s & m & o & _ & _ & _ & _ & _ & _ & R & _). now exists o.
Qed.
Print Assumptions C80_valid_calls_succeed_f16.
Theorem C80_nearest_f16 : forall k L N pool (store into : image f16),
  valid_call N false Nearest store into -> changes_size store into -> pool_ok pool ->
  stride store = width store * N -> stride into = width into * N ->
  exists cx cy out, resize_f16 k L Nearest N pool store into = Returned Ok out /\ only_pixels_differ N into out /\
    (forall x, x < width into -> cx x < width store) /\ (forall y, y < height into -> cy y < height store) /\
    (forall x x', x <= x' -> x' < width into -> cx x <= cx x') /\ (forall y y', y <= y' -> y' < height into -> cy y <= cy y') /\
    forall x y ch, x < width into -> y < height into -> ch < N -> sample N out x y ch = sample N store (cx x) (cy y) ch.
Proof.
  intros k L N pool store into. unfold resize_f16. rewrite f16_no_pass by auto.
  exact (g_nearest L N false _ _ _ pool store into (tidy_conv k L Nearest N _ _ _)).
Qed.
Print Assumptions C80_nearest_f16.
Theorem C80_locality_f16 : forall k L f N pool pool' (store store' into into' out out' : image f16) x y ch,
  f <> Nearest -> valid_call N false f store into -> valid_call N false f store' into' -> pool_ok pool -> pool_ok pool' ->
  width store = width store' -> height store = height store' -> width into = width into' -> height into = height into' ->
  changes_size store into ->
  resize_f16 k L f N pool store into = Returned Ok out -> resize_f16 k L f N pool' store' into' = Returned Ok out' ->
  x < width into -> y < height into -> ch < N ->
  (forall sx sy, in_window (resampling_filter L f) store into x y sx sy -> sample N store sx sy ch = sample N store' sx sy ch) ->
  sample N out x y ch = sample N out' x y ch.
Proof. intros k L f N pool pool' store store' into into' out out' x y ch Hf. now apply f16_local. Qed.
Print Assumptions C80_locality_f16.
Theorem C80_rows_are_independent_f16 : forall k L f N pool pool' (store into out out' : image f16) y,
  f <> Nearest -> valid_call N false f store into -> pool_ok pool -> pool_ok pool' ->
  height store = height into -> width store <> width into -> y < height into ->
  resize_f16 k L f N pool store into = Returned Ok out ->
  resize_f16 k L f N pool' (row_image store y) (row_image into y) = Returned Ok out' ->
  forall x c, x < width into -> c < N -> sample N out x y c = sample N out' x 0 c.
Proof. exact f16_rows. Qed.
Print Assumptions C80_rows_are_independent_f16.
Example C80_nonvacuous :
  first_error (refusal_table 1 false (flat_f16 1 0 1 []) (flat_f16 1 2 1 [h0; h0])) = Some ZeroImageDimensions /\
  (let store := flat_f16 1 2 1 [h1; h0] in let into := flat_f16 1 3 1 [h0; h0; h0] in
   valid_call 1 false Lanczos3 store into /\ valid_call 1 false Nearest store into /\ changes_size store into) /\
  (let store := flat_f16 4 1 2 (repeat h1 8) in let into := flat_f16 4 3 2 (repeat h0 24) in
   valid_call 4 false Bicubic store into /\ changes_size store into /\ height store = height into).
Proof.
  cbv zeta. split; [reflexivity|]. split; [split; [valid_f16|split; [valid_f16|left; cbn; lia]]|].
  split; [valid_f16|split; [left; cbn; lia|reflexivity]].
Qed.

(** ** C81 The padding of the destination: kept if only the height changes, cleared if the width changes *)
Theorem C81_padding_f16 : forall k L f N pool premultiply (store into out : image f16),
  f <> Nearest -> valid_call N false f store into -> changes_size store into -> pool_ok pool ->
  resize_f16 k L f N pool store into = Returned Ok out \/
  (N = 4 /\ resize_rgba_f16 k L f pool premultiply store into = Returned Ok out) ->
  width out = width into /\ height out = height into /\ stride out = stride into /\ bit_depth out = bit_depth into /\
  length (buf out) = length (buf into) /\
  forall i, i < length (buf into) -> width into * N <= i mod stride into ->
    nth_error (buf out) i = if width store =? width into then nth_error (buf into) i else Some h0.
Proof.
  intros k L f N pool pm store into out Hf V D P R.
  assert (A : resize_f16 k L f N pool store into = Returned Ok out -> only_pixels_differ N (prepared store into) out).
  { intro R'. destruct (f16_paints k L f N pool store into Hf V D P) as (o & R1 & O & _). congruence. }
  apply prepared_padding. destruct R as [R|[-> R]]; [auto|].
  destruct pm; [|rewrite C80_flag_off_f16 in R by auto; auto].
  destruct (rgba_pipeline_f16 k L f pool store into V D Hf P) as (s & m & o & _ & _ & _ & _ & _ & _ & R' & _ & O). congruence.
Qed.
Print Assumptions C81_padding_f16.
(** So, unlike with the other sample types, the padding of a destination does not always survive. *)
Theorem C81_padding_kept_refuted : forall k L, ~ forall f pool (store into out : image f16),
  f <> Nearest -> valid_call 1 false f store into -> changes_size store into -> pool_ok pool ->
  resize_f16 k L f 1 pool store into = Returned Ok out -> only_pixels_differ 1 into out.
Proof.
  intros k L H. set (store := flat_f16 1 1 1 [h1]). set (into := mkImage [h0; h0; h1] 1 2 1 3 0 : image f16).
  assert (V : valid_call 1 false Bilinear store into) by (unfold store, into; valid_f16).
  assert (D : changes_size store into) by (left; cbn; lia).
  destruct (f16_paints k L Bilinear 1 None store into ltac:(discriminate) V D I) as (out & R & _).
  pose proof (H Bilinear None store into out ltac:(discriminate) V D I R) as O.
  destruct (C81_padding_f16 k L Bilinear 1 None false store into out ltac:(discriminate) V D I (or_introl R)) as (_ & _ & _ & _ & _ & Q).
  specialize (Q 2 ltac:(cbn; lia) ltac:(cbn; lia)). pose proof (opd_padding _ _ _ O 2 ltac:(cbn; lia)) as Q'.
  rewrite Q in Q'. cbn in Q'. discriminate.
Qed.
Print Assumptions C81_padding_kept_refuted.

(** ** C82 What is computed *)
(** Widening is exact; narrowing is IEEE rounding to nearest, ties to even; going there and back changes nothing. *)
Theorem C82_conversions_f16 :
  (forall x : f16, is_finite x = true -> is_finite (as_f32 x) = true /\ B2R (as_f32 x) = B2R x) /\
  (forall v : f32, is_finite v = true -> (Rabs (round radix2 (FLT_exp (-24) 11) ZnearestE (B2R v)) < 65536)%R ->
     is_finite (as_f16 v) = true /\ B2R (as_f16 v) = round radix2 (FLT_exp (-24) 11) ZnearestE (B2R v)) /\
  (forall v : f32, nearest_f16 v (as_f16 v)) /\
  (forall x : f16, as_f16 (as_f32 x) = x).
Proof.
  split; [|split; [|split]].
  - exact as_f32_B2R.
  - intros v F H. destruct (as_f16_rounds v F H) as (A & B & _). split; [exact A|exact B].
  - exact as_f16_nearest.
  - exact as_f16_f32.
Qed.
Print Assumptions C82_conversions_f16.
(** Columns first, then rows; each result is the f32 sum of its window, every tap once,
    rounded once to f16; a direction whose size does not change is copied. *)
Theorem C82_each_tap_once_f16 : forall k L f N pool (store into : image f16),
  f <> Nearest -> valid_call N false f store into -> changes_size store into -> pool_ok pool ->
  exists out (mid : nat -> nat -> nat -> f16), resize_f16 k L f N pool store into = Returned Ok out /\
    (forall y x c, y < height into -> x < width store -> c < N ->
      if height store =? height into then sample N store x y c = Some (mid y x c)
      else f16_sum_at (filter_taps (resampling_filter L f) (height store) (height into)) y (fun i => stored16 N store i x c) (mid y x c)) /\
    (forall y x c, y < height into -> x < width into -> c < N ->
      exists v, sample N out x y c = Some v /\
      if width store =? width into then v = mid y x c
      else f16_sum_at (filter_taps (resampling_filter L f) (width store) (width into)) x (fun i => mid y i c) v).
Proof.
  intros k L f N pool store into Hf V D P. destruct (f16_sums_is k L f N pool store into Hf V D P) as (out & mid & R & _ & M & S).
  exists out, mid. split; [exact R|]. split.
  - intros y x c Hy Hx Hc. specialize (M y x c Hy Hx Hc). destruct (height store =? height into); [exact M|now apply narrowed_sum_at].
  - intros y x c Hy Hx Hc. destruct (S y x c Hy Hx Hc) as (v & Sv & Q). exists v. split; [exact Sv|].
    destruct (width store =? width into); [exact Q|now apply narrowed_sum_at].
Qed.
Print Assumptions C82_each_tap_once_f16.
(** The polynomial filters: each pass gives the f16 nearest to a float that is within the f32
    error bound of the textbook value. *)
Definition textbook_f16_at (f : resampling_function) (K : R -> R) (insz outsz o : nat) (p : nat -> f16) (r : f16) : Prop :=
  exists v : f32, textbook_f32_at f K insz outsz o (fun i => as_f32 (p i)) v /\ nearest_f16 v r.
Theorem C82_textbook_f16_partial : forall k L f K N pool (store into : image f16),
  coded_kernel f = Some K -> valid_call N false f store into -> changes_size store into -> pool_ok pool ->
  (Z.of_nat (width store) <= 65536)%Z -> (Z.of_nat (height store) <= 65536)%Z ->
  (Z.of_nat (width into) <= 65536)%Z -> (Z.of_nat (height into) <= 65536)%Z ->
  downscale_at_most (downscale_limit f) store into ->
  (f = Area -> width into <= width store /\ height into <= height store) ->
  exists out (mid : nat -> nat -> nat -> f16), resize_f16 k L f N pool store into = Returned Ok out /\
    (forall y x c, y < height into -> x < width store -> c < N ->
      if height store =? height into then sample N store x y c = Some (mid y x c)
      else textbook_f16_at f K (height store) (height into) y (fun i => stored16 N store i x c) (mid y x c)) /\
    (forall y x c, y < height into -> x < width into -> c < N ->
      exists v, sample N out x y c = Some v /\
      if width store =? width into then v = mid y x c
      else textbook_f16_at f K (width store) (width into) x (fun i => mid y i c) v).
Proof.
  intros k L f K N pool store into HK V D P W1 H1 W2 H2 [DSw DSh] AR.
  assert (Hf : f <> Nearest) by (intros ->; discriminate).
  destruct (C82_each_tap_once_f16 k L f N pool store into Hf V D P) as (out & mid & R & M & S).
  assert (V0 := V). destruct V as [VN (S1 & S2 & S3 & S4) (D1 & D2 & D3 & D4) VC VF VD VS VA].
  exists out, mid. split; [exact R|]. split.
  - intros y x c Hy Hx Hc. specialize (M y x c Hy Hx Hc). destruct (height store =? height into); [exact M|].
    destruct M as (v & Q & Nv). exists v. split; [|exact Nv].
    apply (one_direction_f32 L f K); auto; try lia; first [exact (sums_blend _ _ _ _ (proj2 (no_extra_once _ _ _ _) Q))|intro e; apply AR in e; tauto].
  - intros y x c Hy Hx Hc. destruct (S y x c Hy Hx Hc) as (v & Sv & Q). exists v. split; [exact Sv|].
    destruct (width store =? width into); [exact Q|]. destruct Q as (u & Q & Nv). exists u. split; [|exact Nv].
    apply (one_direction_f32 L f K); auto; try lia; first [exact (sums_blend _ _ _ _ (proj2 (no_extra_once _ _ _ _) Q))|intro e; apply AR in e; tauto].
Qed.
Print Assumptions C82_textbook_f16_partial.
Example C82_nonvacuous : let store := flat_f16 1 2 1 [h1; h0] in let into := flat_f16 1 3 1 [h0; h0; h0] in
  valid_call 1 false Bilinear store into /\ changes_size store into /\ downscale_at_most (downscale_limit Bilinear) store into /\
  coded_kernel Bilinear <> None /\ is_finite h1 = true /\ is_finite f1 = true /\
  (Rabs (round radix2 (FLT_exp (-24) 11) ZnearestE (B2R f1)) < 65536)%R.
Proof.
  cbv zeta. split; [valid_f16|]. split; [left; cbn; lia|]. split; [split; cbn; lia|]. split; [discriminate|]. split; [reflexivity|]. split; [reflexivity|].
  rewrite (proj2 f1_fin). rewrite round_generic; [rewrite Rabs_R1; lra|apply valid_rnd_N|].
  rewrite <- (proj2 h1_is). exact (fmt16_B2R h1).
Qed.

(** ** C83 Averaging filters, downscaling at most 150 times: no overshoot, constants stay *)
Theorem C83_no_overshoot_f16_partial : forall k L f N pool (store into out : image f16) t c m,
  averaging f = true -> f <> Nearest -> valid_call N false f store into -> changes_size store into -> pool_ok pool ->
  (1 <= t <= 150)%Z -> downscale_at_most t store into -> c < N ->
  (exists q : f16, is_finite q = true /\ Rabs (B2R q) = m) -> at_most16 N store c m ->
  resize_f16 k L f N pool store into = Returned Ok out -> at_most16 N out c m.
Proof.
  intros k L f N pool store into out t c m A Hf V D P Ht DS Hc (q & Fq & Mq) B R.
  assert (Om : (0 <= m <= 65504)%R) by (rewrite <- Mq; split; [apply Rabs_pos|now apply B16_lt]).
  assert (Fm : fmt16 m) by (rewrite <- Mq; apply generic_format_abs, fmt16_B2R).
  destruct (C81_padding_f16 k L f N pool false store into out Hf V D P (or_introl R)) as (W & H & _).
  intros x y Hx Hy. rewrite W in Hx. rewrite H in Hy.
  apply (two_pass_inv L f A k N pool store into out t c V D Hf P DS Hc R (fun v => is_finite v = true /\ (Rabs (B2R v) <= m)%R)); auto.
  intros insz outsz o p r S1 S2 S3 S4 S5. exact (pass_bounded L f A insz outsz t o p r m S1 Ht S2 S3 S4 Fm Om S5).
Qed.
Print Assumptions C83_no_overshoot_f16_partial.
Theorem C83_constants_f16_partial : forall k L f N pool (store into out : image f16) t c (a : f16),
  averaging f = true -> f <> Nearest -> valid_call N false f store into -> changes_size store into -> pool_ok pool ->
  (1 <= t <= 150)%Z -> downscale_at_most t store into -> c < N -> is_finite a = true ->
  (forall x y, x < width store -> y < height store -> sample N store x y c = Some a) ->
  resize_f16 k L f N pool store into = Returned Ok out ->
  forall x y, x < width into -> y < height into -> exists v, sample N out x y c = Some v /\ is_finite v = true /\ B2R v = B2R a.
Proof.
  intros k L f N pool store into out t c a A Hf V D P Ht DS Hc Fa B R.
  apply (two_pass_inv L f A k N pool store into out t c V D Hf P DS Hc R (fun v => is_finite v = true /\ B2R v = B2R a)); auto.
  - intros insz outsz o p r S1 S2 S3 S4 S5. apply (pass_constant L f A insz outsz t o p r (B2R a) S1 Ht S2 S3 S4 (fmt16_B2R a)); [now apply B16_lt|exact S5].
  - intros x y Hx Hy. exists a. split; [now apply B|auto].
Qed.
Print Assumptions C83_constants_f16_partial.
Example C83_nonvacuous : let store := flat_f16 1 300 1 (repeat h1 300) in let into := flat_f16 1 2 1 [h0; h0] in
  averaging Box = true /\ valid_call 1 false Box store into /\ changes_size store into /\ downscale_at_most 150 store into /\
  at_most16 1 store 0 1%R /\ (exists q : f16, is_finite q = true /\ Rabs (B2R q) = 1%R) /\
  forall x y, x < width store -> y < height store -> sample 1 store x y 0 = Some h1.
Proof.
  cbv zeta. destruct h1_is as (F1 & E1).
  assert (S : forall x y, x < 300 -> y < 1 -> sample 1 (flat_f16 1 300 1 (repeat h1 300)) x y 0 = Some h1).
  { intros x y Hx Hy. unfold sample, flat_f16. cbn [buf stride width]. apply nth_error_repeat. lia. }
  split; [reflexivity|]. split.
  { constructor; cbn [width height stride buf channels bit_depth flat_f16]; rewrite ?repeat_length; unfold fits_usize, usize_mod; cbn [length]; repeat split; try lia; discriminate. }
  split; [left; cbn; lia|]. split; [split; cbn [width height flat_f16]; lia|]. split.
  { intros x y Hx Hy. exists h1. split; [now apply S|]. split; [exact F1|]. rewrite E1, Rabs_R1. lra. }
  split; [exists h1; split; [exact F1|]; rewrite E1; apply Rabs_R1|]. exact S.
Qed.

(** ** C84 Alpha *)
(** With the flag the source is always associated first (each product rounded once), the
    result is resampled as by the plain call, and colours are recovered at the end. *)
Theorem C84_pipeline_f16 : forall k L f pool (store into : image f16),
  valid_call 4 false f store into -> changes_size store into -> f <> Nearest -> pool_ok pool ->
  exists src mid out,
    width src = width store /\ height src = height store /\
    (forall x y r g b a, x < width store -> y < height store -> pixel store x y r g b a ->
       exists r' g' b', pixel src x y r' g' b' a /\ associated16 r a r' /\ associated16 g a g' /\ associated16 b a b') /\
    resize_f16 k L f 4 pool src into = Returned Ok mid /\
    resize_rgba_f16 k L f pool true store into = Returned Ok out /\
    (forall x y r g b a, x < width into -> y < height into -> pixel mid x y r g b a ->
       exists r' g' b', pixel out x y r' g' b' a /\ recovered16 r a r' /\ recovered16 g a g' /\ recovered16 b a b' /\
         (B2R a = 0%R /\ is_finite a = true -> r' = h0 /\ g' = h0 /\ b' = h0)).
Proof.
  intros k L f pool store into V D Hf P.
  destruct (rgba_pipeline_f16 k L f pool store into V D Hf P) as (src & mid & out & Q1 & VS & Ws & Hs & Rm & Om & R & Q2 & _).
  destruct (prepared_fields store into) as (E1 & E2 & _).
  exists src, mid, out. split; [exact Ws|]. split; [exact Hs|]. split; [|split; [exact Rm|split; [exact R|]]].
  - destruct Q1 as (_ & _ & Q). intros x y r g b a Hx Hy Px. destruct (Q x y r g b a Hx Hy Px) as (r' & g' & b' & a' & E & P').
    unfold premul_px_f16 in E. rewrite as_f16_f32 in E. inversion E; subst. do 3 eexists. split; [exact P'|].
    split; [|split]; apply premul_associated.
  - destruct Q2 as (_ & _ & Q). intros x y r g b a Hx Hy Px.
    destruct (Q x y r g b a) as (r' & g' & b' & a' & E & P'); auto; try (rewrite ?(opd_width _ _ _ Om), ?(opd_height _ _ _ Om); lia).
    unfold unpremul_px_f16 in E. destruct (feqb (as_f32 a) f0) eqn:Ez.
    + inversion E; subst r' g' b' a'. exists h0, h0, h0. split; [exact P'|].
      assert (Z : is_finite a = true -> B2R a = 0%R).
      { intro Fa. unfold feqb in Ez. destruct a as [s|s| |s m e Hm]; try discriminate; [reflexivity|]. exfalso.
        destruct (as_f32_exact (B754_finite s m e Hm) eq_refl) as (F' & B' & _). revert Ez F' B'.
        destruct (as_f32 (B754_finite s m e Hm)) as [s'|s'| |s' m' e' Hm']; try discriminate; cbn; intros Ez F' B'; [|destruct s'; discriminate].
        symmetry in B'. apply eq_0_F2R in B'. destruct s; discriminate. }
      assert (W : forall v, recovered16 v a h0) by (intros v _ Fa Na _; exfalso; now apply Na, Z).
      split; [apply W|]. split; [apply W|]. split; [apply W|]. intros _. auto.
    + inversion E; subst r' g' b' a'. do 3 eexists. split; [exact P'|]. split; [|split; [|split]]; try apply unpremul_recovered.
      intros (Z & Fa). exfalso. destruct a as [s|s| |s m e Hm]; try discriminate.
      cbn [B2R] in Z. apply eq_0_F2R in Z. destruct s; discriminate.
Qed.
Print Assumptions C84_pipeline_f16.
Theorem C84_alpha_channel_f16 : forall k L f pool (store into plain out : image f16),
  valid_call 4 false f store into -> changes_size store into -> f <> Nearest -> pool_ok pool ->
  resize_rgba_f16 k L f pool false store into = Returned Ok plain ->
  resize_rgba_f16 k L f pool true store into = Returned Ok out ->
  forall x y, x < width into -> y < height into -> alpha_at out x y = alpha_at plain x y.
Proof.
  intros k L f pool store into plain out V D Hf P R. rewrite C80_flag_off_f16 in R by auto. now apply alpha_channel_f16.
Qed.
Print Assumptions C84_alpha_channel_f16.
Theorem C84_opaque_f16_partial : forall k L f pool (store into plain out : image f16) t,
  averaging f = true -> f <> Nearest -> valid_call 4 false f store into -> changes_size store into -> pool_ok pool ->
  (1 <= t <= 150)%Z -> downscale_at_most t store into ->
  (forall x y, x < width store -> y < height store -> alpha_at store x y = Some h1) ->
  resize_rgba_f16 k L f pool false store into = Returned Ok plain ->
  resize_rgba_f16 k L f pool true store into = Returned Ok out ->
  same_picture 4 plain out.
Proof.
  intros k L f pool store into plain out t A Hf V D P Ht DS Op R R'. rewrite C80_flag_off_f16 in R by auto.
  destruct (C81_padding_f16 k L f 4 pool true store into out Hf V D P (or_intror (conj eq_refl R'))) as (W & H & _).
  destruct (C81_padding_f16 k L f 4 pool true store into plain Hf V D P (or_introl R)) as (W' & H' & _).
  unfold same_picture. split; [congruence|]. split; [congruence|]. intros x y c Hx Hy Hc. symmetry.
  apply (opaque_f16 k L f pool store into plain out t); auto; congruence.
Qed.
Print Assumptions C84_opaque_f16_partial.
Example C84_nonvacuous : let store := flat_f16 4 2 1 [h0; h1; h0; h1; h1; h1; h0; h1] in let into := flat_f16 4 3 1 (repeat h0 12) in
  averaging Bilinear = true /\ valid_call 4 false Bilinear store into /\ changes_size store into /\ downscale_at_most 150 store into /\
  forall x y, x < width store -> y < height store -> alpha_at store x y = Some h1.
Proof.
  cbv zeta. split; [reflexivity|]. split; [valid_f16|]. split; [left; cbn; lia|]. split; [split; cbn; lia|].
  intros x y Hx Hy. cbn [width height flat_f16] in *. replace y with 0 by lia. destruct x as [|[|x]]; [reflexivity|reflexivity|lia].
Qed.
