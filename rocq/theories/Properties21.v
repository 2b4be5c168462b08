(** C87-C89: f16 images on x86-64 with the vector kernels of the crate.  [k] says whether the
    crate was compiled with fused multiply-add, [c] what the processor has. *)
From Coq Require Import ZArith Reals List Bool Lia Lra ZifyBool ZifyNat.
From Flocq Require Import Core.Core IEEE754.BinarySingleNaN.
From Verif Require Import Base BaseProofs ImageStore FixedPoint Dispatch FloatConv Resize Spec SpecApi SpecAlpha SpecFloat SpecX86Float SpecKernels SpecAccuracy SpecFloatAccuracy
  F32 F32Proofs Weights Sampler Center SamplerProofs ResizeProofs DispatchProofs NoFail ImageProofs PoolProofs ApiProofs Api Alpha ApiFloat DriverProofs
  FloatApiProofs KernelProofs PortableProofs AlphaProofs AlphaScan AlphaU16 RgbaProofs RgbaFloat Properties8 X86FloatCalls FloatAccuracy FloatAccuracyCalls QuantSums DeepCalls Witness
  F16 F16Arith F16Proofs F16Calls SpecF16 F16Range F16Sums F16Alpha Properties17 X86Dispatch X86F16 X86F16Calls X86F16Sums X86AlphaF16 X86AlphaF16Proofs X86AlphaF16Calls X86AlphaF16Facts X86F16AnyAlpha.
Import ListNotations.
Local Open Scope nat_scope.

(** ** C87 The calls, with the vector kernels *)
Theorem C87_refusals_f16_x86 : forall k c L f N pool (store into : image f16),
  match first_error (refusal_table N false store into) with
  | Some e => resize_f16_x86 k c L f N pool store into = Returned (Err e) into
  | None => resize_f16_x86 k c L f N pool store into = Panicked \/ exists out, resize_f16_x86 k c L f N pool store into = Returned Ok out
  end.
Proof.
  intros. rewrite resize_f16_x86_is. match goal with |- context[generic_resize N ?E] => apply (generic_resize_cases N E) end.
  apply x86h_passes_nofail.
Qed.
Print Assumptions C87_refusals_f16_x86.
Theorem C87_refusals_rgba_f16_x86 : forall k c L f pool premultiply (store into : image f16),
  match first_error (refusal_table 4 false store into) with
  | Some e => resize_rgba_f16_x86 k c L f pool premultiply store into = Returned (Err e) into
  | None => resize_rgba_f16_x86 k c L f pool premultiply store into = Panicked \/
            exists out, resize_rgba_f16_x86 k c L f pool premultiply store into = Returned Ok out
  end.
Proof.
  intros. apply (generic_resize_with_alpha_cases 4 (x86_engine_f16 k c L f 4 (premul_f16_x86 c) (unpremul_f16_x86 c) (fun _ => Done true))); [apply x86h_passes_nofail|apply x86h_alpha_nofail].
Qed.
Print Assumptions C87_refusals_rgba_f16_x86.
Theorem C87_failure_is_clean_f16_x86 : forall k c L f N pool premultiply (store into out : image f16) e,
  resize_f16_x86 k c L f N pool store into = Returned (Err e) out \/
  (N = 4 /\ resize_rgba_f16_x86 k c L f pool premultiply store into = Returned (Err e) out) -> out = into.
Proof.
  intros k c L f N pool pm store into out e [H|[-> H]].
  - pose proof (C87_refusals_f16_x86 k c L f N pool store into) as C.
    destruct (first_error _); [congruence|]. destruct C as [C|[o C]]; congruence.
  - pose proof (C87_refusals_rgba_f16_x86 k c L f pool pm store into) as C.
    destruct (first_error _); [congruence|]. destruct C as [C|[o C]]; congruence.
Qed.
Print Assumptions C87_failure_is_clean_f16_x86.
Theorem C87_schedule_independent_f16_x86 : forall k c L f N pool premultiply (store into : image f16), pool_ok pool ->
  resize_f16_x86 k c L f N pool store into = resize_f16_x86 k c L f N None store into /\
  resize_rgba_f16_x86 k c L f pool premultiply store into = resize_rgba_f16_x86 k c L f None premultiply store into.
Proof.
  intros k c L f N pool pm store into P. split.
  - rewrite !resize_f16_x86_is. apply generic_resize_pool; auto. apply x86h_pool_blind.
  - apply generic_resize_with_alpha_pool; auto; [apply x86h_pool_blind|apply x86h_pool_blind_alpha].
Qed.
Print Assumptions C87_schedule_independent_f16_x86.
Theorem C87_same_size_f16_x86 : forall k c L f N pool (store into : image f16),
  valid_call N false f store into -> width store = width into -> height store = height into ->
  exists out, resize_f16_x86 k c L f N pool store into = Returned Ok out /\ same_picture N store out /\
    width out = width into /\ height out = height into /\ stride out = stride into /\ bit_depth out = bit_depth into.
Proof.
  intros k c L f N pool store into V Hw Hh. rewrite resize_f16_x86_is, x86_f16_no_pass by auto.
  exact (g_same L f N false _ _ _ (x86_tidy_conv k c N L f _ _ _) pool store into V Hw Hh).
Qed.
Print Assumptions C87_same_size_f16_x86.
(** The alpha flag does nothing when it is off, when the size stays, and with Nearest. *)
Theorem C87_flag_off_f16_x86 : forall k c L f pool premultiply (store into : image f16),
  premultiply = false \/ f = Nearest \/ (width store = width into /\ height store = height into) ->
  resize_rgba_f16_x86 k c L f pool premultiply store into = resize_f16_x86 k c L f 4 pool store into.
Proof.
  intros k c L f pool pm store into [->|[->|[Hw Hh]]]; unfold resize_rgba_f16_x86.
  - rewrite with_alpha_off. apply x86h_plain.
  - rewrite with_alpha_nearest by reflexivity. apply x86h_plain.
  - rewrite with_alpha_same_g by assumption. apply x86h_plain.
Qed.
Print Assumptions C87_flag_off_f16_x86.
Theorem C87_valid_calls_succeed_f16_x86 : forall k c L f N pool premultiply (store into : image f16),
  f <> Nearest -> valid_call N false f store into -> pool_ok pool ->
  (exists out, resize_f16_x86 k c L f N pool store into = Returned Ok out) /\
  (N = 4 -> exists out, resize_rgba_f16_x86 k c L f pool premultiply store into = Returned Ok out).
Proof.
  intros k c L f N pool pm store into Hf V P.
  assert (A : forall store', valid_call N false f store' into -> exists out, resize_f16_x86 k c L f N pool store' into = Returned Ok out).
  { intros s V'. destruct (Nat.eq_dec (width s) (width into)) as [E1|E1]; [destruct (Nat.eq_dec (height s) (height into)) as [E2|E2]|].
    - destruct (C87_same_size_f16_x86 k c L f N pool s into V' E1 E2) as (o & R & _). now exists o.
    - destruct (x86_f16_paints k c L f N pool s into Hf V' (or_intror E2) P) as (o & R & _). now exists o.
    - destruct (x86_f16_paints k c L f N pool s into Hf V' (or_introl E1) P) as (o & R & _). now exists o. }
  split; [now apply A|]. intros ->.
  destruct pm; [|rewrite C87_flag_off_f16_x86 by auto; now apply A].
  destruct (Nat.eq_dec (width store) (width into)) as [E1|E1]; [destruct (Nat.eq_dec (height store) (height into)) as [E2|E2]|].
  - rewrite C87_flag_off_f16_x86 by auto. now apply A.
  - destruct (rgba_pipeline_f16_any k c L f pool store into V (or_intror E2) Hf P) as (s & m & o & _ & _ & _ & _ & _ & _ & R & _). now exists o.
  - destruct (rgba_pipeline_f16_any k c L f pool store into V (or_introl E1) Hf P) as (s & m & o & _ & _ & _ & _ & _ & _ & R & _). now exists o.
Qed.
Print Assumptions C87_valid_calls_succeed_f16_x86.
Theorem C87_nearest_f16_x86 : forall k c L N pool (store into : image f16),
  valid_call N false Nearest store into -> changes_size store into -> pool_ok pool ->
  stride store = width store * N -> stride into = width into * N ->
  exists cx cy out, resize_f16_x86 k c L Nearest N pool store into = Returned Ok out /\ only_pixels_differ N into out /\
    (forall x, x < width into -> cx x < width store) /\ (forall y, y < height into -> cy y < height store) /\
    (forall x x', x <= x' -> x' < width into -> cx x <= cx x') /\ (forall y y', y <= y' -> y' < height into -> cy y <= cy y') /\
    forall x y ch, x < width into -> y < height into -> ch < N -> sample N out x y ch = sample N store (cx x) (cy y) ch.
Proof.
  intros k c L N pool store into. rewrite resize_f16_x86_is, x86_f16_no_pass by auto.
  exact (g_nearest L N false _ _ _ pool store into (x86_tidy_conv k c N L Nearest _ _ _)).
Qed.
Print Assumptions C87_nearest_f16_x86.
Theorem C87_locality_f16_x86 : forall k c L f N pool pool' (store store' into into' out out' : image f16) x y ch,
  f <> Nearest -> valid_call N false f store into -> valid_call N false f store' into' -> pool_ok pool -> pool_ok pool' ->
  width store = width store' -> height store = height store' -> width into = width into' -> height into = height into' ->
  changes_size store into ->
  resize_f16_x86 k c L f N pool store into = Returned Ok out -> resize_f16_x86 k c L f N pool' store' into' = Returned Ok out' ->
  x < width into -> y < height into -> ch < N ->
  (forall sx sy, in_window (resampling_filter L f) store into x y sx sy -> sample N store sx sy ch = sample N store' sx sy ch) ->
  sample N out x y ch = sample N out' x y ch.
Proof. intros k c L f N pool pool' store store' into into' out out' x y ch Hf. now apply x86_f16_local. Qed.
Print Assumptions C87_locality_f16_x86.
Theorem C87_rows_are_independent_f16_x86 : forall k c L f N pool pool' (store into out out' : image f16) y,
  f <> Nearest -> valid_call N false f store into -> pool_ok pool -> pool_ok pool' ->
  height store = height into -> width store <> width into -> y < height into ->
  resize_f16_x86 k c L f N pool store into = Returned Ok out ->
  resize_f16_x86 k c L f N pool' (row_image store y) (row_image into y) = Returned Ok out' ->
  forall x c, x < width into -> c < N -> sample N out x y c = sample N out' x 0 c.
Proof. exact x86_f16_rows. Qed.
Print Assumptions C87_rows_are_independent_f16_x86.
(** The same with alpha: a pixel depends on the pixels in its window, and rows are treated alike. *)
Theorem C87_locality_rgba_f16_x86 : forall k c L f pool pool' (store store' into into' out out' : image f16) x y ch,
  f <> Nearest -> valid_call 4 false f store into -> valid_call 4 false f store' into' -> pool_ok pool -> pool_ok pool' ->
  width store = width store' -> height store = height store' -> width into = width into' -> height into = height into' ->
  changes_size store into ->
  resize_rgba_f16_x86 k c L f pool true store into = Returned Ok out -> resize_rgba_f16_x86 k c L f pool' true store' into' = Returned Ok out' ->
  x < width into -> y < height into -> ch < 4 ->
  (forall sx sy i, in_window (resampling_filter L f) store into x y sx sy -> i < 4 -> sample 4 store sx sy i = sample 4 store' sx sy i) ->
  sample 4 out x y ch = sample 4 out' x y ch.
Proof. intros k c L f pool pool' store store' into into' out out' x y ch Hf. now apply rgba_local_any. Qed.
Print Assumptions C87_locality_rgba_f16_x86.
Theorem C87_rows_are_independent_rgba_f16_x86 : forall k c L f pool pool' (store into out out' : image f16) y,
  f <> Nearest -> valid_call 4 false f store into -> pool_ok pool -> pool_ok pool' ->
  height store = height into -> width store <> width into -> y < height into ->
  resize_rgba_f16_x86 k c L f pool true store into = Returned Ok out ->
  resize_rgba_f16_x86 k c L f pool' true (row_image store y) (row_image into y) = Returned Ok out' ->
  forall x ch, x < width into -> ch < 4 -> sample 4 out x y ch = sample 4 out' x 0 ch.
Proof. exact rgba_rows_any. Qed.
Print Assumptions C87_rows_are_independent_rgba_f16_x86.

(** Machines with and without the instructions. *)
Definition h_avx : hcpu := mkHcpu (mkCpu true true) true true.
Definition h_old : hcpu := mkHcpu (mkCpu true false) false false.
Definition h_none : hcpu := mkHcpu (mkCpu false false) false false.
Example C87_nonvacuous :
  exact_f16 h_avx /\ exact_f16 h_none /\ ~ exact_f16 h_old /\
  first_error (refusal_table 1 false (flat_f16 1 0 1 []) (flat_f16 1 2 1 [h0; h0])) = Some ZeroImageDimensions /\
  (let store := flat_f16 1 2 1 [h1; h0] in let into := flat_f16 1 3 1 [h0; h0; h0] in
   valid_call 1 false Lanczos3 store into /\ valid_call 1 false Nearest store into /\ changes_size store into) /\
  (let store := flat_f16 4 1 2 (repeat h1 8) in let into := flat_f16 4 3 2 (repeat h0 24) in
   valid_call 4 false Bicubic store into /\ changes_size store into /\ height store = height into).
Proof.
  split; [left; reflexivity|]. split; [right; reflexivity|]. split; [intros [H|H]; discriminate|]. exact C80_nonvacuous.
Qed.

(** Which destinations keep their padding when the width changes: those written by the vector
    kernels, of which there are none for one and two channels. *)
Definition vector_rows (c : hcpu) (N : nat) : bool :=
  (N =? 3) && sse41 (hbase c) || (N =? 4) && (avx2 (hbase c) && f16c c || sse41 (hbase c)).
Lemma vector_rows_keeps c N : keeps c N = vector_rows c N.
Proof.
  unfold keeps, f16_pixel, vector_rows. destruct N as [|[|[|[|[|N]]]]]; cbn [Nat.eqb andb orb]; try reflexivity.
  - now destruct (sse41 (hbase c)).
  - destruct (avx2 (hbase c) && f16c c); [reflexivity|]. now destruct (sse41 (hbase c)).
Qed.
Theorem C87_padding_f16_x86 : forall k c L f N pool premultiply (store into out : image f16),
  f <> Nearest -> valid_call N false f store into -> changes_size store into -> pool_ok pool ->
  resize_f16_x86 k c L f N pool store into = Returned Ok out \/
  (N = 4 /\ resize_rgba_f16_x86 k c L f pool premultiply store into = Returned Ok out) ->
  width out = width into /\ height out = height into /\ stride out = stride into /\ bit_depth out = bit_depth into /\
  length (buf out) = length (buf into) /\
  forall i, i < length (buf into) -> width into * N <= i mod stride into ->
    nth_error (buf out) i = if vector_rows c N || (width store =? width into) then nth_error (buf into) i else Some h0.
Proof.
  intros k c L f N pool pm store into out Hf V D P R. rewrite <- vector_rows_keeps.
  assert (A : resize_f16_x86 k c L f N pool store into = Returned Ok out -> only_pixels_differ N (x86_prepared c N store into) out).
  { intro R'. destruct (x86_f16_paints k c L f N pool store into Hf V D P) as (o & R1 & O & _). congruence. }
  apply x86_prepared_padding. destruct R as [R|(-> & R)]; [auto|].
  destruct pm; [|rewrite C87_flag_off_f16_x86 in R by auto; auto].
  destruct (rgba_pipeline_f16_any k c L f pool store into V D Hf P) as (s & m & o & _ & _ & _ & _ & _ & _ & R' & _ & O). congruence.
Qed.
Print Assumptions C87_padding_f16_x86.

(** ** C88 What is computed, on processors with F16C or without SSE4.1 *)
(** Columns first, then rows; each result is the f32 sum of its window, every tap once,
    rounded once to f16; a direction whose size does not change is copied. *)
Theorem C88_each_tap_once_f16_x86 : forall k d L f N pool (store into : image f16),
  exact_f16 d -> f <> Nearest -> valid_call N false f store into -> changes_size store into -> pool_ok pool ->
  exists out (mid : nat -> nat -> nat -> f16), resize_f16_x86 k d L f N pool store into = Returned Ok out /\
    (forall y x c, y < height into -> x < width store -> c < N ->
      if height store =? height into then sample N store x y c = Some (mid y x c)
      else f16_sum_at (filter_taps (resampling_filter L f) (height store) (height into)) y (fun i => stored16 N store i x c) (mid y x c)) /\
    (forall y x c, y < height into -> x < width into -> c < N ->
      exists v, sample N out x y c = Some v /\
      if width store =? width into then v = mid y x c
      else f16_sum_at (filter_taps (resampling_filter L f) (width store) (width into)) x (fun i => mid y i c) v).
Proof.
  intros k d L f N pool store into HC Hf V D P. destruct (x86_f16_sums_is k d L f N pool store into HC Hf V D P) as (out & mid & R & _ & M & S).
  exists out, mid. split; [exact R|]. split.
  - intros y x c Hy Hx Hc. specialize (M y x c Hy Hx Hc). destruct (height store =? height into); [exact M|now apply narrowed_sum_at].
  - intros y x c Hy Hx Hc. destruct (S y x c Hy Hx Hc) as (v & Sv & Q). exists v. split; [exact Sv|].
    destruct (width store =? width into); [exact Q|now apply narrowed_sum_at].
Qed.
Print Assumptions C88_each_tap_once_f16_x86.
Theorem C88_textbook_f16_x86_partial : forall k d L f K N pool (store into : image f16),
  exact_f16 d -> coded_kernel f = Some K -> valid_call N false f store into -> changes_size store into -> pool_ok pool ->
  (Z.of_nat (width store) <= 65536)%Z -> (Z.of_nat (height store) <= 65536)%Z ->
  (Z.of_nat (width into) <= 65536)%Z -> (Z.of_nat (height into) <= 65536)%Z ->
  downscale_at_most (downscale_limit f) store into ->
  (f = Area -> width into <= width store /\ height into <= height store) ->
  exists out (mid : nat -> nat -> nat -> f16), resize_f16_x86 k d L f N pool store into = Returned Ok out /\
    (forall y x c, y < height into -> x < width store -> c < N ->
      if height store =? height into then sample N store x y c = Some (mid y x c)
      else textbook_f16_at f K (height store) (height into) y (fun i => stored16 N store i x c) (mid y x c)) /\
    (forall y x c, y < height into -> x < width into -> c < N ->
      exists v, sample N out x y c = Some v /\
      if width store =? width into then v = mid y x c
      else textbook_f16_at f K (width store) (width into) x (fun i => mid y i c) v).
Proof.
  intros k d L f K N pool store into HC HK V D P W1 H1 W2 H2 [DSw DSh] AR.
  assert (Hf : f <> Nearest) by (intros ->; discriminate).
  destruct (C88_each_tap_once_f16_x86 k d L f N pool store into HC Hf V D P) as (out & mid & R & M & S).
  assert (V0 := V). destruct V as [VN (S1 & S2 & S3 & S4) (D1 & D2 & D3 & D4) VC VF VD VS VA].
  exists out, mid. split; [exact R|]. split.
  - intros y x c Hy Hx Hc. specialize (M y x c Hy Hx Hc). destruct (height store =? height into); [exact M|].
    destruct M as (v & Q & Nv). exists v. split; [|exact Nv].
    apply (one_direction_f32 L f K); auto; try lia; first [exact (sums_blend _ _ _ _ (proj2 (no_extra_once _ _ _ _) Q))|intro e; apply AR in e; tauto].
  - intros y x c Hy Hx Hc. destruct (S y x c Hy Hx Hc) as (v & Sv & Q). exists v. split; [exact Sv|].
    destruct (width store =? width into); [exact Q|]. destruct Q as (u & Q & Nv). exists u. split; [|exact Nv].
    apply (one_direction_f32 L f K); auto; try lia; first [exact (sums_blend _ _ _ _ (proj2 (no_extra_once _ _ _ _) Q))|intro e; apply AR in e; tauto].
Qed.
Print Assumptions C88_textbook_f16_x86_partial.
Theorem C88_no_overshoot_f16_x86_partial : forall k d L f N pool (store into out : image f16) t c m,
  exact_f16 d -> averaging f = true -> f <> Nearest -> valid_call N false f store into -> changes_size store into -> pool_ok pool ->
  (1 <= t <= 150)%Z -> downscale_at_most t store into -> c < N ->
  (exists q : f16, is_finite q = true /\ Rabs (B2R q) = m) -> at_most16 N store c m ->
  resize_f16_x86 k d L f N pool store into = Returned Ok out -> at_most16 N out c m.
Proof.
  intros k d L f N pool store into out t c m HC A Hf V D P Ht DS Hc (q & Fq & Mq) B R.
  assert (Om : (0 <= m <= 65504)%R) by (rewrite <- Mq; split; [apply Rabs_pos|now apply B16_lt]).
  assert (Fm : fmt16 m) by (rewrite <- Mq; apply generic_format_abs, fmt16_B2R).
  destruct (C87_padding_f16_x86 k d L f N pool false store into out Hf V D P (or_introl R)) as (W & H & _).
  intros x y Hx Hy. rewrite W in Hx. rewrite H in Hy.
  apply (x86_two_pass_inv k d L f N pool store into out t c (fun v => is_finite v = true /\ (Rabs (B2R v) <= m)%R) HC V D Hf P DS Hc R); auto.
  intros insz outsz o p r S1 S2 S3 S4 S5. exact (pass_bounded L f A insz outsz t o p r m S1 Ht S2 S3 S4 Fm Om S5).
Qed.
Print Assumptions C88_no_overshoot_f16_x86_partial.
Theorem C88_constants_f16_x86_partial : forall k d L f N pool (store into out : image f16) t c (a : f16),
  exact_f16 d -> averaging f = true -> f <> Nearest -> valid_call N false f store into -> changes_size store into -> pool_ok pool ->
  (1 <= t <= 150)%Z -> downscale_at_most t store into -> c < N -> is_finite a = true ->
  (forall x y, x < width store -> y < height store -> sample N store x y c = Some a) ->
  resize_f16_x86 k d L f N pool store into = Returned Ok out ->
  forall x y, x < width into -> y < height into -> exists v, sample N out x y c = Some v /\ is_finite v = true /\ B2R v = B2R a.
Proof.
  intros k d L f N pool store into out t c a HC A Hf V D P Ht DS Hc Fa B R.
  apply (x86_two_pass_inv k d L f N pool store into out t c (fun v => is_finite v = true /\ B2R v = B2R a) HC V D Hf P DS Hc R); auto.
  - intros insz outsz o p r S1 S2 S3 S4 S5. apply (pass_constant L f A insz outsz t o p r (B2R a) S1 Ht S2 S3 S4 (fmt16_B2R a)); [now apply B16_lt|exact S5].
  - intros x y Hx Hy. exists a. split; [now apply B|auto].
Qed.
Print Assumptions C88_constants_f16_x86_partial.
Example C88_nonvacuous :
  (let store := flat_f16 1 2 1 [h1; h0] in let into := flat_f16 1 3 1 [h0; h0; h0] in exact_f16 h_avx /\
   valid_call 1 false Bilinear store into /\ changes_size store into /\ downscale_at_most (downscale_limit Bilinear) store into /\
   coded_kernel Bilinear <> None) /\
  (let store := flat_f16 1 300 1 (repeat h1 300) in let into := flat_f16 1 2 1 [h0; h0] in
   averaging Box = true /\ valid_call 1 false Box store into /\ changes_size store into /\ downscale_at_most 150 store into /\
   at_most16 1 store 0 1%R /\ (exists q : f16, is_finite q = true /\ Rabs (B2R q) = 1%R) /\
   forall x y, x < width store -> y < height store -> sample 1 store x y 0 = Some h1).
Proof.
  split; [|exact C83_nonvacuous]. cbv zeta. split; [left; reflexivity|]. split; [valid_f16|]. split; [left; cbn; lia|].
  split; [split; cbn; lia|discriminate].
Qed.

(** ** C89 Alpha, on processors with F16C or without SSE4.1 *)
(** The number of pixels of a row that go through the vector code: whole blocks of sixteen
    pixels with AVX2 and F16C, of eight with SSE4.1. *)
Definition vector_pixels (c : hcpu) (w : nat) : nat :=
  if avx2 (hbase c) && f16c c then 16 * (w / 16) else if sse41 (hbase c) then 8 * (w / 8) else 0.
Lemma vector_pixels_is c w : block_f16 c * (w / block_f16 c) = vector_pixels c w.
Proof. unfold block_f16, vector_pixels. destruct (avx2 (hbase c) && f16c c); [reflexivity|]. now destruct (sse41 (hbase c)). Qed.
Lemma zero_is_zero (a : f16) : feqb (as_f32 a) f0 = true -> is_finite a = true -> B2R a = 0%R.
Proof.
  intros Ez Fa. unfold feqb in Ez. destruct a as [s|s| |s m e Hm]; try discriminate; [reflexivity|]. exfalso.
  destruct (as_f32_exact (B754_finite s m e Hm) eq_refl) as (F' & B' & _). revert Ez F' B'.
  destruct (as_f32 (B754_finite s m e Hm)) as [s'|s'| |s' m' e' Hm']; try discriminate; cbn; intros Ez F' B'; [|destruct s'; discriminate].
  symmetry in B'. apply eq_0_F2R in B'. destruct s; discriminate.
Qed.
Lemma nonzero_is_nonzero (a : f16) : feqb (as_f32 a) f0 = false -> B2R a = 0%R -> is_finite a = true -> False.
Proof.
  intros Ez Z Fa. destruct a as [s|s| |s m e Hm]; try discriminate.
  cbn [B2R] in Z. apply eq_0_F2R in Z. destruct s; discriminate.
Qed.
Lemma associated_zero v a : feqb (as_f32 a) f0 = true -> associated16 v a h0.
Proof.
  intros Ez Fv Fa. rewrite (zero_is_zero a Ez Fa), Rmult_0_r. split; [|split; intro; exfalso; lra].
  intros _. split; [reflexivity|]. intros q _. change (B2R h0) with 0%R. rewrite Rminus_0_r, Rabs_R0. apply Rabs_pos.
Qed.
(** The colours are associated as in the portable code; at the end they are recovered by a
    division only in the pixels after the last whole block: in the blocks they are multiplied
    by alpha a second time. *)
Theorem C89_pipeline_f16_x86 : forall k d L f pool (store into : image f16),
  exact_f16 d -> valid_call 4 false f store into -> changes_size store into -> f <> Nearest -> pool_ok pool ->
  exists src mid out,
    width src = width store /\ height src = height store /\
    (forall x y r g b a, x < width store -> y < height store -> pixel store x y r g b a ->
       exists r' g' b', pixel src x y r' g' b' a /\ associated16 r a r' /\ associated16 g a g' /\ associated16 b a b') /\
    resize_f16_x86 k d L f 4 pool src into = Returned Ok mid /\
    resize_rgba_f16_x86 k d L f pool true store into = Returned Ok out /\
    (forall x y r g b a, x < width into -> y < height into -> pixel mid x y r g b a ->
       exists r' g' b', pixel out x y r' g' b' a /\
         (if x <? vector_pixels d (width into) then associated16 r a r' /\ associated16 g a g' /\ associated16 b a b'
          else recovered16 r a r' /\ recovered16 g a g' /\ recovered16 b a b') /\
         (B2R a = 0%R /\ is_finite a = true -> r' = h0 /\ g' = h0 /\ b' = h0)).
Proof.
  intros k d L f pool store into HC V D Hf P.
  destruct (rgba_pipeline_f16_x86 k d L f pool store into HC V D Hf P) as (src & mid & out & Q1 & VS & Ws & Hs & Rm & Om & R & Q2 & _).
  destruct (x86_prepared_fields d 4 store into) as (E1 & E2 & _).
  exists src, mid, out. split; [exact Ws|]. split; [exact Hs|]. split; [|split; [exact Rm|split; [exact R|]]].
  - destruct Q1 as (_ & _ & Q). intros x y r g b a Hx Hy Px. destruct (Q x y r g b a Hx Hy Px) as (r' & g' & b' & a' & E & P').
    unfold premul_px_f16 in E. rewrite as_f16_f32 in E. inversion E; subst. do 3 eexists. split; [exact P'|].
    split; [|split]; apply premul_associated.
  - intros x y r g b a Hx Hy Px.
    assert (Sx : forall i, i < 4 -> sample 4 out x y i = nth_error (un_at16 d (width into) x r g b a) i).
    { intros i Hi. rewrite (Q2 x y r g b a) by (rewrite ?(opd_width _ _ _ Om), ?(opd_height _ _ _ Om); auto; lia).
      now rewrite (opd_width _ _ _ Om), E1. }
    unfold un_at16 in Sx. rewrite vector_pixels_is in Sx. destruct (x <? vector_pixels d (width into)).
    + unfold unmul_blk in Sx. destruct (feqb (as_f32 a) f0) eqn:Ez.
      * cbv zeta in Sx. replace (as_f16 f0) with h0 in Sx by reflexivity. exists h0, h0, h0. split; [repeat split; apply Sx; lia|].
        split; [|auto]. split; [|split]; now apply associated_zero.
      * cbv zeta in Sx. do 3 eexists. split; [split; [exact (Sx 0 ltac:(lia))|split; [exact (Sx 1 ltac:(lia))|split; [exact (Sx 2 ltac:(lia))|exact (Sx 3 ltac:(lia))]]]|]. split; [split; [|split]; apply premul_associated|].
        intros (Z & Fa). destruct (nonzero_is_nonzero a Ez Z Fa).
    + unfold unpremul_px_f16 in Sx. destruct (feqb (as_f32 a) f0) eqn:Ez.
      * exists h0, h0, h0. split; [repeat split; apply Sx; lia|]. split; [|auto].
        assert (W : forall v, recovered16 v a h0) by (intros v _ Fa Na _; exfalso; now apply Na, zero_is_zero).
        split; [apply W|]. split; apply W.
      * cbv zeta in Sx. do 3 eexists. split; [split; [exact (Sx 0 ltac:(lia))|split; [exact (Sx 1 ltac:(lia))|split; [exact (Sx 2 ltac:(lia))|exact (Sx 3 ltac:(lia))]]]|]. split; [split; [|split]; apply unpremul_recovered|].
        intros (Z & Fa). destruct (nonzero_is_nonzero a Ez Z Fa).
Qed.
Print Assumptions C89_pipeline_f16_x86.
(** White with alpha one half, resized by an averaging filter, comes back with colour one quarter in
    every pixel of the blocks, on every processor with SSE4.1 and F16C. *)
Theorem C89_white_turns_grey_f16_x86 : forall k d L f pool (store into out : image f16) t,
  exact_f16 d -> averaging f = true -> f <> Nearest -> valid_call 4 false f store into -> changes_size store into -> pool_ok pool ->
  (1 <= t <= 150)%Z -> downscale_at_most t store into ->
  (forall x y, x < width store -> y < height store -> pixel store x y h1 h1 h1 h_half) ->
  resize_rgba_f16_x86 k d L f pool true store into = Returned Ok out ->
  forall x y, x < vector_pixels d (width into) -> y < height into -> pixel out x y h_quarter h_quarter h_quarter h_half.
Proof.
  intros k d L f pool store into out t HC A Hf V D P Ht DS W R x y Hx Hy. rewrite <- vector_pixels_is in Hx.
  apply (x86_white_half k d L f pool store into out t); auto.
  eapply Nat.lt_le_trans; [exact Hx|]. destruct (block_f16 d) eqn:E; [cbn; lia|]. apply Nat.mul_div_le. discriminate.
Qed.
Print Assumptions C89_white_turns_grey_f16_x86.
(** So the colours are not recovered there. *)
Theorem C89_colours_recovered_refuted : forall k d L, exact_f16 d -> sse41 (hbase d) = true -> ~ forall f pool (store into mid out src : image f16),
  f <> Nearest -> valid_call 4 false f store into -> changes_size store into -> pool_ok pool ->
  pixelwise premul_px_f16 store src -> resize_f16_x86 k d L f 4 pool src into = Returned Ok mid ->
  resize_rgba_f16_x86 k d L f pool true store into = Returned Ok out ->
  forall x y r g b a r' g' b', x < width into -> y < height into -> pixel mid x y r g b a -> pixel out x y r' g' b' a -> recovered16 r a r'.
Proof.
  intros k d L HC HS H.
  set (store := flat_f16 4 16 2 (concat (repeat [h1; h1; h1; h_half] 32))). set (into := flat_f16 4 16 1 (repeat h0 64)).
  assert (V : valid_call 4 false Bilinear store into) by (unfold store, into; constructor; unfold flat_f16; cbn [width height stride buf channels bit_depth];
    unfold fits_usize, usize_mod; repeat split; try (vm_compute; reflexivity); try (vm_compute; congruence); try discriminate; cbn; lia).
  assert (D : changes_size store into) by (right; cbn; lia).
  assert (W : forall x y, x < width store -> y < height store -> pixel store x y h1 h1 h1 h_half).
  { intros x y Hx Hy. cbn [width height store flat_f16] in Hx, Hy.
    destruct y as [|[|y]]; [| |lia]; do 16 (destruct x as [|x]; [repeat split; reflexivity|]); lia. }
  assert (DS : downscale_at_most 2 store into) by (split; cbn; lia).
  destruct (rgba_pipeline_f16_x86 k d L Bilinear None store into HC V D ltac:(discriminate) I) as (src & mid & out & Q1 & VS & Ws & Hs & Rm & Om & R & _ & _).
  destruct (C89_pipeline_f16_x86 k d L Bilinear None store into HC V D ltac:(discriminate) I) as (src' & mid' & out' & _).
  assert (Bk : 0 < vector_pixels d (width into)).
  { unfold vector_pixels. cbn [width into flat_f16]. rewrite HS. destruct (avx2 (hbase d) && f16c d); cbn; lia. }
  assert (X : pixel out 0 0 h_quarter h_quarter h_quarter h_half)
    by (apply (C89_white_turns_grey_f16_x86 k d L Bilinear None store into out 2 HC eq_refl ltac:(discriminate) V D I ltac:(lia) DS W R); [exact Bk|cbn; lia]).
  assert (M : forall ch, ch < 4 -> sample 4 mid 0 0 ch = Some h_half).
  { intros ch Hc.
    assert (D' : changes_size src into) by (unfold changes_size in *; now rewrite Ws, Hs).
    assert (DS' : downscale_at_most 2 src into) by (unfold downscale_at_most in *; now rewrite Ws, Hs).
    destruct (C88_constants_f16_x86_partial k d L Bilinear 4 None src into mid 2 ch h_half HC eq_refl ltac:(discriminate) VS D' I ltac:(lia) DS' Hc (proj1 h_half_is)) with (x := 0) (y := 0)
      as (v & Sv & Fv & Bv); auto; try (cbn; lia).
    - intros x y Hx Hy. rewrite Ws in Hx. rewrite Hs in Hy. destruct Q1 as (_ & _ & Q).
      destruct (Q x y h1 h1 h1 h_half Hx Hy (W x y Hx Hy)) as (r' & g' & b' & a' & E & (P0 & P1' & P2 & P3)).
      rewrite premul_white_half in E. inversion E; subst. destruct ch as [|[|[|[|ch]]]]; try lia; assumption.
    - rewrite Sv. f_equal. apply exactly_half; [exact Fv|]. rewrite Bv. apply h_half_is. }
  assert (Pm : pixel mid 0 0 h_half h_half h_half h_half) by (repeat split; apply M; lia).
  pose proof (H Bilinear None store into mid out src ltac:(discriminate) V D I Q1 Rm R 0 0 _ _ _ _ _ _ _ ltac:(cbn; lia) ltac:(cbn; lia) Pm X) as C.
  destruct h_half_is as (F2 & E2). destruct h_quarter_is as (F4 & E4). unfold recovered16 in C. rewrite E2, E4 in C.
  replace (/ 2 / / 2)%R with 1%R in C by field. replace (/ 4 - 1)%R with (- (3 / 4))%R in C by lra.
  rewrite Rabs_Ropp, Rabs_R1, (Rabs_pos_eq (3 / 4)) in C by lra.
  change (bpow radix2 (-25)) with (/ 33554432)%R in C. change (bpow radix2 (-40)) with (/ 1099511627776)%R in C.
  destruct (C F2 F2 ltac:(lra) ltac:(lra)) as (_ & C2). lra.
Qed.
Print Assumptions C89_colours_recovered_refuted.
Theorem C89_alpha_channel_f16_x86 : forall k d L f pool (store into plain out : image f16),
  valid_call 4 false f store into -> changes_size store into -> f <> Nearest -> pool_ok pool ->
  resize_rgba_f16_x86 k d L f pool false store into = Returned Ok plain ->
  resize_rgba_f16_x86 k d L f pool true store into = Returned Ok out ->
  forall x y, x < width into -> y < height into -> alpha_at out x y = alpha_at plain x y.
Proof.
  intros k d L f pool store into plain out V D Hf P R. rewrite C87_flag_off_f16_x86 in R by auto. now apply (x86_alpha_channel_any k d L f pool store into V D Hf P).
Qed.
Print Assumptions C89_alpha_channel_f16_x86.
Theorem C89_opaque_f16_x86_partial : forall k d L f pool (store into plain out : image f16) t,
  exact_f16 d -> averaging f = true -> f <> Nearest -> valid_call 4 false f store into -> changes_size store into -> pool_ok pool ->
  (1 <= t <= 150)%Z -> downscale_at_most t store into ->
  (forall x y, x < width store -> y < height store -> alpha_at store x y = Some h1) ->
  resize_rgba_f16_x86 k d L f pool false store into = Returned Ok plain ->
  resize_rgba_f16_x86 k d L f pool true store into = Returned Ok out ->
  same_picture 4 plain out.
Proof.
  intros k d L f pool store into plain out t HC A Hf V D P Ht DS Op R R'. rewrite C87_flag_off_f16_x86 in R by auto.
  destruct (C87_padding_f16_x86 k d L f 4 pool true store into out Hf V D P (or_intror (conj eq_refl R'))) as (W & H & _).
  destruct (C87_padding_f16_x86 k d L f 4 pool true store into plain Hf V D P (or_introl R)) as (W' & H' & _).
  unfold same_picture. split; [congruence|]. split; [congruence|]. intros x y c Hx Hy Hc. symmetry.
  apply (x86_opaque_f16 k d L f pool store into HC V D Hf P plain out t); auto; congruence.
Qed.
Print Assumptions C89_opaque_f16_x86_partial.
Example C89_nonvacuous : let store := flat_f16 4 2 1 [h0; h1; h0; h1; h1; h1; h0; h1] in let into := flat_f16 4 3 1 (repeat h0 12) in
  exact_f16 h_avx /\ sse41 (hbase h_avx) = true /\ averaging Bilinear = true /\ valid_call 4 false Bilinear store into /\ changes_size store into /\ downscale_at_most 150 store into /\
  (forall x y, x < width store -> y < height store -> alpha_at store x y = Some h1) /\
  (let store := flat_f16 4 1 1 [h1; h1; h1; h_half] in let into := flat_f16 4 16 1 (repeat h0 64) in
   valid_call 4 false Bilinear store into /\ changes_size store into /\ downscale_at_most 2 store into /\ vector_pixels h_avx 16 = 16 /\
   forall x y, x < width store -> y < height store -> pixel store x y h1 h1 h1 h_half).
Proof.
  cbv zeta. split; [left; reflexivity|]. split; [reflexivity|]. split; [reflexivity|]. split; [valid_f16|]. split; [left; cbn; lia|]. split; [split; cbn; lia|].
  split.
  { intros x y Hx Hy. cbn [width height flat_f16] in *. replace y with 0 by lia. destruct x as [|[|x]]; [reflexivity|reflexivity|lia]. }
  split; [valid_f16|]. split; [left; cbn; lia|]. split; [split; cbn; lia|]. split; [reflexivity|].
  intros x y Hx Hy. cbn [width height flat_f16] in *. replace y with 0 by lia. replace x with 0 by lia. repeat split; reflexivity.
Qed.
