(** Property theorems C08-C21, C30, C37, C40-C43: resampling of 8-bit images on the
    portable path and the filter table. *)
From Coq Require Import ZArith Reals List Bool Lia ZifyBool ZifyNat.
From Verif Require Import Base BaseProofs ImageStore FixedPoint Dispatch Resize Spec F32 F32Proofs Weights Sampler Api SpecApi ImageProofs NoFail
  KernelProofs PoolProofs DispatchProofs ResizeProofs QuantProofs WeightSum PortableProofs SamplerProofs FilterSums Center QuantSums ApiProofs Witness.
Import ListNotations.
Local Open Scope nat_scope.

(** ** C08 Nearest-neighbour sampling (densely packed images) *)
Theorem C08_nearest_partial : forall L N pool (store into : image Z),
  valid_call N false Nearest store into -> changes_size store into -> pool_ok pool ->
  stride store = width store * N -> stride into = width into * N ->
  exists cx cy out, resize_u8 L Nearest N pool store into = Returned Ok out /\ only_pixels_differ N into out /\
    (forall x, x < width into -> cx x < width store) /\ (forall y, y < height into -> cy y < height store) /\
    (forall x x', x <= x' -> x' < width into -> cx x <= cx x') /\ (forall y y', y <= y' -> y' < height into -> cy y <= cy y') /\
    forall x y c, x < width into -> y < height into -> c < N -> sample N out x y c = sample N store (cx x) (cy y) c.
Proof. exact nearest_u8. Qed.
Print Assumptions C08_nearest_partial.

(** Strided images: padding shows up in the picture. *)
Theorem C08_nearest_strided_refuted : exists store into : image Z,
  valid_call 1 false Nearest store into /\ changes_size store into /\
  (forall x y, x < width store -> y < height store -> sample 1 store x y 0 <> Some 9%Z) /\
  forall L, exists out, resize_u8 L Nearest 1 None store into = Returned Ok out /\ sample 1 out 0 1 0 = Some 9%Z.
Proof.
  exists pad22, (gray 1 2 1 [0; 0]%Z). split; [unfold pad22; valid_tac|]. split; [left; cbn; lia|]. split.
  - intros x y Hx Hy. cbn in Hx, Hy. destruct x as [|[|]], y as [|[|]]; try lia; discriminate.
  - intro L. eexists. split; [vm_compute; reflexivity|reflexivity].
Qed.
Print Assumptions C08_nearest_strided_refuted.

Example C08_nonvacuous : valid_call 1 false Nearest (gray 2 1 2 [1; 2]%Z) (gray 4 1 4 [0; 0; 0; 0]%Z) /\ pool_ok (Some (fun _ n => rev (seq 0 n))).
Proof. split; [valid_tac|exact pool_two]. Qed.

(** ** C42 The Nearest filter picks the source pixel whose centre is nearest to the
    centre of the destination pixel.  Refuted: enlarging 2 pixels to 4 gives a a a b
    although the centre of the third output pixel is nearer to b
    (2*5 = 10 against centres 1*4 and 3*4 in units of 1/8 source pixel). *)
Theorem C42_nearest_is_nearest_refuted :
  valid_call 1 false Nearest (gray 2 1 2 [1; 2]%Z) (gray 4 1 4 [0; 0; 0; 0]%Z) /\
  forall L, resize_u8 L Nearest 1 None (gray 2 1 2 [1; 2]%Z) (gray 4 1 4 [0; 0; 0; 0]%Z) =
    Returned Ok (gray 4 1 4 [1; 1; 1; 2]%Z).
Proof. split; [valid_tac|]. intro L. vm_compute. reflexivity. Qed.
Print Assumptions C42_nearest_is_nearest_refuted.

(** ** C09 Filter windows stay inside the source *)
Theorem C09_windows_inside_partial : forall L f insz outsz o,
  (1 <= Z.of_nat insz <= 2 ^ 23)%Z -> (1 <= Z.of_nat outsz <= 2 ^ 64)%Z -> (f = Area -> (Z.of_nat outsz <= 2 ^ 22)%Z) -> o < outsz ->
  let fw := generate_weights (resampling_filter L f) insz outsz in
  let W := filter_windows (resampling_filter L f) insz outsz in
  1 <= wsize W o /\ wstart W o + wsize W o <= insz /\ wsize W o <= aligned_size fw /\
  length (bounds fw) = outsz /\ length (weights fw) = outsz * aligned_size fw.
Proof.
  intros L f insz outsz o H1 H2 H3 Ho fw W.
  assert (S : sides_ok f insz outsz) by (repeat split; auto; lia).
  pose proof (sides_wf L f insz outsz S) as WF. pose proof (filter_windows_in _ _ _ o WF Ho) as [A B].
  pose proof (wf_nth _ _ _ _ WF Ho) as (C1 & C2 & C3). destruct WF.
  split; [exact A|]. split; [exact B|]. split; [exact C2|]. split; [exact wf_blen|exact wf_wlen].
Qed.
Print Assumptions C09_windows_inside_partial.

(** Sides above 2^24: a window longer than the source. *)
Theorem C09_windows_inside_refuted : forall L,
  let insz := Z.to_nat 16777219 in
  let W := filter_windows (resampling_filter L Bilinear) insz 1 in
  insz < wstart W 0 + wsize W 0.
Proof. exact window_beyond_source. Qed.
Print Assumptions C09_windows_inside_refuted.

Example C09_nonvacuous : (1 <= Z.of_nat 640 <= 2 ^ 23)%Z /\ (1 <= Z.of_nat 48 <= 2 ^ 64)%Z /\ (Area = Area -> (Z.of_nat 48 <= 2 ^ 22)%Z) /\ 47 < 48.
Proof. repeat split; lia. Qed.

(** ** C10 Resizing valid images runs to completion *)
Theorem C10_valid_calls_succeed_partial : forall L f N pool (store into : image Z),
  f <> Nearest -> valid_call N false f store into -> pool_ok pool ->
  exists out, resize_u8 L f N pool store into = Returned Ok out.
Proof.
  intros L f N pool store into Hf V P.
  destruct (Nat.eq_dec (width store) (width into)) as [E1|E1]; [destruct (Nat.eq_dec (height store) (height into)) as [E2|E2]|].
  - destruct (same_size_visible L f N 255 false no_premul no_unpremul no_alpha pool store into V E1 E2) as (o & R & _). now exists o.
  - destruct (paint_raw L f N 255 false no_premul no_unpremul no_alpha pool store into ltac:(lia) V P Hf (or_intror E2)) as (o & R & _). now exists o.
  - destruct (paint_raw L f N 255 false no_premul no_unpremul no_alpha pool store into ltac:(lia) V P Hf (or_introl E1)) as (o & R & _). now exists o.
Qed.
Print Assumptions C10_valid_calls_succeed_partial.
Example C10_nonvacuous : Lanczos3 <> Nearest /\ valid_call 3 false Lanczos3 rgb21 rgb32 /\ pool_ok (Some (fun _ n => rev (seq 0 n))).
Proof. split; [discriminate|]. split; [apply valid_rgb_any|exact pool_two]. Qed.

(** ** C11 Resize computes the separable convolution *)
Definition two_pass L f (store into : image Z) (p : picture) : picture :=
  resample 255 (negb (height store =? height into)) (negb (width store =? width into))
    (filter_windows (resampling_filter L f) (height store) (height into))
    (filter_windows (resampling_filter L f) (width store) (width into)) p.

(** Averaging filters: no condition on sizes. *)
Theorem C11_convolution_averaging : forall L f N pool (store into : image Z),
  averaging f = true -> f <> Nearest ->
  valid_call N false f store into -> changes_size store into -> pool_ok pool -> samples_in 255 (buf store) ->
  exists out, resize_u8 L f N pool store into = Returned Ok out /\ only_pixels_differ N into out /\
    shows N out (two_pass L f store into (picture_of N store)).
Proof.
  intros. apply (paint_closed L f N 255 false); auto; try lia. apply averaging_no_overflow with N false; auto; lia.
Qed.
Print Assumptions C11_convolution_averaging.

(** Every filter, source at most 42 times as large as the destination. *)
Theorem C11_convolution_partial : forall L f N pool (store into : image Z),
  f <> Nearest -> valid_call N false f store into -> changes_size store into -> pool_ok pool -> samples_in 255 (buf store) ->
  downscale_at_most 42 store into ->
  exists out, resize_u8 L f N pool store into = Returned Ok out /\ only_pixels_differ N into out /\
    shows N out (two_pass L f store into (picture_of N store)).
Proof.
  intros. apply (paint_closed L f N 255 false); auto; try lia. apply any_no_overflow with N false 42%Z; auto; lia.
Qed.
Print Assumptions C11_convolution_partial.
Example C11_nonvacuous : averaging Quadric = true /\ Quadric <> Nearest /\ valid_call 3 false Quadric rgb21 rgb32 /\
  changes_size rgb21 rgb32 /\ samples_in 255 (buf rgb21) /\ downscale_at_most 42 rgb21 rgb32.
Proof.
  split; [reflexivity|]. split; [discriminate|]. split; [apply valid_rgb_any|]. split; [exact valid_rgb_changes|].
  split; [exact rgb_samples|]. unfold downscale_at_most. cbn. lia.
Qed.

(** ** C12 A row's result does not depend on how rows are grouped *)
Theorem C12_rows_are_independent : forall L f N pool pool' (store into out out' : image Z) y,
  f <> Nearest -> valid_call N false f store into -> pool_ok pool -> pool_ok pool' ->
  height store = height into -> width store <> width into -> y < height into ->
  resize_u8 L f N pool store into = Returned Ok out ->
  resize_u8 L f N pool' (row_image store y) (row_image into y) = Returned Ok out' ->
  forall x c, x < width into -> c < N -> sample N out x y c = sample N out' x 0 c.
Proof.
  intros L f N pool pool' store into out out' y Hf V P P' Hh Hw Hy R R'.
  exact (call_rows L f N 255 false no_premul no_unpremul no_alpha ltac:(lia) Hf pool pool' store into out out' y V P P' Hh Hw Hy R R').
Qed.
Print Assumptions C12_rows_are_independent.
Example C12_nonvacuous : let store := gray 2 5 3 (repeat 7%Z 15) in let into := gray 3 5 4 (repeat 0%Z 20) in
  valid_call 1 false Bilinear store into /\ height store = height into /\ width store <> width into /\ 4 < height into.
Proof. split; [valid_tac|]. cbn. lia. Qed.

(** ** C13 Schedules: whatever order the pool runs the row tasks in, the outcome (panics
    and errors included) is that of the sequential run. *)
Theorem C13_schedule_independent : forall L f N pool (store into : image Z),
  pool_ok pool -> resize_u8 L f N pool store into = resize_u8 L f N None store into.
Proof. intros. apply generic_resize_pool; auto. apply scaler_pool_blind. Qed.
Print Assumptions C13_schedule_independent.
Example C13_nonvacuous : pool_ok (Some (fun _ n => rev (seq 0 n))).
Proof. exact pool_two. Qed.

(** ** C14 Resize never writes row padding (when the size changes, filters other than Nearest) *)
Theorem C14_padding_partial : forall L f N pool (store into out : image Z),
  f <> Nearest -> valid_call N false f store into -> changes_size store into -> pool_ok pool ->
  resize_u8 L f N pool store into = Returned Ok out -> only_pixels_differ N into out.
Proof.
  intros L f N pool store into out Hf V D P R.
  destruct (paint_raw L f N 255 false no_premul no_unpremul no_alpha pool store into ltac:(lia) V P Hf D) as (o & R' & O & _).
  unfold resize_u8 in R. rewrite R in R'. inversion R'; subst. exact O.
Qed.
Print Assumptions C14_padding_partial.

Theorem C14_padding_nearest_refuted : exists store into : image Z, exists i,
  valid_call 1 false Nearest store into /\ changes_size store into /\ width into * 1 <= i mod stride into /\
  forall L, exists out, resize_u8 L Nearest 1 None store into = Returned Ok out /\ nth_error (buf out) i <> nth_error (buf into) i.
Proof.
  exists (gray 1 1 1 [5]%Z), (gray 2 2 3 [0; 0; 7; 0; 0; 7]%Z), 2. split; [valid_tac|]. split; [left; cbn; lia|]. split; [cbn; lia|].
  intro L. eexists. split; [vm_compute; reflexivity|]. cbn. discriminate.
Qed.
Print Assumptions C14_padding_nearest_refuted.
Example C14_nonvacuous : forall L, exists out, resize_u8 L Bilinear 3 None rgb21 rgb32 = Returned Ok out /\
  nth_error (buf out) 9 = nth_error (buf rgb32) 9 /\ width rgb32 * 3 <= 9 mod stride rgb32.
Proof. intro L. eexists. split; [vm_compute; reflexivity|]. split; [reflexivity|cbn; lia]. Qed.

(** ** C15 The result depends only on visible source samples *)
Theorem C15_only_visible_samples_matter_partial : forall L f N pool (store store' into into' out out' : image Z),
  f <> Nearest -> valid_call N false f store into -> valid_call N false f store' into' -> pool_ok pool ->
  same_picture N store store' -> width into = width into' -> height into = height into' -> changes_size store into ->
  resize_u8 L f N pool store into = Returned Ok out -> resize_u8 L f N pool store' into' = Returned Ok out' ->
  forall x y c, x < width into -> y < height into -> c < N -> sample N out x y c = sample N out' x y c.
Proof.
  intros L f N pool store store' into into' out out' Hf V V' P (W & H & S) W2 H2 D R R' x y c Hx Hy Hc.
  refine (call_local L f N 255 false no_premul no_unpremul no_alpha ltac:(lia) Hf pool pool store store' into into' out out' x y c
    V V' P P W H W2 H2 D R R' Hx Hy Hc _). intros sx sy Hin.
  destruct (in_window_bounds L N false f store into x y sx sy V Hx Hy Hin). now apply S.
Qed.
Print Assumptions C15_only_visible_samples_matter_partial.
Example C15_nonvacuous : same_picture 1 pad22 (gray 2 2 2 [1; 2; 3; 4]%Z) /\ stride pad22 <> 2.
Proof.
  split; [|cbn; lia]. split; [reflexivity|]. split; [reflexivity|].
  intros x y c Hx Hy Hc. cbn in Hx, Hy. destruct x as [|[|]], y as [|[|]], c; try lia; reflexivity.
Qed.

(** ** C16 Output samples stay in the sample range *)
Theorem C16_range : forall L f N pool (store into out : image Z) x y c,
  f <> Nearest -> valid_call N false f store into -> pool_ok pool -> changes_size store into ->
  resize_u8 L f N pool store into = Returned Ok out ->
  x < width into -> y < height into -> c < N -> exists v, sample N out x y c = Some v /\ (0 <= v <= 255)%Z.
Proof.
  intros L f N pool store into out x y c Hf V P D R Hx Hy Hc.
  exact (call_range L f N 255 false no_premul no_unpremul no_alpha ltac:(lia) Hf pool store into out x y c V P D R Hx Hy Hc).
Qed.
Print Assumptions C16_range.
Example C16_nonvacuous : valid_call 3 false Lanczos3 rgb21 rgb32 /\ changes_size rgb21 rgb32.
Proof. split; [apply valid_rgb_any|exact valid_rgb_changes]. Qed.

(** ** C17 The 32-bit accumulator never overflows: every prefix of every weighted sum
    (with and without the rounding constant 2^14) fits in a signed 32-bit integer. *)
Theorem C17_averaging_no_overflow : forall L f insz outsz o m maxv (p : nat -> Z),
  averaging f = true -> (1 <= Z.of_nat insz <= 2 ^ 23)%Z -> (1 <= Z.of_nat outsz <= 2 ^ 64)%Z -> (f = Area -> (Z.of_nat outsz <= 2 ^ 22)%Z) ->
  (0 <= maxv <= 4095)%Z -> o < outsz ->
  let W := filter_windows (resampling_filter L f) insz outsz in
  m <= wsize W o -> (forall k, k < wsize W o -> (0 <= p k <= maxv)%Z) ->
  (- 2 ^ 31 < zsum m (fun k => wcoef W o k * p k) /\ 2 ^ 14 + zsum m (fun k => wcoef W o k * p k) < 2 ^ 31)%Z.
Proof.
  intros. apply safe_prefix with maxv outsz; auto; try lia. apply averaging_safe; auto. repeat split; auto; lia.
Qed.
Print Assumptions C17_averaging_no_overflow.
Theorem C17_any_filter_no_overflow_partial : forall L f insz outsz o m (p : nat -> Z),
  (1 <= Z.of_nat insz <= 2 ^ 23)%Z -> (1 <= Z.of_nat outsz <= 2 ^ 64)%Z -> (f = Area -> (Z.of_nat outsz <= 2 ^ 22)%Z) ->
  (Z.of_nat insz <= 42 * Z.of_nat outsz)%Z -> o < outsz ->
  let W := filter_windows (resampling_filter L f) insz outsz in
  m <= wsize W o -> (forall k, k < wsize W o -> (0 <= p k <= 255)%Z) ->
  (- 2 ^ 31 < zsum m (fun k => wcoef W o k * p k) /\ 2 ^ 14 + zsum m (fun k => wcoef W o k * p k) < 2 ^ 31)%Z.
Proof.
  intros L f insz outsz o m p H1 H2 H3 H4 Ho W Hm Hp. apply safe_prefix with 255%Z outsz; auto; try lia.
  apply any_filter_safe with 42%Z; auto; try lia; [repeat split; auto; lia|].
  assert (1 <= e_support (filter_entry f) <= 6)%Z by (destruct f; cbn; lia). lia.
Qed.
Print Assumptions C17_any_filter_no_overflow_partial.
Example C17_nonvacuous : averaging Box = true /\ (1 <= Z.of_nat 100 <= 2 ^ 23)%Z /\ (1 <= Z.of_nat 3 <= 2 ^ 64)%Z /\ (0 <= 4095 <= 4095)%Z /\
  (Z.of_nat 100 <= 42 * Z.of_nat 3)%Z.
Proof. repeat split; lia. Qed.

(** ** C18 Constant images stay constant: exactly when only the width changes, else up
    to one unit (averaging filters, sizes at most 61 times smaller). *)
Theorem C18_constant_partial : forall L f N pool (store into out : image Z) c v,
  averaging f = true -> f <> Nearest ->
  valid_call N false f store into -> pool_ok pool -> changes_size store into -> samples_in 255 (buf store) ->
  resize_u8 L f N pool store into = Returned Ok out ->
  downscale_at_most 61 store into ->
  c < N -> (forall x y, x < width store -> y < height store -> sample N store x y c = Some v) ->
  forall x y, x < width into -> y < height into ->
  exists r, sample N out x y c = Some r /\ (v - 1 <= r <= v)%Z /\ (height store = height into -> r = v).
Proof.
  intros L f N pool store into out c v A Hf V P D S R Dn Hc Cst x y Hx Hy.
  assert (Hv : (0 <= v <= 255)%Z).
  { destruct (valid_good V) as [G1 _]. pose proof (Cst 0 0 (g_w _ _ G1) (g_h _ _ G1)) as K. unfold sample in K.
    apply nth_error_In in K. unfold samples_in in S. rewrite Forall_forall in S. now apply S. }
  exact (call_const L f N 255 false no_premul no_unpremul no_alpha pool store into out 61%Z c v ltac:(lia) A Hf V P D S R ltac:(lia) Dn ltac:(lia) Hc Cst x y Hx Hy).
Qed.
Print Assumptions C18_constant_partial.
(** The vertical pass rounds down: white becomes 254. *)
Theorem C18_constant_refuted :
  valid_call 1 false Bilinear (gray 1 1 1 [255]%Z) (gray 1 2 1 [0; 0]%Z) /\
  forall L, resize_u8 L Bilinear 1 None (gray 1 1 1 [255]%Z) (gray 1 2 1 [0; 0]%Z) = Returned Ok (gray 1 2 1 [254; 254]%Z).
Proof. split; [valid_tac|]. intro L. vm_compute. reflexivity. Qed.
Print Assumptions C18_constant_refuted.
(** Weights above one are clipped to 32767/32768 by the quantisation, so the filters with
    negative lobes darken flat images near the border when enlarging: an all white row of 3
    pixels becomes a row with 226 at its ends (Bicubic) or 213 (Spline36); six pixels with
    Spline64 give 223. *)
Theorem C18_constant_sharp_refuted :
  valid_call 1 false Bicubic (gray 3 1 3 [255; 255; 255]%Z) (gray 12 1 12 (repeat 0%Z 12)) /\
  forall L,
  resize_u8 L Bicubic 1 None (gray 3 1 3 [255; 255; 255]%Z) (gray 12 1 12 (repeat 0%Z 12)) =
    Returned Ok (gray 12 1 12 [226; 242; 255; 255; 255; 255; 242; 226; 255; 255; 242; 226]%Z) /\
  (exists out, resize_u8 L Spline36 1 None (gray 3 1 3 [255; 255; 255]%Z) (gray 12 1 12 (repeat 0%Z 12)) = Returned Ok out /\
     sample 1 out 0 0 0 = Some 213%Z) /\
  (exists out, resize_u8 L Spline64 1 None (gray 6 1 6 (repeat 255%Z 6)) (gray 12 1 12 (repeat 0%Z 12)) = Returned Ok out /\
     sample 1 out 0 0 0 = Some 223%Z).
Proof.
  split; [valid_tac|]. intro L. split; [vm_compute; reflexivity|].
  split; eexists; (split; [vm_compute; reflexivity|vm_compute; reflexivity]).
Qed.
Print Assumptions C18_constant_sharp_refuted.
Example C18_nonvacuous : let store := gray 2 5 2 (repeat 200%Z 10) in let into := gray 3 5 4 (repeat 0%Z 20) in
  averaging Bilinear = true /\ valid_call 1 false Bilinear store into /\ changes_size store into /\ samples_in 255 (buf store) /\
  downscale_at_most 61 store into /\ (forall x y, x < width store -> y < height store -> sample 1 store x y 0 = Some 200%Z).
Proof.
  cbv zeta. split; [reflexivity|]. split; [valid_tac|]. split; [left; cbn; lia|].
  split; [cbn; repeat constructor; lia|]. split; [unfold downscale_at_most; cbn; lia|].
  intros x y Hx Hy. cbn in Hx, Hy. unfold sample, gray. cbn [stride buf].
  do 2 (destruct x as [|x]; [do 5 (destruct y as [|y]; [reflexivity|]); lia|]). lia.
Qed.

(** ** C19 Channels are independent and influence is local *)
Theorem C19_locality : forall L f N pool (store store' into out out' : image Z) x y c,
  f <> Nearest -> valid_call N false f store into -> valid_call N false f store' into -> pool_ok pool ->
  width store = width store' -> height store = height store' -> changes_size store into ->
  resize_u8 L f N pool store into = Returned Ok out -> resize_u8 L f N pool store' into = Returned Ok out' ->
  x < width into -> y < height into -> c < N ->
  (forall sx sy, in_window (resampling_filter L f) store into x y sx sy -> sample N store sx sy c = sample N store' sx sy c) ->
  sample N out x y c = sample N out' x y c.
Proof.
  intros L f N pool store store' into out out' x y c Hf V V' P W H D R R' Hx Hy Hc A.
  exact (call_local L f N 255 false no_premul no_unpremul no_alpha ltac:(lia) Hf pool pool store store' into into out out' x y c V V' P P W H eq_refl eq_refl D R R' Hx Hy Hc A).
Qed.
Print Assumptions C19_locality.
Example C19_nonvacuous : valid_call 3 false Bicubic rgb21 rgb32 /\
  valid_call 3 false Bicubic (mkImage [10; 99; 30; 40; 98; 60; 7; 7]%Z 3 2 1 8 0) rgb32 /\
  forall x y, x < 2 -> y < 1 -> sample 3 rgb21 x y 0 = sample 3 (mkImage [10; 99; 30; 40; 98; 60; 7; 7]%Z 3 2 1 8 0) x y 0.
Proof.
  split; [apply valid_rgb_any|]. split; [unfold rgb32; valid_tac|].
  intros x y Hx Hy. destruct x as [|[|]], y; try lia; reflexivity.
Qed.

(** ** C20 Monotone, and within the extremes of the source, for averaging filters *)
Theorem C20_monotone : forall L f N pool (store store' into out out' : image Z),
  averaging f = true -> f <> Nearest ->
  valid_call N false f store into -> valid_call N false f store' into -> pool_ok pool ->
  width store = width store' -> height store = height store' -> changes_size store into ->
  samples_in 255 (buf store) -> samples_in 255 (buf store') ->
  resize_u8 L f N pool store into = Returned Ok out -> resize_u8 L f N pool store' into = Returned Ok out' ->
  forall c, c < N ->
  (forall x y a b, x < width store -> y < height store -> sample N store x y c = Some a -> sample N store' x y c = Some b -> (a <= b)%Z) ->
  forall x y a b, x < width into -> y < height into ->
  sample N out x y c = Some a -> sample N out' x y c = Some b -> (a <= b)%Z.
Proof.
  intros L f N pool store store' into out out' A Hf V V' P W H D S S' R R'.
  exact (call_mono L f N 255 false no_premul no_unpremul no_alpha pool store store' into out out' ltac:(lia) A Hf V V' P W H D S S' R R').
Qed.
Print Assumptions C20_monotone.
Theorem C20_extremes_partial : forall L f N pool (store into out : image Z) c m M,
  averaging f = true -> f <> Nearest ->
  valid_call N false f store into -> pool_ok pool -> changes_size store into -> samples_in 255 (buf store) ->
  resize_u8 L f N pool store into = Returned Ok out ->
  downscale_at_most 61 store into -> (0 <= m)%Z -> (M <= 255)%Z ->
  c < N -> (forall x y v, x < width store -> y < height store -> sample N store x y c = Some v -> (m <= v <= M)%Z) ->
  forall x y r, x < width into -> y < height into -> sample N out x y c = Some r ->
  (m - 1 <= r <= M)%Z /\ (height store = height into -> (m <= r)%Z).
Proof.
  intros L f N pool store into out c m M A Hf V P D S R Dn Hm HM Hc B.
  exact (call_bounds L f N 255 false no_premul no_unpremul no_alpha pool store into out 61%Z c m M ltac:(lia) A Hf V P D S R ltac:(lia) Dn Hm HM ltac:(lia) Hc B).
Qed.
Print Assumptions C20_extremes_partial.
Example C20_nonvacuous : averaging Welch = true /\ Welch <> Nearest /\ valid_call 3 false Welch rgb21 rgb32 /\ samples_in 255 (buf rgb21) /\
  downscale_at_most 61 rgb21 rgb32.
Proof.
  split; [reflexivity|]. split; [discriminate|]. split; [apply valid_rgb_any|]. split; [exact rgb_samples|]. unfold downscale_at_most. cbn. lia.
Qed.

(** ** C21 Fixed-point weights approximate the real weights *)
Theorem C21_quantisation : forall (w : f32) (r : R), fin w r -> (Rabs r <= IZR (2 ^ 80))%R ->
  exists z, nearest_away z (r * 32768) /\ quant_i16 w = clampZ (-32768) 32767 z.
Proof. intros w r H1 H2. eexists. split; [apply ZnearestA_spec|]. now apply quant_fin. Qed.
Print Assumptions C21_quantisation.
Theorem C21_always_sixteen_bits : forall w, (-32768 <= quant_i16 w <= 32767)%Z.
Proof. exact quant_range. Qed.
Print Assumptions C21_always_sixteen_bits.
Theorem C21_rows : forall L f insz outsz, sides_ok f insz outsz ->
  let fw := generate_weights (resampling_filter L f) insz outsz in
  numerical_approximation quant_i16 0 fw =
  Done (mkFW (map quant_i16 (weights fw)) (bounds fw) (aligned_size fw) (aligned_size fw) (distinct_elements fw)).
Proof. intros. now apply approximation_rows with insz outsz, sides_wf. Qed.
Print Assumptions C21_rows.
Example C21_nonvacuous : fin fhalf (1 / 2) /\ quant_i16 fhalf = 16384%Z /\ sides_ok Lanczos3 640 48.
Proof. split; [exact fhalf_fin|]. split; [vm_compute; reflexivity|]. repeat split; try lia; discriminate. Qed.
(** Weight 1 becomes 32767 = 1 - 2^-15: the clamp is what C18_constant_refuted shows. *)
Theorem C21_unit_weight_refuted : quant_i16 f1 = 32767%Z.
Proof. exact quant_one. Qed.
Print Assumptions C21_unit_weight_refuted.

(** ** C30 Numeric filter selectors *)
Theorem C30_selectors :
  (forall f, from_u32 (selector f) = f /\ (selector f <= 48)%N) /\
  (forall a b, (a <= 48)%N -> (b <= 48)%N -> from_u32 a = from_u32 b -> a = b) /\
  (forall v, (48 < v)%N -> from_u32 v = Bilinear).
Proof. split; [exact from_u32_selector|]. split; [exact from_u32_inj|exact from_u32_default]. Qed.
Print Assumptions C30_selectors.
Theorem C30_table : forall L f,
  fin (min_kernel (resampling_filter L f)) (IZR (e_support (filter_entry f))) /\
  (1 <= e_support (filter_entry f) <= 6)%Z /\
  is_ewa (resampling_filter L f) = e_ewa (filter_entry f) /\
  is_resizable (resampling_filter L f) = e_resizable (filter_entry f) /\
  is_area (resampling_filter L f) = e_area (filter_entry f) /\
  (rwin (resampling_filter L f) <> None <-> e_windowed (filter_entry f) = true).
Proof.
  intros L f. destruct (filter_table L f) as (A & B & C & D & E).
  split; [exact A|]. split; [clear; destruct f; cbn; lia|].
  split; [exact B|]. split; [exact C|]. split; [exact D|exact E].
Qed.
Print Assumptions C30_table.

(** ** C37 Filter weights of a window sum to one (averaging filters) *)
Theorem C37_weights_sum_to_one_partial : forall L f insz outsz o,
  averaging f = true -> (1 <= Z.of_nat insz <= 2 ^ 23)%Z -> (1 <= Z.of_nat outsz <= 2 ^ 64)%Z ->
  (f = Area -> (Z.of_nat outsz <= 2 ^ 22)%Z) -> o < outsz ->
  let n := bsize (fst (weight_row (resampling_filter L f) insz outsz o)) in
  let row := snd (weight_row (resampling_filter L f) insz outsz o) in
  exists ws : list R, length ws = n /\ (forall k, k < n -> fin (nth k row f0) (nth k ws 0%R)) /\
    Forall (fun w => (0 <= w)%R) ws /\ (Rabs (rsum ws - 1) <= (INR n + 2) * / 4194304)%R.
Proof. exact averaging_row. Qed.
Print Assumptions C37_weights_sum_to_one_partial.
Example C37_nonvacuous : averaging Area = true /\ (1 <= Z.of_nat 5 <= 2 ^ 23)%Z /\ (1 <= Z.of_nat 9 <= 2 ^ 64)%Z /\ (Z.of_nat 9 <= 2 ^ 22)%Z.
Proof. repeat split; lia. Qed.

(** ** C40 No source picture is dropped: a one-pixel image enlarged horizontally keeps its value.
    Refuted for the twelve jinc based filters: the middle pixel of 1 -> 3 is always 0. *)
Theorem C40_pixel_kept_refuted : forall L f v, In f jinc_filters -> (0 <= v <= 255)%Z ->
  exists out, resize_u8 L f 1 None (gray 1 1 1 [v]) (gray 3 1 3 [v; v; v]) = Returned Ok out /\ sample 1 out 1 0 0 = Some 0%Z.
Proof. exact jinc_call. Qed.
Print Assumptions C40_pixel_kept_refuted.
Theorem C40_pixel_kept_partial : forall L f N pool (store into out : image Z) c v,
  averaging f = true -> f <> Nearest -> valid_call N false f store into -> pool_ok pool ->
  width store = 1 -> height store = 1 -> height into = 1 -> 1 < width into -> samples_in 255 (buf store) ->
  resize_u8 L f N pool store into = Returned Ok out -> c < N -> sample N store 0 0 c = Some v ->
  forall x, x < width into -> sample N out x 0 c = Some v.
Proof.
  intros L f N pool store into out c v A Hf V P W1 H1 H2 W2 S R Hc Hs x Hx.
  destruct (C18_constant_partial L f N pool store into out c v A Hf V P ltac:(left; lia) S R
    ltac:(unfold downscale_at_most; lia) Hc) with (x := x) (y := 0) as (r & E & _ & K); auto; try lia.
  - intros x' y' Hx' Hy'. replace x' with 0 by lia. replace y' with 0 by lia. exact Hs.
  - rewrite E, K; auto. lia.
Qed.
Print Assumptions C40_pixel_kept_partial.
Example C40_nonvacuous : In Lanczos3Jinc jinc_filters /\ averaging Bilinear = true /\ valid_call 1 false Bilinear (gray 1 1 1 [9]%Z) (gray 3 1 3 [0; 0; 0]%Z).
Proof. split; [cbn; tauto|]. split; [reflexivity|valid_tac]. Qed.
