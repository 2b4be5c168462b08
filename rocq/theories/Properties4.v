(** Property theorems for 16-bit and f32 images: C04-C06, C08, C10-C16, C18-C20, C38,
    C39, C41, C43 on the portable path.  [k] says whether the crate was compiled with
    fused multiply-add. *)
From Coq Require Import ZArith Reals Lra List Bool Lia ZifyBool ZifyNat.
From Verif Require Import Base BaseProofs ImageStore FixedPoint Dispatch Resize Spec F32 F32Proofs Weights Sampler Api SpecApi SpecAlpha SpecFloat ImageProofs NoFail
  KernelProofs PoolProofs DispatchProofs ResizeProofs QuantProofs WeightSum PortableProofs SamplerProofs FilterSums Center QuantSums ApiProofs Witness
  Alpha AlphaProofs AlphaScan AlphaU16 RgbaProofs ApiFloat DriverProofs FloatApiProofs RgbaFloat DeepSums DeepCalls.
Import ListNotations.
Local Open Scope nat_scope.

(** A one channel image of the given depth. *)
Definition deep (w h s d : nat) (b : list Z) : image Z := mkImage b 1 w h s d.
Ltac deep_tac := constructor; cbn [width height stride buf channels bit_depth deep length repeat];
  unfold fits_usize, usize_mod; repeat split; try lia; try (intro; discriminate).

(** ** C04, C05 *)
Theorem C04_refusals_u16 : forall k L f N pool (store into : image Z),
  match first_error (refusal_table N true store into) with
  | Some e => resize_u16 k L f N pool store into = Returned (Err e) into
  | None => resize_u16 k L f N pool store into = Panicked \/ exists out, resize_u16 k L f N pool store into = Returned Ok out
  end.
Proof.
  intros. apply (generic_resize_cases N (engine_u16 k L f N no_premul no_unpremul no_alpha)).
  apply (ce_nofail _ _ _ _ _ _ _ (engine_u16_conv k L f N no_premul no_unpremul no_alpha)).
Qed.
Print Assumptions C04_refusals_u16.
Theorem C04_refusals_rgba_u16 : forall k L f pool premultiply (store into : image Z),
  match first_error (refusal_table 4 true store into) with
  | Some e => resize_rgba_u16 k L f pool premultiply store into = Returned (Err e) into
  | None => resize_rgba_u16 k L f pool premultiply store into = Panicked \/
            exists out, resize_rgba_u16 k L f pool premultiply store into = Returned Ok out
  end.
Proof.
  intros. apply (generic_resize_with_alpha_cases 4 (rgba_engine_u16 k L f)); [|apply alpha_nofail_u16].
  apply (ce_nofail _ _ _ _ _ _ _ (engine_u16_conv k L f 4 premul_u16 unpremul_u16 alpha_needed_u16)).
Qed.
Print Assumptions C04_refusals_rgba_u16.
Theorem C04_refusals_f32 : forall k L f N pool (store into : image f32),
  match first_error (refusal_table N false store into) with
  | Some e => resize_f32 k L f N pool store into = Returned (Err e) into
  | None => resize_f32 k L f N pool store into = Panicked \/ exists out, resize_f32 k L f N pool store into = Returned Ok out
  end.
Proof.
  intros. unfold resize_f32. match goal with |- context[generic_resize N ?E] => apply (generic_resize_cases N E) end.
  apply (ce_nofail _ _ _ _ _ _ _ (engine_f32_conv k L f N _ _ _)).
Qed.
Print Assumptions C04_refusals_f32.
Theorem C04_refusals_rgba_f32 : forall k L f pool premultiply (store into : image f32),
  match first_error (refusal_table 4 false store into) with
  | Some e => resize_rgba_f32 k L f pool premultiply store into = Returned (Err e) into
  | None => resize_rgba_f32 k L f pool premultiply store into = Panicked \/
            exists out, resize_rgba_f32 k L f pool premultiply store into = Returned Ok out
  end.
Proof.
  intros. apply (generic_resize_with_alpha_cases 4 (rgba_engine_f32 k L f)); [|apply alpha_nofail_f32].
  apply (ce_nofail _ _ _ _ _ _ _ (engine_f32_conv k L f 4 premul_f32 unpremul_f32 alpha_needed_f32)).
Qed.
Print Assumptions C04_refusals_rgba_f32.

Theorem C05_failure_is_clean_u16 : forall k L f N pool premultiply (store into out : image Z) e,
  resize_u16 k L f N pool store into = Returned (Err e) out \/
  (N = 4 /\ resize_rgba_u16 k L f pool premultiply store into = Returned (Err e) out) -> out = into.
Proof.
  intros k L f N pool pm store into out e [H|[-> H]].
  - pose proof (C04_refusals_u16 k L f N pool store into) as C.
    destruct (first_error _); [congruence|]. destruct C as [C|[o C]]; congruence.
  - pose proof (C04_refusals_rgba_u16 k L f pool pm store into) as C.
    destruct (first_error _); [congruence|]. destruct C as [C|[o C]]; congruence.
Qed.
Print Assumptions C05_failure_is_clean_u16.
Theorem C05_failure_is_clean_f32 : forall k L f N pool premultiply (store into out : image f32) e,
  resize_f32 k L f N pool store into = Returned (Err e) out \/
  (N = 4 /\ resize_rgba_f32 k L f pool premultiply store into = Returned (Err e) out) -> out = into.
Proof.
  intros k L f N pool pm store into out e [H|[-> H]].
  - pose proof (C04_refusals_f32 k L f N pool store into) as C.
    destruct (first_error _); [congruence|]. destruct C as [C|[o C]]; congruence.
  - pose proof (C04_refusals_rgba_f32 k L f pool pm store into) as C.
    destruct (first_error _); [congruence|]. destruct C as [C|[o C]]; congruence.
Qed.
Print Assumptions C05_failure_is_clean_f32.
Example C05_u16_nonvacuous : forall k L,
  resize_u16 k L Lanczos3 1 None (deep 1 1 1 16 [5]%Z) (deep 2 1 2 17 [7; 8]%Z) = Returned (Err (UnsupportedBitDepth 17)) (deep 2 1 2 17 [7; 8]%Z).
Proof. intros. reflexivity. Qed.

(** ** C06 *)
Theorem C06_same_size_u16_partial : forall k L f N pool (store into : image Z),
  valid_call N true f store into -> width store = width into -> height store = height into ->
  exists out, resize_u16 k L f N pool store into = Returned Ok out /\ same_picture N store out /\
    width out = width into /\ height out = height into /\ stride out = stride into /\ bit_depth out = bit_depth into.
Proof. intros k L f N pool store into V. exact (g_same L f N true _ _ _ (engine_u16_conv k L f N _ _ _) pool store into V). Qed.
Print Assumptions C06_same_size_u16_partial.
Theorem C06_same_size_f32_partial : forall k L f N pool (store into : image f32),
  valid_call N false f store into -> width store = width into -> height store = height into ->
  exists out, resize_f32 k L f N pool store into = Returned Ok out /\ same_picture N store out /\
    width out = width into /\ height out = height into /\ stride out = stride into /\ bit_depth out = bit_depth into.
Proof. intros k L f N pool store into V. exact (g_same L f N false _ _ _ (engine_f32_conv k L f N _ _ _) pool store into V). Qed.
Print Assumptions C06_same_size_f32_partial.

(** The alpha-aware calls: same size is a copy whatever the flag. *)
Theorem C06_same_size_rgba : forall (T : Type) (E : engine T f32) pool premultiply (store into : image T),
  width store = width into -> height store = height into ->
  generic_resize_with_alpha 4 E pool premultiply store into = generic_resize 4 E pool store into.
Proof. intros. now apply with_alpha_same_g. Qed.
Print Assumptions C06_same_size_rgba.

(** ** C08 *)
Theorem C08_nearest_u16_partial : forall k L N pool (store into : image Z),
  valid_call N true Nearest store into -> changes_size store into -> pool_ok pool ->
  stride store = width store * N -> stride into = width into * N ->
  exists cx cy out, resize_u16 k L Nearest N pool store into = Returned Ok out /\ only_pixels_differ N into out /\
    (forall x, x < width into -> cx x < width store) /\ (forall y, y < height into -> cy y < height store) /\
    (forall x x', x <= x' -> x' < width into -> cx x <= cx x') /\ (forall y y', y <= y' -> y' < height into -> cy y <= cy y') /\
    forall x y c, x < width into -> y < height into -> c < N -> sample N out x y c = sample N store (cx x) (cy y) c.
Proof. intros k L N pool store into. exact (g_nearest L N true _ _ _ pool store into (engine_u16_conv k L Nearest N _ _ _)). Qed.
Print Assumptions C08_nearest_u16_partial.
Theorem C08_nearest_f32_partial : forall k L N pool (store into : image f32),
  valid_call N false Nearest store into -> changes_size store into -> pool_ok pool ->
  stride store = width store * N -> stride into = width into * N ->
  exists cx cy out, resize_f32 k L Nearest N pool store into = Returned Ok out /\ only_pixels_differ N into out /\
    (forall x, x < width into -> cx x < width store) /\ (forall y, y < height into -> cy y < height store) /\
    (forall x x', x <= x' -> x' < width into -> cx x <= cx x') /\ (forall y y', y <= y' -> y' < height into -> cy y <= cy y') /\
    forall x y c, x < width into -> y < height into -> c < N -> sample N out x y c = sample N store (cx x) (cy y) c.
Proof. intros k L N pool store into. exact (g_nearest L N false _ _ _ pool store into (engine_f32_conv k L Nearest N _ _ _)). Qed.
Print Assumptions C08_nearest_f32_partial.

(** ** C10 *)
Theorem C10_valid_calls_succeed_u16 : forall k L f N pool (store into : image Z),
  f <> Nearest -> valid_call N true f store into -> pool_ok pool ->
  exists out, resize_u16 k L f N pool store into = Returned Ok out.
Proof. intros k L f N pool store into Hf V P. exact (g_success L f N true _ _ _ (engine_u16_conv k L f N _ _ _) pool store into Hf V P). Qed.
Print Assumptions C10_valid_calls_succeed_u16.
Theorem C10_valid_calls_succeed_f32 : forall k L f N pool (store into : image f32),
  f <> Nearest -> valid_call N false f store into -> pool_ok pool ->
  exists out, resize_f32 k L f N pool store into = Returned Ok out.
Proof. intros k L f N pool store into Hf V P. exact (g_success L f N false _ _ _ (engine_f32_conv k L f N _ _ _) pool store into Hf V P). Qed.
Print Assumptions C10_valid_calls_succeed_f32.
Example C10_u16_nonvacuous : valid_call 1 true Lanczos3 (deep 2 1 3 16 [1; 65535; 9]%Z) (deep 3 2 4 16 (repeat 0%Z 8)) /\
  valid_call 1 false Lanczos3 (mkImage [f1; fhalf] 1 2 1 2 0) (mkImage [f0; f0; f0] 1 3 1 3 0).
Proof. split; [deep_tac|]. constructor; cbn [width height stride buf channels bit_depth length]; unfold fits_usize, usize_mod; repeat split; try lia; discriminate. Qed.

(** ** C11 for depths up to 12: the integer convolution *)
Definition two_pass_u16 L f (store into : image Z) (p : picture) : picture :=
  resample (max_colors (bit_depth into)) (negb (height store =? height into)) (negb (width store =? width into))
    (filter_windows (resampling_filter L f) (height store) (height into))
    (filter_windows (resampling_filter L f) (width store) (width into)) p.

Lemma low_max (im : image Z) : 1 <= bit_depth im -> bit_depth im <= 12 -> (1 <= max_colors (bit_depth im) <= 4095)%Z.
Proof.
  intros H1 H2. unfold max_colors. set (d := bit_depth im) in *. clearbody d.
  assert (2 ^ 1 <= 2 ^ Z.of_nat d <= 2 ^ 12)%Z by (split; apply Z.pow_le_mono_r; lia). lia.
Qed.

Theorem C11_convolution_u16_averaging : forall k L f N pool (store into : image Z),
  averaging f = true -> f <> Nearest -> bit_depth into <= 12 ->
  valid_call N true f store into -> changes_size store into -> pool_ok pool -> samples_in (max_colors (bit_depth into)) (buf store) ->
  exists out, resize_u16 k L f N pool store into = Returned Ok out /\ only_pixels_differ N into out /\
    shows N out (two_pass_u16 L f store into (picture_of N store)).
Proof.
  intros k L f N pool store into A Hf Hd V D P S. pose proof (low_max into ltac:(apply V; reflexivity) Hd).
  unfold resize_u16. rewrite u16_low by auto.
  apply (paint_closed L f N (max_colors (bit_depth into)) true); auto; try lia. apply averaging_no_overflow with N true; auto; lia.
Qed.
Print Assumptions C11_convolution_u16_averaging.
Theorem C11_convolution_u16_partial : forall k L f N pool (store into : image Z),
  f <> Nearest -> bit_depth into <= 12 ->
  valid_call N true f store into -> changes_size store into -> pool_ok pool -> samples_in (max_colors (bit_depth into)) (buf store) ->
  downscale_at_most 2 store into ->
  exists out, resize_u16 k L f N pool store into = Returned Ok out /\ only_pixels_differ N into out /\
    shows N out (two_pass_u16 L f store into (picture_of N store)).
Proof.
  intros k L f N pool store into Hf Hd V D P S Dn. pose proof (low_max into ltac:(apply V; reflexivity) Hd).
  unfold resize_u16. rewrite u16_low by auto.
  apply (paint_closed L f N (max_colors (bit_depth into)) true); auto; try lia. apply any_no_overflow with N true 2%Z; auto; try lia.
Qed.
Print Assumptions C11_convolution_u16_partial.

(** ** C11 for depths 13..16, C38 for f32: every sample is the float expression of its
    windows, whatever kernel computes it, for every filter and size. *)
Theorem C11_convolution_deep : forall k L f N pool (store into : image Z),
  f <> Nearest -> valid_call N true f store into -> changes_size store into -> pool_ok pool -> 12 < bit_depth into ->
  exists out, resize_u16 k L f N pool store into = Returned Ok out /\ only_pixels_differ N into out /\
    shows N out (float_resample f0 fmul (mlaf k) u16_as_f32 (to_mixed_u16 (bit_depth into))
      (negb (height store =? height into)) (negb (width store =? width into))
      (filter_taps (resampling_filter L f) (height store) (height into))
      (filter_taps (resampling_filter L f) (width store) (width into)) (picture_of N store)).
Proof. exact deep_paints. Qed.
Print Assumptions C11_convolution_deep.

Theorem C38_f32_expression : forall k L f N pool (store into : image f32),
  f <> Nearest -> valid_call N false f store into -> changes_size store into -> pool_ok pool ->
  exists out, resize_f32 k L f N pool store into = Returned Ok out /\ only_pixels_differ N into out /\
    shows N out (float_resample f0 fmul (mlaf k) (fun v => v) (fun v => v)
      (negb (height store =? height into)) (negb (width store =? width into))
      (filter_taps (resampling_filter L f) (height store) (height into))
      (filter_taps (resampling_filter L f) (width store) (width into))
      (fun y x c => nth (y * stride store + (x * N + c)) (buf store) f0)).
Proof.
  intros k L f N pool store into Hf V D P.
  destruct (g_paints L f N false _ _ _ (engine_f32_conv k L f N (fun _ _ _ => Panic) (fun _ _ => Panic) (fun _ => Panic)) pool store into Hf V D P) as (out & R & O & S).
  exists out. split; [exact R|]. split; [exact O|].
  intros x y c Hx Hy Hc. rewrite S by (rewrite ?(opd_width _ _ _ O), ?(opd_height _ _ _ O) in *; auto). reflexivity.
Qed.
Print Assumptions C38_f32_expression.

(** ** C12 (and C38: 4-row against 1-row code) *)
Theorem C12_rows_are_independent_u16 : forall k L f N pool pool' (store into out out' : image Z) y,
  f <> Nearest -> valid_call N true f store into -> pool_ok pool -> pool_ok pool' ->
  height store = height into -> width store <> width into -> y < height into ->
  resize_u16 k L f N pool store into = Returned Ok out ->
  resize_u16 k L f N pool' (row_image store y) (row_image into y) = Returned Ok out' ->
  forall x c, x < width into -> c < N -> sample N out x y c = sample N out' x 0 c.
Proof.
  intros k L f N. exact (g_rows L f N true _ _ _ (engine_u16_conv k L f N _ _ _) (fun d fw p y x c y' => u16_h_row k d fw p y x c y')).
Qed.
Print Assumptions C12_rows_are_independent_u16.
Theorem C12_rows_are_independent_f32 : forall k L f N pool pool' (store into out out' : image f32) y,
  f <> Nearest -> valid_call N false f store into -> pool_ok pool -> pool_ok pool' ->
  height store = height into -> width store <> width into -> y < height into ->
  resize_f32 k L f N pool store into = Returned Ok out ->
  resize_f32 k L f N pool' (row_image store y) (row_image into y) = Returned Ok out' ->
  forall x c, x < width into -> c < N -> sample N out x y c = sample N out' x 0 c.
Proof.
  intros k L f N. exact (g_rows L f N false _ _ _ (engine_f32_conv k L f N _ _ _) (fun d fw p y x c y' => f32_h_row k d fw p y x c y')).
Qed.
Print Assumptions C12_rows_are_independent_f32.

(** ** C13 *)
Theorem C13_schedule_independent_u16 : forall k L f N pool premultiply (store into : image Z), pool_ok pool ->
  resize_u16 k L f N pool store into = resize_u16 k L f N None store into /\
  resize_rgba_u16 k L f pool premultiply store into = resize_rgba_u16 k L f None premultiply store into.
Proof.
  intros k L f N pool pm store into P. split.
  - apply generic_resize_pool; auto. apply (ce_pool _ _ _ _ _ _ _ (engine_u16_conv k L f N _ _ _)).
  - apply generic_resize_with_alpha_pool; auto.
    + apply (ce_pool _ _ _ _ _ _ _ (engine_u16_conv k L f 4 _ _ _)).
    + apply pool_blind_alpha_u16.
Qed.
Print Assumptions C13_schedule_independent_u16.
Theorem C13_schedule_independent_f32 : forall k L f N pool premultiply (store into : image f32), pool_ok pool ->
  resize_f32 k L f N pool store into = resize_f32 k L f N None store into /\
  resize_rgba_f32 k L f pool premultiply store into = resize_rgba_f32 k L f None premultiply store into.
Proof.
  intros k L f N pool pm store into P. split.
  - apply generic_resize_pool; auto. apply (ce_pool _ _ _ _ _ _ _ (engine_f32_conv k L f N _ _ _)).
  - apply generic_resize_with_alpha_pool; auto.
    + apply (ce_pool _ _ _ _ _ _ _ (engine_f32_conv k L f 4 _ _ _)).
    + apply pool_blind_alpha_f32.
Qed.
Print Assumptions C13_schedule_independent_f32.

(** ** C14 *)
Theorem C14_padding_u16_partial : forall k L f N pool (store into out : image Z),
  f <> Nearest -> valid_call N true f store into -> changes_size store into -> pool_ok pool ->
  resize_u16 k L f N pool store into = Returned Ok out -> only_pixels_differ N into out.
Proof. intros k L f N. exact (g_padding L f N true _ _ _ (engine_u16_conv k L f N _ _ _)). Qed.
Print Assumptions C14_padding_u16_partial.
Theorem C14_padding_f32_partial : forall k L f N pool (store into out : image f32),
  f <> Nearest -> valid_call N false f store into -> changes_size store into -> pool_ok pool ->
  resize_f32 k L f N pool store into = Returned Ok out -> only_pixels_differ N into out.
Proof. intros k L f N. exact (g_padding L f N false _ _ _ (engine_f32_conv k L f N _ _ _)). Qed.
Print Assumptions C14_padding_f32_partial.

(** ** C15, C19: only samples of the same channel inside the windows matter *)
Theorem C19_locality_u16 : forall k L f N pool pool' (store store' into into' out out' : image Z) x y c,
  f <> Nearest -> valid_call N true f store into -> valid_call N true f store' into' -> pool_ok pool -> pool_ok pool' ->
  width store = width store' -> height store = height store' -> width into = width into' -> height into = height into' ->
  bit_depth into = bit_depth into' -> changes_size store into ->
  resize_u16 k L f N pool store into = Returned Ok out -> resize_u16 k L f N pool' store' into' = Returned Ok out' ->
  x < width into -> y < height into -> c < N ->
  (forall sx sy, in_window (resampling_filter L f) store into x y sx sy -> sample N store sx sy c = sample N store' sx sy c) ->
  sample N out x y c = sample N out' x y c.
Proof. intros k L f N. exact (g_local L f N true _ _ _ (engine_u16_conv k L f N _ _ _)). Qed.
Print Assumptions C19_locality_u16.
Theorem C19_locality_f32 : forall k L f N pool pool' (store store' into into' out out' : image f32) x y c,
  f <> Nearest -> valid_call N false f store into -> valid_call N false f store' into' -> pool_ok pool -> pool_ok pool' ->
  width store = width store' -> height store = height store' -> width into = width into' -> height into = height into' ->
  bit_depth into = bit_depth into' -> changes_size store into ->
  resize_f32 k L f N pool store into = Returned Ok out -> resize_f32 k L f N pool' store' into' = Returned Ok out' ->
  x < width into -> y < height into -> c < N ->
  (forall sx sy, in_window (resampling_filter L f) store into x y sx sy -> sample N store sx sy c = sample N store' sx sy c) ->
  sample N out x y c = sample N out' x y c.
Proof. intros k L f N. exact (g_local L f N false _ _ _ (engine_f32_conv k L f N _ _ _)). Qed.
Print Assumptions C19_locality_f32.

Theorem C15_only_visible_samples_matter_u16_partial : forall k L f N pool (store store' into into' out out' : image Z),
  f <> Nearest -> valid_call N true f store into -> valid_call N true f store' into' -> pool_ok pool ->
  same_picture N store store' -> width into = width into' -> height into = height into' -> bit_depth into = bit_depth into' ->
  changes_size store into ->
  resize_u16 k L f N pool store into = Returned Ok out -> resize_u16 k L f N pool store' into' = Returned Ok out' ->
  forall x y c, x < width into -> y < height into -> c < N -> sample N out x y c = sample N out' x y c.
Proof.
  intros k L f N pool store store' into into' out out' Hf V V' P (W & H & S) W2 H2 B2 D R R' x y c Hx Hy Hc.
  apply (C19_locality_u16 k L f N pool pool store store' into into' out out' x y c); auto.
  intros sx sy Hin. destruct (in_window_bounds L N true f store into x y sx sy V Hx Hy Hin). now apply S.
Qed.
Print Assumptions C15_only_visible_samples_matter_u16_partial.

(** ** C16: 16-bit results stay in 0..2^depth-1, whatever the weights *)
Theorem C16_range_u16 : forall k L f N pool (store into out : image Z) x y c,
  f <> Nearest -> valid_call N true f store into -> pool_ok pool -> changes_size store into ->
  resize_u16 k L f N pool store into = Returned Ok out ->
  x < width into -> y < height into -> c < N -> exists v, sample N out x y c = Some v /\ (0 <= v <= 2 ^ Z.of_nat (bit_depth into) - 1)%Z.
Proof.
  intros k L f N pool store into out x y c Hf V P D R Hx Hy Hc.
  change (2 ^ Z.of_nat (bit_depth into) - 1)%Z with (max_colors (bit_depth into)).
  destruct (le_lt_dec (bit_depth into) 12) as [Hd|Hd].
  - unfold resize_u16 in R. rewrite u16_low in R by auto. pose proof (low_max into ltac:(apply V; reflexivity) Hd).
    exact (call_range L f N (max_colors (bit_depth into)) true no_premul no_unpremul no_alpha ltac:(lia) Hf pool store into out x y c V P D R Hx Hy Hc).
  - destruct (deep_paints k L f N pool store into Hf V D P Hd) as (o & R' & O & S). rewrite R in R'. inversion R'; subst o.
    eexists. split; [apply S; rewrite ?(opd_width _ _ _ O), ?(opd_height _ _ _ O); auto|].
    assert (B : 1 <= bit_depth into <= 16) by (apply V; reflexivity).
    unfold u16_resample, float_resample.
    destruct (Nat.eqb_spec (width store) (width into)) as [Ew|Ew]; cbn [negb]; [|apply to_mixed_range; auto].
    destruct (Nat.eqb_spec (height store) (height into)) as [Eh|Eh]; cbn [negb]; [|apply to_mixed_range; auto].
    exfalso. destruct D; contradiction.
Qed.
Print Assumptions C16_range_u16.

(** ** C18, C20 for deep images: averaging filters, at most 15 times smaller.  Results
    are never below the smallest source sample of the channel, and above the largest by
    at most one unit per resampled direction (the conversion rounds up). *)
Theorem C20_extremes_deep_partial : forall k L f N pool (store into out : image Z) c m M,
  averaging f = true -> f <> Nearest -> 12 < bit_depth into ->
  valid_call N true f store into -> pool_ok pool -> changes_size store into ->
  resize_u16 k L f N pool store into = Returned Ok out ->
  downscale_at_most 15 store into -> (0 <= m <= M)%Z -> (M <= max_colors (bit_depth into))%Z ->
  c < N -> (forall x y v, x < width store -> y < height store -> sample N store x y c = Some v -> (m <= v <= M)%Z) ->
  forall x y r, x < width into -> y < height into -> sample N out x y c = Some r ->
  (m <= r <= Z.min (M + 2) (max_colors (bit_depth into)))%Z /\
  ((width store = width into \/ height store = height into) -> (r <= M + 1)%Z).
Proof.
  intros k L f N pool store into out c m M A Hf Hd V P D R Dn Hm HM Hc B x y r Hx Hy Hs.
  destruct (deep_paints k L f N pool store into Hf V D P Hd) as (o & R' & O & S). rewrite R in R'. inversion R'; subst o.
  rewrite S in Hs by (rewrite ?(opd_width _ _ _ O), ?(opd_height _ _ _ O); auto). inversion Hs; subst r.
  destruct (valid_sides V) as [Sd1 Sd2]. destruct (valid_good V) as [G1 G2].
  apply (resample_bounds k L f (bit_depth into) A ltac:(apply V; reflexivity) store into 15 Sd1 Sd2 Dn (picture_of N store) m M c); auto; try lia.
  intros sy sx Hsy Hsx. apply (B sx sy); auto. apply good_sample; auto.
Qed.
Print Assumptions C20_extremes_deep_partial.

Theorem C18_constant_deep_partial : forall k L f N pool (store into out : image Z) c v,
  averaging f = true -> f <> Nearest -> 12 < bit_depth into ->
  valid_call N true f store into -> pool_ok pool -> changes_size store into ->
  resize_u16 k L f N pool store into = Returned Ok out ->
  downscale_at_most 15 store into -> (0 <= v <= max_colors (bit_depth into))%Z ->
  c < N -> (forall x y, x < width store -> y < height store -> sample N store x y c = Some v) ->
  forall x y, x < width into -> y < height into ->
  exists r, sample N out x y c = Some r /\ (v <= r <= v + 2)%Z /\ (r <= max_colors (bit_depth into))%Z /\
    ((width store = width into \/ height store = height into) -> (r <= v + 1)%Z).
Proof.
  intros k L f N pool store into out c v A Hf Hd V P D R Dn Hv Hc Cst x y Hx Hy.
  destruct (C16_range_u16 k L f N pool store into out x y c Hf V P D R Hx Hy Hc) as (r & E & Rg).
  exists r. split; [exact E|].
  destruct (C20_extremes_deep_partial k L f N pool store into out c v v A Hf Hd V P D R Dn ltac:(lia) ltac:(lia) Hc) with (x := x) (y := y) (r := r) as [K1 K2]; auto.
  { intros x' y' v' H1 H2 H3. rewrite Cst in H3 by auto. inversion H3. lia. }
  split; [lia|]. split; [lia|]. intro H. now apply K2.
Qed.
Print Assumptions C18_constant_deep_partial.

(** Constant 16-bit images brighten: 40000 becomes 40001, and a gray just below white becomes white. *)
Theorem C18_constant_deep_refuted :
  valid_call 1 true Bilinear (deep 3 1 3 16 [40000; 40000; 40000]%Z) (deep 2 1 2 16 [0; 0]%Z) /\
  forall k L, exists out, resize_u16 k L Bilinear 1 None (deep 3 1 3 16 [40000; 40000; 40000]%Z) (deep 2 1 2 16 [0; 0]%Z) = Returned Ok out /\
    In 40001%Z (buf out).
Proof.
  split; [deep_tac|]. intros k L. destruct k; eexists; (split; [vm_compute; reflexivity|cbn; tauto]).
Qed.
Print Assumptions C18_constant_deep_refuted.

Theorem C20_monotone_deep_partial : forall k L f N pool (store store' into out out' : image Z),
  averaging f = true -> f <> Nearest -> 12 < bit_depth into ->
  valid_call N true f store into -> valid_call N true f store' into -> pool_ok pool ->
  width store = width store' -> height store = height store' -> changes_size store into ->
  samples_in 65535 (buf store) -> samples_in 65535 (buf store') -> downscale_at_most 10000 store into ->
  resize_u16 k L f N pool store into = Returned Ok out -> resize_u16 k L f N pool store' into = Returned Ok out' ->
  forall c, c < N ->
  (forall x y a b, x < width store -> y < height store -> sample N store x y c = Some a -> sample N store' x y c = Some b -> (a <= b)%Z) ->
  forall x y a b, x < width into -> y < height into ->
  sample N out x y c = Some a -> sample N out' x y c = Some b -> (a <= b)%Z.
Proof.
  intros k L f N pool store store' into out out' A Hf Hd V V' P W H D S S' Dn R R' c Hc Le x y a b Hx Hy Ha Hb.
  assert (D' : changes_size store' into) by (unfold changes_size in *; now rewrite <- W, <- H).
  destruct (deep_paints k L f N pool store into Hf V D P Hd) as (o & R1 & O & Sh). rewrite R in R1. inversion R1; subst o.
  destruct (deep_paints k L f N pool store' into Hf V' D' P Hd) as (o & R2 & O' & Sh'). rewrite R' in R2. inversion R2; subst o.
  rewrite Sh in Ha by (rewrite ?(opd_width _ _ _ O), ?(opd_height _ _ _ O); auto).
  rewrite Sh' in Hb by (rewrite ?(opd_width _ _ _ O'), ?(opd_height _ _ _ O'); auto).
  inversion Ha; inversion Hb; subst a b.
  destruct (valid_sides V) as [Sd1 Sd2]. destruct (valid_good V) as [G1 G2]. destruct (valid_good V') as [G1' _].
  replace (u16_resample k L f (bit_depth into) store' into) with (u16_resample k L f (bit_depth into) store into)
    by (unfold u16_resample; now rewrite W, H).
  apply (resample_mono_deep k L f (bit_depth into) A ltac:(apply V; reflexivity) store into 10000 Sd1 Sd2 Dn); auto; try lia.
  intros sy sx Hsy Hsx.
  pose proof (good_sample N store sx sy c G1 Hsx Hsy Hc) as K.
  pose proof (good_sample N store' sx sy c G1' ltac:(lia) ltac:(lia) Hc) as K'.
  pose proof (Le sx sy _ _ Hsx Hsy K K').
  unfold sample in K, K'. apply nth_error_In in K. apply nth_error_In in K'.
  unfold samples_in in S, S'. rewrite Forall_forall in S, S'. pose proof (S _ K). pose proof (S' _ K'). lia.
Qed.
Print Assumptions C20_monotone_deep_partial.

(** ** C18, C20 for depths up to 12 *)
Theorem C20_monotone_u16 : forall k L f N pool (store store' into out out' : image Z),
  averaging f = true -> f <> Nearest -> bit_depth into <= 12 ->
  valid_call N true f store into -> valid_call N true f store' into -> pool_ok pool ->
  width store = width store' -> height store = height store' -> changes_size store into ->
  samples_in (max_colors (bit_depth into)) (buf store) -> samples_in (max_colors (bit_depth into)) (buf store') ->
  resize_u16 k L f N pool store into = Returned Ok out -> resize_u16 k L f N pool store' into = Returned Ok out' ->
  forall c, c < N ->
  (forall x y a b, x < width store -> y < height store -> sample N store x y c = Some a -> sample N store' x y c = Some b -> (a <= b)%Z) ->
  forall x y a b, x < width into -> y < height into ->
  sample N out x y c = Some a -> sample N out' x y c = Some b -> (a <= b)%Z.
Proof.
  intros k L f N pool store store' into out out' A Hf Hd V V' P W H D S S' R R'.
  pose proof (low_max into ltac:(apply V; reflexivity) Hd). unfold resize_u16 in R, R'. rewrite u16_low in R, R' by auto.
  exact (call_mono L f N (max_colors (bit_depth into)) true no_premul no_unpremul no_alpha pool store store' into out out' ltac:(lia) A Hf V V' P W H D S S' R R').
Qed.
Print Assumptions C20_monotone_u16.
Theorem C20_extremes_u16_partial : forall k L f N pool (store into out : image Z) c m M,
  averaging f = true -> f <> Nearest -> bit_depth into <= 12 ->
  valid_call N true f store into -> pool_ok pool -> changes_size store into -> samples_in (max_colors (bit_depth into)) (buf store) ->
  resize_u16 k L f N pool store into = Returned Ok out ->
  downscale_at_most 3 store into -> (0 <= m)%Z -> (M <= max_colors (bit_depth into))%Z ->
  c < N -> (forall x y v, x < width store -> y < height store -> sample N store x y c = Some v -> (m <= v <= M)%Z) ->
  forall x y r, x < width into -> y < height into -> sample N out x y c = Some r ->
  (m - 1 <= r <= M)%Z /\ (height store = height into -> (m <= r)%Z).
Proof.
  intros k L f N pool store into out c m M A Hf Hd V P D S R Dn Hm HM Hc B.
  pose proof (low_max into ltac:(apply V; reflexivity) Hd). unfold resize_u16 in R. rewrite u16_low in R by auto.
  exact (call_bounds L f N (max_colors (bit_depth into)) true no_premul no_unpremul no_alpha pool store into out 3%Z c m M ltac:(lia) A Hf V P D S R ltac:(lia) Dn Hm HM ltac:(lia) Hc B).
Qed.
Print Assumptions C20_extremes_u16_partial.
Theorem C18_constant_u16_partial : forall k L f N pool (store into out : image Z) c v,
  averaging f = true -> f <> Nearest -> bit_depth into <= 12 ->
  valid_call N true f store into -> pool_ok pool -> changes_size store into -> samples_in (max_colors (bit_depth into)) (buf store) ->
  resize_u16 k L f N pool store into = Returned Ok out ->
  downscale_at_most 3 store into -> (0 <= v <= max_colors (bit_depth into))%Z ->
  c < N -> (forall x y, x < width store -> y < height store -> sample N store x y c = Some v) ->
  forall x y, x < width into -> y < height into ->
  exists r, sample N out x y c = Some r /\ (v - 1 <= r <= v)%Z /\ (height store = height into -> r = v).
Proof.
  intros k L f N pool store into out c v A Hf Hd V P D S R Dn Hv Hc Cst.
  pose proof (low_max into ltac:(apply V; reflexivity) Hd). unfold resize_u16 in R. rewrite u16_low in R by auto.
  exact (call_const L f N (max_colors (bit_depth into)) true no_premul no_unpremul no_alpha pool store into out 3%Z c v ltac:(lia) A Hf V P D S R ltac:(lia) Dn ltac:(lia) Hc Cst).
Qed.
Print Assumptions C18_constant_u16_partial.

(** ** C39 Deep images: the sum is rounded up, not to nearest *)
Theorem C39_round_to_nearest_refuted : forall k L,
  let store := deep 4 1 4 16 [0; 0; 0; 1]%Z in let into := deep 1 1 1 16 [0]%Z in
  let T := filter_taps (resampling_filter L Bilinear) 4 1 in
  valid_call 1 true Bilinear store into /\
  resize_u16 k L Bilinear 1 None store into = Returned Ok (deep 1 1 1 16 [1]%Z) /\
  tsize T 0 = 4 /\ tstart T 0 = 0 /\ exists w3, fin (tweight T 0 3) w3 /\ (0 < w3 < / 2)%R.
Proof.
  intros k L store into T. split; [unfold store, into; deep_tac|]. split; [destruct k; vm_compute; reflexivity|].
  split; [vm_compute; reflexivity|]. split; [vm_compute; reflexivity|].
  exists (IZR 13981014 * Flocq.Core.Raux.bpow Flocq.Core.Zaux.radix2 (-26))%R. split.
  - assert (Q : tweight T 0 3 = fZ 13981014 (-26)) by (apply f32_bits_inj; vm_compute; reflexivity). rewrite Q. apply fZ_exact; cbn; lia.
  - cbn. lra.
Qed.
Print Assumptions C39_round_to_nearest_refuted.

(** What the code does instead, for averaging filters and windows of at most 2^20 taps:
    the sum is accurate to n/64 (n = number of taps) and rounded up, then clamped. *)
Theorem C39_deep_sample_partial : forall k L f insz outsz o d (v : nat -> Z),
  averaging f = true -> sides_ok f insz outsz -> o < outsz -> 1 <= d <= 16 ->
  let T := filter_taps (resampling_filter L f) insz outsz in
  let n := tsize T o in
  (Z.of_nat n <= 2 ^ 20)%Z -> (forall i, i < n -> (0 <= v i <= 65535)%Z) ->
  exists (ws : list R) (s : R), length ws = n /\
    (forall i, i < n -> fin (tweight T o i) (nth i ws 0%R) /\ (0 <= nth i ws 0)%R) /\
    (Rabs (rsum ws - 1) <= (INR n + 2) * / 4194304)%R /\
    (Rabs (s - rsumn n (fun i => nth i ws 0 * IZR (v i))) <= INR n / 64)%R /\
    to_mixed_u16 d (weighted f0 fmul (mlaf k) n (fun i => u16_as_f32 (v i)) (tweight T o)) =
      Z.max 0 (Z.min (2 ^ Z.of_nat d - 1) (Flocq.Core.Raux.Zceil s)).
Proof.
  intros k L f insz outsz o d v A S Ho Hd T n Hn Hv.
  destruct (deep_sum k L f insz outsz o v 0 65535 A S Ho Hn Hv ltac:(lia) ltac:(lia) ltac:(lia)) as (ws & s & (R1 & R2 & R3 & R4) & F & E & _).
  exists ws, s. split; [exact R1|]. split.
  { intros i Hi. split; [now apply R2|]. rewrite Forall_forall in R3. apply R3, nth_In. rewrite R1. exact Hi. }
  split; [exact R4|]. split; [exact E|]. exact (to_mixed_fin d _ s Hd F).
Qed.
Print Assumptions C39_deep_sample_partial.
Example C39_nonvacuous : averaging Area = true /\ sides_ok Area 640 48 /\ 47 < 48.
Proof. repeat split; try lia. Qed.

Example C20_deep_nonvacuous : let store := deep 3 2 4 16 [1; 2; 3; 0; 65535; 65534; 0; 0]%Z in let into := deep 2 2 2 16 [0; 0; 0; 0]%Z in
  averaging Bilinear = true /\ 12 < bit_depth into /\ valid_call 1 true Bilinear store into /\ changes_size store into /\
  downscale_at_most 15 store into /\ samples_in 65535 (buf store).
Proof.
  cbv zeta. split; [reflexivity|]. split; [cbn; lia|]. split; [deep_tac|]. split; [left; cbn; lia|].
  split; [unfold downscale_at_most; cbn; lia|]. cbn. repeat constructor; lia.
Qed.

(** ** C41, C43 for 16-bit and f32 RGBA *)
Theorem C41_flag_off_is_plain_u16 : forall k L f pool (store into : image Z),
  resize_rgba_u16 k L f pool false store into = resize_u16 k L f 4 pool store into.
Proof. intros. unfold resize_rgba_u16. rewrite with_alpha_off. reflexivity. Qed.
Print Assumptions C41_flag_off_is_plain_u16.
Theorem C41_flag_off_is_plain_f32 : forall k L f pool (store into : image f32),
  resize_rgba_f32 k L f pool false store into = resize_f32 k L f 4 pool store into.
Proof. intros. unfold resize_rgba_f32. rewrite with_alpha_off. reflexivity. Qed.
Print Assumptions C41_flag_off_is_plain_f32.

Theorem C43_alpha_pipeline_u16 : forall k L f pool (store into : image Z),
  valid_call 4 true f store into -> changes_size store into -> f <> Nearest -> pool_ok pool -> samples_in 65535 (buf store) ->
  exists src mid out,
    (alpha_varies store -> pixelwise (premul_px_u16 (max_colors (bit_depth into))) store src) /\ (~ alpha_varies store -> src = store) /\
    valid_call 4 true f src into /\ width src = width store /\ height src = height store /\
    resize_u16 k L f 4 pool src into = Returned Ok mid /\ only_pixels_differ 4 into mid /\
    resize_rgba_u16 k L f pool true store into = Returned Ok out /\
    pixelwise (unpremul_px_u16 (max_colors (bit_depth into))) mid out /\ only_pixels_differ 4 into out.
Proof. exact rgba_pipeline_u16. Qed.
Print Assumptions C43_alpha_pipeline_u16.
(** f32: premultiplication keeps alpha and multiplies colours by it; afterwards colours
    are multiplied by 1/alpha, or set to zero under zero alpha. *)
Theorem C43_alpha_pipeline_f32 : forall k L f pool (store into : image f32),
  valid_call 4 false f store into -> changes_size store into -> f <> Nearest -> pool_ok pool ->
  exists src mid out,
    (alpha_varies store -> pixelwise (fun r g b a => [fmul r a; fmul g a; fmul b a; a]) store src) /\ (~ alpha_varies store -> src = store) /\
    valid_call 4 false f src into /\ width src = width store /\ height src = height store /\
    resize_f32 k L f 4 pool src into = Returned Ok mid /\ only_pixels_differ 4 into mid /\
    resize_rgba_f32 k L f pool true store into = Returned Ok out /\
    pixelwise (fun r g b a => if feqb a f0 then [f0; f0; f0; a]
                              else [fmul r (fdiv f1 a); fmul g (fdiv f1 a); fmul b (fdiv f1 a); a]) mid out /\
    only_pixels_differ 4 into out.
Proof. exact rgba_pipeline_f32. Qed.
Print Assumptions C43_alpha_pipeline_f32.

(** ** C44 for f32: the alpha channel of the alpha-aware resize is that of the plain one. *)
Theorem C44_alpha_channel_f32 : forall k L f pool (store into plain out : image f32),
  valid_call 4 false f store into -> changes_size store into -> f <> Nearest -> pool_ok pool ->
  resize_rgba_f32 k L f pool false store into = Returned Ok plain ->
  resize_rgba_f32 k L f pool true store into = Returned Ok out ->
  forall x y, x < width into -> y < height into -> alpha_at out x y = alpha_at plain x y.
Proof. exact alpha_channel_f32. Qed.
Print Assumptions C44_alpha_channel_f32.
Example C44_f32_nonvacuous : let store := mkImage [f1; f1; f1; f1; f0; f1; fhalf; fhalf] 4 2 1 8 0 in
  let into := mkImage (repeat f0 12) 4 3 1 12 0 in
  valid_call 4 false Lanczos3 store into /\ changes_size store into /\ alpha_varies store.
Proof.
  cbv zeta. split.
  - constructor; cbn [width height stride buf channels bit_depth length repeat]; unfold fits_usize, usize_mod; repeat split; try lia; discriminate.
  - split; [left; cbn; lia|]. exists 0, 0, 1, 0. cbn [width height]. repeat split; try lia. unfold alpha_at, sample. cbn. discriminate.
Qed.
