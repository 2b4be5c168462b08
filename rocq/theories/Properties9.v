(** C34, C35, C52-C56: 8-bit images on x86-64 (default features), for every combination of
    detected instruction sets and both workload strategies.
    [resize_u8_x86 c s L f N pool store into] is the call on a processor reporting [c], with
    strategy [s]; [resize_u8] is the same call in a build without vector code.
    [tame f store into]: the filter is averaging, or each side shrinks at most 21 times. *)
From Coq Require Import ZArith List Bool Lia ZifyBool ZifyNat.
From Verif Require Import Base BaseProofs ImageStore FixedPoint Dispatch Resize Spec F32 Weights Sampler Api SpecApi ImageProofs NoFail
  KernelProofs PoolProofs DispatchProofs PortableProofs SamplerProofs Center QuantSums ApiProofs Witness Alpha
  X86Dispatch SpecX86 X86DispatchProofs X86Calls X86Facts X86NoFail.
Import ListNotations.
Local Open Scope nat_scope.

(** Processors. *)
Definition modern : cpu := mkCpu true true.      (* SSE4.1 and AVX2 *)
Definition pre_avx2 : cpu := mkCpu true false.   (* SSE4.1 only *)
Definition rgb_image (w h : nat) (b : list Z) : image Z := mkImage b 3 w h (3 * w) 0.
Definition rgba_image (w h : nat) (b : list Z) : image Z := mkImage b 4 w h (4 * w) 0.

(** ** C34 Only supported instructions are executed: every valid call completes, except
    RGBA images under PreferSpeed on processors without AVX2 when the width changes and is
    not divided by 8 or more. *)
Theorem C34_supported_instructions_partial : forall c s L f N pool (store into : image Z),
  valid_call N false f store into -> pool_ok pool -> f <> Nearest -> changes_size store into ->
  samples_in 255 (buf store) -> tame f store into ->
  (N = 4 -> s = PreferSpeed -> avx2 c = false -> width store <> width into -> 8 * width into <= width store) ->
  exists out, resize_u8_x86 c s L f N pool store into = Returned Ok out.
Proof.
  intros c s L f N pool store into V P Hf D B T H. rewrite x86_call; auto; [eauto|].
  unfold traps, below_8. destruct (Nat.eqb_spec N 4) as [E|]; [|reflexivity]. destruct s; cbn [speed]; [rewrite ?andb_false_r; reflexivity|].
  destruct (avx2 c); [rewrite ?andb_false_r; reflexivity|]. specialize (H E eq_refl eq_refl).
  destruct (Nat.eqb_spec (width store) (width into)) as [E2|E2]; [rewrite ?andb_false_r; reflexivity|]. specialize (H E2). lia.
Qed.
Print Assumptions C34_supported_instructions_partial.
Example C34_nonvacuous : let store := rgba_image 4 2 (repeat 200%Z 32) in let into := rgba_image 4 3 (repeat 0%Z 48) in
  valid_call 4 false Bilinear store into /\ changes_size store into /\ samples_in 255 (buf store) /\ tame Bilinear store into.
Proof.
  cbv zeta. unfold rgba_image. split; [valid_tac|]. split; [right; cbn; lia|]. split; [cbn; repeat constructor; lia|left; reflexivity].
Qed.

(** In the excepted calls the AVX2 kernel is selected and run on a processor without AVX2
    (for every image, filter and pool).  Undefined behaviour is [Panicked] in the model. *)
Theorem C34_supported_instructions_refuted : forall c L f pool (store into : image Z),
  valid_call 4 false f store into -> pool_ok pool -> f <> Nearest ->
  samples_in 255 (buf store) -> tame f store into ->
  avx2 c = false -> width store <> width into -> width store < 8 * width into ->
  select_h 4 c PreferSpeed store into = HRgbaAvxLb /\ h_runs_on c HRgbaAvxLb = false /\
  resize_u8_x86 c PreferSpeed L f 4 pool store into = Panicked.
Proof.
  intros c L f pool store into V P Hf B T A E W. split; [|split; [exact A|]].
  - destruct (vc_src _ _ _ _ _ V) as (w0 & h0 & _). destruct (valid_sides V) as (_ & S2).
    unfold select_h, rgba_hkernel. rewrite factor_below_8_ok; [|destruct S2; lia..]. unfold below_8.
    replace (width store <? 8 * width into) with true by lia. rewrite orb_true_r. reflexivity.
  - destruct (tame_narrow L f 4 store into V T) as (N1 & N2).
    apply x86_traps; auto. unfold traps, below_8. rewrite A. cbn [Nat.eqb speed negb andb].
    replace (width store <? 8 * width into) with true by lia. replace (width store =? width into) with false by lia. reflexivity.
Qed.
Print Assumptions C34_supported_instructions_refuted.
Example C34_refuted_nonvacuous : let store := rgba_image 4 2 (repeat 200%Z 32) in let into := rgba_image 3 3 (repeat 0%Z 36) in
  valid_call 4 false Lanczos3 store into /\ Lanczos3 <> Nearest /\ samples_in 255 (buf store) /\ tame Lanczos3 store into /\
  avx2 pre_avx2 = false /\ width store <> width into /\ width store < 8 * width into.
Proof.
  cbv zeta. unfold rgba_image. split; [valid_tac|]. split; [discriminate|]. split; [cbn; repeat constructor; lia|].
  split; [right; unfold downscale_at_most; cbn; lia|]. cbn; repeat split; lia.
Qed.

(** ** C52 The result on x86: every sample is given by a formula over the source picture and
    the quantised weights; nothing but pixels is written. *)
Theorem C52_x86_result_partial : forall c s L f N pool (store into : image Z),
  valid_call N false f store into -> pool_ok pool -> f <> Nearest -> changes_size store into ->
  samples_in 255 (buf store) -> tame f store into ->
  traps c s N (width store) (width into) = false ->
  exists out, resize_u8_x86 c s L f N pool store into = Returned Ok out /\ only_pixels_differ N into out /\
    shows N out (x86_resample c s N (width store) (height store) (width into) (height into)
      (vwin L f store into) (hwin L f store into) (picture_of N store)).
Proof.
  intros. rewrite x86_call by assumption. apply paints_result.
  - pose proof (vc_N _ _ _ _ _ H); lia.
  - apply (valid_good H).
Qed.
Print Assumptions C52_x86_result_partial.
Example C52_nonvacuous : traps modern PreferSpeed 4 4 3 = false /\ traps pre_avx2 PreferQuality 4 4 3 = false /\ traps pre_avx2 PreferSpeed 3 4 3 = false.
Proof. repeat split. Qed.
(** Nearest-neighbour and same-size calls: as without vector code, for all arguments. *)
Theorem C52_without_convolution : forall c s L f N pool (store into : image Z),
  f = Nearest \/ (width store = width into /\ height store = height into) ->
  resize_u8_x86 c s L f N pool store into = resize_u8 L f N pool store into.
Proof.
  intros c s L f N pool store into H. rewrite x86_is_generic. unfold resize_u8, generic_resize, x86_engine, scaler_engine, portable, checks.
  cbn [needs_depth is_nearest coord dflt gen vconv hconv]. destruct H as [->|[-> ->]]; [reflexivity|].
  rewrite !Nat.eqb_refl. cbn [andb]. reflexivity.
Qed.
Print Assumptions C52_without_convolution.

(** ** C53 Refusals, clean failure and pool independence on x86, for all arguments. *)
Theorem C53_refusals_x86 : forall c s L f N pool (store into : image Z),
  match first_error (refusal_table N false store into) with
  | Some e => resize_u8_x86 c s L f N pool store into = Returned (Err e) into
  | None => resize_u8_x86 c s L f N pool store into = Panicked \/
            exists out, resize_u8_x86 c s L f N pool store into = Returned Ok out
  end.
Proof.
  intros. rewrite x86_is_generic.
  apply (generic_resize_cases N (x86_engine c s L f N no_premul no_unpremul no_alpha)).
  apply x86_passes_nofail.
Qed.
Print Assumptions C53_refusals_x86.
Theorem C53_schedule_independent_x86 : forall c s L f N pool (store into : image Z), pool_ok pool ->
  resize_u8_x86 c s L f N pool store into = resize_u8_x86 c s L f N None store into.
Proof. intros. rewrite !x86_is_generic. apply generic_resize_pool; auto. apply x86_pool_blind. Qed.
Print Assumptions C53_schedule_independent_x86.
Example C53_nonvacuous : first_error (refusal_table 1 false (gray 0 1 1 [5]%Z) pad22) = Some ZeroImageDimensions /\
  first_error (refusal_table 3 false rgb21 rgb32) = None /\ pool_ok (Some (fun _ n => rev (seq 0 n))).
Proof. split; [reflexivity|]. split; [reflexivity|exact pool_two]. Qed.

(** ** C35 The vertical pass with vector code against the portable one.
    AVX2, PreferQuality, only the height changes: equal or one unit brighter. *)
Theorem C35_avx2_vertical_partial : forall c L f N pool (store into : image Z),
  valid_call N false f store into -> pool_ok pool -> f <> Nearest -> changes_size store into ->
  samples_in 255 (buf store) -> tame f store into -> avx2 c = true -> width store = width into ->
  exists a b, resize_u8_x86 c PreferQuality L f N pool store into = Returned Ok a /\
    resize_u8 L f N pool store into = Returned Ok b /\ differ_by 0 1 N a b.
Proof. intros. eapply quality_v; eauto. Qed.
Print Assumptions C35_avx2_vertical_partial.
(** ... and not equal in general. *)
Theorem C35_avx2_vertical_refuted : exists store into : image Z,
  valid_call 1 false Bilinear store into /\ changes_size store into /\ width store = width into /\ samples_in 255 (buf store) /\
  forall L, exists a b, resize_u8_x86 modern PreferQuality L Bilinear 1 None store into = Returned Ok a /\
    resize_u8 L Bilinear 1 None store into = Returned Ok b /\ sample 1 a 0 0 0 = Some 101%Z /\ sample 1 b 0 0 0 = Some 100%Z.
Proof.
  exists (gray 1 2 1 [100; 101]%Z), (gray 1 1 1 [0]%Z). split; [valid_tac|]. split; [right; cbn; lia|]. split; [reflexivity|].
  split; [cbn; repeat constructor; lia|]. intro L. eexists. eexists. split; [vm_compute; reflexivity|]. split; [vm_compute; reflexivity|].
  split; reflexivity.
Qed.
Print Assumptions C35_avx2_vertical_refuted.
(** SSE4.1 without AVX2: all but at most the last 32 samples of every row come out white,
    whatever the image (PreferQuality, or a height divided by 8 or more; averaging filters). *)
Theorem C35_sse41_vertical_refuted : forall c s L f N pool (store into : image Z) x y ch,
  valid_call N false f store into -> pool_ok pool -> averaging f = true -> f <> Nearest -> height store <> height into -> width store = width into ->
  samples_in 255 (buf store) -> sse41 c = true -> avx2 c = false ->
  s = PreferQuality \/ 8 * height into <= height store ->
  x < width into -> y < height into -> ch < N -> x * N + ch < 32 * ((width into * N - 1) / 32) ->
  exists out, resize_u8_x86 c s L f N pool store into = Returned Ok out /\ sample N out x y ch = Some 255%Z.
Proof.
  intros. eapply sse_white; eauto.
  - right; assumption.
  - left; assumption.
  - match goal with H : _ \/ _ |- _ => destruct H as [?|H] end; [left; assumption|right; unfold below_8; lia].
Qed.
Print Assumptions C35_sse41_vertical_refuted.
Example C35_nonvacuous : let store := gray 33 2 33 (repeat 0%Z 66) in let into := gray 33 3 33 (repeat 7%Z 99) in
  valid_call 1 false Bilinear store into /\ averaging Bilinear = true /\ height store <> height into /\ width store = width into /\
  samples_in 255 (buf store) /\ 31 * 1 + 0 < 32 * ((width into * 1 - 1) / 32).
Proof.
  cbv zeta. split; [valid_tac|]. split; [reflexivity|]. split; [cbn; lia|]. split; [reflexivity|]. split; [cbn; repeat constructor; lia|]. cbn; lia.
Qed.

(** ** C54 The horizontal pass with vector code against the portable one.
    PreferQuality, only the width changes: equal, except RGB with AVX2. *)
Theorem C54_horizontal_partial : forall c L f N pool (store into : image Z),
  valid_call N false f store into -> pool_ok pool -> f <> Nearest -> changes_size store into ->
  samples_in 255 (buf store) -> tame f store into -> N <> 3 \/ avx2 c = false -> height store = height into ->
  resize_u8_x86 c PreferQuality L f N pool store into = resize_u8 L f N pool store into.
Proof. intros. apply quality_h; auto. Qed.
Print Assumptions C54_horizontal_partial.
Example C54_nonvacuous : let store := rgba_image 4 2 (repeat 200%Z 32) in let into := rgba_image 3 2 (repeat 0%Z 24) in
  valid_call 4 false Lanczos3 store into /\ changes_size store into /\ samples_in 255 (buf store) /\ tame Lanczos3 store into.
Proof.
  cbv zeta. unfold rgba_image. split; [valid_tac|]. split; [left; cbn; lia|]. split; [cbn; repeat constructor; lia|].
  right; unfold downscale_at_most; cbn; lia.
Qed.
(** RGB with AVX2: enlarging with an averaging filter fills every row with the red and green
    of its first pixel, whatever the image. *)
Theorem C54_rgb_avx2_refuted : forall c s L f pool (store into : image Z) x y ch,
  valid_call 3 false f store into -> pool_ok pool -> averaging f = true -> f <> Nearest -> samples_in 255 (buf store) ->
  avx2 c = true -> height store = height into -> width store < width into ->
  x < width into -> y < height into -> ch < 2 ->
  exists out, resize_u8_x86 c s L f 3 pool store into = Returned Ok out /\
    sample 3 out x y ch = sample 3 store 0 y ch.
Proof.
  intros. eapply rgb_first_column; eauto.
  - left; lia.
  - left; assumption.
Qed.
Print Assumptions C54_rgb_avx2_refuted.
Theorem C54_rgb_avx2_witness_refuted : exists store into : image Z,
  valid_call 3 false Bilinear store into /\ samples_in 255 (buf store) /\
  forall L s, exists a b, resize_u8_x86 modern s L Bilinear 3 None store into = Returned Ok a /\
    resize_u8 L Bilinear 3 None store into = Returned Ok b /\ sample 3 a 4 0 0 = Some 10%Z /\ sample 3 b 4 0 0 = Some 210%Z.
Proof.
  exists (rgb_image 3 1 [10;20;30;110;120;130;210;220;230]%Z), (rgb_image 5 1 (repeat 0%Z 15)). unfold rgb_image.
  split; [valid_tac|]. split; [cbn; repeat constructor; lia|].
  intros L s. eexists. eexists. split; [destruct s; vm_compute; reflexivity|]. split; [vm_compute; reflexivity|]. split; reflexivity.
Qed.
Print Assumptions C54_rgb_avx2_witness_refuted.

(** ** C55 How far the x86 result is from the portable one. *)
(** PreferQuality with AVX2 (not RGB), both directions. *)
Theorem C55_quality_partial : forall c L f N pool (store into : image Z),
  valid_call N false f store into -> pool_ok pool -> changes_size store into -> samples_in 255 (buf store) ->
  avx2 c = true -> N <> 3 -> averaging f = true -> f <> Nearest -> downscale_at_most 30 store into ->
  exists a b, resize_u8_x86 c PreferQuality L f N pool store into = Returned Ok a /\
    resize_u8 L f N pool store into = Returned Ok b /\ differ_by 0 2 N a b.
Proof.
  intros. eapply quality_both; eauto.
  - left; assumption.
Qed.
Print Assumptions C55_quality_partial.
(** PreferSpeed, only the height changes. *)
Theorem C55_speed_vertical_partial : forall c L f N pool (store into : image Z),
  valid_call N false f store into -> pool_ok pool -> changes_size store into -> samples_in 255 (buf store) ->
  sse41 c = true \/ avx2 c = true -> averaging f = true -> f <> Nearest -> width store = width into -> height store < 8 * height into ->
  exists a b, resize_u8_x86 c PreferSpeed L f N pool store into = Returned Ok a /\
    resize_u8 L f N pool store into = Returned Ok b /\ differ_by 0 2 N a b.
Proof.
  intros. eapply speed_v; eauto.
  - left; assumption.
  - unfold below_8. lia.
Qed.
Print Assumptions C55_speed_vertical_partial.
(** PreferSpeed, one and two channels, both directions. *)
Theorem C55_speed_partial : forall c L f N pool (store into : image Z),
  valid_call N false f store into -> pool_ok pool -> changes_size store into -> samples_in 255 (buf store) ->
  sse41 c = true -> averaging f = true -> f <> Nearest -> N = 1 \/ N = 2 ->
  height store < 8 * height into -> width store < 8 * width into ->
  exists a b, resize_u8_x86 c PreferSpeed L f N pool store into = Returned Ok a /\
    resize_u8 L f N pool store into = Returned Ok b /\ differ_by (-1) 5 N a b /\
    (height store = height into -> differ_by (-1) 2 N a b).
Proof.
  intros. eapply speed_both; eauto; try (unfold below_8; lia).
  - left; assumption.
Qed.
Print Assumptions C55_speed_partial.
Example C55_nonvacuous : let store := gray 4 2 4 (repeat 200%Z 8) in let into := gray 3 5 3 (repeat 0%Z 15) in
  valid_call 1 false Quadric store into /\ changes_size store into /\ samples_in 255 (buf store) /\ averaging Quadric = true /\
  downscale_at_most 30 store into /\ height store < 8 * height into /\ width store < 8 * width into.
Proof.
  cbv zeta. split; [valid_tac|]. split; [left; cbn; lia|]. split; [cbn; repeat constructor; lia|]. split; [reflexivity|].
  split; [unfold downscale_at_most; cbn; lia|]. cbn; lia.
Qed.
(** Under PreferSpeed with AVX2 the widths of RGBA images are averaged in the 16-bit
    arithmetic whatever the factor, and products below half a unit vanish: a dark image
    becomes black and transparent. *)
Theorem C55_speed_refuted : exists store into : image Z,
  valid_call 4 false Box store into /\ samples_in 255 (buf store) /\
  forall L, exists a b, resize_u8_x86 modern PreferSpeed L Box 4 None store into = Returned Ok a /\
    resize_u8 L Box 4 None store into = Returned Ok b /\ buf a = [0; 0; 0; 0]%Z /\ buf b = [3; 3; 3; 3]%Z.
Proof.
  exists (rgba_image 512 1 (repeat 3%Z (4 * 512))), (rgba_image 1 1 (repeat 9%Z 4)). unfold rgba_image.
  split.
  { constructor; cbn [width height stride buf channels bit_depth]; rewrite ?repeat_length; unfold fits_usize, usize_mod; repeat split; try lia; try (intro; discriminate). }
  split. { cbn [buf]. apply Forall_forall. intros v Hv. apply repeat_spec in Hv. subst v. lia. }
  intro L. eexists. eexists. split; [vm_compute; reflexivity|]. split; [vm_compute; reflexivity|]. split; reflexivity.
Qed.
Print Assumptions C55_speed_refuted.

(** ** C56 Constant channels (opaque images in particular) stay constant on x86. *)
Theorem C56_constant_partial : forall c L f N pool (store into : image Z) v x y ch,
  valid_call N false f store into -> pool_ok pool -> changes_size store into -> samples_in 255 (buf store) ->
  avx2 c = true -> N <> 3 -> averaging f = true -> f <> Nearest -> downscale_at_most 61 store into ->
  (forall sx sy, sx < width store -> sy < height store -> sample N store sx sy ch = Some v) ->
  x < width into -> y < height into -> ch < N ->
  exists out, resize_u8_x86 c PreferQuality L f N pool store into = Returned Ok out /\ sample N out x y ch = Some v.
Proof.
  intros. eapply quality_const; eauto.
  - left; assumption.
Qed.
Print Assumptions C56_constant_partial.
Example C56_nonvacuous : let store := gray 4 2 4 (repeat 200%Z 8) in
  forall sx sy, sx < width store -> sy < height store -> sample 1 store sx sy 0 = Some 200%Z.
Proof. cbv zeta. intros sx sy Hx Hy. cbn in Hx, Hy. do 4 (destruct sx as [|sx]; [destruct sy as [|[|]]; [reflexivity..|lia]|]). lia. Qed.
(** Under PreferSpeed (the default) a constant gray image changes its value ... *)
Theorem C56_constant_refuted : exists store into : image Z,
  valid_call 1 false Bilinear store into /\ changes_size store into /\
  (forall v, In v (buf store) -> v = 128%Z) /\
  forall L, exists out, resize_u8_x86 modern PreferSpeed L Bilinear 1 None store into = Returned Ok out /\
    buf out = repeat 129%Z 6.
Proof.
  exists (gray 2 2 2 (repeat 128%Z 4)), (gray 2 3 2 (repeat 0%Z 6)). split; [valid_tac|]. split; [right; cbn; lia|].
  split. { intros v Hv. cbn in Hv. intuition. }
  intro L. eexists. split; [vm_compute; reflexivity|reflexivity].
Qed.
Print Assumptions C56_constant_refuted.
(** ... and an opaque white RGBA image becomes translucent: two coefficients are exchanged
    for the alpha channel only. *)
Theorem C56_opaque_refuted : exists store into : image Z,
  valid_call 4 false Bilinear store into /\ changes_size store into /\
  (forall v, In v (buf store) -> v = 255%Z) /\
  forall L, exists out, resize_u8_x86 modern PreferSpeed L Bilinear 4 None store into = Returned Ok out /\
    sample 4 out 0 0 3 = Some 250%Z /\ sample 4 out 0 0 0 = Some 255%Z.
Proof.
  exists (rgba_image 27 1 (repeat 255%Z 108)), (rgba_image 4 1 (repeat 0%Z 16)). unfold rgba_image. split; [valid_tac|].
  split; [left; cbn; lia|]. split. { intros v Hv. apply repeat_spec in Hv. exact Hv. }
  intro L. eexists. split; [vm_compute; reflexivity|]. split; reflexivity.
Qed.
Print Assumptions C56_opaque_refuted.
