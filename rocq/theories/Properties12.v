(** Property theorems C60-C65: the colour space scalers (portable path, the arithmetic of
    the conversions arbitrary). *)
From Coq Require Import ZArith List Bool Lia ZifyBool ZifyNat FunctionalExtensionality.
From Verif Require Import Base BaseProofs ImageStore FixedPoint Dispatch Resize Spec F32 Weights Sampler Api Alpha ApiRgba ApiFloat
  SpecApi SpecAlpha ImageProofs Center Witness Properties1 Properties2 Properties3 Properties4 Colors SpecColors ColorsProofs.
Import ListNotations.
Local Open Scope nat_scope.

Lemma rgb_call C k L f pool s : is_colour_call 3 f0 (float_stride 3) (rgb_in s) (rgb_out s) (resize_f32 k L f 3 pool) (colour_resize_rgb C k L f pool s).
Proof. destruct s; left; reflexivity. Qed.
Lemma rgba_call C k L f pool s pre : usable_for_rgba s ->
  is_colour_call 4 f0 (float_stride 4) (rgba_in s) (rgba_out s) (resize_rgba_f32 k L f pool pre) (colour_resize_rgba C k L f pool s pre).
Proof. destruct s; cbn [usable_for_rgba]; intro U; try rewrite U; (left; reflexivity) || (right; reflexivity). Qed.
Lemma approx_rgb_call C L f pool t : is_colour_call 3 0%Z (byte_stride 3) (rgb_to_linear_u8 C t) (linear_u8_to_rgb C t) (resize_u8 L f 3 pool)
  (approx_resize_rgb C L f pool t).
Proof. left. reflexivity. Qed.
Lemma approx_rgba_call C L f pool t pre : is_colour_call 4 0%Z (byte_stride 4) (rgba_to_linear_u8 C t) (linear_u8_to_rgba C t)
  (resize_rgba_u8 L f pool pre) (approx_resize_rgba C L f pool t pre).
Proof. left. reflexivity. Qed.
Local Hint Resolve rgb_call rgba_call approx_rgb_call approx_rgba_call : core.

Lemma recode_bytes {A} N (px : list A -> list Z) n src : gives_bytes px -> samples_in 255 (recode N px n src).
Proof.
  intro G. unfold samples_in, recode. rewrite Forall_concat, Forall_map. apply Forall_forall. intros p _. apply G.
Qed.

(** ** C60 A colour space scaler converts, resizes in its space and converts back
    (packed images; any filter, any flag). *)
Theorem C60_pipeline_rgb : forall C k L f pool (s : colour_scaler C) (store into : image Z),
  keeps_arity 3 (rgb_in s) -> keeps_arity 3 (rgb_out s) ->
  valid_call 3 false f store into -> changes_size store into -> fits_u32 into -> dense 3 store -> dense 3 into -> pool_ok pool ->
  exists conv scaled out,
    recoloured 3 (rgb_in s) store conv /\ dense 3 conv /\ valid_call 3 false f conv (blank f0 3 (width into) (height into)) /\
    resize_f32 k L f 3 pool conv (blank f0 3 (width into) (height into)) = Returned Ok scaled /\
    only_pixels_differ 3 (blank f0 3 (width into) (height into)) scaled /\
    colour_resize_rgb C k L f pool s store into = Returned Ok out /\ recoloured 3 (rgb_out s) scaled out /\ only_pixels_differ 3 into out.
Proof.
  intros C k L f pool s store into K1 K2 V D Fi D1 D2 HP.
  eapply (call_pipeline 3 f0 (float_stride 3) _ _ _ _ f (fun _ => True)); eauto.
  - intros w Hw. apply float_stride_small; auto.
  - apply inner_f32; auto.
Qed.
Print Assumptions C60_pipeline_rgb.
Theorem C60_pipeline_rgba_partial : forall C k L f pool (s : colour_scaler C) premultiply (store into : image Z),
  usable_for_rgba s -> keeps_arity 4 (rgba_in s) -> keeps_arity 4 (rgba_out s) ->
  valid_call 4 false f store into -> changes_size store into -> fits_u32 into -> dense 4 store -> dense 4 into -> pool_ok pool ->
  exists conv scaled out,
    recoloured 4 (rgba_in s) store conv /\ dense 4 conv /\ valid_call 4 false f conv (blank f0 4 (width into) (height into)) /\
    resize_rgba_f32 k L f pool premultiply conv (blank f0 4 (width into) (height into)) = Returned Ok scaled /\
    only_pixels_differ 4 (blank f0 4 (width into) (height into)) scaled /\
    colour_resize_rgba C k L f pool s premultiply store into = Returned Ok out /\ recoloured 4 (rgba_out s) scaled out /\ only_pixels_differ 4 into out.
Proof.
  intros C k L f pool s pre store into U K1 K2 V D Fi D1 D2 HP.
  eapply (call_pipeline 4 f0 (float_stride 4) _ _ _ _ f (fun _ => True)); eauto.
  - intros w Hw. apply float_stride_small; auto.
  - apply inner_rgba_f32; auto.
Qed.
Print Assumptions C60_pipeline_rgba_partial.
Theorem C60_pipeline_approx : forall C L f pool (t : transfer C) (store into : image Z),
  keeps_arity 3 (rgb_to_linear_u8 C t) -> keeps_arity 3 (linear_u8_to_rgb C t) ->
  valid_call 3 false f store into -> changes_size store into -> fits_u32 into -> dense 3 store -> dense 3 into -> pool_ok pool ->
  exists conv scaled out,
    recoloured 3 (rgb_to_linear_u8 C t) store conv /\ dense 3 conv /\ valid_call 3 false f conv (blank 0%Z 3 (width into) (height into)) /\
    resize_u8 L f 3 pool conv (blank 0%Z 3 (width into) (height into)) = Returned Ok scaled /\
    only_pixels_differ 3 (blank 0%Z 3 (width into) (height into)) scaled /\
    approx_resize_rgb C L f pool t store into = Returned Ok out /\ recoloured 3 (linear_u8_to_rgb C t) scaled out /\ only_pixels_differ 3 into out.
Proof.
  intros C L f pool t store into K1 K2 V D Fi D1 D2 HP.
  eapply (call_pipeline 3 0%Z (byte_stride 3) _ _ _ _ f (fun _ => True)); eauto.
  - intros w Hw. apply byte_stride_small; auto.
  - apply inner_u8; auto.
Qed.
Print Assumptions C60_pipeline_approx.
Theorem C60_pipeline_approx_rgba : forall C L f pool (t : transfer C) premultiply (store into : image Z),
  keeps_arity 4 (rgba_to_linear_u8 C t) -> keeps_arity 4 (linear_u8_to_rgba C t) -> gives_bytes (rgba_to_linear_u8 C t) ->
  valid_call 4 false f store into -> changes_size store into -> fits_u32 into -> dense 4 store -> dense 4 into -> pool_ok pool ->
  exists conv scaled out,
    recoloured 4 (rgba_to_linear_u8 C t) store conv /\ dense 4 conv /\ valid_call 4 false f conv (blank 0%Z 4 (width into) (height into)) /\
    resize_rgba_u8 L f pool premultiply conv (blank 0%Z 4 (width into) (height into)) = Returned Ok scaled /\
    only_pixels_differ 4 (blank 0%Z 4 (width into) (height into)) scaled /\
    approx_resize_rgba C L f pool t premultiply store into = Returned Ok out /\ recoloured 4 (linear_u8_to_rgba C t) scaled out /\ only_pixels_differ 4 into out.
Proof.
  intros C L f pool t pre store into K1 K2 B V D Fi D1 D2 HP.
  eapply (call_pipeline 4 0%Z (byte_stride 4) _ _ _ _ f (samples_in 255)); eauto.
  - intros w Hw. apply byte_stride_small; auto.
  - apply inner_rgba_u8; auto.
  - intros. now apply recode_bytes.
Qed.
Print Assumptions C60_pipeline_approx_rgba.

(** A conversion crate that changes nothing but the type: every hypothesis can be met. *)
Definition plain_f32 (p : list Z) : list f32 := map (fun v => fZ v 0) p.
Definition plain_u8 (p : list f32) : list Z := map (f_to_int 0 255) p.
Definition plain_bytes (p : list Z) : list Z := map (fun v => v mod 256)%Z p.
Definition plain_crate : colorutils :=
  mkColorutils bool false
    (fun _ => plain_f32) plain_u8 (fun _ => plain_f32) (fun _ => plain_u8)
    (fun _ => plain_f32) (fun _ => plain_u8) (fun _ => plain_f32) (fun _ => plain_u8)
    (fun _ => plain_f32) (fun _ => plain_u8) (fun _ => plain_f32) (fun _ => plain_u8)
    plain_f32 plain_u8 (fun _ => plain_f32) (fun _ => plain_u8)
    (fun _ => plain_f32) (fun _ => plain_u8) (fun _ => plain_f32) (fun _ => plain_u8)
    (fun _ _ => plain_f32) (fun _ _ => plain_u8) (fun _ _ => plain_f32) (fun _ _ => plain_u8)
    plain_f32 plain_u8 plain_f32 plain_u8
    (fun _ => plain_f32) (fun _ => plain_u8) (fun _ => plain_f32) (fun _ => plain_u8)
    (fun _ => plain_bytes) (fun _ => plain_bytes) (fun _ => plain_bytes) (fun _ => plain_bytes).
Definition rgb11 : image Z := mkImage [10; 20; 30]%Z 3 1 1 3 0.
Definition rgb12 : image Z := mkImage (repeat 0%Z 6) 3 1 2 3 0.
Example C60_nonvacuous : forall s : colour_scaler plain_crate,
  keeps_arity 3 (rgb_in s) /\ keeps_arity 3 (rgb_out s) /\ keeps_arity 4 (rgba_in s) /\ keeps_arity 4 (rgba_out s) /\
  gives_bytes (rgba_to_linear_u8 plain_crate true) /\
  valid_call 3 false Lanczos3 rgb11 rgb12 /\ changes_size rgb11 rgb12 /\ fits_u32 rgb12 /\ dense 3 rgb11 /\ dense 3 rgb12.
Proof.
  intro s. assert (A : forall n, keeps_arity n plain_f32) by (intros n p Hp; unfold plain_f32; now rewrite map_length).
  assert (B : forall n, keeps_arity n plain_u8) by (intros n p Hp; unfold plain_u8; now rewrite map_length).
  split; [destruct s; apply A|]. split; [destruct s; apply B|]. split; [destruct s; apply A|]. split; [destruct s; apply B|].
  split. { intro p. unfold samples_in. cbn. unfold plain_bytes. apply Forall_forall. intros v Hv. apply in_map_iff in Hv.
    destruct Hv as (u & <- & _). pose proof (Z.mod_pos_bound u 256). lia. }
  split; [unfold rgb11, rgb12; valid_tac|]. split; [right; cbn; lia|]. split; [split; cbn; lia|]. split; reflexivity.
Qed.

(** ** C61 Refusals, clean failures and success of the colour space scalers *)
Lemma okp_f32 k L f N pool a b : checks N false a b = Done tt -> ok_or_panic (resize_f32 k L f N pool a b).
Proof. intro H. pose proof (C04_refusals_f32 k L f N pool a b) as Q. rewrite checks_table in H. destruct (first_error _); [discriminate|exact Q]. Qed.
Lemma okp_rgba_f32 k L f pool pre a b : checks 4 false a b = Done tt -> ok_or_panic (resize_rgba_f32 k L f pool pre a b).
Proof. intro H. pose proof (C04_refusals_rgba_f32 k L f pool pre a b) as Q. rewrite checks_table in H. destruct (first_error _); [discriminate|exact Q]. Qed.
Lemma okp_u8 L f N pool a b : checks N false a b = Done tt -> ok_or_panic (resize_u8 L f N pool a b).
Proof. intro H. pose proof (C04_refusals L f N pool a b) as Q. rewrite checks_table in H. destruct (first_error _); [discriminate|exact Q]. Qed.
Lemma okp_rgba_u8 L f pool pre a b : checks 4 false a b = Done tt -> ok_or_panic (resize_rgba_u8 L f pool pre a b).
Proof. intro H. pose proof (C04_refusals_rgba L f pool pre a b) as Q. rewrite checks_table in H. destruct (first_error _); [discriminate|exact Q]. Qed.

Theorem C61_refusals_rgb : forall C k L f pool (s : colour_scaler C) (store into : image Z),
  channels store = 3 -> keeps_arity 3 (rgb_in s) ->
  match first_error (refusal_table 3 false store into) with
  | Some e => colour_resize_rgb C k L f pool s store into = Returned (Err e) into
  | None => colour_resize_rgb C k L f pool s store into = Panicked \/
            exists out, colour_resize_rgb C k L f pool s store into = Returned Ok out
  end.
Proof. intros. eapply call_refusals; eauto. intros. now apply okp_f32. Qed.
Print Assumptions C61_refusals_rgb.
Theorem C61_refusals_rgba : forall C k L f pool (s : colour_scaler C) premultiply (store into : image Z),
  channels store = 4 -> usable_for_rgba s -> keeps_arity 4 (rgba_in s) ->
  match first_error (refusal_table 4 false store into) with
  | Some e => colour_resize_rgba C k L f pool s premultiply store into = Returned (Err e) into
  | None => colour_resize_rgba C k L f pool s premultiply store into = Panicked \/
            exists out, colour_resize_rgba C k L f pool s premultiply store into = Returned Ok out
  end.
Proof. intros. eapply call_refusals; eauto. intros. now apply okp_rgba_f32. Qed.
Print Assumptions C61_refusals_rgba.
Theorem C61_refusals_approx : forall C L f pool (t : transfer C) premultiply (store into : image Z),
  (channels store = 3 -> keeps_arity 3 (rgb_to_linear_u8 C t) ->
   match first_error (refusal_table 3 false store into) with
   | Some e => approx_resize_rgb C L f pool t store into = Returned (Err e) into
   | None => approx_resize_rgb C L f pool t store into = Panicked \/
             exists out, approx_resize_rgb C L f pool t store into = Returned Ok out
   end) /\
  (channels store = 4 -> keeps_arity 4 (rgba_to_linear_u8 C t) ->
   match first_error (refusal_table 4 false store into) with
   | Some e => approx_resize_rgba C L f pool t premultiply store into = Returned (Err e) into
   | None => approx_resize_rgba C L f pool t premultiply store into = Panicked \/
             exists out, approx_resize_rgba C L f pool t premultiply store into = Returned Ok out
   end).
Proof.
  intros. split; intros.
  - eapply call_refusals; eauto. intros. now apply okp_u8.
  - eapply call_refusals; eauto. intros. now apply okp_rgba_u8.
Qed.
Print Assumptions C61_refusals_approx.

Theorem C61_failure_is_clean : forall C k L f pool (s : colour_scaler C) (t : transfer C) premultiply (store into out : image Z) e,
  colour_resize_rgb C k L f pool s store into = Returned (Err e) out \/
  colour_resize_rgba C k L f pool s premultiply store into = Returned (Err e) out \/
  approx_resize_rgb C L f pool t store into = Returned (Err e) out \/
  approx_resize_rgba C L f pool t premultiply store into = Returned (Err e) out -> out = into.
Proof.
  intros C k L f pool s t pre store into out e [H|[H|[H|H]]].
  - eapply call_clean in H; eauto.
  - assert (Q : exists s', usable_for_rgba s' /\ colour_resize_rgba C k L f pool s' pre = colour_resize_rgba C k L f pool s pre).
    { destruct s; try (eexists; split; [|reflexivity]; exact I). exists (LinearScaler (srgb C)). split; reflexivity. }
    destruct Q as (s' & U & Q). rewrite <- Q in H. eapply call_clean in H; eauto.
  - eapply call_clean in H; eauto.
  - eapply call_clean in H; eauto.
Qed.
Print Assumptions C61_failure_is_clean.

(** Valid calls succeed, also with padded rows (but see C62 for what they then compute). *)
Theorem C61_valid_calls_succeed : forall C k L f pool (s : colour_scaler C) (store into : image Z),
  keeps_arity 3 (rgb_in s) -> keeps_arity 3 (rgb_out s) ->
  valid_call 3 false f store into -> fits_u32 into -> pool_ok pool ->
  exists out, colour_resize_rgb C k L f pool s store into = Returned Ok out.
Proof.
  intros C k L f pool s store into K1 K2 V Fi HP.
  destruct (Nat.eq_dec (width store) (width into)) as [Hw|Hw]; [destruct (Nat.eq_dec (height store) (height into)) as [Hh|Hh]|].
  - destruct (call_same 3 f0 (float_stride 3) (rgb_in s) (rgb_out s) _ _ (rgb_call C k L f pool s) f store into V Hw Hh) as (out & R & _). eauto.
  - edestruct (call_form 3 f0 (float_stride 3)) with (store := store) (into := into) as (d & sc & _ & _ & _ & R);
      [apply rgb_call|intros w Q; now apply float_stride_small; auto|exact K1|exact K2|apply inner_f32; exact HP|exact (fun _ _ => I)|exact V|now right|exact Fi|]. rewrite R. eauto.
  - edestruct (call_form 3 f0 (float_stride 3)) with (store := store) (into := into) as (d & sc & _ & _ & _ & R);
      [apply rgb_call|intros w Q; now apply float_stride_small; auto|exact K1|exact K2|apply inner_f32; exact HP|exact (fun _ _ => I)|exact V|now left|exact Fi|]. rewrite R. eauto.
Qed.
Print Assumptions C61_valid_calls_succeed.
Theorem C61_valid_calls_succeed_rgba : forall C k L f pool (s : colour_scaler C) premultiply (store into : image Z),
  usable_for_rgba s -> keeps_arity 4 (rgba_in s) -> keeps_arity 4 (rgba_out s) ->
  valid_call 4 false f store into -> fits_u32 into -> pool_ok pool ->
  exists out, colour_resize_rgba C k L f pool s premultiply store into = Returned Ok out.
Proof.
  intros C k L f pool s pre store into U K1 K2 V Fi HP.
  destruct (Nat.eq_dec (width store) (width into)) as [Hw|Hw]; [destruct (Nat.eq_dec (height store) (height into)) as [Hh|Hh]|].
  - destruct (call_same 4 f0 (float_stride 4) (rgba_in s) (rgba_out s) _ _ (rgba_call C k L f pool s pre U) f store into V Hw Hh) as (out & R & _). eauto.
  - edestruct (call_form 4 f0 (float_stride 4)) with (store := store) (into := into) as (d & sc & _ & _ & _ & R);
      [apply (rgba_call C k L f pool s pre U)|intros w Q; now apply float_stride_small; auto|exact K1|exact K2|apply inner_rgba_f32; exact HP|exact (fun _ _ => I)|exact V|now right|exact Fi|]. rewrite R. eauto.
  - edestruct (call_form 4 f0 (float_stride 4)) with (store := store) (into := into) as (d & sc & _ & _ & _ & R);
      [apply (rgba_call C k L f pool s pre U)|intros w Q; now apply float_stride_small; auto|exact K1|exact K2|apply inner_rgba_f32; exact HP|exact (fun _ _ => I)|exact V|now left|exact Fi|]. rewrite R. eauto.
Qed.
Print Assumptions C61_valid_calls_succeed_rgba.
(** The fourth method of the trait is not there: a valid CbCr call panics. *)
Theorem C61_cbcr_refuted : exists store into : image Z,
  valid_call 2 false Bilinear store into /\ colour_resize_cbcr8 store into = Panicked /\
  forall L, exists out, resize_u8 L Bilinear 2 None store into = Returned Ok out.
Proof.
  exists (mkImage [1; 2]%Z 2 1 1 2 0), (mkImage [0; 0; 0; 0]%Z 2 2 1 4 0).
  split; [valid_tac|]. split; [reflexivity|]. intro L. eexists. vm_compute. reflexivity.
Qed.
Print Assumptions C61_cbcr_refuted.
(** A call that does not change the size copies the samples without converting them. *)
Theorem C61_same_size : forall C k L f pool (s : colour_scaler C) (t : transfer C) premultiply (store into : image Z),
  width store = width into -> height store = height into ->
  (valid_call 3 false f store into ->
   exists out, colour_resize_rgb C k L f pool s store into = Returned Ok out /\ same_picture 3 store out /\
     approx_resize_rgb C L f pool t store into = Returned Ok out) /\
  (valid_call 4 false f store into ->
   exists out, colour_resize_rgba C k L f pool s premultiply store into = Returned Ok out /\ same_picture 4 store out /\
     approx_resize_rgba C L f pool t premultiply store into = Returned Ok out).
Proof.
  intros C k L f pool s t pre store into Hw Hh. split; intro V.
  - destruct (call_same _ _ _ _ _ _ _ (rgb_call C k L f pool s) f store into V Hw Hh) as (out & R & Q).
    destruct (call_same _ _ _ _ _ _ _ (approx_rgb_call C L f pool t) f store into V Hw Hh) as (out' & R' & Q').
    rewrite Q in Q'. injection Q' as <-. exists out. split; [exact R|]. split; [|exact R'].
    destruct (C06_same_size_partial (mkLibm (fun x => x) (fun x => x) (fun x => x) (fun x => x) (fun x => x)) f 3 None store into V Hw Hh) as (o & R2 & S & _). unfold resize_u8 in R2. rewrite R2 in Q. injection Q as <-. exact S.
  - assert (X : exists s', usable_for_rgba s' /\ colour_resize_rgba C k L f pool s' pre = colour_resize_rgba C k L f pool s pre).
    { destruct s; try (eexists; split; [|reflexivity]; exact I). exists (LinearScaler (srgb C)). split; reflexivity. }
    destruct X as (s' & U & X). rewrite <- X.
    destruct (call_same _ _ _ _ _ _ _ (rgba_call C k L f pool s' pre U) f store into V Hw Hh) as (out & R & Q).
    destruct (call_same _ _ _ _ _ _ _ (approx_rgba_call C L f pool t pre) f store into V Hw Hh) as (out' & R' & Q').
    rewrite Q in Q'. injection Q' as <-. exists out. split; [exact R|]. split; [|exact R'].
    destruct (C06_same_size_partial (mkLibm (fun x => x) (fun x => x) (fun x => x) (fun x => x) (fun x => x)) f 4 None store into V Hw Hh) as (o & R2 & S & _). unfold resize_u8 in R2. rewrite R2 in Q. injection Q as <-. exact S.
Qed.
Print Assumptions C61_same_size.
Example C61_nonvacuous : forall s : colour_scaler plain_crate, usable_for_rgba (LinearScaler (C := plain_crate) false) /\
  channels rgb11 = 3 /\ first_error (refusal_table 3 false rgb11 rgb12) = None /\
  first_error (refusal_table 3 false rgb11 (mkImage [] 3 1 0 3 0)) = Some ZeroImageDimensions.
Proof. intro s. split; [reflexivity|]. split; [reflexivity|]. split; reflexivity. Qed.

(** ** C62 Row padding in colour space scalers.  Refuted: both images are taken as packed,
    whatever their strides.  What happens exactly: the result is that of the packed images
    at the start of the two buffers, and the rest of the destination is left alone. *)
Theorem C62_buffers_taken_as_packed : forall C k L f pool (s : colour_scaler C) (store into : image Z),
  keeps_arity 3 (rgb_in s) -> keeps_arity 3 (rgb_out s) ->
  valid_call 3 false f store into -> changes_size store into -> fits_u32 into -> pool_ok pool ->
  exists out, colour_resize_rgb C k L f pool s (first_bytes 3 store) (first_bytes 3 into) = Returned Ok out /\
    colour_resize_rgb C k L f pool s store into =
      Returned Ok (set_buf into (buf out ++ skipn (width into * height into * 3) (buf into))).
Proof.
  intros C k L f pool s store into K1 K2 V D Fi HP.
  eapply (call_as_dense 3 f0 (float_stride 3) _ _ _ _ f (fun _ => True)); eauto.
  - intros w Hw. apply float_stride_small; auto.
  - apply inner_f32; auto.
Qed.
Print Assumptions C62_buffers_taken_as_packed.
Theorem C62_buffers_taken_as_packed_rgba : forall C k L f pool (s : colour_scaler C) premultiply (store into : image Z),
  usable_for_rgba s -> keeps_arity 4 (rgba_in s) -> keeps_arity 4 (rgba_out s) ->
  valid_call 4 false f store into -> changes_size store into -> fits_u32 into -> pool_ok pool ->
  exists out, colour_resize_rgba C k L f pool s premultiply (first_bytes 4 store) (first_bytes 4 into) = Returned Ok out /\
    colour_resize_rgba C k L f pool s premultiply store into =
      Returned Ok (set_buf into (buf out ++ skipn (width into * height into * 4) (buf into))).
Proof.
  intros C k L f pool s pre store into U K1 K2 V D Fi HP.
  eapply (call_as_dense 4 f0 (float_stride 4) _ _ _ _ f (fun _ => True)); eauto.
  - intros w Hw. apply float_stride_small; auto.
  - apply inner_rgba_f32; auto.
Qed.
Print Assumptions C62_buffers_taken_as_packed_rgba.
Theorem C62_buffers_taken_as_packed_approx : forall C L f pool (t : transfer C) (store into : image Z),
  keeps_arity 3 (rgb_to_linear_u8 C t) -> keeps_arity 3 (linear_u8_to_rgb C t) ->
  valid_call 3 false f store into -> changes_size store into -> fits_u32 into -> pool_ok pool ->
  exists out, approx_resize_rgb C L f pool t (first_bytes 3 store) (first_bytes 3 into) = Returned Ok out /\
    approx_resize_rgb C L f pool t store into =
      Returned Ok (set_buf into (buf out ++ skipn (width into * height into * 3) (buf into))).
Proof.
  intros C L f pool t store into K1 K2 V D Fi HP.
  eapply (call_as_dense 3 0%Z (byte_stride 3) _ _ _ _ f (fun _ => True)); eauto.
  - intros w Hw. apply byte_stride_small; auto.
  - apply inner_u8; auto.
Qed.
Print Assumptions C62_buffers_taken_as_packed_approx.
(** So for every scaler, every filter and every conversion arithmetic: enlarging one pixel
    to two rows of one pixel, in a destination whose rows are six bytes apart, succeeds, yet
    the second visible row keeps its old content and three bytes of padding receive it. *)
Theorem C62_padded_destination_refuted : forall C k L f pool (s : colour_scaler C),
  keeps_arity 3 (rgb_in s) -> keeps_arity 3 (rgb_out s) -> pool_ok pool ->
  exists store : image Z, exists r g b : Z, forall old1 old2 : list Z, length old1 = 6 -> length old2 = 6 ->
  let into := mkImage (old1 ++ old2) 3 1 2 6 0 in
  valid_call 3 false f store into /\ changes_size store into /\
  exists out, colour_resize_rgb C k L f pool s store into = Returned Ok out /\
    pixel_at 3 out 0 1 = pixel_at 3 into 0 1 /\ firstn 3 (skipn 3 (buf out)) = [r; g; b].
Proof.
  intros C k L f pool s K1 K2 HP. exists rgb11.
  assert (V0 : valid_call 3 false f rgb11 (mkImage (repeat 0%Z 6) 3 1 2 3 0)) by (unfold rgb11; valid_tac).
  destruct (C62_buffers_taken_as_packed C k L f pool s rgb11 (mkImage (repeat 0%Z 6) 3 1 2 3 0) K1 K2 V0 ltac:(right; cbn; lia) ltac:(split; cbn; lia) HP)
    as (out0 & R0 & _).
  assert (exists r g b, forall old1 old2 : list Z, length old1 = 6 -> length old2 = 6 ->
    let into := mkImage (old1 ++ old2) 3 1 2 6 0 in
    exists out, colour_resize_rgb C k L f pool s rgb11 into = Returned Ok out /\
      pixel_at 3 out 0 1 = pixel_at 3 into 0 1 /\ firstn 3 (skipn 3 (buf out)) = [r; g; b]) as (r & g & b & Q).
  { edestruct (call_form 3 f0 (float_stride 3)) with (store := rgb11) (into := mkImage (repeat 0%Z 12) 3 1 2 6 0) (f := f) as (d & sc & I1 & Dd & O & _);
      [apply (rgb_call C k L f pool s)|intros w Q; now apply float_stride_small; auto|exact K1|exact K2|apply inner_f32; exact HP|exact (fun _ _ => I)
      |unfold rgb11; valid_tac|right; cbn; lia|split; cbn; lia|].
    pose proof O as [O1 O2 O3 _ _ O6 _]. cbn [blank width height stride buf] in O1, O2, O3, O6. rewrite repeat_length in O6.
    assert (Dz : d = 0) by (destruct Dd as [Dd|Dd]; exact Dd). subst d.
    set (res := recode 3 (rgb_out s) 2 (buf sc)).
    assert (Lr : length res = 6) by (apply recode_length; [exact K2|lia]).
    destruct res as [|v0 [|v1 [|v2 [|v3 [|v4 [|v5 [|]]]]]]] eqn:Er; try discriminate Lr.
    exists v3, v4, v5. intros old1 old2 H1 H2 into.
    assert (V : valid_call 3 false f rgb11 into) by (subst into; unfold rgb11; constructor; cbn [width height stride buf channels bit_depth length];
      rewrite ?app_length, ?H1, ?H2; unfold fits_usize, usize_mod; repeat split; try lia; try (intro; discriminate)).
    exists (finish 3 (rgb_out s) into sc). split.
    - eapply (colour_resize_form 3 f0 (float_stride 3) (rgb_in s) (rgb_out s) (resize_f32 k L f 3 pool) f rgb11 into V) in I1; auto.
      + rewrite <- I1. destruct s; reflexivity.
      + right. cbn. lia.
      + split; cbn; lia.
      + intros w Q. now apply float_stride_small; auto.
    - unfold finish, pixel_at. cbn [set_buf buf stride]. change (width into * height into) with 2. fold res. rewrite Er. 
      subst into. cbn [buf stride]. destruct old1 as [|? [|? [|? [|? [|? [|? [|]]]]]]]; try discriminate H1. split; reflexivity. }
  exists r, g, b. intros old1 old2 H1 H2 into. split; [|split; [right; cbn; lia|now apply Q]].
  subst into. unfold rgb11. constructor; cbn [width height stride buf channels bit_depth length];
      rewrite ?app_length, ?H1, ?H2; unfold fits_usize, usize_mod; repeat split; try lia; try (intro; discriminate).
Qed.
Print Assumptions C62_padded_destination_refuted.
(** And with a padded source the padding is taken for pixels: Nearest from two rows of one
    pixel, three bytes of padding each, to four rows gives the padding in the last row. *)
Theorem C62_padded_source_refuted : forall C k L (s : colour_scaler C),
  keeps_arity 3 (rgb_in s) -> keeps_arity 3 (rgb_out s) ->
  exists store into : image Z, valid_call 3 false Nearest store into /\
    pixel_at 3 store 0 0 = [1; 2; 3]%Z /\ pixel_at 3 store 0 1 = [7; 8; 9]%Z /\
    exists out, colour_resize_rgb C k L Nearest None s store into = Returned Ok out /\
      pixel_at 3 out 0 3 = rgb_out s (rgb_in s [4; 5; 6]%Z).
Proof.
  intros C k L s K1 K2. exists (mkImage [1; 2; 3; 4; 5; 6; 7; 8; 9; 10; 11; 12]%Z 3 1 2 6 0), (mkImage (repeat 0%Z 12) 3 1 4 3 0).
  set (store := mkImage _ _ _ _ _ _). set (into := mkImage (repeat _ _) _ _ _ _ _).
  assert (V : valid_call 3 false Nearest store into) by (subst store into; valid_tac).
  split; [exact V|]. split; [reflexivity|]. split; [reflexivity|].
  edestruct (call_form 3 f0 (float_stride 3)) with (store := store) (into := into) (f := Nearest) as (d & sc & I1 & Dd & O & R);
      [apply (rgb_call C k L Nearest None s)|intros w Q; now apply float_stride_small; auto|exact K1|exact K2|apply inner_f32; exact I|exact (fun _ _ => I)
      |exact V|right; cbn; lia|split; cbn; lia|].
  exists (finish 3 (rgb_out s) into sc). split; [exact R|].
  assert (P1 : length (rgb_in s [1; 2; 3]%Z) = 3) by now apply K1.
  assert (P2 : length (rgb_in s [4; 5; 6]%Z) = 3) by now apply K1.
  unfold mid_image in I1. cbn [store buf width height recode map chunk seq concat firstn skipn Nat.mul Nat.add] in I1.
  destruct (rgb_in s [1; 2; 3]%Z) as [|a0 [|a1 [|a2 [|]]]]; try discriminate P1.
  destruct (rgb_in s [4; 5; 6]%Z) as [|b0 [|b1 [|b2 [|]]]]; try discriminate P2.
  cbn [app] in I1. lazy in I1. injection I1 as <-.
  assert (P3 : length (rgb_out s [b0; b1; b2]) = 3) by now apply K2.
  assert (P4 : length (rgb_out s [a0; a1; a2]) = 3) by now apply K2.
  unfold finish, pixel_at. cbn [into set_buf buf stride width height recode map chunk seq concat firstn skipn Nat.mul Nat.add app].
  destruct (rgb_out s [b0; b1; b2]) as [|c0 [|c1 [|c2 [|]]]]; try discriminate P3.
  destruct (rgb_out s [a0; a1; a2]) as [|e0 [|e1 [|e2 [|]]]]; try discriminate P4. reflexivity.
Qed.
Print Assumptions C62_padded_source_refuted.
Example C62_nonvacuous : valid_call 3 false Lanczos3 rgb21 rgb32 /\ changes_size rgb21 rgb32 /\ fits_u32 rgb32 /\ stride rgb21 <> width rgb21 * 3.
Proof. split; [unfold rgb21, rgb32; valid_tac|]. split; [left; cbn; lia|]. split; [split; cbn; lia|]. cbn. lia. Qed.

(** ** C63 Threads do not change the result of a colour space scaler. *)
Theorem C63_schedule_independent : forall C k L f pool (s : colour_scaler C) (t : transfer C) premultiply (store into : image Z), pool_ok pool ->
  colour_resize_rgb C k L f pool s store into = colour_resize_rgb C k L f None s store into /\
  colour_resize_rgba C k L f pool s premultiply store into = colour_resize_rgba C k L f None s premultiply store into /\
  approx_resize_rgb C L f pool t store into = approx_resize_rgb C L f None t store into /\
  approx_resize_rgba C L f pool t premultiply store into = approx_resize_rgba C L f None t premultiply store into.
Proof.
  intros C k L f pool s t pre store into HP.
  assert (E1 : resize_f32 k L f 3 pool = resize_f32 k L f 3 None).
  { extensionality a. extensionality b. apply (C13_schedule_independent_f32 k L f 3 pool true a b HP). }
  assert (E2 : resize_rgba_f32 k L f pool pre = resize_rgba_f32 k L f None pre).
  { extensionality a. extensionality b. apply (C13_schedule_independent_f32 k L f 3 pool pre a b HP). }
  assert (E3 : resize_u8 L f 3 pool = resize_u8 L f 3 None).
  { extensionality a. extensionality b. now apply C13_schedule_independent. }
  assert (E4 : resize_rgba_u8 L f pool pre = resize_rgba_u8 L f None pre).
  { extensionality a. extensionality b. now apply C13_schedule_independent_rgba. }
  unfold colour_resize_rgb, colour_resize_rgba, approx_resize_rgb, approx_resize_rgba, via_rgb, via_rgba, via_rgba_helper.
  rewrite E1, E2, E3, E4. split; [reflexivity|split; [reflexivity|split; reflexivity]].
Qed.
Print Assumptions C63_schedule_independent.
Example C63_nonvacuous : pool_ok (Some (fun _ n => rev (seq 0 n))).
Proof. exact pool_two. Qed.

(** ** C64 The transfer function given to a scaler is the one it uses.  For RGB this is part
    of C60 ([rgb_in], [rgb_out] name it), and so it is for RGBA with Oklab and Jzazbz and
    for the 8-bit linear scaler.  Refuted for LinearScaler::resize_rgba: whatever transfer
    function it was created with, the call is the one with sRGB. *)
Theorem C64_transfer_function_refuted : forall C k L f pool (t t' : transfer C) premultiply (store into : image Z),
  colour_resize_rgba C k L f pool (LinearScaler t) premultiply store into =
  colour_resize_rgba C k L f pool (LinearScaler t') premultiply store into.
Proof. reflexivity. Qed.
Print Assumptions C64_transfer_function_refuted.
(** With a crate whose two transfer functions differ, the RGB call honours the choice and
    the RGBA call of the same scaler does not. *)
Definition two_transfers : colorutils :=
  let dark (t : bool) (p : list f32) := if t then map (fun _ => 0%Z) p else plain_u8 p in
  mkColorutils bool false
    (fun _ => plain_f32) plain_u8 (fun _ => plain_f32) (fun _ => plain_u8)
    (fun _ => plain_f32) (fun _ => plain_u8) (fun _ => plain_f32) (fun _ => plain_u8)
    (fun _ => plain_f32) (fun _ => plain_u8) (fun _ => plain_f32) (fun _ => plain_u8)
    plain_f32 plain_u8 (fun _ => plain_f32) (fun _ => plain_u8)
    (fun _ => plain_f32) dark (fun _ => plain_f32) dark
    (fun _ _ => plain_f32) (fun _ => dark) (fun _ _ => plain_f32) (fun _ => dark)
    plain_f32 plain_u8 plain_f32 plain_u8
    (fun _ => plain_f32) dark (fun _ => plain_f32) dark
    (fun _ => plain_bytes) (fun _ => plain_bytes) (fun _ => plain_bytes) (fun _ => plain_bytes).
Definition rgba11 : image Z := mkImage [10; 20; 30; 40]%Z 4 1 1 4 0.
Definition rgba21 : image Z := mkImage (repeat 0%Z 8) 4 2 1 8 0.
Definition rgb21d : image Z := mkImage (repeat 0%Z 6) 3 2 1 6 0.
Theorem C64_transfer_function_witness : forall k L,
  (exists out, colour_resize_rgb two_transfers k L Nearest None (@LinearScaler two_transfers true) rgb11 rgb21d = Returned Ok out /\ pixel_at 3 out 0 0 = [0; 0; 0]%Z) /\
  (exists out, colour_resize_rgb two_transfers k L Nearest None (@LinearScaler two_transfers false) rgb11 rgb21d = Returned Ok out /\ pixel_at 3 out 0 0 = [10; 20; 30]%Z) /\
  (exists out, colour_resize_rgba two_transfers k L Nearest None (@LinearScaler two_transfers true) false rgba11 rgba21 = Returned Ok out /\ pixel_at 4 out 0 0 = [10; 20; 30; 40]%Z) /\
  (exists out, colour_resize_rgba two_transfers k L Nearest None (@OklabScaler two_transfers true) false rgba11 rgba21 = Returned Ok out /\ pixel_at 4 out 0 0 = [0; 0; 0; 0]%Z).
Proof.
  intros k L. split; [eexists; split; [vm_compute; reflexivity|reflexivity]|].
  split; [eexists; split; [vm_compute; reflexivity|reflexivity]|].
  split; [eexists; split; [vm_compute; reflexivity|reflexivity]|]. eexists; split; [vm_compute; reflexivity|reflexivity].
Qed.
Print Assumptions C64_transfer_function_witness.

(** ** C65 Consequences: Nearest in a colour space, flat images in 8-bit linear light. *)
Lemma pixel_ext {T} N (a b : image T) x y x' y' : (forall c, c < N -> sample N a x y c = sample N b x' y' c) -> pixel_at N a x y = pixel_at N b x' y'.
Proof.
  intro H. apply list_ext. intro j. unfold pixel_at. rewrite !nth_error_firstn, !nth_error_skipn. destruct (j <? N) eqn:E; [|reflexivity].
  apply Nat.ltb_lt in E. now apply H.
Qed.
Lemma pixel_sample {T} N (a : image T) x y c : c < N -> nth_error (pixel_at N a x y) c = sample N a x y c.
Proof.
  intro H. unfold pixel_at, sample. rewrite nth_error_firstn, nth_error_skipn. apply Nat.ltb_lt in H. rewrite H. reflexivity.
Qed.
Lemma dense_samples N (im : image Z) : 0 < N -> dense N im -> 0 < width im -> length (buf im) = height im * stride im ->
  (forall x y, x < width im -> y < height im -> samples_in 255 (pixel_at N im x y)) -> samples_in 255 (buf im).
Proof.
  intros HN D W Hl H. unfold samples_in. apply Forall_forall. intros v Hv. apply In_nth_error in Hv. destruct Hv as [i Hi].
  pose proof (nth_error_Some_lt _ _ _ Hi) as Li. rewrite D in Hl.
  assert (Hx : (i / N) mod width im < width im) by (apply Nat.mod_upper_bound; lia).
  assert (Q1 : i / N < width im * height im) by (apply Nat.div_lt_upper_bound; nia).
  assert (Hy : (i / N) / width im < height im) by (apply Nat.div_lt_upper_bound; lia).
  specialize (H _ _ Hx Hy). unfold samples_in in H. rewrite Forall_forall in H. apply H.
  apply (nth_error_In _ (i mod N)). unfold pixel_at. rewrite nth_error_firstn, nth_error_skipn, D.
  assert (i mod N < N) by (apply Nat.mod_upper_bound; lia). replace (i mod N <? N) with true by lia. rewrite <- Hi. f_equal.
  pose proof (Nat.div_mod_eq i N). pose proof (Nat.div_mod_eq (i / N) (width im)). nia.
Qed.
(** The pixels picked by Nearest are converted there and back, one by one. *)
Theorem C65_nearest : forall C k L pool (s : colour_scaler C) (store into : image Z),
  keeps_arity 3 (rgb_in s) -> keeps_arity 3 (rgb_out s) ->
  valid_call 3 false Nearest store into -> changes_size store into -> fits_u32 into -> dense 3 store -> dense 3 into -> pool_ok pool ->
  exists cx cy out, colour_resize_rgb C k L Nearest pool s store into = Returned Ok out /\ only_pixels_differ 3 into out /\
    (forall x, x < width into -> cx x < width store) /\ (forall y, y < height into -> cy y < height store) /\
    (forall x x', x <= x' -> x' < width into -> cx x <= cx x') /\ (forall y y', y <= y' -> y' < height into -> cy y <= cy y') /\
    forall x y, x < width into -> y < height into -> pixel_at 3 out x y = rgb_out s (rgb_in s (pixel_at 3 store (cx x) (cy y))).
Proof.
  intros C k L pool s store into K1 K2 V D Fi D1 D2 HP.
  destruct (C60_pipeline_rgb C k L Nearest pool s store into K1 K2 V D Fi D1 D2 HP)
    as (conv & sc & out & R1 & D3 & V1 & I1 & O1 & R & R2 & O2).
  destruct R1 as (A1 & A2 & A3). destruct R2 as (B1 & B2 & B3). pose proof O1 as [P1 P2 _ _ _ _ _]. cbn [blank width height] in P1, P2.
  destruct (C08_nearest_f32_partial k L 3 pool conv (blank f0 3 (width into) (height into)) V1) as (cx & cy & sc' & I2 & _ & X1 & X2 & X3 & X4 & X5).
  - unfold changes_size. cbn [blank width height]. rewrite A1, A2. exact D.
  - exact HP.
  - exact D3.
  - reflexivity.
  - rewrite I1 in I2. injection I2 as <-. cbn [blank width height] in X1, X2, X3, X4, X5. rewrite A1 in X1. rewrite A2 in X2.
    exists cx, cy, out. split; [exact R|]. split; [exact O2|]. split; [exact X1|]. split; [exact X2|]. split; [exact X3|]. split; [exact X4|].
    intros x y Hx Hy. rewrite B3 by (rewrite ?P1, ?P2; assumption). f_equal. rewrite <- A3 by auto.
    apply pixel_ext. intros c Hc. apply X5; auto.
Qed.
Print Assumptions C65_nearest.
(** A flat image in 8-bit linear light: when only the width changes the result is flat and is
    the pixel converted there and back; otherwise each linear component may lose one unit
    first (averaging filters, sizes at most 61 times smaller). *)
Theorem C65_flat_approx_partial : forall C L f pool (t : transfer C) (store into : image Z) (p : list Z),
  averaging f = true -> f <> Nearest ->
  keeps_arity 3 (rgb_to_linear_u8 C t) -> keeps_arity 3 (linear_u8_to_rgb C t) -> gives_bytes (rgb_to_linear_u8 C t) ->
  valid_call 3 false f store into -> changes_size store into -> fits_u32 into -> dense 3 store -> dense 3 into -> pool_ok pool ->
  downscale_at_most 61 store into ->
  (forall x y, x < width store -> y < height store -> pixel_at 3 store x y = p) ->
  exists out, approx_resize_rgb C L f pool t store into = Returned Ok out /\
    forall x y, x < width into -> y < height into ->
    exists q, pixel_at 3 out x y = linear_u8_to_rgb C t q /\ length q = 3 /\
      (forall c u v, nth_error (rgb_to_linear_u8 C t p) c = Some u -> nth_error q c = Some v -> (u - 1 <= v <= u)%Z) /\
      (height store = height into -> q = rgb_to_linear_u8 C t p).
Proof.
  intros C L f pool t store into p Av Hf K1 K2 G V D Fi D1 D2 HP Dn Flat.
  destruct (C60_pipeline_approx C L f pool t store into K1 K2 V D Fi D1 D2 HP)
    as (conv & sc & out & R1 & D3 & V1 & I1 & O1 & R & R2 & O2).
  destruct R1 as (A1 & A2 & A3). destruct R2 as (B1 & B2 & B3). pose proof O1 as [P1 P2 P3 _ _ P6 _]. cbn [blank width height stride buf] in P1, P2, P3, P6.
  rewrite repeat_length in P6.
  destruct V as [_ [S1 [S2 [S3 S4]]] [T1 [T2 _]] _ _ _ _ _].
  assert (Lp : length p = 3).
  { rewrite <- (Flat 0 0 S1 S2). unfold pixel_at. rewrite firstn_length, skipn_length, S4. nia. }
  assert (S : samples_in 255 (buf conv)).
  { apply (dense_samples 3 conv); [lia|exact D3|rewrite A1; exact S1|apply (vc_src _ _ _ _ _ V1)|].
    intros x y Hx Hy. rewrite A1 in Hx. rewrite A2 in Hy. rewrite A3 by auto. apply G. }
  set (q0 := rgb_to_linear_u8 C t p) in *.
  assert (Lq : length q0 = 3) by now apply K1.
  exists out. split; [exact R|]. intros x y Hx Hy. exists (pixel_at 3 sc x y).
  assert (W : forall c, c < 3 -> exists u r, nth_error q0 c = Some u /\ sample 3 sc x y c = Some r /\ (u - 1 <= r <= u)%Z /\ (height store = height into -> r = u)).
  { intros c Hc. destruct (nth_error q0 c) as [u|] eqn:Eu; [|apply nth_error_None in Eu; lia].
    destruct (C18_constant_partial L f 3 pool conv (blank 0%Z 3 (width into) (height into)) sc c u Av Hf V1 HP) with (x := x) (y := y) as (r & Q1 & Q2 & Q3); auto.
    - unfold changes_size. cbn [blank width height]. rewrite A1, A2. exact D.
    - unfold downscale_at_most in *. cbn [blank width height]. rewrite A1, A2. exact Dn.
    - rewrite A1, A2. intros x' y' Hx' Hy'. rewrite <- pixel_sample by exact Hc. rewrite A3, Flat by auto. exact Eu.
    - exists u, r. split; [reflexivity|]. split; [exact Q1|]. split; [exact Q2|]. cbn [blank height] in Q3. rewrite A2 in Q3. exact Q3. }
  split; [apply B3; lia|]. split.
  { destruct (W 2 ltac:(lia)) as (u & r & _ & E & _). rewrite <- pixel_sample in E by lia.
    apply nth_error_Some_lt in E. pose proof (firstn_le_length 3 (skipn (y * stride sc + x * 3) (buf sc))) as Q. unfold pixel_at in *. lia. }
  split.
  - intros c u v E1 E2. assert (Hc : c < 3) by (apply nth_error_Some_lt in E1; lia). destruct (W c Hc) as (u' & r & F1 & F2 & F3 & _).
    rewrite pixel_sample in E2 by exact Hc. rewrite E1 in F1. rewrite E2 in F2. injection F1 as <-. injection F2 as <-. exact F3.
  - intro Hh. apply list_ext. intro c. destruct (lt_dec c 3) as [Hc|Hc].
    + destruct (W c Hc) as (u & r & F1 & F2 & _ & F4). rewrite pixel_sample by exact Hc. rewrite F2, F1. f_equal. now apply F4.
    + rewrite (proj2 (nth_error_None q0 c)) by lia. apply nth_error_None. unfold pixel_at. rewrite firstn_length. lia.
Qed.

Print Assumptions C65_flat_approx_partial.
Example C65_nonvacuous : averaging Bilinear = true /\ Bilinear <> Nearest /\ valid_call 3 false Bilinear rgb11 rgb21d /\ downscale_at_most 61 rgb11 rgb21d /\
  valid_call 3 false Nearest rgb11 rgb21d /\ changes_size rgb11 rgb21d /\
  keeps_arity 3 (rgb_to_linear_u8 plain_crate true) /\ gives_bytes (rgb_to_linear_u8 plain_crate true) /\
  (forall x y, x < width rgb11 -> y < height rgb11 -> pixel_at 3 rgb11 x y = [10; 20; 30]%Z).
Proof.
  split; [reflexivity|]. split; [discriminate|]. split; [unfold rgb11, rgb21d; valid_tac|]. split; [split; cbn; lia|].
  split; [unfold rgb11, rgb21d; valid_tac|]. split; [left; cbn; lia|].
  split; [intros p Hp; cbn; unfold plain_bytes; now rewrite map_length|].
  split. { intro p. unfold samples_in. cbn. unfold plain_bytes. apply Forall_forall. intros v Hv. apply in_map_iff in Hv.
    destruct Hv as (u & <- & _). pose proof (Z.mod_pos_bound u 256). lia. }
  intros x y Hx Hy. cbn in Hx, Hy. replace x with 0 by lia. replace y with 0 by lia. reflexivity.
Qed.
