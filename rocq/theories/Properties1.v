(** Property theorems C01-C07: images, validation, refusals, copies.
    Nothing but statements closed by lemmas, their assumptions and non-vacuity examples. *)
From Coq Require Import ZArith List Bool Lia ZifyBool ZifyNat.
From Verif Require Import Base BaseProofs ImageStore Dispatch Resize Spec F32 Weights Sampler Api SpecApi ImageProofs NoFail
  PoolProofs DispatchProofs ResizeProofs PortableProofs ApiProofs Witness.
Import ListNotations.

(** ** C01 Image constructors accept exactly the right buffers *)
Theorem C01_constructors_partial : forall (T : Type) (N : nat) (s : list T) (w h : nat),
  fits_usize (w * h * N) ->
  (length s = w * h * N ->
     exists im, from_slice N s w h = Done im /\ buf im = s /\ width im = w /\ height im = h /\
       channels im = N /\ bit_depth im = 0 /\ validate N im = Done tt /\ addressable N im) /\
  (length s <> w * h * N -> from_slice N s w h = Fail (BufferMismatch (w * h * N) w h N (length s))).
Proof. exact @from_slice_spec. Qed.
Print Assumptions C01_constructors_partial.

(** Without the bound on w*h*N the claim is false: the product wraps around. *)
Theorem C01_constructors_refuted : exists (w h : nat) (im : image Z),
  from_slice 1 [] w h = Done im /\ validate 1 im = Done tt /\ 0 < w /\ 0 < h /\ sample 1 im 0 0 0 = None.
Proof. exact from_slice_wrap. Qed.
Print Assumptions C01_constructors_refuted.

Example C01_nonvacuous : fits_usize (2 * 1 * 3) /\ length [10; 20; 30; 40; 50; 60]%Z = 2 * 1 * 3.
Proof. split; [unfold fits_usize, usize_mod; lia|reflexivity]. Qed.

(** ** C02 Validation is sound *)
Theorem C02_accepted_images_are_addressable_partial : forall (T : Type) (N : nat) (im : image T),
  validate N im = Done tt -> 0 < N -> fits_usize (stride im * height im) -> fits_usize (width im * N) -> addressable N im.
Proof. exact @validate_addressable. Qed.
Print Assumptions C02_accepted_images_are_addressable_partial.

Theorem C02_accepted_images_are_addressable_refuted : exists im : image Z,
  validate 1 im = Done tt /\ 0 < width im /\ 0 < height im /\
  check_image_size_overflow (width im) (height im) 1 = false /\ sample 1 im 0 0 0 = None.
Proof. exact validate_wrap. Qed.
Print Assumptions C02_accepted_images_are_addressable_refuted.

Example C02_nonvacuous : validate 1 pad22 = Done tt /\ fits_usize (stride pad22 * height pad22) /\ fits_usize (width pad22 * 1).
Proof. split; [reflexivity|]. cbn. unfold fits_usize, usize_mod. lia. Qed.

(** ** C03 Stride zero: every call with such an image is refused, so the documented
    meaning is refuted for every non-empty image (u8 calls; the check precedes
    everything that depends on the sample type). *)
Theorem C03_stride_zero_destination_refuted : forall L f N pool (store into : image Z),
  stride into = 0 -> 0 < width into -> 0 < N -> length (buf into) = width into * N * height into ->
  fits_usize (width into * N) -> fits_usize (width into * N * height into) ->
  resize_u8 L f N pool store into = Returned (Err (InvalidStride (width into * N) 0)) into.
Proof. intros. now apply stride0_destination. Qed.
Print Assumptions C03_stride_zero_destination_refuted.

Theorem C03_stride_zero_source_refuted : forall L f N pool (store into : image Z),
  validate N into = Done tt ->
  stride store = 0 -> 0 < width store -> 0 < N -> length (buf store) = width store * N * height store ->
  fits_usize (width store * N) -> fits_usize (width store * N * height store) ->
  resize_u8 L f N pool store into = Returned (Err (InvalidStride (width store * N) 0)) into.
Proof. intros. now apply stride0_source. Qed.
Print Assumptions C03_stride_zero_source_refuted.

Example C03_nonvacuous :
  let im := gray 2 1 0 [7; 8]%Z in
  stride im = 0 /\ 0 < width im /\ length (buf im) = width im * 1 * height im /\
  fits_usize (width im * 1) /\ fits_usize (width im * 1 * height im) /\ validate 1 pad22 = Done tt.
Proof. cbn. unfold fits_usize, usize_mod. repeat split; lia. Qed.

(** ** C04 Error decision table: a call is refused exactly when some condition of the
    table holds, with the first such error; otherwise it does not return an error. *)
Theorem C04_refusals : forall L f N pool (store into : image Z),
  match first_error (refusal_table N false store into) with
  | Some e => resize_u8 L f N pool store into = Returned (Err e) into
  | None => resize_u8 L f N pool store into = Panicked \/ exists out, resize_u8 L f N pool store into = Returned Ok out
  end.
Proof.
  intros. unfold resize_u8.
  apply (generic_resize_cases N (scaler_engine L f N 255 false no_premul no_unpremul no_alpha)).
  apply scaler_passes_nofail.
Qed.
Print Assumptions C04_refusals.

(** For images whose sizes fit the machine word, the table in plain arithmetic. *)
Theorem C04_plain_table : forall N (im : image Z),
  0 < N -> stride im <> 0 -> fits_usize (stride im * height im) -> fits_usize (width im * N) ->
  ((exists e, validate N im = Fail e) <->
   (length (buf im) <> stride im * height im \/ stride im < width im * N)).
Proof.
  intros N im HN Hs F1 F2. unfold validate, stride_of.
  replace (stride im =? 0) with false by lia. rewrite !wmul_small by (unfold fits_usize in *; lia).
  destruct (Nat.eqb_spec (length (buf im)) (stride im * height im)) as [E|E]; cbn [negb].
  - destruct (Nat.ltb_spec (stride im) (width im * N)); split; intros; eauto; try tauto.
    + destruct H0; discriminate.
    + lia.
  - split; intros; eauto.
Qed.
Print Assumptions C04_plain_table.

Theorem C04_error_codes : forall e e' : error,
  0 < error_code e /\
  (error_code e = error_code e' ->
   match e, e' with
   | ZeroImageDimensions, ZeroImageDimensions | SourceImageIsTooLarge, SourceImageIsTooLarge
   | DestinationImageIsTooLarge, DestinationImageIsTooLarge | UnknownResizingFilter, UnknownResizingFilter
   | BufferMismatch _ _ _ _ _, BufferMismatch _ _ _ _ _ | InvalidStride _ _, InvalidStride _ _
   | UnsupportedBitDepth _, UnsupportedBitDepth _ => True
   | _, _ => False end).
Proof. intros e e'. destruct e, e'; cbn [error_code]; split; auto; try lia; discriminate. Qed.
Print Assumptions C04_error_codes.

Example C04_nonvacuous :
  first_error (refusal_table 1 false (gray 0 1 1 [5]%Z) pad22) = Some ZeroImageDimensions /\
  first_error (refusal_table 3 false rgb21 rgb32) = None /\
  first_error (refusal_table 1 false pad22 (gray 4 1 3 [1;2;3]%Z)) = Some (InvalidStride 4 3).
Proof. repeat split. Qed.

(** ** C05 A failed resize leaves the destination untouched *)
Theorem C05_failure_is_clean : forall L f N pool (store into out : image Z) e,
  resize_u8 L f N pool store into = Returned (Err e) out -> out = into.
Proof.
  intros L f N pool store into out e H. pose proof (C04_refusals L f N pool store into) as C.
  destruct (first_error _); [congruence|]. destruct C as [C|[o C]]; congruence.
Qed.
Print Assumptions C05_failure_is_clean.

Example C05_nonvacuous : forall L, exists out, resize_u8 L Lanczos3 1 None (gray 0 1 1 [5]%Z) pad22 = Returned (Err ZeroImageDimensions) out.
Proof. intro L. eexists. reflexivity. Qed.

(** ** C06 Same-size resize is the identity on pixels *)
Theorem C06_same_size_partial : forall L f N pool (store into : image Z),
  valid_call N false f store into -> width store = width into -> height store = height into ->
  exists out, resize_u8 L f N pool store into = Returned Ok out /\ same_picture N store out /\
    width out = width into /\ height out = height into /\ stride out = stride into /\ bit_depth out = bit_depth into.
Proof. intros. now apply same_size_visible. Qed.
Print Assumptions C06_same_size_partial.

(** The padding of the destination is overwritten with the padding of the source. *)
Theorem C06_padding_refuted : exists store into : image Z, exists i,
  valid_call 1 false Bilinear store into /\ width store = width into /\ height store = height into /\
  width into * 1 <= i mod stride into /\
  forall L pool, exists out, resize_u8 L Bilinear 1 pool store into = Returned Ok out /\
    nth_error (buf into) i = Some 7%Z /\ nth_error (buf out) i = Some 9%Z.
Proof.
  exists pad22, (gray 2 2 3 [0; 0; 7; 0; 0; 8]%Z), 2. split; [unfold pad22; valid_tac|].
  split; [reflexivity|]. split; [reflexivity|]. split; [cbn; lia|].
  intros L pool. eexists. split; [reflexivity|]. split; reflexivity.
Qed.
Print Assumptions C06_padding_refuted.

Example C06_nonvacuous : valid_call 1 false Lanczos3 pad22 (gray 2 2 5 (repeat 0%Z 10)).
Proof. unfold pad22. valid_tac. Qed.

(** ** C07 Copies *)
Theorem C07_copied_partial : forall (T : Type) N (im : image T),
  0 < N -> good N im -> stride im = width im * N -> fits_usize (width im * N) ->
  good N (copied N im) /\ same_picture N im (copied N im).
Proof. exact @copied_dense. Qed.
Print Assumptions C07_copied_partial.

(** With row padding the copy shows another picture, and no resize accepts it. *)
Theorem C07_copied_refuted : exists im : image Z, good 1 im /\ ~ same_picture 1 im (copied 1 im) /\
  exists e, validate 1 (copied 1 im) = Fail e.
Proof.
  exists pad22. split; [constructor; cbn; lia|]. split.
  - intros (_ & _ & H). specialize (H 0 1 0 ltac:(cbn; lia) ltac:(cbn; lia) ltac:(lia)). discriminate H.
  - eexists. reflexivity.
Qed.
Print Assumptions C07_copied_refuted.

Example C07_nonvacuous : good 3 (mkImage [1;2;3;4;5;6]%Z 3 2 1 6 0) /\ 6 = 2 * 3.
Proof. split; [constructor; cbn; lia|reflexivity]. Qed.
