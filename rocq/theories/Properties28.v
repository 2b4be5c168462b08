(** C68, continued: rows of f32 images on x86-64 that are resized independently. *)
From Coq Require Import ZArith Reals List Bool Lia Lra Psatz Permutation ZifyBool ZifyNat.
From Flocq Require Import Core.Core IEEE754.BinarySingleNaN.
From Verif Require Import Base BaseProofs FixedPoint FloatConv ImageStore Dispatch Resize Spec SpecApi SpecFloat SpecKernels SpecAccuracy F32 F32Proofs Weights Sampler
  Center SamplerProofs PortableProofs ResizeProofs NoFail PoolProofs ApiProofs Api Alpha ApiFloat DriverProofs FloatApiProofs KernelProofs X86Dispatch X86Float
  FloatSumErr SpecX86Float SpecFloatAccuracy X86FloatKernels X86FloatRows X86FloatCalls FloatAccuracy FloatAccuracyCalls Witness QuantSums DeepCalls AlphaU16 Properties4 Properties8.
From Verif Require FloatConvProofs.
From Verif Require Import ImageProofs Witness X86U8Local Properties13.
From Verif Require Import DispatchProofs Alpha AlphaProofs SpecAlpha ApiRgba RgbaProofs RgbaFloat AlphaLocal X86AlphaF32 X86AlphaF32Proofs X86AlphaF32Calls Properties23 Properties26.
Import ListNotations.
Local Open Scope nat_scope.

(** The cases where row y of an image of h rows is computed as a row alone is (see [computed_alike]). *)
Definition computed_as_alone (c : fcpu) (N h taps y : nat) : Prop :=
  N = 2 \/ N = 3 \/ (N = 1 /\ (sse41 (base_cpu c) = false \/ taps <= 16)) \/
  (N = 4 /\ (avx2 (base_cpu c) = false \/ has_fma c = false)) \/ 4 * (h / 4) <= y.

Lemma kernel_pass_row k N o fw (p : nat -> nat -> nat -> f32) y x ch :
  kernel_pass k N o fw p y x ch = kernel_pass k N o fw (fun _ xx cc => p y xx cc) 0 x ch.
Proof. destruct o; reflexivity. Qed.
Lemma x86f_h_alone k c N h fw p q y x ch insz outsz : wf_fw fw insz outsz -> 1 <= N <= 4 -> x < outsz -> ch < N ->
  computed_as_alone c N h (tsize (taps_of f0 fw) x) y -> y < h ->
  (forall j, p y j ch = q 0 j ch) -> x86f_h k c N h fw p y x ch = x86f_h k c N 1 fw q 0 x ch.
Proof.
  intros Wf HN Hx Hc CA Hy E. pose proof (Nat.div_mod h 4 ltac:(lia)) as Dm.
  set (p2 := fun yy xx cc : nat => if yy =? y then p y xx cc else q 0 xx cc).
  assert (A : x86f_h k c N h fw p y x ch = x86f_h k c N h fw p2 y x ch).
  { unfold x86f_h. rewrite (kernel_pass_row k N _ fw p), (kernel_pass_row k N _ fw p2). unfold p2. now rewrite Nat.eqb_refl. }
  assert (B : x86f_h k c N 1 fw q 0 x ch = x86f_h k c N h fw p2 h x ch).
  { unfold x86f_h. replace (h <? 4 * (h / 4)) with false by lia. change (0 <? 4 * (1 / 4)) with false. cbn [Nat.ltb Nat.leb].
    rewrite (kernel_pass_row k N _ fw q), (kernel_pass_row k N _ fw p2). unfold p2. now replace (h =? y) with false by lia. }
  rewrite A, B. apply (x86f_h_alike k c N h fw p2 y h x ch insz outsz Wf HN Hx Hc).
  - destruct CA as [C|[C|[C|[C|C]]]]; unfold computed_alike; [tauto|tauto|tauto|tauto|]. right; right; right; right. lia.
  - intro j. unfold p2. rewrite Nat.eqb_refl. replace (h =? y) with false by lia. apply E.
Qed.

Theorem C68_rows_are_independent_x86_partial : forall k c L f N pool pool' (store into out out' : image f32) y x ch,
  f <> Nearest -> valid_call N false f store into -> pool_ok pool -> pool_ok pool' -> height store = height into -> width store <> width into ->
  y < height into -> x < width into -> ch < N ->
  computed_as_alone c N (height into) (tsize (filter_taps (resampling_filter L f) (width store) (width into)) x) y ->
  resize_f32_x86 k c L f N pool store into = Returned Ok out ->
  resize_f32_x86 k c L f N pool' (row_image store y) (row_image into y) = Returned Ok out' ->
  sample N out x y ch = sample N out' x 0 ch.
Proof.
  intros k c L f N pool pool' store into out out' y x ch Hf V P P' Hh Hw Hy Hx Hc CA R R'.
  pose proof (row_call_valid N false f store into y V Hh Hy) as V'. destruct (valid_good V) as [G1 G2]. destruct (valid_good V') as [G1' G2'].
  rewrite resize_f32_x86_is in R, R'. cbn [row_image height] in R'.
  destruct (g_paints L f N false _ _ _ (engine_h_conv k c N L f (fun _ _ _ => Panic) (fun _ _ => Panic) (fun _ => Panic) (height into)) pool store into Hf V ltac:(left; exact Hw) P) as (o1 & R1 & O & S).
  destruct (g_paints L f N false _ _ _ (engine_h_conv k c N L f (fun _ _ _ => Panic) (fun _ _ => Panic) (fun _ => Panic) 1) pool' (row_image store y) (row_image into y) Hf V' ltac:(left; exact Hw) P') as (o2 & R2 & O' & S').
  assert (o1 = out) by congruence. subst o1. assert (o2 = out') by congruence. subst o2.
  rewrite S by (rewrite ?(opd_width _ _ _ O), ?(opd_height _ _ _ O); auto).
  rewrite S' by (rewrite ?(opd_width _ _ _ O'), ?(opd_height _ _ _ O'); auto; cbn [row_image height]; lia). f_equal.
  unfold g_passes, two_passes. cbn [row_image width height]. rewrite Hh, !Nat.eqb_refl. destruct (Nat.eqb_spec (width store) (width into)) as [Ew|_]; [contradiction|]. cbn [negb].
  cbn [gen engine_h].
  set (fw := generate_weights (resampling_filter L f) (width store) (width into)).
  assert (Wf : wf_fw fw (width store) (width into)) by exact (sane_wf_h (valid_sane L V)).
  set (cut := fun (r : nat -> nat -> nat -> f32) (yy xx cc : nat) => if xx <? width store then r yy xx cc else f0).
  assert (X : forall h r yy, x86f_h k c N h fw r yy x ch = x86f_h k c N h fw (cut r) yy x ch).
  { intros h r yy. pose proof (ce_forms _ _ _ _ _ _ _ (engine_h_conv k c N L f (fun _ _ _ => Panic) (fun _ _ => Panic) (fun _ => Panic) h) 0 (ltac:(unfold cn_ok; pose proof (vc_N _ _ _ _ _ V); lia))) as PF.
    refine (pf_hl _ _ _ _ _ PF fw _ _ yy x ch _). intros j Hj. unfold cut.
    destruct (wf_win _ _ _ Wf x (nth x (bounds fw) (mkBound 0 0))) as (_ & _ & B).
    { apply nth_error_nth'. rewrite (wf_blen _ _ _ Wf). exact Hx. }
    replace (j <? width store) with true by lia. reflexivity. }
  cbn [dflt engine_h]. rewrite (X (height into)), (X 1).
  apply (x86f_h_alone k c N (height into) fw _ _ y x ch _ _ Wf (vc_N _ _ _ _ _ V) Hx Hc CA Hy).
  intro j. unfold cut. destruct (Nat.ltb_spec j (width store)) as [Hj|]; [|reflexivity].
  pose proof (row_image_sample store j y ch G1 Hj ltac:(lia) Hc) as Q.
  pose proof (good_shown f0 N) as GS.
  rewrite (GS ltac:(pose proof (vc_N _ _ _ _ _ V); lia) (row_image store y) j 0 ch G1' ltac:(cbn [row_image width]; lia) ltac:(cbn [row_image height]; lia) Hc) in Q.
  rewrite (GS ltac:(pose proof (vc_N _ _ _ _ _ V); lia) store j y ch G1 Hj ltac:(lia) Hc) in Q. now injection Q.
Qed.
Print Assumptions C68_rows_are_independent_x86_partial.
Example C68_rows_nonvacuous :
  let store := mkImage [f1; f0; f0; f1; f0; f1]%nat 1 3 2 3 0 in let into := mkImage (repeat f0 4) 1 2 2 2 0 in
  valid_call 1 false Bilinear store into /\ height store = height into /\ width store <> width into /\
  (forall c taps, computed_as_alone c 1 (height into) taps 1) /\ (forall c taps, computed_as_alone c 3 8 taps 0).
Proof.
  cbv zeta. split; [valid_tac|]. split; [reflexivity|]. split; [discriminate|]. split; intros c taps; [right; right; right; right; cbn; lia|right; now left].
Qed.

(** Alpha-aware f32 calls (C91): the same with the alpha stages around the passes. *)
Theorem C91_rows_are_independent_rgba_f32_x86_partial : forall k c L f pool pool' (store into out out' : image f32) y,
  f <> Nearest -> valid_call 4 false f store into -> pool_ok pool -> pool_ok pool' ->
  height store = height into -> width store <> width into -> y < height into ->
  (avx2 (base_cpu c) = false \/ has_fma c = false \/ 4 * (height into / 4) <= y) ->
  (alpha_varies store <-> alpha_varies (row_image store y)) ->
  resize_rgba_f32_x86 k c L f pool true store into = Returned Ok out ->
  resize_rgba_f32_x86 k c L f pool' true (row_image store y) (row_image into y) = Returned Ok out' ->
  forall x ch, x < width into -> ch < 4 -> sample 4 out x y ch = sample 4 out' x 0 ch.
Proof.
  intros k c L f pool pool' store into out out' y Hf V P P' Hh Hw Hy CA I R R'.
  pose proof (row_call_valid 4 false f store into y V Hh Hy) as V'.
  destruct (rgba_pipeline_f32_x86 k c L f pool store into V (or_introl Hw) Hf P) as (src & mid & o & A1 & A2 & VS & Ws & Hs & Rm & Om & Ro & Un & _).
  destruct (rgba_pipeline_f32_x86 k c L f pool' (row_image store y) (row_image into y) V' (or_introl Hw) Hf P') as (srow & mrow & o' & B1 & B2 & VSr & Wr & Hr & Rr & Or & Ror & Ur & _).
  rewrite R in Ro. rewrite R' in Ror. inversion Ro; inversion Ror; subst o o'. clear Ro Ror.
  pose proof (same_stage _ _ _ _ _ I A1 A2 B1 B2) as Stg.
  assert (Gm : good 4 mid) by exact (good_opd _ _ _ (proj2 (valid_good V)) Om).
  assert (M : forall x j, x < width into -> j < 4 -> sample 4 mid x y j = sample 4 mrow x 0 j).
  { refine (alpha_rows_mid false L f (resize_f32_x86 k c L f 4) _ premul_px_f32 pool pool' store into src mid out srow mrow out' y V Hh Hw Hy _ _ _ VS Ws Hs Gm (eq_sym (opd_width _ _ _ Om)) (eq_sym (opd_height _ _ _ Om)) (eq_sym (opd_width _ _ _ Or)) (eq_sym (opd_height _ _ _ Or)) Stg).
    - intro VR. now apply C69_valid_calls_succeed_x86_f32.
    - intros m VR Rx x i Hx Hi. refine (C68_rows_are_independent_x86_partial k c L f 4 pool pool' src into mid m y x i Hf VS P P' _ _ Hy Hx Hi _ Rm Rx); try congruence.
      unfold computed_as_alone. tauto.
    - intros m VR Rx Same x i Hx Hi. rewrite <- Ws in Same.
      refine (C69_locality_x86_f32 k c L f 4 pool' pool' (row_image src y) srow (row_image into y) (row_image into y) m mrow x 0 i
        Hf VR VSr P' P' _ _ eq_refl eq_refl eq_refl _ Rx Rr Hx Nat.lt_0_1 Hi (row_window false L f src into srow y x i VR Hx Same Hi)); cbn [row_image width height] in *; try congruence.
      left. cbn [row_image width]. congruence. }
  intros x i Hx Hi. pose proof (opd_width _ _ _ Om) as E1. pose proof (opd_height _ _ _ Om) as E2.
  pose proof (opd_width _ _ _ Or) as E3. pose proof (opd_height _ _ _ Or) as E4. cbn [row_image width height] in E3, E4.
  destruct (pixel_exists mid x y Gm ltac:(lia) ltac:(lia)) as (r & g & b & a & Px).
  assert (Px' : pixel mrow x 0 r g b a).
  { destruct Px as (P0 & P1 & P2 & P3). repeat split; rewrite <- M by lia; assumption. }
  rewrite (Un x y r g b a ltac:(lia) ltac:(lia) Px i Hi). rewrite (Ur x 0 r g b a ltac:(lia) ltac:(lia) Px' i Hi).
  now rewrite E1, E3.
Qed.
Print Assumptions C91_rows_are_independent_rgba_f32_x86_partial.
Example C91_rows_f32_x86_nonvacuous :
  let store := mkImage [f1; f0; f0; f1; f0; f1; f1; f0; f1; f0; f0; f1; f0; f1; f1; f0]%nat 4 2 2 8 32 in
  let into := mkImage (repeat f0 24) 4 3 2 12 32 in
  valid_call 4 false Bilinear store into /\ height store = height into /\ width store <> width into /\
  4 * (height into / 4) <= 1 < height into /\ alpha_varies store /\ alpha_varies (row_image store 1).
Proof.
  cbv zeta. split; [valid_tac|]. split; [reflexivity|]. split; [discriminate|]. split; [cbn; lia|].
  split; [exists 0, 0, 1, 0|exists 0, 0, 1, 0]; repeat split; try (cbn; lia); discriminate.
Qed.
