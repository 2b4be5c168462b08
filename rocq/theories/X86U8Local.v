(** 8-bit images on x86-64: a result depends on its window, a row on its row. *)
From Coq Require Import ZArith List Lia Bool ZifyBool ZifyNat.
From Verif Require Import Base BaseProofs ImageStore FixedPoint Dispatch Resize Spec SpecApi F32 FloatConv Weights Sampler Api
  KernelProofs DispatchProofs ResizeProofs NoFail ImageProofs PoolProofs PortableProofs ApiProofs DriverProofs FloatApiProofs Witness
  X86Dispatch SpecX86 X86Pixels X86DispatchProofs X86Calls X86Facts.
Import ListNotations.
Local Open Scope nat_scope.

Section Formula.
Variables (c : cpu) (s : strategy) (N : nat) (p q : picture).
Lemma x86_v_window sw sh dh W y y' x ch : wsize W y = wsize W y' -> (forall k, wcoef W y k = wcoef W y' k) ->
  (forall k, k < wsize W y -> p (wstart W y + k) x ch = q (wstart W y' + k) x ch) ->
  x86_v c s N sw sh dh W p y x ch = x86_v c s N sw sh dh W q y' x ch.
Proof using Type.
  intros E1 E2 H. assert (S1 : sum_v W p y x ch = sum_v W q y' x ch).
  { unfold sum_v. rewrite <- E1. apply zsum_ext. intros k Hk. now rewrite H, E2. }
  unfold x86_v. destruct (_ && _ && _); [|destruct (avx2 c); [|destruct (sse41 c)]].
  - unfold lp_v. f_equal. rewrite <- E1. apply zsum_ext. intros k Hk. now rewrite H, E2.
  - unfold round_v. now rewrite S1.
  - unfold sse_v. now rewrite S1.
  - unfold resample_v. f_equal. exact S1.
Qed.
Lemma x86_h_window sw dw W y y' x ch : N <> 3 \/ avx2 c = false ->
  (forall k, k < wsize W x -> p y (wstart W x + k) ch = q y' (wstart W x + k) ch) ->
  x86_h c s N sw dw W p y x ch = x86_h c s N sw dw W q y' x ch.
Proof using Type.
  intros HN H.
  assert (R1 : resample_h 255 W p y x ch = resample_h 255 W q y' x ch).
  { unfold resample_h. f_equal. apply zsum_ext. intros k Hk. now rewrite H. }
  assert (R2 : lp_h W p y x ch = lp_h W q y' x ch).
  { unfold lp_h. f_equal. apply zsum_ext. intros k Hk. now rewrite H. }
  assert (R4 : avx_rgba_lp_h W p y x ch = avx_rgba_lp_h W q y' x ch).
  { unfold avx_rgba_lp_h. f_equal. apply zsum_ext. intros k Hk. now rewrite H. }
  unfold x86_h. destruct N as [|[|[|[|n]]]]; try (destruct (_ && _); assumption).
  destruct HN as [HN| ->]; [lia|exact R1].
Qed.
Lemma x86_h_line sw dw W y y' x ch : 0 < sw -> wstart W x + wsize W x <= sw -> (forall sx, sx < sw -> p y sx ch = q y' sx ch) ->
  x86_h c s N sw dw W p y x ch = x86_h c s N sw dw W q y' x ch.
Proof using Type.
  intros H0 HB H.
  assert (R1 : resample_h 255 W p y x ch = resample_h 255 W q y' x ch).
  { unfold resample_h. f_equal. apply zsum_ext. intros k Hk. now rewrite H by lia. }
  assert (R2 : lp_h W p y x ch = lp_h W q y' x ch).
  { unfold lp_h. f_equal. apply zsum_ext. intros k Hk. now rewrite H by lia. }
  assert (R3 : avx_rgb_h W p y x ch = avx_rgb_h W q y' x ch).
  { unfold avx_rgb_h. f_equal. apply zsum_ext. intros k Hk. destruct (misread _ _ _); now rewrite H by lia. }
  assert (R4 : avx_rgba_lp_h W p y x ch = avx_rgba_lp_h W q y' x ch).
  { unfold avx_rgba_lp_h. f_equal. apply zsum_ext. intros k Hk. now rewrite H by lia. }
  unfold x86_h. destruct N as [|[|[|[|n]]]]; repeat match goal with |- context [if ?b then _ else _] => destruct b end; assumption.
Qed.
End Formula.

Lemma x86_resample_window c s N L f (store into : image Z) p q x y ch : N <> 3 \/ avx2 c = false ->
  (forall sx sy, in_window (resampling_filter L f) store into x y sx sy -> p sy sx ch = q sy sx ch) ->
  x86_resample c s N (width store) (height store) (width into) (height into) (vwin L f store into) (hwin L f store into) p y x ch =
  x86_resample c s N (width store) (height store) (width into) (height into) (vwin L f store into) (hwin L f store into) q y x ch.
Proof.
  intros HN H. unfold x86_resample. unfold in_window in H. fold (vwin L f store into) in H. fold (hwin L f store into) in H.
  destruct (height store =? height into) eqn:Eh; destruct (width store =? width into) eqn:Ew; cbn [negb].
  - apply H. auto.
  - apply x86_h_window; [exact HN|]. intros k Hk. apply H. split; [reflexivity|lia].
  - apply x86_v_window; try reflexivity. intros k Hk. apply H. split; [lia|reflexivity].
  - apply x86_h_window; [exact HN|]. intros k Hk. apply x86_v_window; try reflexivity. intros k' Hk'. apply H. lia.
Qed.

(** Visible samples as a picture. *)
Lemma picture_same {N} (im im' : image Z) x y x' y' ch : good N im -> good N im' -> x < width im -> y < height im -> x' < width im' -> y' < height im' -> ch < N ->
  sample N im x y ch = sample N im' x' y' ch -> picture_of N im y x ch = picture_of N im' y' x' ch.
Proof.
  intros G G' Hx Hy Hx' Hy' Hc E.
  rewrite (good_shown 0%Z N), (good_shown 0%Z N) in E by (auto; lia). now inversion E.
Qed.

Lemma row_call_valid {T} N nd f (store into : image T) y : valid_call N nd f store into -> height store = height into -> y < height into ->
  valid_call N nd f (row_image store y) (row_image into y).
Proof.
  intros V Hh Hy. destruct (valid_good V) as [G1 G2].
  pose proof (row_image_good store y G1 ltac:(lia)) as Q1. pose proof (row_image_good into y G2 Hy) as Q2.
  destruct V. constructor; auto; try (split; [apply Q1|]; repeat split; apply Q1); try (split; [apply Q2|]; repeat split; apply Q2).
  - unfold row_image, fits_usize in *. cbn [buf width height]. rewrite !firstn_length, !skipn_length. repeat split; try lia. nia.
  - unfold row_image. cbn [width height]. lia.
  - intro Ha. specialize (vc_area Ha). unfold row_image. cbn [width height]. lia.
Qed.

Section Calls.
Variables (c : cpu) (s : strategy) (L : libm) (f : resampling_function) (N : nat).
Hypothesis Hf : f <> Nearest.
Lemma x86_no_trap pool (store into out : image Z) : valid_call N false f store into -> pool_ok pool -> changes_size store into ->
  samples_in 255 (buf store) -> tame f store into -> resize_u8_x86 c s L f N pool store into = Returned Ok out ->
  out = result_image N (x86_resample c s N (width store) (height store) (width into) (height into)
    (vwin L f store into) (hwin L f store into) (picture_of N store)) into.
Proof.
  intros V P D S Ht R. destruct (traps c s N (width store) (width into)) eqn:T.
  - destruct (tame_narrow L f N store into V Ht) as [T1 T2].
    rewrite (x86_traps c s L f N pool store into V P Hf S T1 T2 T) in R. discriminate R.
  - rewrite (x86_call c s L f N pool store into V P Hf D S Ht T) in R. now inversion R.
Qed.
Theorem x86_local pool pool' (store store' into into' out out' : image Z) x y ch : N <> 3 \/ avx2 c = false ->
  valid_call N false f store into -> valid_call N false f store' into' -> pool_ok pool -> pool_ok pool' ->
  samples_in 255 (buf store) -> samples_in 255 (buf store') -> tame f store into ->
  width store = width store' -> height store = height store' -> width into = width into' -> height into = height into' ->
  changes_size store into ->
  resize_u8_x86 c s L f N pool store into = Returned Ok out -> resize_u8_x86 c s L f N pool' store' into' = Returned Ok out' ->
  x < width into -> y < height into -> ch < N ->
  (forall sx sy, in_window (resampling_filter L f) store into x y sx sy -> sample N store sx sy ch = sample N store' sx sy ch) ->
  sample N out x y ch = sample N out' x y ch.
Proof using Hf.
  intros HN V V' P P' S S' Ht W1 W2 W3 W4 D R R' Hx Hy Hc A.
  assert (D' : changes_size store' into') by (unfold changes_size in *; lia).
  assert (Ht' : tame f store' into') by (unfold tame, downscale_at_most in *; now rewrite <- W1, <- W2, <- W3, <- W4).
  rewrite (x86_no_trap pool store into out V P D S Ht R), (x86_no_trap pool' store' into' out' V' P' D' S' Ht' R').
  destruct (valid_good V) as [G1 G2]. destruct (valid_good V') as [G1' G2'].
  rewrite !result_sample by (auto; lia). f_equal.
  unfold vwin, hwin. rewrite <- W1, <- W2, <- W3, <- W4. fold (vwin L f store into). fold (hwin L f store into).
  apply x86_resample_window; [exact HN|]. intros sx sy Hin.
  destruct (in_window_bounds L N false f store into x y sx sy V Hx Hy Hin) as [B1 B2].
  apply picture_same; auto; lia.
Qed.
Theorem x86_rows pool pool' (store into out out' : image Z) y :
  valid_call N false f store into -> pool_ok pool -> pool_ok pool' -> samples_in 255 (buf store) -> tame f store into ->
  height store = height into -> width store <> width into -> y < height into ->
  resize_u8_x86 c s L f N pool store into = Returned Ok out ->
  resize_u8_x86 c s L f N pool' (row_image store y) (row_image into y) = Returned Ok out' ->
  forall x ch, x < width into -> ch < N -> sample N out x y ch = sample N out' x 0 ch.
Proof using Hf.
  intros V P P' S Ht Hh Hw Hy R R' x ch Hx Hc.
  assert (V' : valid_call N false f (row_image store y) (row_image into y)) by (apply row_call_valid; assumption). destruct (valid_good V) as [G1 G2]. destruct (valid_good V') as [G1' G2'].
  assert (D : changes_size store into) by (left; exact Hw).
  assert (D' : changes_size (row_image store y) (row_image into y)) by (left; exact Hw).
  assert (S' : samples_in 255 (buf (row_image store y))).
  { unfold samples_in in *. rewrite Forall_forall in *. intros v Hv. apply S. cbn [row_image buf] in Hv.
    rewrite <- (firstn_skipn (y * stride store) (buf store)). apply in_or_app. right.
    match type of Hv with In _ (firstn ?n ?l) => rewrite <- (firstn_skipn n l) end. apply in_or_app. now left. }
  assert (Ht' : tame f (row_image store y) (row_image into y)).
  { destruct Ht as [Ht|[Ht1 Ht2]]; [now left|right]. split; cbn [row_image width height]; [exact Ht1|lia]. }
  rewrite (x86_no_trap pool store into out V P D S Ht R), (x86_no_trap pool' _ _ out' V' P' D' S' Ht' R').
  rewrite !result_sample by (auto; cbn [row_image width height]; lia). f_equal.
  unfold x86_resample, vwin, hwin. cbn [row_image width height]. rewrite Hh, !Nat.eqb_refl. cbn [negb].
  replace (width store =? width into) with false by lia. cbn [negb].
  destruct (filter_windows_in _ _ _ x (sane_wf_h (valid_sane L V)) Hx) as (Q1 & Q2).
  apply x86_h_line; [pose proof (g_w _ _ G1); lia|lia|]. intros sx Hs.
  apply picture_same; auto; try (cbn [row_image width height]; lia).
  symmetry. apply (row_image_sample store sx y ch G1 Hs ltac:(lia) Hc).
Qed.
End Calls.
