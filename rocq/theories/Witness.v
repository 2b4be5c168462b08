(** Concrete images used by the refutations and non-vacuity examples, and proofs of
    the API level lemmas the property files close with. *)
From Coq Require Import ZArith List Lia Bool ZifyBool ZifyNat ZifyN Permutation.
From Verif Require Import Base BaseProofs ImageStore ColorGroup FixedPoint Dispatch Resize Spec
  KernelProofs Kernel4Proofs DispatchProofs ResizeProofs F32 F32Proofs Weights WeightsProofs QuantProofs NoFail ImageProofs
  PoolProofs NearestProofs PortableProofs Sampler SamplerProofs WeightSum FilterSums Center QuantSums ApiProofs.
Import ListNotations.
Local Open Scope nat_scope.

(** A one channel image from its samples. *)
Definition gray (w h s : nat) (b : list Z) : image Z := mkImage b 1 w h s 0.

Ltac valid_tac := constructor; cbn [width height stride buf channels bit_depth gray length repeat];
  unfold fits_usize, usize_mod; repeat split; try lia; try (intro; discriminate).

(** 2x2 pixels with one element of row padding. *)
Definition pad22 : image Z := gray 2 2 3 [1; 2; 9; 3; 4; 9]%Z.
Definition rgb21 : image Z := mkImage [10; 20; 30; 40; 50; 60; 7; 7]%Z 3 2 1 8 0.
Definition rgb32 : image Z := mkImage (repeat 0%Z 20) 3 3 2 10 0.

Example valid_rgb : valid_call 3 false Bilinear rgb21 rgb32.
Proof. unfold rgb21, rgb32. valid_tac. Qed.
Example valid_rgb_changes : changes_size rgb21 rgb32.
Proof. left. cbn. lia. Qed.
Lemma valid_rgb_any f : valid_call 3 false f rgb21 rgb32.
Proof. unfold rgb21, rgb32. valid_tac. Qed.
Example pool_two : pool_ok (Some (fun _ n => rev (seq 0 n))).
Proof. intros l n. symmetry. apply Permutation_rev. Qed.
Example rgb_samples : samples_in 255 (buf rgb21).
Proof. unfold rgb21. cbn [buf]. repeat constructor; lia. Qed.

(** ** Images with stride field 0 *)
Lemma mulmod_wmul a b : mulmod a b = wmul a b.
Proof. reflexivity. Qed.

Lemma stride0_destination L f N nd maxv pre un need pool (store into : image Z) :
  stride into = 0 -> 0 < width into -> 0 < N -> length (buf into) = width into * N * height into ->
  fits_usize (width into * N) -> fits_usize (width into * N * height into) ->
  generic_resize N (scaler_engine L f N maxv nd pre un need) pool store into =
  Returned (Err (InvalidStride (width into * N) 0)) into.
Proof.
  intros. unfold generic_resize, checks. rewrite validate_stride0 by auto. reflexivity.
Qed.

Lemma stride0_source L f N nd maxv pre un need pool (store into : image Z) :
  validate N into = Done tt ->
  stride store = 0 -> 0 < width store -> 0 < N -> length (buf store) = width store * N * height store ->
  fits_usize (width store * N) -> fits_usize (width store * N * height store) ->
  generic_resize N (scaler_engine L f N maxv nd pre un need) pool store into =
  Returned (Err (InvalidStride (width store * N) 0)) into.
Proof.
  intros Hv **. unfold generic_resize, checks. rewrite Hv. cbn [bind]. rewrite validate_stride0 by auto. reflexivity.
Qed.

(** ** The same size *)
Lemma with_alpha_same {F} N (E : engine Z F) pool r store into :
  width store = width into -> height store = height into ->
  generic_resize_with_alpha N E pool r store into = generic_resize N E pool store into.
Proof.
  intros Hw Hh. unfold generic_resize_with_alpha, generic_resize.
  replace (width store =? width into) with true by lia. replace (height store =? height into) with true by lia.
  reflexivity.
Qed.

Lemma same_size_visible L f N maxv nd pre un need pool store into :
  valid_call N nd f store into -> width store = width into -> height store = height into ->
  exists out, generic_resize N (scaler_engine L f N maxv nd pre un need) pool store into = Returned Ok out /\
    same_picture N store out /\
    width out = width into /\ height out = height into /\ stride out = stride into /\ bit_depth out = bit_depth into.
Proof.
  intros V Hw Hh. rewrite call_same by auto. eexists; split; [reflexivity|].
  destruct (valid_good V) as [G1 G2]. assert (HN : 1 <= N <= 4) by apply V.
  cbn [set_buf width height stride bit_depth]. split; [|auto].
  unfold same_picture. cbn [set_buf width height]. split; [auto|]. split; [auto|].
  intros x y c Hx Hy Hc. unfold sample at 2, set_buf. cbn [buf stride].
  assert (S1 : 0 < stride into) by (apply (good_stride_pos N into); [lia|exact G2]).
  assert (J : x * N + c < width into * N) by nia.
  assert (J2 : x * N + c < Nat.min (stride store) (stride into)) by (pose proof (g_stride _ _ G1); pose proof (g_stride _ _ G2); lia).
  rewrite <- Nat.add_assoc.
  rewrite pixmap_at; auto; try lia; try (apply G2).
  unfold sample. rewrite <- Nat.add_assoc. apply nth_error_nth'.
  rewrite (g_len _ _ G1). pose proof (g_stride _ _ G1). nia.
Qed.

(** Row [y] of an image as an image of one row. *)
Definition row_image {T} (im : image T) (y : nat) : image T :=
  mkImage (firstn (stride im) (skipn (y * stride im) (buf im))) (channels im) (width im) 1 (stride im) (bit_depth im).

Lemma row_image_sample {T} {N} (im : image T) x y c : good N im -> x < width im -> y < height im -> c < N ->
  sample N (row_image im y) x 0 c = sample N im x y c.
Proof.
  intros G Hx Hy Hc. unfold sample, row_image. cbn [buf stride Nat.mul Nat.add].
  assert (x * N + c < stride im) by (pose proof (g_stride _ _ G); nia).
  rewrite nth_error_firstn, nth_error_skipn. replace (x * N + c <? stride im) with true by lia. f_equal. lia.
Qed.

Lemma row_image_good {T} {N} (im : image T) y : good N im -> y < height im -> good N (row_image im y).
Proof.
  intros G Hy. constructor; unfold row_image; cbn [width height stride buf]; try apply G; [lia|].
  rewrite firstn_length, skipn_length, (g_len _ _ G). nia.
Qed.

(** ** The whole picture of a call on both paths that convolve *)
Section Calls.
Variables (L : libm) (f : resampling_function) (N : nat) (maxv : Z) (nd : bool).
Variables (pre : pool_t -> image Z -> image Z -> outcome (image Z))
  (unpre : pool_t -> image Z -> outcome (image Z)) (need : image Z -> outcome bool).
Hypothesis Hmax : (0 <= maxv)%Z.
Hypothesis Hf : f <> Nearest.
Let E := scaler_engine L f N maxv nd pre unpre need.

(** Only the samples inside the windows of (x, y), same channel, matter; neither
    do strides, padding or the old content of the destination. *)
Lemma call_local pool pool' store store' into into' out out' x y c :
  valid_call N nd f store into -> valid_call N nd f store' into' -> pool_ok pool -> pool_ok pool' ->
  width store = width store' -> height store = height store' -> width into = width into' -> height into = height into' ->
  changes_size store into ->
  generic_resize N E pool store into = Returned Ok out -> generic_resize N E pool' store' into' = Returned Ok out' ->
  x < width into -> y < height into -> c < N ->
  (forall sx sy, in_window (resampling_filter L f) store into x y sx sy -> sample N store sx sy c = sample N store' sx sy c) ->
  sample N out x y c = sample N out' x y c.
Proof.
  intros V V' P P' W1 W2 W3 W4 D R R' Hx Hy Hc A.
  destruct (paint_raw L f N maxv nd pre unpre need pool store into Hmax V P Hf D) as (o1 & R1 & O1 & S1).
  assert (D' : changes_size store' into') by (unfold changes_size in *; lia).
  destruct (paint_raw L f N maxv nd pre unpre need pool' store' into' Hmax V' P' Hf D') as (o2 & R2 & O2 & S2).
  fold E in R1, R2. rewrite R in R1. rewrite R' in R2. inversion R1; inversion R2; subst o1 o2.
  destruct (valid_good V) as [G1 G2]. destruct (valid_good V') as [G1' G2'].
  rewrite S1, S2; auto; try (rewrite ?(opd_width _ _ _ O1), ?(opd_width _ _ _ O2), ?(opd_height _ _ _ O1), ?(opd_height _ _ _ O2); lia).
  f_equal. transitivity (passes maxv (resampling_filter L f) store into (picture_of N store') y x c).
  - apply passes_local. apply agree_window_in. intros sx sy Hin.
    pose proof (in_window_bounds L N nd f store into x y sx sy V Hx Hy Hin) as [B1 B2].
    apply agree_picture; auto.
  - unfold passes. rewrite W1, W2, W3, W4. reflexivity.
Qed.

Lemma call_range pool store into out x y c :
  valid_call N nd f store into -> pool_ok pool -> changes_size store into ->
  generic_resize N E pool store into = Returned Ok out ->
  x < width into -> y < height into -> c < N -> exists v, sample N out x y c = Some v /\ (0 <= v <= maxv)%Z.
Proof.
  intros V P D R Hx Hy Hc.
  destruct (paint_raw L f N maxv nd pre unpre need pool store into Hmax V P Hf D) as (o1 & R1 & O1 & S1).
  fold E in R1. rewrite R in R1. inversion R1; subst o1.
  eexists. split; [apply S1; rewrite ?(opd_width _ _ _ O1), ?(opd_height _ _ _ O1); auto|]. now apply passes_range.
Qed.

(** A row does not know its neighbours: resizing the width of an image resizes
    each row as if it were alone. *)
Lemma call_rows pool pool' store into out out' y :
  valid_call N nd f store into -> pool_ok pool -> pool_ok pool' ->
  height store = height into -> width store <> width into -> y < height into ->
  generic_resize N E pool store into = Returned Ok out ->
  generic_resize N E pool' (row_image store y) (row_image into y) = Returned Ok out' ->
  forall x c, x < width into -> c < N -> sample N out x y c = sample N out' x 0 c.
Proof.
  intros V P P' Hh Hw Hy R R' x c Hx Hc.
  destruct (valid_good V) as [G1 G2].
  assert (V' : valid_call N nd f (row_image store y) (row_image into y)).
  { pose proof (row_image_good store y G1 ltac:(lia)) as Q1. pose proof (row_image_good into y G2 Hy) as Q2.
    destruct V. constructor; auto; try (split; [apply Q1|]; repeat split; apply Q1); try (split; [apply Q2|]; repeat split; apply Q2).
    - unfold row_image, fits_usize in *. cbn [buf width height]. rewrite !firstn_length, !skipn_length. repeat split; try lia. nia.
    - unfold row_image. cbn [width height]. lia.
    - intro Ha. specialize (vc_area Ha). unfold row_image. cbn [width height]. lia. }
  assert (D : changes_size store into) by (left; exact Hw).
  assert (D' : changes_size (row_image store y) (row_image into y)) by (left; exact Hw).
  destruct (paint_raw L f N maxv nd pre unpre need pool store into Hmax V P Hf D) as (o1 & R1 & O1 & S1).
  destruct (paint_raw L f N maxv nd pre unpre need pool' _ _ Hmax V' P' Hf D') as (o2 & R2 & O2 & S2).
  fold E in R1, R2. rewrite R in R1. rewrite R' in R2. inversion R1; inversion R2; subst o1 o2.
  rewrite S1, S2; auto; rewrite ?(opd_width _ _ _ O1), ?(opd_width _ _ _ O2), ?(opd_height _ _ _ O1), ?(opd_height _ _ _ O2); cbn [row_image width height]; auto.
  f_equal. unfold passes. cbn [row_image width height]. rewrite Hh, !Nat.eqb_refl. cbn [negb].
  replace (width store =? width into) with false by lia. cbn [negb]. unfold pass_h.
  pose proof (filter_windows_in _ _ _ x (sane_wf_h (valid_sane L V)) Hx) as W.
  do 4 f_equal. apply zsum_ext. intros k Hk. f_equal.
  assert (K : wstart (filter_windows (resampling_filter L f) (width store) (width into)) x + k < width store) by lia.
  pose proof (row_image_sample store _ y c G1 K ltac:(lia) Hc) as Q.
  rewrite (good_sample N store) in Q by (auto; lia).
  rewrite (good_sample N (row_image store y)) in Q; [|apply row_image_good; auto; lia|exact K|cbn [row_image height]; lia|exact Hc].
  now inversion Q.
Qed.
End Calls.

(** ** Monotonicity *)
Lemma call_mono L f N maxv nd pre unpre need pool store store' into out out' :
  (0 <= maxv <= 4095)%Z -> averaging f = true -> f <> Nearest ->
  valid_call N nd f store into -> valid_call N nd f store' into -> pool_ok pool ->
  width store = width store' -> height store = height store' -> changes_size store into ->
  samples_in maxv (buf store) -> samples_in maxv (buf store') ->
  generic_resize N (scaler_engine L f N maxv nd pre unpre need) pool store into = Returned Ok out ->
  generic_resize N (scaler_engine L f N maxv nd pre unpre need) pool store' into = Returned Ok out' ->
  forall c, c < N ->
  (forall x y a b, x < width store -> y < height store -> sample N store x y c = Some a -> sample N store' x y c = Some b -> (a <= b)%Z) ->
  forall x y a b, x < width into -> y < height into ->
  sample N out x y c = Some a -> sample N out' x y c = Some b -> (a <= b)%Z.
Proof.
  intros M A Hf V V' P W H D S S' R R' c Hc Le x y a b Hx Hy Ha Hb.
  assert (D' : changes_size store' into) by (unfold changes_size in *; lia).
  destruct (paint_closed L f N maxv nd pre unpre need pool store into ltac:(lia) V P Hf D S) as (o1 & R1 & O1 & S1).
  { now apply averaging_no_overflow with N nd. }
  destruct (paint_closed L f N maxv nd pre unpre need pool store' into ltac:(lia) V' P Hf D' S') as (o2 & R2 & O2 & S2).
  { now apply averaging_no_overflow with N nd. }
  rewrite R in R1. rewrite R' in R2. inversion R1; inversion R2; subst o1 o2.
  rewrite S1 in Ha by (auto; rewrite ?(opd_width _ _ _ O1), ?(opd_height _ _ _ O1); auto).
  rewrite S2 in Hb by (auto; rewrite ?(opd_width _ _ _ O2), ?(opd_height _ _ _ O2); auto).
  inversion Ha; inversion Hb; subst a b. rewrite <- W, <- H.
  destruct (valid_good V) as [G1 G2]. destruct (valid_good V') as [G1' _]. destruct (valid_sides V) as [Sd1 Sd2].
  pose proof (valid_sane L V) as Sn.
  apply (resample_mono maxv _ _ _ _ (height store) (width store) (height into) (width into)); auto; try lia.
  - intros o Ho. now apply (filter_windows_in _ _ _ o (sane_wf_v Sn)).
  - intros o Ho. now apply (filter_windows_in _ _ _ o (sane_wf_h Sn)).
  - apply averaging_nonneg; auto.
  - apply averaging_nonneg; auto.
  - intros sy sx Hsy Hsx. apply (Le sx sy); auto.
    + now apply good_sample.
    + apply good_sample; auto; lia.
Qed.

(** Constant channels under averaging filters. *)
Lemma call_const L f N maxv nd pre unpre need pool store into out t c v :
  (0 <= maxv <= 4095)%Z -> averaging f = true -> f <> Nearest ->
  valid_call N nd f store into -> pool_ok pool -> changes_size store into -> samples_in maxv (buf store) ->
  generic_resize N (scaler_engine L f N maxv nd pre unpre need) pool store into = Returned Ok out ->
  (1 <= t <= 10000)%Z -> downscale_at_most t store into -> ((66 * t + 34) * v < 1048576)%Z ->
  c < N -> (forall x y, x < width store -> y < height store -> sample N store x y c = Some v) ->
  forall x y, x < width into -> y < height into ->
  exists r, sample N out x y c = Some r /\ (v - 1 <= r <= v)%Z /\ (height store = height into -> r = v).
Proof.
  intros M A Hf V P D S R T Dn B Hc Cst x y Hx Hy.
  destruct (paint_closed L f N maxv nd pre unpre need pool store into ltac:(lia) V P Hf D S) as (o1 & R1 & O1 & S1).
  { now apply averaging_no_overflow with N nd. }
  rewrite R in R1. inversion R1; subst o1.
  eexists. split; [apply S1; auto; rewrite ?(opd_width _ _ _ O1), ?(opd_height _ _ _ O1); auto|].
  assert (Hv : (0 <= v <= maxv)%Z).
  { destruct (valid_good V) as [G1 _]. pose proof (Cst 0 0 (g_w _ _ G1) (g_h _ _ G1)) as K. unfold sample in K.
    apply nth_error_In in K. unfold samples_in in S. rewrite Forall_forall in S. now apply S. }
  apply (averaging_const L f N nd maxv t v store into (picture_of N store) x y c A V T Dn Hv B); auto.
  intros sx sy Hsx Hsy. now apply picture_sample, Cst.
Qed.

(** The result stays between the extremes of the source (the vertical pass may lose
    one unit at the bottom). *)
Lemma call_bounds L f N maxv nd pre unpre need pool store into out t c m M :
  (0 <= maxv <= 4095)%Z -> averaging f = true -> f <> Nearest ->
  valid_call N nd f store into -> pool_ok pool -> changes_size store into -> samples_in maxv (buf store) ->
  generic_resize N (scaler_engine L f N maxv nd pre unpre need) pool store into = Returned Ok out ->
  (1 <= t <= 10000)%Z -> downscale_at_most t store into -> (0 <= m)%Z -> (M <= maxv)%Z -> ((66 * t + 34) * M < 1048576)%Z ->
  c < N -> (forall x y v, x < width store -> y < height store -> sample N store x y c = Some v -> (m <= v <= M)%Z) ->
  forall x y r, x < width into -> y < height into -> sample N out x y c = Some r ->
  (m - 1 <= r <= M)%Z /\ (height store = height into -> (m <= r)%Z).
Proof.
  intros Mx A Hf V P D S R T Dn Hm HM B Hc Bd x y r Hx Hy Hr.
  destruct (paint_closed L f N maxv nd pre unpre need pool store into ltac:(lia) V P Hf D S) as (o1 & R1 & O1 & S1).
  { now apply averaging_no_overflow with N nd. }
  rewrite R in R1. inversion R1; subst o1.
  rewrite S1 in Hr; auto; rewrite ?(opd_width _ _ _ O1), ?(opd_height _ _ _ O1); auto. inversion Hr; subst r; clear Hr.
  destruct (valid_good V) as [G1 G2]. destruct (valid_sides V) as [Sd1 Sd2]. pose proof (valid_sane L V) as Sn.
  assert (mM : (m <= M)%Z). { pose proof (Bd 0 0 _ (g_w _ _ G1) (g_h _ _ G1) (good_sample N store 0 0 c G1 (g_w _ _ G1) (g_h _ _ G1) Hc)). lia. }
  assert (K : forall p p' : picture, (forall y x, y < height store -> x < width store -> (p y x c <= p' y x c)%Z) ->
    (resample maxv (negb (height store =? height into)%nat) (negb (width store =? width into)%nat)
      (vwin L f store into) (hwin L f store into) p y x c <=
     resample maxv (negb (height store =? height into)%nat) (negb (width store =? width into)%nat)
      (vwin L f store into) (hwin L f store into) p' y x c)%Z).
  { intros p p' Hp. apply (resample_mono maxv _ _ _ _ (height store) (width store) (height into) (width into)); auto; try lia.
    - intros o Ho. now apply (filter_windows_in _ _ _ o (sane_wf_v Sn)).
    - intros o Ho. now apply (filter_windows_in _ _ _ o (sane_wf_h Sn)).
    - apply averaging_nonneg; auto.
    - apply averaging_nonneg; auto. }
  pose proof (K (fun _ _ _ => m) (picture_of N store)) as K1. pose proof (K (picture_of N store) (fun _ _ _ => M)) as K2.
  assert (Bp : forall sy sx, sy < height store -> sx < width store -> (m <= picture_of N store sy sx c <= M)%Z).
  { intros sy sx Hsy Hsx. apply (Bd sx sy); auto. now apply good_sample. }
  specialize (K1 ltac:(intros; apply Bp; auto)). specialize (K2 ltac:(intros; apply Bp; auto)).
  destruct (averaging_const L f N nd maxv t m store into (fun _ _ _ => m) x y c A V T Dn ltac:(lia) ltac:(nia)) as [C1 C1']; auto.
  destruct (averaging_const L f N nd maxv t M store into (fun _ _ _ => M) x y c A V T Dn ltac:(lia) ltac:(nia)) as [C2 C2']; auto.
  cbv zeta in *. unfold vwin, hwin in *. split; [lia|]. intro Hh. specialize (C1' Hh). lia.
Qed.

(** ** Windows beyond the source for sides above 2^24 *)
Lemma f_to_int_nonneg x : (0 <= f_to_int 0 (2 ^ 64 - 1) x)%Z.
Proof. destruct x as [s|[]| |s m e B]; cbn [f_to_int]; try lia. Qed.
Lemma f_of_usize x : f_of_nat (f_to_usize x) = fZ (f_to_int 0 (2 ^ 64 - 1) x) 0.
Proof. unfold f_of_nat, f_to_usize. rewrite Z2Nat.id; auto using f_to_int_nonneg. Qed.

Lemma window_beyond_source L :
  let insz := Z.to_nat 16777219 in
  let W := filter_windows (resampling_filter L Bilinear) insz 1 in
  insz < wstart W 0 + wsize W 0.
Proof.
  intros insz W. unfold W. rewrite wsize_row by lia. unfold filter_windows, windows_of. cbn [wstart].
  rewrite bounds_nth by lia. unfold weight_row. cbn [is_area resampling_filter f_new andb].
  unfold general_row. destruct (smooth _ _) as [ws sm]. cbn [fst bstart bsize].
  assert (Hi : f_of_nat insz = fZ 16777219 0) by (unfold f_of_nat, insz; now rewrite Z2Nat.id by lia).
  unfold end_of, start_of, center_of, radius_of, scale_of. rewrite Hi.
  unfold kernel_size_of. rewrite !f_of_usize.
  unfold f_to_usize.
  match goal with |- _ < Z.to_nat ?a + (Z.to_nat ?b - Z.to_nat ?c) =>
    assert (Ha : a = 0%Z) by (vm_compute; reflexivity); assert (Hb : b = 16777220%Z) by (vm_compute; reflexivity);
    assert (Hc : c = 0%Z) by (vm_compute; reflexivity);
    apply Nat.lt_le_trans with (Z.to_nat 0 + (Z.to_nat 16777220 - Z.to_nat 0));
    [unfold insz; clear; lia|rewrite <- Ha, <- Hb at 1; rewrite Hc; rewrite <- Ha at 2; apply Nat.le_refl] end.
Qed.

(** ** A pixel lost by the jinc kernels *)
Definition jinc_filters : list resampling_function :=
  [EwaHanning; Lanczos2Jinc; Lanczos3Jinc; Lanczos4Jinc; Lanczos6Jinc; EwaLanczos3Jinc;
   EwaLanczosSharp; EwaLanczos4Sharpest; EwaLanczosSoft; HaasnSoft; Ginseng; EwaGinseng].

Lemma jinc_call L f v : In f jinc_filters -> (0 <= v <= 255)%Z ->
  exists out, resize_u8 L f 1 None (gray 1 1 1 [v]) (gray 3 1 3 [v; v; v]) = Returned Ok out /\
    sample 1 out 1 0 0 = Some 0%Z.
Proof.
  intros Hf Hv.
  assert (V : valid_call 1 false f (gray 1 1 1 [v]) (gray 3 1 3 [v; v; v])) by valid_tac.
  assert (Nn : f <> Nearest) by (intros ->; cbn in Hf; intuition discriminate).
  assert (D : changes_size (gray 1 1 1 [v]) (gray 3 1 3 [v; v; v])) by (left; cbn; lia).
  destruct (paint_raw L f 1 255 false no_premul no_unpremul no_alpha None _ _ ltac:(lia) V I Nn D) as (out & R & O & S).
  exists out. split; [exact R|].
  rewrite (S 1 0 0); try (rewrite ?(opd_width _ _ _ O), ?(opd_height _ _ _ O); cbn; lia). f_equal.
  unfold passes. cbn [gray width height Nat.eqb negb]. unfold pass_h.
  destruct (jinc_drops_pixel L f Hf) as [Z1 Z2].
  assert (Na : is_area (resampling_filter L f) = false).
  { destruct (is_area _) eqn:A; auto. apply is_area_iff in A. subst f. cbn in Hf. intuition discriminate. }
  rewrite wsize_row by lia. unfold weight_row. rewrite Na. cbn [andb]. rewrite Z2. cbn [bsize zsum].
  assert (Q : wcoef (filter_windows (resampling_filter L f) 1 3) 1 0 = 0%Z).
  { rewrite wcoef_row; [|lia|].
    - unfold weight_row, quant_row. rewrite Na. cbn [andb].
      rewrite forallb_forall in Z1.
      destruct (nth_in_or_default 0 (snd (general_row (resampling_filter L f) 1 (scale_of 1 3) 1)) f0) as [K|K].
      + apply Z1 in K. destruct (nth 0 _ f0); try discriminate K. destruct s; vm_compute; reflexivity.
      + rewrite K. vm_compute. reflexivity.
    - pose proof (sides_wf L f 1 3) as W. rewrite <- (weight_row_length _ 1 3 1).
      unfold weight_row. rewrite Na. cbn [andb].
      cbn in Hf. decompose [or] Hf; subst; try contradiction; vm_compute; lia. }
  rewrite Q. reflexivity.
Qed.

(** ** Nearest *)
Lemma nearest_u8 L N pool store into : valid_call N false Nearest store into -> changes_size store into -> pool_ok pool ->
  stride store = width store * N -> stride into = width into * N ->
  exists cx cy out, resize_u8 L Nearest N pool store into = Returned Ok out /\ only_pixels_differ N into out /\
    (forall x, x < width into -> cx x < width store) /\ (forall y, y < height into -> cy y < height store) /\
    (forall x x', x <= x' -> x' < width into -> cx x <= cx x') /\ (forall y y', y <= y' -> y' < height into -> cy y <= cy y') /\
    forall x y c, x < width into -> y < height into -> c < N -> sample N out x y c = sample N store (cx x) (cy y) c.
Proof.
  intros V D P S1 S2. destruct (valid_good V) as [G1 G2]. destruct (valid_sides V) as [(A1 & A2 & _) (B1 & B2 & _)].
  assert (HN : 1 <= N <= 4) by apply V.
  exists (nearest_coord (width store) (width into)), (nearest_coord (height store) (height into)).
  unfold resize_u8. rewrite nearest_call by auto. eexists. split; [reflexivity|]. split; [apply result_opd; auto; lia|].
  split; [intros; apply nc_range; lia|]. split; [intros; apply nc_range; lia|].
  split; [intros; apply nc_mono; lia|]. split; [intros; apply nc_mono; lia|].
  intros x y c Hx Hy Hc. rewrite result_sample by (auto; lia). symmetry. apply good_sample; auto; apply nc_range; lia.
Qed.
