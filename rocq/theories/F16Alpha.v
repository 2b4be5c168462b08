(** f16 calls: locality, rows, alpha. *)
From Coq Require Import ZArith Reals List Lra Lia Bool ZifyBool ZifyNat.
From Flocq Require Import Core.Core IEEE754.BinarySingleNaN.
From Verif Require Import Base BaseProofs ImageStore FixedPoint Dispatch FloatConv Resize Spec SpecApi SpecAlpha SpecFloat F32 F32Proofs Weights Sampler
  Center KernelProofs DispatchProofs FloatConvProofs ResizeProofs NoFail ImageProofs PoolProofs PortableProofs SamplerProofs
  Api ApiFloat Alpha ApiProofs DriverProofs FloatApiProofs AlphaProofs AlphaScan AlphaU16 RgbaProofs RgbaFloat
  FloatAccuracyCalls F16 F16Arith F16Proofs F16Calls SpecAccuracy SpecFloatAccuracy FilterSums QuantSums DeepCalls X86AlphaF32Calls SpecF16 F16Range F16Sums Witness.
Import ListNotations.
Local Open Scope nat_scope.

Lemma f16_as_tidy k L f N pool (store into : image f16) :
  f <> Nearest -> valid_call N false f store into -> changes_size store into -> pool_ok pool ->
  resize_f16 k L f N pool store into = generic_resize N (tidy_f16 k L f N (fun _ _ _ => Panic) (fun _ _ => Panic) (fun _ => Panic)) pool store (prepared store into).
Proof. intros. unfold resize_f16. now apply f16_is_tidy. Qed.

Theorem f16_local k L f N pool pool' (store store' into into' out out' : image f16) x y c : f <> Nearest ->
  valid_call N false f store into -> valid_call N false f store' into' -> pool_ok pool -> pool_ok pool' ->
  width store = width store' -> height store = height store' -> width into = width into' -> height into = height into' ->
  changes_size store into ->
  resize_f16 k L f N pool store into = Returned Ok out -> resize_f16 k L f N pool' store' into' = Returned Ok out' ->
  x < width into -> y < height into -> c < N ->
  (forall sx sy, in_window (resampling_filter L f) store into x y sx sy -> sample N store sx sy c = sample N store' sx sy c) ->
  sample N out x y c = sample N out' x y c.
Proof.
  intros Hf V V' P P' E1 E2 E3 E4 D R R' Hx Hy Hc Hw.
  destruct (f16_paints k L f N pool store into Hf V D P) as (o & R1 & O & S).
  assert (D' : changes_size store' into') by (unfold changes_size in *; lia).
  destruct (f16_paints k L f N pool' store' into' Hf V' D' P') as (o' & R1' & O' & S').
  rewrite R in R1. rewrite R' in R1'. inversion R1; inversion R1'; subst o o'. clear R1 R1'.
  destruct (prepared_fields store into) as (A1 & A2 & _). destruct (prepared_fields store' into') as (B1 & B2 & _).
  rewrite S, S'; auto; rewrite ?(opd_width _ _ _ O), ?(opd_width _ _ _ O'), ?(opd_height _ _ _ O), ?(opd_height _ _ _ O'); try lia.
  f_equal. unfold f16_passes. rewrite <- E1, <- E2, <- E3, <- E4.
  pose proof (g_local_passes L f N false _ _ _ (tidy_conv k L f N (fun _ _ _ => Panic) (fun _ _ => Panic) (fun _ => Panic)) store into
    (shown h0 N store) (shown h0 N store') x y c eq_refl ltac:(pose proof (vc_N _ _ _ _ _ V); unfold cn_ok; lia)) as G.
  refine (G _). clear G. intros sx sy Hin. specialize (Hw sx sy Hin).
  destruct (in_window_bounds L N false f store into x y sx sy V Hx Hy Hin) as [X1 X2].
  destruct (valid_good V) as [G1 _]. destruct (valid_good V') as [G1' _].
  rewrite (good_shown h0 N), (good_shown h0 N) in Hw by (auto; lia).
  now inversion Hw.
Qed.

Lemma f16_h_row k d fw p y x c y' : f16_h k d fw p y x c = f16_h k d fw (fun _ => p y) y' x c.
Proof. reflexivity. Qed.

Theorem f16_rows k L f N pool pool' (store into out out' : image f16) y : f <> Nearest ->
  valid_call N false f store into -> pool_ok pool -> pool_ok pool' ->
  height store = height into -> width store <> width into -> y < height into ->
  resize_f16 k L f N pool store into = Returned Ok out ->
  resize_f16 k L f N pool' (row_image store y) (row_image into y) = Returned Ok out' ->
  forall x c, x < width into -> c < N -> sample N out x y c = sample N out' x 0 c.
Proof.
  intros Hf V P P' Hh Hw Hy R R' x c Hx Hc.
  pose proof (row_valid L f N false _ _ _ (tidy_conv k L f N (fun _ _ _ => Panic) (fun _ _ => Panic) (fun _ => Panic)) store into y V Hh Hy) as V'.
  destruct (valid_good V) as [G1 G2].
  assert (D : changes_size store into) by (left; exact Hw).
  assert (D' : changes_size (row_image store y) (row_image into y)) by (left; exact Hw).
  rewrite f16_as_tidy in R by assumption. rewrite f16_as_tidy in R' by assumption.
  pose proof (prepared_valid _ _ _ _ _ V) as VP. pose proof (prepared_valid _ _ _ _ _ V') as VP'.
  destruct (prepared_fields store into) as (A1 & A2 & _). destruct (prepared_fields (row_image store y) (row_image into y)) as (B1 & B2 & _).
  assert (EP : prepared (row_image store y) (row_image into y) = row_image (prepared store into) y).
  { unfold prepared. cbn [row_image width]. replace (width store =? width into) with false by lia.
    unfold blanked, row_image, set_buf. cbn [buf width height stride channels bit_depth]. f_equal.
    rewrite skipn_repeat'. rewrite firstn_length, skipn_length.
    clear. generalize (length (buf into) - y * stride into) as n. intro n.
    revert n; induction (stride into) as [|s IH]; intros [|n]; cbn; f_equal; auto. }
  rewrite EP in R'.
  eapply (g_rows L f N false _ _ _ (tidy_conv k L f N (fun _ _ _ => Panic) (fun _ _ => Panic) (fun _ => Panic))
    (fun d fw p y x c y' => f16_h_row k d fw p y x c y') pool pool' store (prepared store into)); eauto; rewrite ?A1, ?A2; auto.
Qed.

(** ** Alpha *)

Lemma as_f32_h1 : as_f32 h1 = f1. Proof. apply B2SF_inj. vm_compute. reflexivity. Qed.
Lemma h1_is : is_finite h1 = true /\ B2R h1 = 1%R.
Proof. split; [reflexivity|]. unfold h1, B2R, F2R; cbn [Fnum Fexp cond_Zopp]; change (bpow radix2 (-10)) with (/ 1024)%R; lra. Qed.

Lemma fmul_1 (x : f32) : fmul x f1 = x.
Proof.
  destruct x as [s|s| |s m e Hm]; try (destruct s; reflexivity); [reflexivity|].
  unfold fmul. pose proof (Bmult_correct 24 128 prec_pos prec_emax mode_NE (B754_finite s m e Hm) f1) as C.
  set (X := (B754_finite s m e Hm : f32)) in *.
  assert (B1 : B2R f1 = 1%R) by apply f1_fin. rewrite B1, Rmult_1_r in C.
  rewrite round_generic in C; [|apply valid_rnd_N|apply generic_format_B2R].
  rewrite Rlt_bool_true in C by apply abs_B2R_lt_emax. destruct C as (C1 & C2 & C3).
  assert (FX : is_finite X = true) by reflexivity. rewrite FX in C2. change (is_finite f1) with true in C2. cbn [andb] in C2.
  match type of C2 with is_finite ?b = _ => set (R := b) in *; change (R = X) end. clearbody R.
  assert (C4 : Bsign R = Bsign X).
  { rewrite C3; [|destruct R; try discriminate; reflexivity].
    change (Bsign f1) with false. apply xorb_false_r. }
  clear C3. clearbody X. apply B2R_Bsign_inj; [exact C2|exact FX|exact C1|exact C4].
Qed.

Lemma premul_opaque r g b : premul_px_f16 r g b h1 = [r; g; b; h1].
Proof. unfold premul_px_f16. cbv zeta. rewrite as_f32_h1, !fmul_1, !as_f16_f32. rewrite <- as_f32_h1, as_f16_f32. reflexivity. Qed.
Lemma unpremul_opaque r g b : unpremul_px_f16 r g b h1 = [r; g; b; h1].
Proof.
  unfold unpremul_px_f16. rewrite as_f32_h1. change (feqb f1 f0) with false. replace (fdiv f1 f1) with f1 by (apply B2SF_inj; vm_compute; reflexivity). cbv iota zeta.
  now rewrite !fmul_1, !as_f16_f32.
Qed.

Lemma exactly_1 (x : f16) : is_finite x = true -> B2R x = 1%R -> x = h1.
Proof.
  intros F E. destruct h1_is as (F1 & E1). apply B2R_Bsign_inj; [exact F|exact F1|congruence|].
  change (Bsign h1) with false. destruct x as [s|s| |s m e Hm]; try discriminate.
  - cbn in E. lra.
  - destruct s; [|reflexivity]. exfalso. cbn [B2R] in E.
    assert (F2R (Float radix2 (cond_Zopp true (Zpos m)) e) < 0)%R by (apply F2R_lt_0; cbn; lia). lra.
Qed.

(** The alpha channel of a call with the flag is that of a call without. *)
Theorem alpha_channel_f16 k L f pool (store into plain out : image f16) :
  valid_call 4 false f store into -> changes_size store into -> f <> Nearest -> pool_ok pool ->
  resize_f16 k L f 4 pool store into = Returned Ok plain ->
  resize_rgba_f16 k L f pool true store into = Returned Ok out ->
  forall x y, x < width into -> y < height into -> alpha_at out x y = alpha_at plain x y.
Proof.
  intros V D Hf HP Rp Ro x y Hx Hy.
  destruct (rgba_pipeline_f16 k L f pool store into V D Hf HP) as (src & mid & o & P1 & VS & Ws & Hs & Rm & Om & Ro' & Pu & Oo).
  rewrite Ro in Ro'. inversion Ro'; subst o. destruct (valid_good V) as [Gs Gi].
  destruct (prepared_fields store into) as (E1 & E2 & E3 & E4 & E5 & E6).
  assert (Gp : good 4 (prepared store into)) by (apply (valid_good (prepared_valid _ _ _ _ _ V))).
  pose proof (good_opd _ _ _ Gp Om) as Gm.
  destruct (pixel_exists mid x y Gm) as (r & g & b & a & Pm); [rewrite (opd_width _ _ _ Om); lia|rewrite (opd_height _ _ _ Om); lia|].
  assert (Ao : alpha_at out x y = Some a).
  { destruct Pu as (_ & _ & Q). destruct (Q x y r g b a) as (r' & g' & b' & a' & E & P'); auto;
      try (rewrite ?(opd_width _ _ _ Om), ?(opd_height _ _ _ Om); lia).
    unfold alpha_at. destruct P' as (_ & _ & _ & ->). f_equal. unfold unpremul_px_f16 in E. destruct (feqb _ f0); inversion E; auto. }
  rewrite Ao. destruct Pm as (_ & _ & _ & Am). unfold alpha_at. rewrite <- Am. clear Ao Am r g b a.
  apply (f16_local k L f 4 pool pool src store into into mid plain x y 3); auto.
  - unfold changes_size in *. now rewrite Ws, Hs.
  - intros sx sy Hin.
    destruct (in_window_bounds L 4 false f src into x y sx sy VS Hx Hy Hin) as [Bx By]. rewrite Ws in Bx. rewrite Hs in By.
    destruct (pixel_exists store sx sy Gs Bx By) as (r & g & b & a & Q).
    destruct P1 as (_ & _ & Q'). destruct (Q' sx sy r g b a Bx By Q) as (r' & g' & b' & a' & E & P').
    destruct P' as (_ & _ & _ & ->). destruct Q as (_ & _ & _ & ->). unfold premul_px_f16 in E. inversion E. now rewrite as_f16_f32.
Qed.

(** Opaque images: the flag changes nothing. *)
Theorem opaque_f16 k L f pool (store into plain out : image f16) t :
  averaging f = true -> f <> Nearest -> valid_call 4 false f store into -> changes_size store into -> pool_ok pool ->
  (1 <= t <= 150)%Z -> downscale_at_most t store into ->
  (forall x y, x < width store -> y < height store -> alpha_at store x y = Some h1) ->
  resize_f16 k L f 4 pool store into = Returned Ok plain ->
  resize_rgba_f16 k L f pool true store into = Returned Ok out ->
  forall x y c, x < width into -> y < height into -> c < 4 -> sample 4 out x y c = sample 4 plain x y c.
Proof.
  intros A Hf V D HP Ht DS Op Rp Ro x y c Hx Hy Hc.
  destruct (rgba_pipeline_f16 k L f pool store into V D Hf HP) as (src & mid & o & P1 & VS & Ws & Hs & Rm & Om & Ro' & Pu & Oo).
  rewrite Ro in Ro'. inversion Ro'; subst o. destruct (valid_good V) as [Gs Gi].
  destruct (prepared_fields store into) as (E1 & E2 & E3 & E4 & E5 & E6).
  assert (Gp : good 4 (prepared store into)) by (apply (valid_good (prepared_valid _ _ _ _ _ V))).
  pose proof (good_opd _ _ _ Gp Om) as Gm.
  assert (SP : forall sx sy c, sx < width store -> sy < height store -> c < 4 -> sample 4 src sx sy c = sample 4 store sx sy c).
  { intros sx sy c' Bx By Hc'. destruct (pixel_exists store sx sy Gs Bx By) as (r & g & b & a & Q).
    destruct P1 as (_ & _ & Q'). destruct (Q' sx sy r g b a Bx By Q) as (r' & g' & b' & a' & E & (P0 & P1' & P2 & P3)).
    pose proof (Op sx sy Bx By) as OA. destruct Q as (Q0 & Q1 & Q2 & Q3). unfold alpha_at in OA. rewrite Q3 in OA. inversion OA; subst a.
    rewrite premul_opaque in E. inversion E; subst.
    destruct c' as [|[|[|[|c']]]]; try lia; congruence. }
  assert (MP : forall c', c' < 4 -> sample 4 mid x y c' = sample 4 plain x y c').
  { intros c' Hc'. apply (f16_local k L f 4 pool pool src store into into mid plain x y c'); auto.
    - unfold changes_size in *. now rewrite Ws, Hs.
    - intros sx sy Hin. destruct (in_window_bounds L 4 false f src into x y sx sy VS Hx Hy Hin) as [Bx By]. rewrite Ws in Bx. rewrite Hs in By.
      now apply SP. }
  destruct (pixel_exists mid x y Gm) as (r & g & b & a & Pm); [rewrite (opd_width _ _ _ Om); lia|rewrite (opd_height _ _ _ Om); lia|].
  assert (Ha : a = h1).
  { destruct (two_pass_inv L f A k 4 pool store into plain t 3 V D Hf HP DS ltac:(lia) Rp (fun v => is_finite v = true /\ B2R v = 1%R)) with (x := x) (y := y) as (v & Sv & Fv & Bv); auto.
    - intros insz outsz o p r0 S1 S2 S3 S4 S5. apply (pass_constant L f A insz outsz t o p r0); auto.
      + destruct h1_is as (_ & <-). apply fmt16_B2R.
      + rewrite Rabs_R1. lra.
    - intros sx sy Bx By. exists h1. split; [apply Op; auto|apply h1_is].
    - destruct Pm as (_ & _ & _ & Am). rewrite MP, Sv in Am by lia. inversion Am; subst. now apply exactly_1. }
  subst a. rewrite <- MP by exact Hc.
  destruct Pu as (_ & _ & Q). destruct (Q x y r g b h1) as (r' & g' & b' & a' & E & P'); auto;
      try (rewrite ?(opd_width _ _ _ Om), ?(opd_height _ _ _ Om); lia).
  rewrite unpremul_opaque in E. inversion E; subst. destruct P' as (P0 & P1' & P2 & P3). destruct Pm as (M0 & M1 & M2 & M3).
  destruct c as [|[|[|[|c]]]]; try lia; congruence.
Qed.

(** ** Colours *)
Theorem unpremul_recovered c a : recovered16 c a (as_f16 (fmul (as_f32 c) (fdiv f1 (as_f32 a)))).
Proof.
  intros Fc Fa Na Q. destruct (as_f32_exact c Fc) as (Fc' & Ec & _). destruct (as_f32_exact a Fa) as (Fa' & Ea & _).
  assert (Ba : (bpow radix2 (-24) <= Rabs (B2R a) <= 65504)%R).
  { split; [|now apply B16_lt]. destruct a as [s|s| |s m e Hm]; try (exfalso; apply Na; reflexivity). cbn [B2R].
    rewrite <- F2R_Zabs. replace (Z.abs (cond_Zopp s (Zpos m))) with (Zpos m) by (destruct s; reflexivity).
    apply Rle_trans with (F2R (Float radix2 1 e)).
    - rewrite F2R_bpow. apply bpow_le. pose proof Hm as K.
      unfold SpecFloat.bounded in K. apply andb_prop in K. destruct K as (K & _). unfold SpecFloat.canonical_mantissa in K.
      apply Zeq_bool_eq in K. unfold SpecFloat.fexp, SpecFloat.emin in K. lia.
    - apply F2R_le. lia. }
  pose proof (B16_lt c Fc) as Bc.
  assert (P1 : (/ 2 ^ 40 <= bpow radix2 (-24))%R) by (change (bpow radix2 (-24)) with (/ IZR (2 ^ 24))%R; rewrite pow_IZR; apply Rinv_le; [apply IZR_lt; reflexivity|apply IZR_le, Z.pow_le_mono_r; lia]).
  assert (P2 : (65504 <= 2 ^ 40)%R) by (rewrite pow_IZR; apply IZR_le; reflexivity || lia).
  assert (P3 : (2 ^ 40 <= 2 ^ 50)%R) by (apply Rle_pow; [lra|lia]).
  destruct (unmul_error (as_f32 c) (as_f32 a) _ _ (conj Fc' Ec) (conj Fa' Ea) ltac:(lra) ltac:(lra)) as (v & (F & Ev) & B).
  set (q := (B2R c / B2R a)%R) in *. unfold ulp24 in B.
  pose proof (Rabs_pos q) as Pq.
  assert (E150 : (bpow radix2 (-150) <= bpow radix2 (-60))%R) by (apply bpow_le; lia).
  assert (E60 : (bpow radix2 (-60) <= / 1000000 * bpow radix2 (-40))%R).
  { replace (-60)%Z with (-20 + -40)%Z by lia. rewrite bpow_plus. apply Rmult_le_compat_r; [apply bpow_ge_0|].
    change (bpow radix2 (-20)) with (/ 1048576)%R. lra. }
  assert (E40 : (bpow radix2 (-40) <= / 1000000)%R) by (change (bpow radix2 (-40)) with (/ 1099511627776)%R; lra).
  assert (Dv : (Rabs v <= Rabs q + Rabs (v - q))%R).
  { replace v with (q + (v - q))%R at 1 by ring. apply Rabs_triang. }
  assert (Sv : (Rabs v < 65520)%R) by lra.
  pose proof (rnd16_small v Sv) as R1. pose proof (rnd16_err v) as R2.
  destruct (as_f16_rounds _ F) as (X & Y & _).
  { rewrite Ev. change (bpow radix2 16) with 65536%R. lra. }
  split; [exact X|]. rewrite Y, Ev.
  replace (rnd16 v - q)%R with ((rnd16 v - v) + (v - q))%R by ring. eapply Rle_trans; [apply Rabs_triang|].
  pose proof (bpow_ge_0 radix2 (-40)). lra.
Qed.
