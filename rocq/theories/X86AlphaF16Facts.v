(** What the f16 alpha code of x86-64 does to alpha, to opaque images and to colours. *)
From Coq Require Import ZArith Reals List Bool Lia Lra ZifyBool ZifyNat.
From Flocq Require Import Core.Core IEEE754.BinarySingleNaN.
From Verif Require Import Base BaseProofs ImageStore FixedPoint Dispatch FloatConv Resize Spec SpecApi SpecAlpha SpecFloat SpecX86Float SpecKernels SpecAccuracy SpecFloatAccuracy
  F32 F32Proofs Weights Sampler Center SamplerProofs ResizeProofs DispatchProofs NoFail ImageProofs PoolProofs ApiProofs Api Alpha ApiFloat DriverProofs
  FloatApiProofs KernelProofs PortableProofs AlphaProofs AlphaScan AlphaU16 RgbaProofs RgbaFloat X86FloatCalls FloatAccuracy FloatAccuracyCalls QuantSums DeepCalls
  F16 F16Arith F16Proofs F16Calls SpecF16 F16Range F16Sums F16Alpha X86Dispatch X86F16 X86F16Calls X86F16Sums X86AlphaF16 X86AlphaF16Proofs X86AlphaF16Calls.
Import ListNotations.
Local Open Scope nat_scope.

Lemma un_opaque16 c w x r g b : un_at16 c w x r g b h1 = [r; g; b; h1].
Proof.
  unfold un_at16. destruct (_ <? _); [|apply unpremul_opaque]. unfold unmul_blk. cbv zeta. rewrite as_f32_h1.
  change (feqb f1 f0) with false. cbv iota. now rewrite !fmul_1, !as_f16_f32.
Qed.
Lemma un_alpha16 c w x r g b a : nth_error (un_at16 c w x r g b a) 3 = Some a.
Proof. unfold un_at16, unmul_blk, unpremul_px_f16. destruct (_ <? _); [reflexivity|]. destruct (feqb _ f0); reflexivity. Qed.

Section Calls.
Variables (k : mlaf_kind) (c : hcpu) (L : libm) (f : resampling_function) (pool : pool_t) (store into : image f16).
Hypothesis HC : exact_f16 c.
Hypothesis V : valid_call 4 false f store into.
Hypothesis D : changes_size store into.
Hypothesis Hf : f <> Nearest.
Hypothesis HP : pool_ok pool.

Lemma x86_pixel_mid (mid : image f16) x y : only_pixels_differ 4 (x86_prepared c 4 store into) mid -> x < width into -> y < height into ->
  exists r g b a, pixel mid x y r g b a.
Proof using V.
  intros Om Hx Hy. destruct (x86_prepared_fields c 4 store into) as (E1 & E2 & E3 & E4 & E5 & E6).
  assert (Gp : good 4 (x86_prepared c 4 store into)) by (apply (valid_good (x86_prepared_valid c _ _ _ _ _ V))).
  apply (pixel_exists mid x y (good_opd _ _ _ Gp Om)); [rewrite (opd_width _ _ _ Om); lia|rewrite (opd_height _ _ _ Om); lia].
Qed.

Theorem x86_alpha_channel_f16 (plain out : image f16) :
  resize_f16_x86 k c L f 4 pool store into = Returned Ok plain ->
  resize_rgba_f16_x86 k c L f pool true store into = Returned Ok out ->
  forall x y, x < width into -> y < height into -> alpha_at out x y = alpha_at plain x y.
Proof using All.
  intros Rp Ro x y Hx Hy.
  destruct (rgba_pipeline_f16_x86 k c L f pool store into HC V D Hf HP) as (src & mid & o & P1 & VS & Ws & Hs & Rm & Om & Ro' & Pu & Oo).
  rewrite Ro in Ro'. inversion Ro'; subst o. destruct (valid_good V) as [Gs Gi].
  destruct (x86_pixel_mid mid x y Om Hx Hy) as (r & g & b & a & Pm).
  destruct (x86_prepared_fields c 4 store into) as (E1 & E2 & _).
  assert (Ao : alpha_at out x y = Some a).
  { unfold alpha_at. rewrite (Pu x y r g b a) by (rewrite ?(opd_width _ _ _ Om), ?(opd_height _ _ _ Om); auto; lia). apply un_alpha16. }
  rewrite Ao. destruct Pm as (_ & _ & _ & Am). unfold alpha_at. rewrite <- Am. clear Ao Am r g b a.
  apply (x86_f16_local k c L f 4 pool pool src store into into mid plain x y 3); auto.
  - unfold changes_size in *. now rewrite Ws, Hs.
  - intros sx sy Hin.
    destruct (in_window_bounds L 4 false f src into x y sx sy VS Hx Hy Hin) as [Bx By]. rewrite Ws in Bx. rewrite Hs in By.
    destruct (pixel_exists store sx sy Gs Bx By) as (r & g & b & a & Q).
    destruct P1 as (_ & _ & Q'). destruct (Q' sx sy r g b a Bx By Q) as (r' & g' & b' & a' & E & P').
    destruct P' as (_ & _ & _ & ->). destruct Q as (_ & _ & _ & ->). unfold premul_px_f16 in E. inversion E. now rewrite as_f16_f32.
Qed.

Theorem x86_opaque_f16 (plain out : image f16) t :
  averaging f = true -> (1 <= t <= 150)%Z -> downscale_at_most t store into ->
  (forall x y, x < width store -> y < height store -> alpha_at store x y = Some h1) ->
  resize_f16_x86 k c L f 4 pool store into = Returned Ok plain ->
  resize_rgba_f16_x86 k c L f pool true store into = Returned Ok out ->
  forall x y ch, x < width into -> y < height into -> ch < 4 -> sample 4 out x y ch = sample 4 plain x y ch.
Proof using All.
  intros A Ht DS Op Rp Ro x y ch Hx Hy Hc.
  destruct (rgba_pipeline_f16_x86 k c L f pool store into HC V D Hf HP) as (src & mid & o & P1 & VS & Ws & Hs & Rm & Om & Ro' & Pu & Oo).
  rewrite Ro in Ro'. inversion Ro'; subst o. destruct (valid_good V) as [Gs Gi].
  destruct (x86_prepared_fields c 4 store into) as (E1 & E2 & _).
  assert (SP : forall sx sy c', sx < width store -> sy < height store -> c' < 4 -> sample 4 src sx sy c' = sample 4 store sx sy c').
  { intros sx sy c' Bx By Hc'. destruct (pixel_exists store sx sy Gs Bx By) as (r & g & b & a & Q).
    destruct P1 as (_ & _ & Q'). destruct (Q' sx sy r g b a Bx By Q) as (r' & g' & b' & a' & E & (P0 & P1' & P2 & P3)).
    pose proof (Op sx sy Bx By) as OA. destruct Q as (Q0 & Q1 & Q2 & Q3). unfold alpha_at in OA. rewrite Q3 in OA. inversion OA; subst a.
    rewrite premul_opaque in E. inversion E; subst.
    destruct c' as [|[|[|[|c']]]]; try lia; congruence. }
  assert (MP : forall c', c' < 4 -> sample 4 mid x y c' = sample 4 plain x y c').
  { intros c' Hc'. apply (x86_f16_local k c L f 4 pool pool src store into into mid plain x y c'); auto.
    - unfold changes_size in *. now rewrite Ws, Hs.
    - intros sx sy Hin. destruct (in_window_bounds L 4 false f src into x y sx sy VS Hx Hy Hin) as [Bx By]. rewrite Ws in Bx. rewrite Hs in By.
      now apply SP. }
  destruct (x86_pixel_mid mid x y Om Hx Hy) as (r & g & b & a & Pm).
  assert (Ha : a = h1).
  { destruct (x86_two_pass_inv k c L f 4 pool store into plain t 3 (fun v => is_finite v = true /\ B2R v = 1%R) HC V D Hf HP DS ltac:(lia) Rp) with (x := x) (y := y) as (v & Sv & Fv & Bv); auto.
    - intros insz outsz o p r0 S1 S2 S3 S4 S5. apply (pass_constant L f A insz outsz t o p r0); auto.
      + destruct h1_is as (_ & <-). apply fmt16_B2R.
      + rewrite Rabs_R1. lra.
    - intros sx sy Bx By. exists h1. split; [apply Op; auto|apply h1_is].
    - destruct Pm as (_ & _ & _ & Am). rewrite MP, Sv in Am by lia. inversion Am; subst. now apply exactly_1. }
  subst a. rewrite <- MP by exact Hc.
  rewrite (Pu x y r g b h1) by (rewrite ?(opd_width _ _ _ Om), ?(opd_height _ _ _ Om); auto; lia).
  rewrite un_opaque16. destruct Pm as (M0 & M1 & M2 & M3).
  destruct ch as [|[|[|[|ch]]]]; try lia; cbn [nth_error]; congruence.
Qed.
End Calls.

(** ** Colours *)
(** 0.5 and 0.25. *)
Definition h_half : f16 := @B754_finite 11 16 false 1024 (-11) eq_refl.
Definition h_quarter : f16 := @B754_finite 11 16 false 1024 (-12) eq_refl.
Lemma h_half_is : is_finite h_half = true /\ B2R h_half = (/ 2)%R.
Proof. split; [reflexivity|]. unfold h_half, B2R, F2R; cbn [Fnum Fexp cond_Zopp]. change (bpow radix2 (-11)) with (/ 2048)%R. lra. Qed.
Lemma h_quarter_is : is_finite h_quarter = true /\ B2R h_quarter = (/ 4)%R.
Proof. split; [reflexivity|]. unfold h_quarter, B2R, F2R; cbn [Fnum Fexp cond_Zopp]. change (bpow radix2 (-12)) with (/ 4096)%R. lra. Qed.
Lemma exactly_half (x : f16) : is_finite x = true -> B2R x = (/ 2)%R -> x = h_half.
Proof.
  intros F E. destruct h_half_is as (F1 & E1). apply B2R_Bsign_inj; [exact F|exact F1|congruence|].
  change (Bsign h_half) with false. destruct x as [s|s| |s m e Hm]; try discriminate.
  - cbn in E. lra.
  - destruct s; [|reflexivity]. exfalso. cbn [B2R] in E.
    assert (F2R (Float radix2 (cond_Zopp true (Zpos m)) e) < 0)%R by (apply F2R_lt_0; cbn; lia). lra.
Qed.
Lemma premul_white_half : premul_px_f16 h1 h1 h1 h_half = [h_half; h_half; h_half; h_half].
Proof.
  assert (E : as_f16 (fmul (as_f32 h1) (as_f32 h_half)) = h_half) by (apply B2SF_inj; vm_compute; reflexivity).
  unfold premul_px_f16. cbv zeta. now rewrite E, as_f16_f32.
Qed.
Lemma unmul_half : unmul_blk as_f32 as_f16 h_half h_half h_half h_half = [h_quarter; h_quarter; h_quarter; h_half].
Proof.
  unfold unmul_blk. cbv zeta.
  assert (E : as_f16 (if feqb (as_f32 h_half) f0 then f0 else fmul (as_f32 h_half) (as_f32 h_half)) = h_quarter) by (apply B2SF_inj; vm_compute; reflexivity).
  now rewrite E.
Qed.

(** White at alpha one half comes back as grey where the vector code runs. *)
Lemma x86_white_half k c L f pool (store into out : image f16) t x y :
  exact_f16 c -> averaging f = true -> valid_call 4 false f store into -> changes_size store into -> f <> Nearest -> pool_ok pool ->
  (1 <= t <= 150)%Z -> downscale_at_most t store into ->
  (forall x y, x < width store -> y < height store -> pixel store x y h1 h1 h1 h_half) ->
  resize_rgba_f16_x86 k c L f pool true store into = Returned Ok out ->
  x < block_f16 c * (width into / block_f16 c) -> x < width into -> y < height into -> pixel out x y h_quarter h_quarter h_quarter h_half.
Proof.
  intros HC A V D Hf HP Ht DS W Ro Bk Hx Hy.
  destruct (rgba_pipeline_f16_x86 k c L f pool store into HC V D Hf HP) as (src & mid & o & P1 & VS & Ws & Hs & Rm & Om & Ro' & Pu & Oo).
  rewrite Ro in Ro'. inversion Ro'; subst o.
  destruct (x86_prepared_fields c 4 store into) as (E1 & E2 & _).
  assert (D' : changes_size src into) by (unfold changes_size in *; now rewrite Ws, Hs).
  assert (DS' : downscale_at_most t src into) by (unfold downscale_at_most in *; now rewrite Ws, Hs).
  assert (M : forall ch, ch < 4 -> sample 4 mid x y ch = Some h_half).
  { intros ch Hc.
    destruct (x86_two_pass_inv k c L f 4 pool src into mid t ch (fun v => is_finite v = true /\ B2R v = (/ 2)%R) HC VS D' Hf HP DS' Hc Rm) with (x := x) (y := y) as (v & Sv & Fv & Bv); auto.
    - intros insz outsz o p r0 S1 S2 S3 S4 S5. apply (pass_constant L f A insz outsz t o p r0); auto.
      + destruct h_half_is as (_ & <-). apply fmt16_B2R.
      + rewrite Rabs_pos_eq; lra.
    - intros sx sy Bx By. rewrite Ws in Bx. rewrite Hs in By. exists h_half. split; [|apply h_half_is].
      destruct P1 as (_ & _ & Q). destruct (Q sx sy h1 h1 h1 h_half Bx By (W sx sy Bx By)) as (r' & g' & b' & a' & E & (P0 & P1' & P2 & P3)).
      rewrite premul_white_half in E. inversion E; subst. destruct ch as [|[|[|[|ch]]]]; try lia; assumption.
    - rewrite Sv. f_equal. now apply exactly_half. }
  assert (X : forall i, i < 4 -> sample 4 out x y i = nth_error [h_quarter; h_quarter; h_quarter; h_half] i).
  { intros i Hi. rewrite (Pu x y h_half h_half h_half h_half).
    - unfold un_at16. rewrite (opd_width _ _ _ Om), E1. replace (_ <? _) with true by (symmetry; now apply Nat.ltb_lt). now rewrite unmul_half.
    - rewrite (opd_width _ _ _ Om). lia.
    - rewrite (opd_height _ _ _ Om). lia.
    - repeat split; apply M; lia.
    - exact Hi. }
  repeat split; apply X; lia.
Qed.
