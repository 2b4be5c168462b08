(** The alpha-aware f32 resize of x86-64, and the rounding of un-premultiplication. *)
From Coq Require Import Classical ZArith Reals Lra List Lia Bool ZifyBool ZifyNat ZifyN.
From Flocq Require Import Core.Core IEEE754.BinarySingleNaN.
From Verif Require Import Base BaseProofs ImageStore ColorGroup FixedPoint Dispatch FloatConv Resize Spec SpecApi SpecAlpha SpecFloat F32 F32Proofs Weights Sampler
  KernelProofs DispatchProofs ResizeProofs NoFail ImageProofs PoolProofs PortableProofs Api ApiProofs Witness Alpha AlphaProofs AlphaScan AlphaU16
  RgbaProofs ApiFloat DriverProofs FloatApiProofs RgbaFloat FloatErr X86Dispatch X86Float X86FloatCalls X86AlphaF32 X86AlphaF32Proofs.
Import ListNotations.
Local Open Scope nat_scope.

(** ** The pipeline, with an un-premultiplication that may depend on the position *)
Section Pipeline.
Context {T : Type}.
Variables (L : libm) (f : resampling_function) (nd : bool) (E : engine T f32)
  (pre : T -> T -> T -> T -> list T) (U : image T -> image T -> Prop) (pool : pool_t) (store into : image T).
Hypothesis Hnd : needs_depth E = nd.
Hypothesis Hnear : is_nearest E = wants_nearest f.
Hypothesis Hres : forall src, valid_call 4 nd f src into -> changes_size src into ->
  exists mid, generic_resize 4 E pool src into = Returned Ok mid /\ only_pixels_differ 4 into mid.
Hypothesis H4 : four pre.
Hypothesis Hpre : forall im into', good 4 im -> good 4 into' -> width im = width into' -> height im = height into' ->
    bit_depth into' = bit_depth into -> exists out, premul E pool im into' = Done out /\ repainted pre im into' out.
Hypothesis Hun : forall im, good 4 im -> bit_depth im = bit_depth into ->
    exists out, unpremul E pool im = Done out /\ only_pixels_differ 4 im out /\ U im out.
Hypothesis Hneed : exists res, alpha_needed E store = Done res /\ (res = true <-> alpha_varies store).

Lemma r_pipeline :
  valid_call 4 nd f store into -> changes_size store into -> f <> Nearest -> pool_ok pool ->
  exists src mid out,
    (alpha_varies store -> pixelwise pre store src) /\ (~ alpha_varies store -> src = store) /\
    valid_call 4 nd f src into /\ width src = width store /\ height src = height store /\
    generic_resize 4 E pool src into = Returned Ok mid /\ only_pixels_differ 4 into mid /\
    generic_resize_with_alpha 4 E pool true store into = Returned Ok out /\
    U mid out /\ only_pixels_differ 4 into out.
Proof using Hnd Hnear Hres H4 Hpre Hun Hneed L.
  intros V D Hf HP. destruct (valid_good V) as [Gs Gi].
  destruct Hneed as (res & R & I).
  destruct (stage_on E pre pool store into res H4) as (src & P & P0 & P1); auto.
  { apply V. }
  assert (VS : valid_call 4 nd f src into /\ width src = width store /\ height src = height store).
  { destruct res.
    - destruct (P1 eq_refl) as ((Q1 & Q2 & _) & Q3 & Q4 & Q5 & _). split; [|split; congruence].
      apply (valid_source V); auto.
    - rewrite P0 by reflexivity. auto. }
  destruct VS as (VS & WS & HS').
  destruct (Hres src VS) as (mid & Rm & Om).
  { unfold changes_size in *. now rewrite WS, HS'. }
  pose proof (good_opd _ _ _ Gi Om) as Gm.
  destruct (Hun mid Gm (opd_depth _ _ _ Om)) as (out & Ro & O & Po).
  exists src, mid, out.
  split. { intro A. apply P1. now apply I. }
  split. { intro A. apply P0. destruct res; auto. exfalso. now apply A, I. }
  split; [exact VS|]. split; [exact WS|]. split; [exact HS'|].
  split; [exact Rm|]. split; [exact Om|].
  split.
  { rewrite (with_alpha_on 4 E pool store into src); auto.
    - rewrite Rm. cbn [try]. rewrite Ro. reflexivity.
    - rewrite Hnd. apply (sane_checks (valid_sane L V)).
    - rewrite Hnd. apply (sane_checks (valid_sane L VS)).
    - rewrite Hnear. destruct f; try reflexivity; congruence. }
  split. { exact Po. }
  destruct Om as [A1 A2 A3 A4 A5 A6 A7], O as [B1 B2 B3 B4 B5 B6 B7].
  constructor; try congruence. intros i Hi. rewrite B7 by (rewrite A1, A3; exact Hi). apply A7. exact Hi.
Qed.
End Pipeline.

Section Calls.
Variables (k : mlaf_kind) (c : fcpu) (L : libm) (f : resampling_function).
Notation E := (x86_engine_f32 k c L f 4 (premul_f32_x86 (base_cpu c)) (unpremul_f32_x86 (base_cpu c)) alpha_needed_f32).
Lemma x86f_alpha_nofail : alpha_nofail E.
Proof.
  constructor.
  - intros pool a b. apply nf_premul_x86_f.
  - intros pool a. apply nf_unpremul_x86_f.
  - intro a. apply scan_nofail.
Qed.
Lemma x86f_pool_blind_alpha : pool_blind_alpha E.
Proof.
  constructor.
  - intros p a b H. now apply premul_x86_pool_f.
  - intros p a H. now apply unpremul_x86_pool_f.
Qed.
Lemma x86f_plain pool src into : generic_resize 4 E pool src into = resize_f32_x86 k c L f 4 pool src into.
Proof. rewrite resize_f32_x86_is, engine_h_same. reflexivity. Qed.

Lemma rgba_pipeline_f32_x86 pool (store into : image f32) :
  valid_call 4 false f store into -> changes_size store into -> f <> Nearest -> pool_ok pool ->
  exists src mid out,
    (alpha_varies store -> pixelwise premul_px_f32 store src) /\ (~ alpha_varies store -> src = store) /\
    valid_call 4 false f src into /\ width src = width store /\ height src = height store /\
    resize_f32_x86 k c L f 4 pool src into = Returned Ok mid /\ only_pixels_differ 4 into mid /\
    resize_rgba_f32_x86 k c L f pool true store into = Returned Ok out /\
    (forall x y r g b a, x < width mid -> y < height mid -> pixel mid x y r g b a ->
      forall i, i < 4 -> sample 4 out x y i = nth_error (un_at (base_cpu c) (width mid) x r g b a) i) /\
    only_pixels_differ 4 into out.
Proof.
  intros V D Hf HP. destruct (valid_good V) as [Gs Gi].
  assert (Hs : exists res, alpha_needed_f32 store = Done res /\ (res = true <-> alpha_varies store)).
  { destruct (scan_f32 store) as (res & R & I); auto.
    - pose proof (vc_sides _ _ _ _ _ V). lia.
    - exists res. split; [exact R|]. rewrite I. split; [apply alpha_varies_first; apply Gs|apply (alpha_varies_conv_g f32_dec), Gs]. }
  destruct (r_pipeline L f false E premul_px_f32
    (fun mid out => forall x y r g b a, x < width mid -> y < height mid -> pixel mid x y r g b a ->
      forall i, i < 4 -> sample 4 out x y i = nth_error (un_at (base_cpu c) (width mid) x r g b a) i) pool store into)
    as (src & mid & out & A1 & A2 & A3 & A4 & A5 & A6 & A7 & A8 & A9 & A10); auto.
  - intros src VS DS. rewrite engine_h_same.
    destruct (g_paints L f 4 false _ _ _ (engine_h_conv k c 4 L f (premul_f32_x86 (base_cpu c)) (unpremul_f32_x86 (base_cpu c)) alpha_needed_f32 (height into)) pool src into Hf VS DS HP) as (mid & R & O & _).
    eauto.
  - apply four_f32.
  - intros. now apply premul_f32_x86_ok.
  - intros. now apply unpremul_f32_x86_ok.
  - exists src, mid, out. rewrite x86f_plain in A6.
    split; [exact A1|]. split; [exact A2|]. split; [exact A3|]. split; [exact A4|]. split; [exact A5|]. split; [exact A6|].
    split; [exact A7|]. split; [exact A8|]. split; [exact A9|exact A10].
Qed.
End Calls.

(** ** Rounding *)
Local Open Scope R_scope.
Definition ulp24 : R := / 16777216.
Lemma Rabs_div a b : b <> 0 -> Rabs (a / b) = Rabs a / Rabs b.
Proof. intro. unfold Rdiv. rewrite Rabs_mult, Rabs_inv by assumption. reflexivity. Qed.
(** One rounded division. *)
Lemma undiv_error x a cx ca : fin x cx -> fin a ca -> / 2 ^ 40 <= Rabs ca -> Rabs cx <= 2 ^ 50 ->
  exists v, fin (fdiv x a) v /\ Rabs (v - cx / ca) <= ulp24 * Rabs (cx / ca) + bpow radix2 (-150).
Proof.
  intros Fx Fa Ha Hx.
  assert (A0 : 0 < Rabs ca) by (eapply Rlt_le_trans; [|exact Ha]; apply Rinv_0_lt_compat, pow_lt; lra).
  assert (N : ca <> 0) by (intros ->; rewrite Rabs_R0 in A0; lra).
  exists (rnd (cx / ca)). split; [|apply rnd_abs].
  apply fdiv_fin; auto. unfold moderate. rewrite Rabs_div by exact N.
  apply Rle_trans with (2 ^ 50 * 2 ^ 40).
  - unfold Rdiv. apply Rmult_le_compat; auto using Rabs_pos.
    + left. now apply Rinv_0_lt_compat.
    + rewrite <- (Rinv_inv (2 ^ 40)). apply Rinv_le; [apply Rinv_0_lt_compat, pow_lt; lra|exact Ha].
  - rewrite <- pow_add. rewrite pow_IZR. apply IZR_le. apply Z.pow_le_mono_r; lia.
Qed.
(** A rounded reciprocal, then a rounded product. *)
Lemma unmul_error x a cx ca : fin x cx -> fin a ca -> / 2 ^ 40 <= Rabs ca <= 2 ^ 40 -> Rabs cx <= 2 ^ 50 ->
  exists v, fin (fmul x (fdiv f1 a)) v /\ Rabs (v - cx / ca) <= 3 * ulp24 * Rabs (cx / ca) + bpow radix2 (-150).
Proof.
  intros Fx Fa (Ha & Ha') Hx.
  assert (A0 : 0 < Rabs ca) by (eapply Rlt_le_trans; [|exact Ha]; apply Rinv_0_lt_compat, pow_lt; lra).
  assert (N : ca <> 0) by (intros ->; rewrite Rabs_R0 in A0; lra).
  assert (IA : / 2 ^ 40 <= Rabs (/ ca) <= 2 ^ 40).
  { rewrite Rabs_inv by exact N. split; [apply Rinv_le; assumption|].
    rewrite <- (Rinv_inv (2 ^ 40)). apply Rinv_le; [apply Rinv_0_lt_compat, pow_lt; lra|exact Ha]. }
  assert (F1' : fin (fdiv f1 a) (rnd (1 / ca))).
  { apply fdiv_fin; auto using f1_fin. unfold moderate. rewrite Rabs_div, Rabs_R1 by exact N. unfold Rdiv. rewrite Rmult_1_l, <- Rabs_inv.
    apply Rle_trans with (2 ^ 40); [apply IA|]. rewrite pow_IZR. apply IZR_le. apply Z.pow_le_mono_r; lia. }
  set (i := rnd (1 / ca)) in *.
  assert (Ei : Rabs (i - / ca) <= (ulp24 + ulp24 / 1024) * Rabs (/ ca)).
  { pose proof (rnd_abs (1 / ca)) as H. fold i in H. unfold Rdiv in H. rewrite Rmult_1_l in H.
    assert (bpow radix2 (-150) <= ulp24 / 1024 * Rabs (/ ca)).
    { apply Rle_trans with (ulp24 / 1024 * / 2 ^ 40); [|apply Rmult_le_compat_l; [unfold ulp24; lra|apply IA]].
      unfold ulp24. change (bpow radix2 (-150)) with (/ IZR (2 ^ 150)).
      replace (/ 16777216 / 1024 * / 2 ^ 40) with (/ (16777216 * 1024 * 2 ^ 40)) by (field; apply pow_nonzero; lra).
      apply Rinv_le; [|replace (16777216 * 1024 * 2 ^ 40) with (IZR (16777216 * 1024 * 2 ^ 40)) by (rewrite !mult_IZR, pow_IZR; reflexivity); apply IZR_le; lia].
      apply Rmult_lt_0_compat; [lra|apply pow_lt; lra]. }
    fold ulp24 in H. lra. }
  assert (Ep : Rabs (cx * i - cx / ca) <= (ulp24 + ulp24 / 1024) * Rabs (cx / ca)).
  { replace (cx * i - cx / ca) with (cx * (i - / ca)) by (unfold Rdiv; ring). rewrite Rabs_mult. unfold Rdiv. rewrite Rabs_mult.
    replace ((ulp24 + ulp24 * / 1024) * (Rabs cx * Rabs (/ ca))) with (Rabs cx * ((ulp24 + ulp24 / 1024) * Rabs (/ ca))) by (unfold Rdiv; ring).
    apply Rmult_le_compat_l; [apply Rabs_pos|exact Ei]. }
  assert (Bq : Rabs (cx / ca) <= 2 ^ 90).
  { unfold Rdiv. rewrite Rabs_mult. apply Rle_trans with (2 ^ 50 * 2 ^ 40); [apply Rmult_le_compat; auto using Rabs_pos; apply IA|]. rewrite <- pow_add. right. reflexivity. }
  set (qq := cx / ca) in *. set (p := cx * i) in *.
  assert (Pp : Rabs p <= (1 + ulp24 + ulp24 / 1024) * Rabs qq).
  { replace p with (qq + (p - qq)) by ring. eapply Rle_trans; [apply Rabs_triang|]. lra. }
  assert (Q0 := Rabs_pos qq).
  exists (rnd p). split.
  - apply fmul_fin; auto. unfold moderate. fold p. apply Rle_trans with (2 * 2 ^ 90).
    + unfold ulp24 in *. lra.
    + change (2 * 2 ^ 90) with (2 ^ 91). rewrite pow_IZR. apply IZR_le. apply Z.pow_le_mono_r; lia.
  - pose proof (rnd_abs p) as Hr. fold ulp24 in Hr.
    replace (rnd p - qq) with ((rnd p - p) + (p - qq)) by ring. eapply Rle_trans; [apply Rabs_triang|].
    assert (ulp24 * Rabs p <= 1.9 * ulp24 * Rabs qq).
    { apply Rle_trans with (ulp24 * ((1 + ulp24 + ulp24 / 1024) * Rabs qq)); [apply Rmult_le_compat_l; [unfold ulp24; lra|exact Pp]|]. unfold ulp24. lra. }
    unfold ulp24 in *. lra.
Qed.
