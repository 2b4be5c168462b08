(** Calls of Scaler::resize_rgba_f16 on x86-64 with pre-multiplication. *)
From Coq Require Import ZArith List Lia Bool ZifyBool ZifyNat.
From Verif Require Import Base BaseProofs ImageStore FixedPoint Dispatch Resize Spec SpecApi SpecAlpha F32 FloatConv Weights Sampler Api
  KernelProofs DispatchProofs ResizeProofs NoFail ImageProofs PoolProofs PortableProofs Alpha AlphaProofs AlphaScan AlphaU16 ApiFloat ApiProofs DriverProofs FloatApiProofs RgbaProofs RgbaFloat
  X86Dispatch X86Float X86AlphaCalls X86FloatCalls X86NoFail F16 F16Arith F16Calls X86F16 X86F16Calls X86F16Sums X86AlphaF16 X86AlphaF16Proofs.
Import ListNotations.
Local Open Scope nat_scope.

Section Calls.
Variables (k : mlaf_kind) (c : hcpu) (L : libm) (f : resampling_function).
Notation E := (x86_engine_f16 k c L f 4 (premul_f16_x86 c) (unpremul_f16_x86 c) (fun _ => Done true)).
Lemma x86h_alpha_nofail : alpha_nofail E.
Proof.
  constructor.
  - intros pool a b. apply nf_premul_x86_h.
  - intros pool a. apply nf_unpremul_x86_h.
  - intro a. apply nofail_Done.
Qed.
Lemma x86h_pool_blind_alpha : pool_blind_alpha E.
Proof.
  constructor.
  - intros p a b H. now apply premul_x86_pool_h.
  - intros p a H. now apply unpremul_x86_pool_h.
Qed.
Lemma x86h_plain pool src into : generic_resize 4 E pool src into = resize_f16_x86 k c L f 4 pool src into.
Proof. rewrite resize_f16_x86_is. apply engine_ext; reflexivity. Qed.

Theorem rgba_pipeline_f16_x86 pool (store into : image f16) : exact_f16 c ->
  valid_call 4 false f store into -> changes_size store into -> f <> Nearest -> pool_ok pool ->
  exists src mid out,
    pixelwise premul_px_f16 store src /\
    valid_call 4 false f src into /\ width src = width store /\ height src = height store /\
    resize_f16_x86 k c L f 4 pool src into = Returned Ok mid /\ only_pixels_differ 4 (x86_prepared c 4 store into) mid /\
    resize_rgba_f16_x86 k c L f pool true store into = Returned Ok out /\
    (forall x y r g b a, x < width mid -> y < height mid -> pixel mid x y r g b a ->
      forall i, i < 4 -> sample 4 out x y i = nth_error (un_at16 c (width mid) x r g b a) i) /\
    only_pixels_differ 4 (x86_prepared c 4 store into) out.
Proof.
  intros HC V D Hf HP. destruct (valid_good V) as [Gs Gi].
  destruct (stage_on E premul_px_f16 pool store into true four_f16) as (src & P & _ & P1); auto.
  { intros into' G1 G2 W H B. now apply premul_f16_x86_ok. }
  { apply V. }
  destruct (P1 eq_refl) as (Q1 & Q2 & Q3 & Q4 & Q5 & _).
  assert (Ws : width src = width store) by (symmetry; apply Q1). assert (Hs : height src = height store) by (symmetry; apply Q1).
  assert (VS : valid_call 4 false f src into) by (apply (valid_source V); auto).
  assert (D' : changes_size src into) by (unfold changes_size in *; now rewrite Ws, Hs).
  destruct (x86_f16_paints k c L f 4 pool src into Hf VS D' HP) as (mid & Rm & Om & Sm).
  assert (EP : x86_prepared c 4 src into = x86_prepared c 4 store into) by (unfold x86_prepared, prepared; now rewrite Ws).
  rewrite EP in Om.
  assert (Gp : good 4 (x86_prepared c 4 store into)) by (apply (valid_good (x86_prepared_valid c _ _ _ _ _ V))).
  pose proof (good_opd _ _ _ Gp Om) as Gm.
  destruct (unpremul_f16_x86_ok c pool mid HC HP Gm) as (out & Ro & O & Po).
  exists src, mid, out. split; [exact Q1|]. split; [exact VS|]. split; [exact Ws|]. split; [exact Hs|]. split; [exact Rm|]. split; [exact Om|].
  split.
  { unfold resize_rgba_f16_x86. rewrite (with_alpha_on 4 E pool store into src); auto.
    - rewrite x86h_plain, Rm. cbn [unpremul x86_engine_f16]. rewrite Ro. reflexivity.
    - apply (sane_checks (valid_sane L V)).
    - apply (sane_checks (valid_sane L VS)).
    - cbn. destruct f; try reflexivity; congruence. }
  split. { exact Po. }
  destruct Om as [A1 A2 A3 A4 A5 A6 A7], O as [B1 B2 B3 B4 B5 B6 B7].
  constructor; try congruence. intros i Hi. rewrite B7 by (rewrite A1, A3; exact Hi). apply A7. exact Hi.
Qed.
End Calls.
