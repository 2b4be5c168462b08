(** Calls of the f16 methods. *)
From Coq Require Import ZArith List Lia Bool ZifyBool ZifyNat.
From Flocq Require Import Core.Core IEEE754.BinarySingleNaN.
From Verif Require Import Base BaseProofs ImageStore ColorGroup FixedPoint Dispatch FloatConv Resize Spec SpecApi SpecAlpha SpecFloat F32 Weights Sampler
  KernelProofs Kernel4Proofs ColumnProofs DispatchProofs FloatConvProofs ResizeProofs NoFail ImageProofs PoolProofs NearestProofs PortableProofs
  Api ApiFloat Alpha ApiProofs Witness DriverProofs FloatApiProofs AlphaProofs AlphaScan AlphaU16 RgbaProofs RgbaFloat F16 F16Arith F16Proofs.
Import ListNotations.
Local Open Scope nat_scope.

(** No error value, no dependence on the pool. *)
Lemma nf_hrow4 k N fw s ss d ds : nofail (hrow4_f16 k N fw s ss d ds).
Proof. unfold hrow4_f16. repeat first [apply nf_frow_handler_4 | progress nf1]. Qed.
Lemma nf_hrow1 k N fw s d : nofail (hrow1_f16 k N fw s d).
Proof. unfold hrow1_f16. repeat first [apply nf_frow_handler | progress nf1]. Qed.
Lemma nf_vcol k b s d ss w : nofail (vcol_f16 k b s d ss w).
Proof. unfold vcol_f16. repeat first [apply nf_fcolumn_handler | progress nf1]. Qed.

Lemma f16_nofail k L f N pre un need : passes_nofail (engine_f16 k L f N pre un need).
Proof.
  constructor; intros; cbn [vconv hconv engine_f16].
  - unfold vconv_f16, vertical_dispatch. repeat first [apply nf_vcol | progress nf1].
  - unfold hconv_f16, horizontal_dispatch. repeat first [apply nf_hrow4 | apply nf_hrow1 | progress nf1].
Qed.
Lemma f16_pool_blind k L f N pre un need : pool_blind (engine_f16 k L f N pre un need).
Proof.
  constructor; cbn [vconv hconv engine_f16].
  - intros fw p im into HP. unfold vconv_f16, vertical_dispatch.
    destruct (chunks_exact_o _ _) as [rows| |]; cbn [bind]; auto.
    rewrite (for_each_any p); auto. intros d s. repeat first [apply nf_vcol | progress nf].
  - intros fw p im into HP. unfold hconv_f16, horizontal_dispatch.
    destruct (chunks_exact_o (stride_of N into * 4) (buf into)) as [d4| |]; cbn [bind]; auto.
    destruct (chunks_exact_o (stride_of N im * 4) (buf im)) as [s4| |]; cbn [bind]; auto.
    rewrite (for_each_any p) by (auto; intros; apply nf_hrow4).
    destruct (for_each None _ _ _ _) as [d4'| |]; cbn [bind]; auto.
    destruct (chunks_exact_o (stride_of N into) _) as [d1| |]; cbn [bind]; auto.
    destruct (chunks_exact_o (stride_of N im) _) as [s1| |]; cbn [bind]; auto.
    rewrite (for_each_any p) by (auto; intros; apply nf_hrow1). reflexivity.
Qed.

(** The same calls with a pass that leaves the padding alone. *)
Definition tidy_f16 (k : mlaf_kind) (L : libm) (f : resampling_function) (N : nat) pre unpre need : engine f16 f32 :=
  mkEngine h0 false (wants_nearest f) nearest_coord (generate_weights (resampling_filter L f))
    (fvpass f0 fmul (mlaf k) as_f32 as_f16 N) (fhpass f0 fmul (mlaf k) as_f32 as_f16 N) pre unpre need.
Definition f16_v (k : mlaf_kind) (d : nat) (fw : fweights f32) := float_v f0 fmul (mlaf k) as_f32 as_f16 (taps_of f0 fw).
Definition f16_h (k : mlaf_kind) (d : nat) (fw : fweights f32) := float_h f0 fmul (mlaf k) as_f32 as_f16 (taps_of f0 fw).

Lemma tidy_conv k L f N pre unpre need :
  conv_engine L f N false (tidy_f16 k L f N pre unpre need) (f16_v k) (f16_h k).
Proof.
  constructor; try reflexivity.
  - intros d HN. apply (float_forms f0 fmul (mlaf k) as_f32 as_f16 h0 f0); auto.
  - constructor; intros. + apply nf_fvpass. + apply nf_fhpass.
  - constructor; intros. + now apply fvpass_pool. + now apply fhpass_pool.
Qed.

(** The destination a call paints on: with all samples cleared if the width changes. *)
Definition prepared (store into : image f16) : image f16 := if width store =? width into then into else blanked into.

Lemma prepared_fields store into : width (prepared store into) = width into /\ height (prepared store into) = height into /\
  stride (prepared store into) = stride into /\ bit_depth (prepared store into) = bit_depth into /\
  channels (prepared store into) = channels into /\ length (buf (prepared store into)) = length (buf into).
Proof. unfold prepared, blanked. destruct (_ =? _); cbn; rewrite ?repeat_length; auto 10. Qed.

Lemma prepared_valid N nd f store into : valid_call N nd f store into -> valid_call N nd f store (prepared store into).
Proof.
  intro V. destruct (prepared_fields store into) as (E1 & E2 & E3 & E4 & E5 & E6).
  destruct V. constructor; rewrite ?E1, ?E2, ?E3, ?E4, ?E5, ?E6; auto.
Qed.

Section Call.
Variables (k : mlaf_kind) (L : libm) (f : resampling_function) (N : nat).
Variables (pre : pool_t -> image f16 -> image f16 -> outcome (image f16)) (un : pool_t -> image f16 -> outcome (image f16))
  (need : image f16 -> outcome bool).
Notation E := (engine_f16 k L f N pre un need).

Theorem f16_is_tidy pool (store into : image f16) : f <> Nearest -> valid_call N false f store into -> changes_size store into -> pool_ok pool ->
  generic_resize N E pool store into = generic_resize N (tidy_f16 k L f N pre un need) pool store (prepared store into).
Proof.
  intros Hf V D HP. pose proof (prepared_valid _ _ _ _ _ V) as V'.
  assert (CN : cn_ok N) by (pose proof (vc_N _ _ _ _ _ V); unfold cn_ok; lia).
  destruct (valid_good V) as [Gs Gi].
  pose proof (ce_forms _ _ _ _ _ _ _ (tidy_conv k L f N pre un need) (bit_depth into) CN) as PF.
  pose proof (sane_wf_v (valid_sane L V)) as Wv. pose proof (sane_wf_h (valid_sane L V)) as Wh.
  pose proof (vc_fits _ _ _ _ _ V) as (_ & _ & Hmid).
  destruct (prepared_fields store into) as (E1 & E2 & E3 & E4 & E5 & E6).
  unfold generic_resize, try.
  change (needs_depth E) with false. change (needs_depth (tidy_f16 k L f N pre un need)) with false.
  rewrite (sane_checks (valid_sane L V)), (sane_checks (valid_sane L V')).
  rewrite E1, E2, E4.
  replace ((width store =? width into) && (height store =? height into)) with false by (destruct D; lia).
  assert (Hn : wants_nearest f = false) by (destruct f; try reflexivity; congruence).
  change (is_nearest E) with (wants_nearest f). change (is_nearest (tidy_f16 k L f N pre un need)) with (wants_nearest f). rewrite Hn.
  change (dflt (tidy_f16 k L f N pre un need)) with (dflt E). change (gen (tidy_f16 k L f N pre un need)) with (gen E).
  change (vconv E) with (vconv_f16 k N). change (hconv E) with (hconv_f16 k N).
  set (fwv := gen E (height store) (height into)) in *. set (fwh := gen E (width store) (width into)) in *.
  destruct (negb (height store =? height into)) eqn:Ev; destruct (negb (width store =? width into)) eqn:Eh; cbn [andb].
  - set (T := width store * height into * N). unfold fits_usize in Hmid.
    assert (F1 : wmul (width store) (height into) = width store * height into).
    { apply wmul_small. pose proof (vc_N _ _ _ _ _ V). unfold usize_mod in *. nia. }
    assert (F2 : wmul (width store * height into) N = T).
    { apply wmul_small. unfold usize_mod in *. lia. }
    assert (F3 : wmul (width store) N = width store * N).
    { apply wmul_small. pose proof (g_h _ _ Gi). unfold usize_mod in *. nia. }
    unfold from_slice. rewrite repeat_length, F1, F2, Nat.eqb_refl, F3. cbn [negb].
    set (nv := set_bit_depth _ _).
    assert (Gnv : good N nv).
    { constructor; cbn.
      - apply (g_w _ _ Gs). - apply (g_h _ _ Gi). - lia.
      - rewrite repeat_length. unfold T. lia. }
    rewrite (vconv_f16_closed k N fwv pool store nv CN HP Gs Gnv eq_refl Wv).
    change (fvpass f0 fmul (mlaf k) as_f32 as_f16 N fwv pool store nv) with (vconv (tidy_f16 k L f N pre un need) fwv pool store nv).
    rewrite (pf_v _ _ _ _ _ PF fwv pool store nv HP Gs Gnv eq_refl Wv eq_refl).
    set (mid := mkImage _ _ _ _ _ _).
    assert (Gmid : good N mid).
    { constructor; cbn [mid width height stride buf set_buf painted].
      - apply (g_w _ _ Gs). - apply (g_h _ _ Gi). - lia.
      - rewrite pixmap_length. cbn. rewrite repeat_length. unfold T. lia. }
    rewrite (hconv_f16_closed k N fwh pool mid into CN HP Gmid Gi eq_refl Wh).
    unfold prepared. replace (width store =? width into) with false by (destruct (width store =? width into); cbn in Eh; congruence).
    change (fhpass f0 fmul (mlaf k) as_f32 as_f16 N fwh pool mid (blanked into)) with (hconv (tidy_f16 k L f N pre un need) fwh pool mid (blanked into)).
    rewrite (pf_h _ _ _ _ _ PF fwh pool mid (blanked into) HP Gmid (blanked_good _ _ Gi) eq_refl Wh eq_refl). reflexivity.
  - assert (Hw : width store = width into) by lia.
    unfold prepared. replace (width store =? width into) with true by lia.
    rewrite (vconv_f16_closed k N fwv pool store into CN HP Gs Gi Hw Wv). reflexivity.
  - assert (Hh : height store = height into) by lia.
    unfold prepared. replace (width store =? width into) with false by (destruct (width store =? width into); cbn in Eh; congruence).
    rewrite (hconv_f16_closed k N fwh pool store into CN HP Gs Gi Hh Wh).
    change (fhpass f0 fmul (mlaf k) as_f32 as_f16 N fwh pool store (blanked into)) with (hconv (tidy_f16 k L f N pre un need) fwh pool store (blanked into)).
    rewrite (pf_h _ _ _ _ _ PF fwh pool store (blanked into) HP Gs (blanked_good _ _ Gi) Hh Wh eq_refl). reflexivity.
  - exfalso. destruct D; lia.
Qed.
End Call.

Lemma f16_plain k L f N pre un need pool (store into : image f16) :
  generic_resize N (engine_f16 k L f N pre un need) pool store into = resize_f16 k L f N pool store into.
Proof. unfold resize_f16. apply engine_ext; reflexivity. Qed.

(** Calls that run no pass. *)
Lemma f16_no_pass k L f N pre un need pool (store into : image f16) :
  (width store = width into /\ height store = height into) \/ f = Nearest ->
  generic_resize N (engine_f16 k L f N pre un need) pool store into =
  generic_resize N (tidy_f16 k L f N pre un need) pool store into.
Proof.
  intro H. unfold generic_resize. change (needs_depth (tidy_f16 k L f N pre un need)) with (needs_depth (engine_f16 k L f N pre un need)).
  apply try_ext. intros _. destruct H as [[H1 H2]|H].
  - now rewrite H1, H2, !Nat.eqb_refl.
  - subst f. reflexivity.
Qed.

Notation stub3 := (fun _ _ _ => Panic).
Definition f16_passes (k : mlaf_kind) (L : libm) (f : resampling_function) (N : nat) (store into : image f16) :=
  float_resample f0 fmul (mlaf k) as_f32 as_f16
      (negb (height store =? height into)) (negb (width store =? width into))
      (filter_taps (resampling_filter L f) (height store) (height into))
      (filter_taps (resampling_filter L f) (width store) (width into)).

Theorem f16_paints k L f N pool (store into : image f16) :
  f <> Nearest -> valid_call N false f store into -> changes_size store into -> pool_ok pool ->
  exists out, resize_f16 k L f N pool store into = Returned Ok out /\ only_pixels_differ N (prepared store into) out /\
    shows N out (f16_passes k L f N store into (fun y x c => nth (y * stride store + (x * N + c)) (buf store) h0)).
Proof.
  intros Hf V D P.
  unfold resize_f16. rewrite f16_is_tidy by assumption.
  pose proof (prepared_valid _ _ _ _ _ V) as V'. destruct (prepared_fields store into) as (E1 & E2 & E3 & E4 & E5 & E6).
  assert (D' : changes_size store (prepared store into)) by (unfold changes_size; rewrite E1, E2; exact D).
  match goal with |- context [tidy_f16 k L f N ?a ?b ?c] => pose proof (tidy_conv k L f N a b c) as CE end.
  destruct (g_paints L f N false _ _ _ CE pool store (prepared store into) Hf V' D' P) as (out & R & O & S).
  exists out. split; [exact R|]. split; [exact O|].
  intros x y c Hx Hy Hc. rewrite S by (rewrite ?(opd_width _ _ _ O), ?(opd_height _ _ _ O) in *; auto).
  unfold g_passes, two_passes. rewrite E1, E2. reflexivity.
Qed.

(** What stays of the destination outside the pixels. *)
Lemma prepared_padding N store into (out : image f16) : only_pixels_differ N (prepared store into) out ->
  width out = width into /\ height out = height into /\ stride out = stride into /\ bit_depth out = bit_depth into /\
  length (buf out) = length (buf into) /\
  forall i, i < length (buf into) -> width into * N <= i mod stride into ->
    nth_error (buf out) i = if width store =? width into then nth_error (buf into) i else Some h0.
Proof.
  intros O. destruct (prepared_fields store into) as (E1 & E2 & E3 & E4 & E5 & E6). destruct O as [A1 A2 A3 A4 A5 A6 A7].
  rewrite E1, E3 in A7. repeat split; try congruence. intros i Hi Hp. rewrite (A7 i Hp). unfold prepared, blanked.
  destruct (width store =? width into); [reflexivity|]. cbn. now rewrite nth_error_repeat.
Qed.

(** ** Alpha *)
Lemma four_f16 : four premul_px_f16. Proof. intros r g b a. reflexivity. Qed.
Lemma four_un_f16 : four unpremul_px_f16. Proof. intros r g b a. unfold unpremul_px_f16. now destruct (feqb _ _). Qed.

Lemma premul_f16_ok pool im into : pool_ok pool -> good 4 im -> good 4 into -> width im = width into -> height im = height into ->
  exists out, premul_f16 pool im into = Done out /\ repainted premul_px_f16 im into out.
Proof.
  intros. unfold premul_f16. rewrite (premul_rows_closed h0) by (auto using four_f16). cbn [bind].
  eexists. split; [reflexivity|]. apply repaint; auto using four_f16.
Qed.
Lemma unpremul_f16_ok pool im : pool_ok pool -> good 4 im -> exists out, unpremul_f16 pool im = Done out /\ repainted unpremul_px_f16 im im out.
Proof.
  intros. unfold unpremul_f16. rewrite (unpremul_rows_closed h0) by (auto using four_un_f16). cbn [bind].
  eexists. split; [reflexivity|]. apply repaint; auto using four_un_f16.
Qed.
Lemma alpha_nofail_f16 k L f : alpha_nofail (rgba_engine_f16 k L f).
Proof.
  constructor.
  - intros pool a b. cbn. apply nofail_bind; [apply premul_rows_nofail; intros; apply nofail_px_row|intros; apply nofail_Done].
  - intros pool a. cbn. apply nofail_bind; [apply unpremul_rows_nofail; intros; apply nofail_px_row_in_place|intros; apply nofail_Done].
  - intro a. apply nofail_Done.
Qed.
Lemma pool_blind_alpha_f16 k L f : pool_blind_alpha (rgba_engine_f16 k L f).
Proof.
  constructor.
  - intros p a b H. cbn. unfold premul_f16. rewrite premul_rows_pool by (auto; intros; apply nofail_px_row). reflexivity.
  - intros p a H. cbn. unfold unpremul_f16. rewrite unpremul_rows_pool by (auto; intros; apply nofail_px_row_in_place). reflexivity.
Qed.

Theorem rgba_pipeline_f16 k L f pool (store into : image f16) :
  valid_call 4 false f store into -> changes_size store into -> f <> Nearest -> pool_ok pool ->
  exists src mid out,
    pixelwise premul_px_f16 store src /\
    valid_call 4 false f src into /\ width src = width store /\ height src = height store /\
    resize_f16 k L f 4 pool src into = Returned Ok mid /\ only_pixels_differ 4 (prepared store into) mid /\
    resize_rgba_f16 k L f pool true store into = Returned Ok out /\
    pixelwise unpremul_px_f16 mid out /\ only_pixels_differ 4 (prepared store into) out.
Proof.
  intros V D Hf HP. destruct (valid_good V) as [Gs Gi].
  destruct (stage_on (rgba_engine_f16 k L f) premul_px_f16 pool store into true four_f16) as (src & P & _ & P1); auto.
  { intros into' G1 G2 W H B. now apply premul_f16_ok. }
  { apply V. }
  destruct (P1 eq_refl) as (Q1 & Q2 & Q3 & Q4 & Q5 & _).
  assert (Ws : width src = width store) by (symmetry; apply Q1). assert (Hs : height src = height store) by (symmetry; apply Q1).
  assert (VS : valid_call 4 false f src into) by (apply (valid_source V); auto).
  assert (D' : changes_size src into) by (unfold changes_size in *; now rewrite Ws, Hs).
  destruct (f16_paints k L f 4 pool src into Hf VS D' HP) as (mid & Rm & Om & Sm).
  assert (EP : prepared src into = prepared store into) by (unfold prepared; now rewrite Ws).
  rewrite EP in Om.
  destruct (prepared_fields store into) as (E1 & E2 & E3 & E4 & E5 & E6).
  assert (Gp : good 4 (prepared store into)) by (apply (valid_good (prepared_valid _ _ _ _ _ V))).
  pose proof (good_opd _ _ _ Gp Om) as Gm.
  destruct (unpremul_f16_ok pool mid HP Gm) as (out & Ro & Po).
  exists src, mid, out. split; [exact Q1|]. split; [exact VS|]. split; [exact Ws|]. split; [exact Hs|]. split; [exact Rm|]. split; [exact Om|].
  split.
  { unfold resize_rgba_f16. rewrite (with_alpha_on 4 (rgba_engine_f16 k L f) pool store into src); auto.
    - unfold rgba_engine_f16. rewrite f16_plain, Rm. cbn [unpremul engine_f16]. rewrite Ro. reflexivity.
    - apply (sane_checks (valid_sane L V)).
    - apply (sane_checks (valid_sane L VS)).
    - cbn. destruct f; try reflexivity; congruence. }
  split. { apply (repainted_pixelwise _ mid mid out); auto using four_un_f16. }
  destruct Po as [O _]. destruct Om as [A1 A2 A3 A4 A5 A6 A7], O as [B1 B2 B3 B4 B5 B6 B7].
  constructor; try congruence. intros i Hi. rewrite B7 by (rewrite A1, A3; exact Hi). apply A7. exact Hi.
Qed.
