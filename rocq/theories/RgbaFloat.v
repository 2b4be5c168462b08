(** Alpha-aware resizes of 16-bit and f32 images, and the conversion of deep sums. *)
From Coq Require Import Classical ZArith Reals Lra List Lia Bool ZifyBool ZifyNat ZifyN.
From Flocq Require Import Core.Core IEEE754.BinarySingleNaN.
From Verif Require Import Base BaseProofs ImageStore ColorGroup FixedPoint Dispatch FloatConv Resize Spec SpecApi SpecAlpha SpecFloat F32 F32Proofs Weights Sampler
  KernelProofs DispatchProofs ResizeProofs NoFail ImageProofs PoolProofs PortableProofs Api ApiProofs Witness Alpha AlphaProofs AlphaScan AlphaU16
  RgbaProofs ApiFloat DriverProofs FloatApiProofs.
Import ListNotations.
Local Open Scope nat_scope.

(** ** Errors and pools *)
Lemma alpha_nofail_u16 k L f : alpha_nofail (rgba_engine_u16 k L f).
Proof.
  constructor.
  - intros pool a b. cbn. apply nofail_bind; [apply premul_rows_nofail; intros; apply nofail_px_row|intros; apply nofail_Done].
  - intros pool a. cbn. apply nofail_bind; [apply unpremul_rows_nofail; intros; apply nofail_px_row_in_place|intros; apply nofail_Done].
  - intro a. apply scan_nofail.
Qed.

Lemma pool_blind_alpha_u16 k L f : pool_blind_alpha (rgba_engine_u16 k L f).
Proof.
  constructor.
  - intros p a b H. cbn. unfold premul_u16. rewrite premul_rows_pool by (auto; intros; apply nofail_px_row). reflexivity.
  - intros p a H. cbn. unfold unpremul_u16. rewrite unpremul_rows_pool by (auto; intros; apply nofail_px_row_in_place). reflexivity.
Qed.

Lemma alpha_nofail_f32 k L f : alpha_nofail (rgba_engine_f32 k L f).
Proof.
  constructor.
  - intros pool a b. cbn. apply nofail_bind; [apply premul_rows_nofail; intros; apply nofail_px_row|intros; apply nofail_Done].
  - intros pool a. cbn. apply nofail_bind; [apply unpremul_rows_nofail; intros; apply nofail_px_row_in_place|intros; apply nofail_Done].
  - intro a. apply scan_nofail.
Qed.

Lemma pool_blind_alpha_f32 k L f : pool_blind_alpha (rgba_engine_f32 k L f).
Proof.
  constructor.
  - intros p a b H. cbn. unfold premul_f32. rewrite premul_rows_pool by (auto; intros; apply nofail_px_row). reflexivity.
  - intros p a H. cbn. unfold unpremul_f32. rewrite unpremul_rows_pool by (auto; intros; apply nofail_px_row_in_place). reflexivity.
Qed.

Lemma with_alpha_same_g {T F} N (E : engine T F) pool r store into :
  width store = width into -> height store = height into ->
  generic_resize_with_alpha N E pool r store into = generic_resize N E pool store into.
Proof.
  intros Hw Hh. unfold generic_resize_with_alpha, generic_resize.
  replace (width store =? width into) with true by lia. replace (height store =? height into) with true by lia.
  reflexivity.
Qed.

(** Nearest ignores the alpha flag. *)
Lemma with_alpha_nearest {T F} N (E : engine T F) pool r store into : is_nearest E = true ->
  generic_resize_with_alpha N E pool r store into = generic_resize N E pool store into.
Proof.
  intros H. unfold generic_resize_with_alpha, generic_resize. rewrite H. reflexivity.
Qed.

(** ** Pipeline *)
Lemma alpha_varies_conv_g {T} (dec : forall a b : T, {a = b} + {a <> b}) (im : image T) : good 4 im -> alpha_varies im ->
  exists x y, x < width im /\ y < height im /\ alpha_at im x y <> alpha_at im 0 0.
Proof.
  intros G (x & y & x' & y' & Hx & Hy & Hx' & Hy' & D).
  destruct (pixel_exists im x y G Hx Hy) as (? & ? & ? & a & _ & _ & _ & A).
  destruct (pixel_exists im x' y' G Hx' Hy') as (? & ? & ? & a' & _ & _ & _ & A').
  destruct (pixel_exists im 0 0 G ltac:(lia) ltac:(lia)) as (? & ? & ? & a0 & _ & _ & _ & A0).
  unfold alpha_at in *. destruct (dec a a0).
  - exists x', y'. repeat split; auto. rewrite A', A0. rewrite A, A' in D. congruence.
  - exists x, y. repeat split; auto. rewrite A, A0. congruence.
Qed.

Lemma f32_dec (a b : f32) : {a = b} + {a <> b}.
Proof.
  destruct (Z.eq_dec (f32_bits a) (f32_bits b)) as [E|E].
  - left. now apply f32_bits_inj.
  - right. intros ->. now apply E.
Qed.

Section Pipeline.
Context {T : Type}.
Variables (L : libm) (f : resampling_function) (nd : bool) (E : engine T f32)
  (PV PH : nat -> fweights f32 -> (nat -> nat -> nat -> T) -> nat -> nat -> nat -> T)
  (pre un : T -> T -> T -> T -> list T) (pool : pool_t) (store into : image T).
Hypothesis CE : conv_engine L f 4 nd E PV PH.
Hypothesis H4 : four pre.
Hypothesis H4' : four un.
Hypothesis Hpre : forall im into', good 4 im -> good 4 into' -> width im = width into' -> height im = height into' ->
    bit_depth into' = bit_depth into -> exists out, premul E pool im into' = Done out /\ repainted pre im into' out.
Hypothesis Hun : forall im, good 4 im -> bit_depth im = bit_depth into ->
    exists out, unpremul E pool im = Done out /\ repainted un im im out.
Hypothesis Hneed : exists res, alpha_needed E store = Done res /\ (res = true <-> alpha_varies store).

Lemma g_pipeline :
  valid_call 4 nd f store into -> changes_size store into -> f <> Nearest -> pool_ok pool ->
  exists src mid out,
    (alpha_varies store -> pixelwise pre store src) /\ (~ alpha_varies store -> src = store) /\
    valid_call 4 nd f src into /\ width src = width store /\ height src = height store /\
    generic_resize 4 E pool src into = Returned Ok mid /\ only_pixels_differ 4 into mid /\
    generic_resize_with_alpha 4 E pool true store into = Returned Ok out /\
    pixelwise un mid out /\ only_pixels_differ 4 into out.
Proof.
  intros V D Hf HP. destruct (valid_good V) as [Gs Gi].
  destruct Hneed as (res & R & I).
  destruct (stage_on E pre pool store into res H4) as (src & P & P0 & P1); auto.
  { apply V. }
  assert (VS : valid_call 4 nd f src into /\ width src = width store /\ height src = height store).
  { destruct res.
    - destruct (P1 eq_refl) as ((Q1 & Q2 & _) & Q3 & Q4 & Q5 & _). split; [|split; congruence].
      apply (valid_source V); auto.
    - rewrite P0 by reflexivity. auto. }
  destruct VS as (VS & WS & HS').
  destruct (g_paints L f 4 nd E PV PH CE pool src into Hf VS) as (mid & Rm & Om & Sm); auto.
  { unfold changes_size in *. now rewrite WS, HS'. }
  pose proof (good_opd _ _ _ Gi Om) as Gm.
  destruct (Hun mid Gm (opd_depth _ _ _ Om)) as (out & Ro & Po).
  exists src, mid, out.
  split. { intro A. apply P1. now apply I. }
  split. { intro A. apply P0. destruct res; auto. exfalso. now apply A, I. }
  split; [exact VS|]. split; [exact WS|]. split; [exact HS'|].
  split; [exact Rm|]. split; [exact Om|].
  split.
  { rewrite (with_alpha_on 4 E pool store into src); auto.
    - rewrite Rm. cbn [try]. rewrite Ro. reflexivity.
    - rewrite (ce_nd _ _ _ _ _ _ _ CE). apply (sane_checks (valid_sane L V)).
    - rewrite (ce_nd _ _ _ _ _ _ _ CE). apply (sane_checks (valid_sane L VS)).
    - rewrite (ce_near _ _ _ _ _ _ _ CE). destruct f; try reflexivity; congruence. }
  split. { apply (repainted_pixelwise _ mid mid out); auto. }
  destruct Po as [O _]. destruct Om as [A1 A2 A3 A4 A5 A6 A7], O as [B1 B2 B3 B4 B5 B6 B7].
  constructor; try congruence. intros i Hi. rewrite B7 by (rewrite A1, A3; exact Hi). apply A7. exact Hi.
Qed.
End Pipeline.

(** The 16-bit pipeline. *)
Theorem rgba_pipeline_u16 k L f pool (store into : image Z) :
  valid_call 4 true f store into -> changes_size store into -> f <> Nearest -> pool_ok pool -> samples_in 65535 (buf store) ->
  exists src mid out,
    (alpha_varies store -> pixelwise (premul_px_u16 (max_colors (bit_depth into))) store src) /\ (~ alpha_varies store -> src = store) /\
    valid_call 4 true f src into /\ width src = width store /\ height src = height store /\
    resize_u16 k L f 4 pool src into = Returned Ok mid /\ only_pixels_differ 4 into mid /\
    resize_rgba_u16 k L f pool true store into = Returned Ok out /\
    pixelwise (unpremul_px_u16 (max_colors (bit_depth into))) mid out /\ only_pixels_differ 4 into out.
Proof.
  intros V D Hf HP HS.
  assert (Hs : exists res, alpha_needed_u16 store = Done res /\ (res = true <-> alpha_varies store)).
  { apply (scan_varies 16 (2 ^ 64) store).
    - lia.
    - pose proof (vc_sides _ _ _ _ _ V). lia.
    - apply (valid_good V).
    - revert HS. apply Forall_impl. intros. lia. }
  exact (g_pipeline L f true (rgba_engine_u16 k L f) (u16_v k) (u16_h k) (premul_px_u16 (max_colors (bit_depth into)))
    (unpremul_px_u16 (max_colors (bit_depth into))) pool store into (engine_u16_conv k L f 4 _ _ _) (four_u16 _) (four_un_u16 _)
    (fun im into' G1 G2 W H B => eq_rect _ (fun d => exists out, premul_u16 pool im into' = Done out /\ repainted (premul_px_u16 (max_colors d)) im into' out) (premul_u16_ok pool HP im into' G1 G2 W H) _ B)
    (fun im G B => eq_rect _ (fun d => exists out, unpremul_u16 pool im = Done out /\ repainted (unpremul_px_u16 (max_colors d)) im im out) (unpremul_u16_ok pool HP im G) _ B)
    Hs V D Hf HP).
Qed.

Theorem rgba_pipeline_f32 k L f pool (store into : image f32) :
  valid_call 4 false f store into -> changes_size store into -> f <> Nearest -> pool_ok pool ->
  exists src mid out,
    (alpha_varies store -> pixelwise premul_px_f32 store src) /\ (~ alpha_varies store -> src = store) /\
    valid_call 4 false f src into /\ width src = width store /\ height src = height store /\
    resize_f32 k L f 4 pool src into = Returned Ok mid /\ only_pixels_differ 4 into mid /\
    resize_rgba_f32 k L f pool true store into = Returned Ok out /\
    pixelwise unpremul_px_f32 mid out /\ only_pixels_differ 4 into out.
Proof.
  intros V D Hf HP. destruct (valid_good V) as [Gs Gi].
  assert (Hs : exists res, alpha_needed_f32 store = Done res /\ (res = true <-> alpha_varies store)).
  { destruct (scan_f32 store) as (res & R & I); auto.
    - pose proof (vc_sides _ _ _ _ _ V). lia.
    - exists res. split; [exact R|]. rewrite I. split; [apply alpha_varies_first; apply Gs|apply (alpha_varies_conv_g f32_dec), Gs]. }
  exact (g_pipeline L f false (rgba_engine_f32 k L f) (f32_v k) (f32_h k) premul_px_f32 unpremul_px_f32
    pool store into (engine_f32_conv k L f 4 _ _ _) four_f32 four_un_f32
    (fun im into' G1 G2 W H B => premul_f32_ok pool HP im into' G1 G2 W H)
    (fun im G B => unpremul_f32_ok pool HP im G)
    Hs V D Hf HP).
Qed.

(** f32: alpha goes through the pipeline untouched, so it is resampled like any plain
    channel. *)
Theorem alpha_channel_f32 k L f pool (store into plain out : image f32) :
  valid_call 4 false f store into -> changes_size store into -> f <> Nearest -> pool_ok pool ->
  resize_rgba_f32 k L f pool false store into = Returned Ok plain ->
  resize_rgba_f32 k L f pool true store into = Returned Ok out ->
  forall x y, x < width into -> y < height into -> alpha_at out x y = alpha_at plain x y.
Proof.
  intros V D Hf HP Rp Ro x y Hx Hy.
  destruct (rgba_pipeline_f32 k L f pool store into V D Hf HP) as (src & mid & o & P1 & P2 & VS & Ws & Hs & Rm & Om & Ro' & Pu & Oo).
  rewrite Ro in Ro'. inversion Ro'; subst o. unfold resize_rgba_f32 in Rp. rewrite with_alpha_off in Rp.
  destruct (valid_good V) as [Gs Gi]. pose proof (good_opd _ _ _ Gi Om) as Gm.
  destruct (pixel_exists mid x y Gm) as (r & g & b & a & Pm); [rewrite (opd_width _ _ _ Om); auto|rewrite (opd_height _ _ _ Om); auto|].
  assert (Ao : alpha_at out x y = Some a).
  { destruct Pu as (_ & _ & Q). destruct (Q x y r g b a) as (r' & g' & b' & a' & E & P'); auto;
      try (rewrite ?(opd_width _ _ _ Om), ?(opd_height _ _ _ Om); auto; fail).
    unfold alpha_at. destruct P' as (_ & _ & _ & ->). f_equal. unfold unpremul_px_f32 in E. destruct (feqb a f0); inversion E; auto. }
  rewrite Ao. destruct Pm as (_ & _ & _ & Am). unfold alpha_at. rewrite <- Am. clear Ao Am r g b a.
  apply (g_local L f 4 false _ _ _ (engine_f32_conv k L f 4 premul_f32 unpremul_f32 alpha_needed_f32) pool pool src store into into mid plain x y 3); auto.
  - unfold changes_size in *. now rewrite Ws, Hs.
  - intros sx sy Hin.
    destruct (in_window_bounds L 4 false f src into x y sx sy VS Hx Hy Hin) as [Bx By]. rewrite Ws in Bx. rewrite Hs in By.
    destruct (pixel_exists store sx sy Gs Bx By) as (r & g & b & a & Q).
    destruct (classic (alpha_varies store)) as [Av|Av].
    + destruct (P1 Av) as (_ & _ & Q'). destruct (Q' sx sy r g b a Bx By Q) as (r' & g' & b' & a' & E & P').
      destruct P' as (_ & _ & _ & ->). destruct Q as (_ & _ & _ & ->). unfold premul_px_f32 in E. inversion E. reflexivity.
    + now rewrite (P2 Av).
Qed.

(** ** The stored value of a deep sum *)
Local Open Scope Z_scope.

Lemma max_colors_range d : (1 <= d <= 16)%nat -> 1 <= max_colors d <= 65535.
Proof. intro H. pose proof (pow_range d H). unfold max_colors. lia. Qed.

Lemma to_mixed_fin d x r : (1 <= d <= 16)%nat -> fin x r ->
  to_mixed_u16 d x = Z.max 0 (Z.min (max_colors d) (Zceil r)).
Proof.
  intros Hd H. pose proof (max_colors_range d Hd) as HM. unfold to_mixed_u16.
  change (2 ^ Z.of_nat d - 1) with (max_colors d). set (M := max_colors d) in *. clearbody M.
  pose proof (fceil_fin _ _ H) as H1. pose proof (fmax_fin _ _ _ _ H1 f0_fin) as H2.
  assert (H3 : fin (fZ M 0) (IZR M)) by (apply fint_exact; lia).
  pose proof (fmin_fin _ _ _ _ H2 H3) as H4.
  rewrite (f_to_int_fin 0 65535 _ _ H4) by lia.
  replace (Rmin (Rmax (IZR (Zceil r)) 0) (IZR M)) with (IZR (Z.min (Z.max (Zceil r) 0) M)).
  - rewrite Ztrunc_IZR. lia.
  - unfold Rmin, Rmax. destruct (Rle_dec (IZR (Zceil r)) 0) as [A|A].
    + apply (le_IZR _ 0) in A. destruct (Rle_dec 0 (IZR M)) as [B|B].
      * f_equal. lia.
      * exfalso. apply B. apply (IZR_le 0). lia.
    + assert (0 < Zceil r). { apply lt_IZR. lra. }
      destruct (Rle_dec (IZR (Zceil r)) (IZR M)) as [B|B].
      * apply le_IZR in B. f_equal. lia.
      * assert (M < Zceil r). { apply lt_IZR. lra. } f_equal. lia.
Qed.

Lemma to_mixed_range d x : (1 <= d <= 16)%nat -> 0 <= to_mixed_u16 d x <= max_colors d.
Proof.
  intro Hd. pose proof (max_colors_range d Hd) as HM.
  destruct (is_finite x) eqn:F.
  - rewrite (to_mixed_fin d x (B2R x) Hd) by (split; auto). lia.
  - assert (H3 : fin (fZ (max_colors d) 0) (IZR (max_colors d))) by (apply fint_exact; lia).
    unfold to_mixed_u16. change (2 ^ Z.of_nat d - 1) with (max_colors d). set (M := max_colors d) in *. clearbody M.
    destruct x as [s|s| |s m e He]; try discriminate F.
    + destruct s.
      * (* -inf *) replace (fmax (fceil (B754_infinity true)) f0) with f0 by reflexivity.
        pose proof (fmin_fin _ _ _ _ f0_fin H3) as K. rewrite (f_to_int_fin 0 65535 _ _ K) by lia.
        rewrite Rmin_left by (apply (IZR_le 0); lia). rewrite (Ztrunc_IZR 0). lia.
      * replace (fmax (fceil (B754_infinity false)) f0) with (B754_infinity false : f32) by reflexivity.
        replace (fmin (B754_infinity false) (fZ M 0)) with (fZ M 0).
        -- rewrite (f_to_int_fin 0 65535 _ _ H3) by lia. rewrite Ztrunc_IZR. lia.
        -- destruct H3 as [K _]. unfold fmin. destruct (fZ M 0) as [s|s| |s m e He]; try discriminate K; try reflexivity; destruct s; reflexivity.
    + replace (fmax (fceil B754_nan) f0) with f0 by reflexivity.
      pose proof (fmin_fin _ _ _ _ f0_fin H3) as K. rewrite (f_to_int_fin 0 65535 _ _ K) by lia.
      rewrite Rmin_left by (apply (IZR_le 0); lia). rewrite (Ztrunc_IZR 0). lia.
Qed.
