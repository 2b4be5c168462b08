(** The alpha-aware resize as a pipeline: premultiply (if the alpha varies), plain
    resize, un-premultiply. *)
From Coq Require Import ZArith List Lia Bool ZifyBool ZifyNat.
From Verif Require Import Base BaseProofs ImageStore ColorGroup FixedPoint Dispatch Resize Spec SpecApi SpecAlpha F32 Weights Sampler
  KernelProofs DispatchProofs ResizeProofs NoFail ImageProofs PoolProofs PortableProofs QuantSums Center SamplerProofs Api ApiProofs Witness Alpha AlphaProofs AlphaArith AlphaScan ApiRgba.
Import ListNotations.
Local Open Scope nat_scope.

(** ** The driver *)
Lemma with_alpha_on {T F} N (E : engine T F) pool (store into src : image T) :
  checks N (needs_depth E) store into = Done tt -> checks N (needs_depth E) src into = Done tt ->
  is_nearest E = false -> (width store <> width into \/ height store <> height into) ->
  width src = width store -> height src = height store ->
  premultiply_stage N E pool true store into = Done (src, true) ->
  generic_resize_with_alpha N E pool true store into =
  match generic_resize N E pool src into with
  | Returned Ok mid => try (unpremul E pool mid) mid (fun r => Returned Ok r)
  | r => r
  end.
Proof.
  intros C1 C2 Hn Hd Hw Hh Hp.
  unfold generic_resize_with_alpha, generic_resize, forward_resize_with_alpha, forward_resize_vertical_with_alpha,
    forward_resize_horizontal_with_alpha. rewrite C1, C2, Hn, Hp. cbn [try]. rewrite ?Hw, ?Hh.
  destruct (width store =? width into) eqn:EW, (height store =? height into) eqn:EH; cbn [andb negb].
  - apply Nat.eqb_eq in EW. apply Nat.eqb_eq in EH. lia.
  - destruct (vconv E _ pool src into) as [i| |]; cbn [try]; try reflexivity.
  - destruct (hconv E _ pool src into) as [i| |]; cbn [try]; try reflexivity.
  - destruct (from_slice N _ (width store) (height into)) as [nv| |]; cbn [try]; try reflexivity.
    destruct (vconv E _ pool src _) as [i| |]; cbn [try]; try reflexivity.
    destruct (hconv E _ pool _ into) as [j| |]; cbn [try]; try reflexivity.
Qed.

(** ** The premultiplied source *)
Lemma pixel_exists {T} (im : image T) x y : good 4 im -> x < width im -> y < height im ->
  exists r g b a, pixel im x y r g b a.
Proof.
  intros G Hx Hy. pose proof (good_addressable _ _ G x y) as A.
  assert (S : forall c, c < 4 -> exists v, sample 4 im x y c = Some v).
  { intros c Hc. unfold sample. specialize (A c Hx Hy Hc). apply nth_error_Some in A.
    destruct (nth_error (buf im) (y * stride im + x * 4 + c)); eauto; congruence. }
  destruct (S 0 ltac:(lia)) as [r R], (S 1 ltac:(lia)) as [g Gg], (S 2 ltac:(lia)) as [b B], (S 3 ltac:(lia)) as [a Aa].
  exists r, g, b, a. repeat split; assumption.
Qed.

Lemma good_opd {T} N (im out : image T) : good N im -> only_pixels_differ N im out -> good N out.
Proof.
  intros [G1 G2 G3 G4] [O1 O2 O3 O4 O5 O6 O7]. constructor; congruence.
Qed.

Lemma repainted_pixelwise {T} px (im into out : image T) : four px -> good 4 im -> width im = width into -> height im = height into ->
  repainted px im into out -> pixelwise px im out.
Proof.
  intros F4 G Hw Hh [O S]. split; [rewrite (opd_width _ _ _ O); congruence|]. split; [rewrite (opd_height _ _ _ O); congruence|].
  intros x y r g b a Hx Hy P.
  pose proof (F4 r g b a) as L4. destruct (px r g b a) as [|r' [|g' [|b' [|a' [|]]]]] eqn:E; try discriminate.
  exists r', g', b', a'. split; [reflexivity|].
  repeat split; rewrite (S x y r g b a) by (auto; lia); rewrite E; reflexivity.
Qed.

Lemma good_fits {T} N (im : image T) : good N im -> fits_usize (length (buf im)) ->
  fits_usize (width im * height im * N) /\ fits_usize (width im * N).
Proof.
  intros [G1 G2 G3 G4] F. unfold fits_usize in *. rewrite G4 in F.
  assert (width im * height im * N <= height im * stride im) by nia.
  assert (width im * N <= height im * stride im) by nia. lia.
Qed.

Lemma stage_on {T F} (E : engine T F) px pool (store into : image T) needed :
  four px -> (forall into', good 4 store -> good 4 into' -> width store = width into' -> height store = height into' ->
    bit_depth into' = bit_depth into -> exists out, premul E pool store into' = Done out /\ repainted px store into' out) ->
  alpha_needed E store = Done needed -> good 4 store -> fits_usize (length (buf store)) ->
  exists src, premultiply_stage 4 E pool true store into = Done (src, true) /\ (needed = false -> src = store) /\
    (needed = true -> pixelwise px store src /\ good 4 src /\ channels src = 4 /\ stride src = width store * 4 /\
       bit_depth src = bit_depth into /\ length (buf src) = height store * (width store * 4)).
Proof.
  intros F4 Hpre Hn G Hf. unfold premultiply_stage. rewrite Hn. cbn [bind]. destruct needed.
  2: { exists store. split; [reflexivity|]. split; [reflexivity|discriminate]. }
  destruct (good_fits _ _ G Hf) as [F1 F2].
  assert (W : wmul (wmul (width store) (height store)) 4 = width store * height store * 4).
  { pose proof (g_w _ _ G). pose proof (g_h _ _ G). unfold fits_usize in F1.
    rewrite (wmul_small (width store) (height store)) by (unfold fits_usize in *; nia). apply wmul_small. lia. }
  unfold from_slice. rewrite repeat_length, Nat.eqb_refl. cbn [negb bind].
  set (ns := set_bit_depth (mkImage (repeat (dflt E) (wmul (wmul (width store) (height store)) 4)) 4 (width store) (height store) (wmul (width store) 4) 0) (bit_depth into)).
  assert (Gn : good 4 ns).
  { destruct G as [G1 G2 G3 G4]. constructor; cbn [ns set_bit_depth width height stride buf]; auto.
    - rewrite wmul_small by (unfold fits_usize in F2; lia). lia.
    - rewrite repeat_length, W. rewrite (wmul_small (width store) 4) by (unfold fits_usize in F2; lia). lia. }
  destruct (Hpre ns G Gn eq_refl eq_refl eq_refl) as (out & R & P). rewrite R. cbn [bind].
  eexists. split; [reflexivity|]. split; [discriminate|]. intros _.
  pose proof (repainted_pixelwise px store ns out F4 G eq_refl eq_refl P) as [Q1 [Q2 Q3]].
  destruct P as [O _]. pose proof (good_opd _ _ _ Gn O) as Go.
  assert (St : stride out = width store * 4).
  { rewrite (opd_stride _ _ _ O). cbn. apply wmul_small. unfold fits_usize in F2. lia. }
  assert (Wd : wmul (width store) 4 = width store * 4) by (apply wmul_small; unfold fits_usize in F2; lia).
  rewrite Wd. repeat split; cbn [width height stride buf channels bit_depth]; try reflexivity; try congruence.
  - intros x y r g b a Hx Hy P. destruct (Q3 x y r g b a Hx Hy P) as (r' & g' & b' & a' & Ep & P').
    exists r', g', b', a'. split; [exact Ep|]. unfold pixel, sample in *. cbn [stride buf]. rewrite <- St. exact P'.
  - apply G. 
  - apply G.
  - rewrite (g_len _ _ Go), <- Q2, St. reflexivity.
  - rewrite (g_len _ _ Go), <- Q2, St. reflexivity.
Qed.

(** ** The 8-bit call *)
Lemma rgba_alpha_nofail L f : alpha_nofail (rgba_engine_u8 L f).
Proof.
  constructor.
  - intros pool a b. cbn. apply nofail_bind; [apply premul_rows_nofail; intros; apply nofail_px_row|intros; apply nofail_Done].
  - intros pool a. cbn. apply nofail_bind; [apply unpremul_rows_nofail; intros; apply nofail_px_row_in_place|intros; apply nofail_Done].
  - intro a. apply scan_nofail.
Qed.

Lemma rgba_pool_blind L f : pool_blind_alpha (rgba_engine_u8 L f).
Proof.
  constructor.
  - intros p a b H. cbn. unfold premul_u8. rewrite premul_rows_pool by (auto; intros; apply nofail_px_row). reflexivity.
  - intros p a H. cbn. unfold unpremul_u8. rewrite unpremul_rows_pool by (auto; intros; apply nofail_px_row_in_place). reflexivity.
Qed.

Lemma alpha_varies_first {T} (im : image T) : 0 < width im -> 0 < height im ->
  (exists x y, x < width im /\ y < height im /\ alpha_at im x y <> alpha_at im 0 0) -> alpha_varies im.
Proof. intros H H' (x & y & Hx & Hy & D). exists x, y, 0, 0. auto. Qed.

Lemma alpha_varies_conv (im : image Z) : good 4 im -> alpha_varies im ->
  exists x y, x < width im /\ y < height im /\ alpha_at im x y <> alpha_at im 0 0.
Proof.
  intros G (x & y & x' & y' & Hx & Hy & Hx' & Hy' & D).
  destruct (pixel_exists im x y G Hx Hy) as (? & ? & ? & a & _ & _ & _ & A).
  destruct (pixel_exists im x' y' G Hx' Hy') as (? & ? & ? & a' & _ & _ & _ & A').
  destruct (pixel_exists im 0 0 G ltac:(lia) ltac:(lia)) as (? & ? & ? & a0 & _ & _ & _ & A0).
  unfold alpha_at in *. destruct (Z.eq_dec a a0).
  - exists x', y'. repeat split; auto. rewrite A', A0. rewrite A, A' in D. congruence.
  - exists x, y. repeat split; auto. rewrite A, A0. congruence.
Qed.

Lemma scan_varies k m (im : image Z) : (0 <= k)%Z -> (Z.of_nat (width im) * 2 ^ k <= m)%Z -> good 4 im ->
  Forall (fun v => 0 <= v < 2 ^ k)%Z (buf im) ->
  exists res, has_non_constant_alpha m (buf im) (width im) (stride_of 4 im) = Done res /\ (res = true <-> alpha_varies im).
Proof.
  intros Hk Hm G HF. destruct (scan_ok k m im Hk Hm G HF) as (res & R & I). exists res. split; [exact R|].
  rewrite I. split; [apply alpha_varies_first; apply G|apply alpha_varies_conv, G].
Qed.

Lemma valid_source {T} {nd f} {store into src : image T} : valid_call 4 nd f store into -> good 4 src -> width src = width store ->
  height src = height store -> channels src = 4 -> stride src = width store * 4 -> valid_call 4 nd f src into.
Proof.
  intros V G Hw Hh Hc Hs. destruct (good_fits 4 store (proj1 (valid_good V)) (proj1 (vc_fits _ _ _ _ _ V))) as [F1 F2].
  destruct V as [V1 V2 V3 V4 V5 V6 V7 V8]. destruct V5 as (V51 & V52 & V53). constructor; auto.
  - destruct G. auto.
  - split; [|split]; auto.
    + rewrite (g_len _ _ G), Hs, Hh. unfold fits_usize in *. nia.
    + rewrite Hw. exact V53.
  - now rewrite Hw, Hh.
Qed.

Lemma bytes_forall l : samples_in 255 l -> Forall (fun v => 0 <= v < 2 ^ 8)%Z l.
Proof. apply Forall_impl. intros. cbn. lia. Qed.

Theorem rgba_pipeline_u8 L f pool (store into : image Z) :
  valid_call 4 false f store into -> changes_size store into -> f <> Nearest -> pool_ok pool -> samples_in 255 (buf store) ->
  exists src mid out,
    (alpha_varies store -> pixelwise premul_px_u8 store src) /\ (~ alpha_varies store -> src = store) /\
    valid_call 4 false f src into /\ width src = width store /\ height src = height store /\
    resize_u8 L f 4 pool src into = Returned Ok mid /\ only_pixels_differ 4 into mid /\
    resize_rgba_u8 L f pool true store into = Returned Ok out /\
    pixelwise unpremul_px_u8 mid out /\ only_pixels_differ 4 into out.
Proof.
  intros V D Hf HP HS. destruct (valid_good V) as [Gs Gi].
  destruct (scan_varies 8 (2 ^ 32) store ltac:(lia)) as (res & R & I); auto using bytes_forall.
  { pose proof (vc_sides _ _ _ _ _ V). lia. }
  destruct (stage_on (rgba_engine_u8 L f) premul_px_u8 pool store into res four_u8) as (src & P & P0 & P1); auto.
  { intros into' G1 G2 W H _. apply premul_u8_ok; auto. }
  { apply V. }
  assert (VS : valid_call 4 false f src into /\ width src = width store /\ height src = height store).
  { destruct res.
    - destruct (P1 eq_refl) as ((Q1 & Q2 & _) & Q3 & Q4 & Q5 & _). split; [|split; congruence].
      apply (valid_source V); auto.
    - rewrite P0 by reflexivity. auto. }
  destruct VS as (VS & WS & HS').
  destruct (paint_raw L f 4 255 false no_premul no_unpremul no_alpha pool src into ltac:(lia) VS HP Hf) as (mid & Rm & Om & Sm).
  { unfold changes_size in *. now rewrite WS, HS'. }
  pose proof (good_opd _ _ _ Gi Om) as Gm.
  destruct (unpremul_u8_ok pool HP mid Gm) as (out & Ro & Po).
  exists src, mid, out.
  split. { intro A. apply P1. now apply I. }
  split. { intro A. apply P0. destruct res; auto. exfalso. now apply A, I. }
  split; [exact VS|]. split; [exact WS|]. split; [exact HS'|].
  split; [exact Rm|]. split; [exact Om|].
  split.
  { unfold resize_rgba_u8. rewrite (with_alpha_on 4 (rgba_engine_u8 L f) pool store into src); auto.
    - change (generic_resize 4 (rgba_engine_u8 L f) pool src into) with (resize_u8 L f 4 pool src into).
      unfold resize_u8. rewrite Rm. cbn [rgba_engine_u8 scaler_engine portable fixed_engine unpremul]. rewrite Ro. reflexivity.
    - apply (sane_checks (valid_sane L V)).
    - apply (sane_checks (valid_sane L VS)).
    - destruct f; try reflexivity; congruence. }
  split. { apply (repainted_pixelwise _ mid mid out); auto using four_un_u8. }
  destruct Po as [O _]. destruct Om as [A1 A2 A3 A4 A5 A6 A7], O as [B1 B2 B3 B4 B5 B6 B7].
  constructor; try congruence. intros i Hi. rewrite B7 by (rewrite A1, A3; exact Hi). apply A7. exact Hi.
Qed.

(** ** Order between channels *)
Lemma resample_other_channel maxv dv dh V H p y x c c' :
  resample maxv dv dh V H p y x c' = resample maxv dv dh V H (fun y x _ => p y x c') y x c.
Proof. destruct dv, dh; reflexivity. Qed.

Lemma call_channels_mono L f N maxv nd pre unpre need pool store into out :
  (0 <= maxv <= 4095)%Z -> averaging f = true -> f <> Nearest ->
  valid_call N nd f store into -> pool_ok pool -> changes_size store into -> samples_in maxv (buf store) ->
  generic_resize N (scaler_engine L f N maxv nd pre unpre need) pool store into = Returned Ok out ->
  forall c c', c < N -> c' < N ->
  (forall x y a b, x < width store -> y < height store -> sample N store x y c = Some a -> sample N store x y c' = Some b -> (a <= b)%Z) ->
  forall x y a b, x < width into -> y < height into ->
  sample N out x y c = Some a -> sample N out x y c' = Some b -> (a <= b)%Z.
Proof.
  intros M A Hf V P D S R c c' Hc Hc' Le x y a b Hx Hy Ha Hb.
  destruct (paint_closed L f N maxv nd pre unpre need pool store into ltac:(lia) V P Hf D S) as (o1 & R1 & O1 & S1).
  { now apply averaging_no_overflow with N nd. }
  rewrite R in R1. inversion R1; subst o1.
  rewrite S1 in Ha by (auto; rewrite ?(opd_width _ _ _ O1), ?(opd_height _ _ _ O1); auto).
  rewrite S1 in Hb by (auto; rewrite ?(opd_width _ _ _ O1), ?(opd_height _ _ _ O1); auto).
  inversion Ha; inversion Hb; subst a b.
  destruct (valid_good V) as [G1 G2]. destruct (valid_sides V) as [Sd1 Sd2].
  pose proof (valid_sane L V) as Sn.
  rewrite (resample_other_channel maxv _ _ _ _ (picture_of N store) y x c c').
  apply (resample_mono maxv _ _ _ _ (height store) (width store) (height into) (width into)); auto; try lia.
  - intros o Ho. now apply (filter_windows_in _ _ _ o (sane_wf_v Sn)).
  - intros o Ho. now apply (filter_windows_in _ _ _ o (sane_wf_h Sn)).
  - apply averaging_nonneg; auto.
  - apply averaging_nonneg; auto.
  - intros sy sx Hsy Hsx. apply (Le sx sy); auto; now apply good_sample.
Qed.

(** ** Pixels in arithmetic *)
Lemma list4_inj {T} (a b c d a' b' c' d' : T) : [a; b; c; d] = [a'; b'; c'; d'] -> a = a' /\ b = b' /\ c = c' /\ d = d'.
Proof. intro H. injection H as -> -> -> ->. auto. Qed.

Local Open Scope Z_scope.
Lemma premul_px_spec r g b a : byte r -> byte g -> byte b -> byte a -> premul_px_u8 r g b a = associate8 r g b a.
Proof. intros. unfold premul_px_u8, associate8. now rewrite !premul_ch_u8. Qed.

Lemma unpremul_ch_spec a c : byte a -> byte c -> unpremul_ch_u8 a c = unassociate_channel8 a c.
Proof.
  unfold byte. intros Ha Hc. unfold unassociate_channel8. destruct (Z.eqb_spec a 0) as [->|Na]; [now apply unpremul_zero|].
  destruct (Z.eqb_spec c 255) as [->|Nc]; cbn [andb].
  - destruct (Z.ltb_spec a 255); [apply unpremul_255; lia|]. replace a with 255 by lia. now rewrite unpremul_opaque.
  - rewrite unpremul_table by (unfold byte; lia). apply table_value_Z; lia.
Qed.

Lemma unpremul_px_spec r g b a : byte r -> byte g -> byte b -> byte a -> unpremul_px_u8 r g b a = unassociate8 r g b a.
Proof. intros. unfold unpremul_px_u8, unassociate8. now rewrite !unpremul_ch_spec. Qed.

Lemma pixelwise_ext (px px' : Z -> Z -> Z -> Z -> list Z) (im out : image Z) :
  (forall x y c v, (x < width im)%nat -> (y < height im)%nat -> (c < 4)%nat -> sample 4 im x y c = Some v -> byte v) ->
  (forall r g b a, byte r -> byte g -> byte b -> byte a -> px r g b a = px' r g b a) ->
  pixelwise px im out -> pixelwise px' im out.
Proof.
  intros B E (W & H & P). split; [exact W|]. split; [exact H|]. intros x y r g b a Hx Hy Q.
  destruct (P x y r g b a Hx Hy Q) as (r' & g' & b' & a' & Ep & Q'). exists r', g', b', a'. split; [|exact Q'].
  rewrite <- Ep. symmetry. destruct Q as (Q0 & Q1 & Q2 & Q3).
  apply E; [apply (B x y 0%nat)|apply (B x y 1%nat)|apply (B x y 2%nat)|apply (B x y 3%nat)]; auto; lia.
Qed.

Lemma samples_bytes (im : image Z) x y c v : samples_in 255 (buf im) -> sample 4 im x y c = Some v -> byte v.
Proof. intros S H. apply nth_error_In in H. unfold samples_in in S. rewrite Forall_forall in S. now apply S. Qed.

Theorem rgba_pipeline L f pool (store into : image Z) :
  valid_call 4 false f store into -> changes_size store into -> f <> Nearest -> pool_ok pool -> samples_in 255 (buf store) ->
  exists src mid out,
    (alpha_varies store -> pixelwise associate8 store src) /\ (~ alpha_varies store -> src = store) /\
    valid_call 4 false f src into /\
    resize_u8 L f 4 pool src into = Returned Ok mid /\ only_pixels_differ 4 into mid /\
    resize_rgba_u8 L f pool true store into = Returned Ok out /\
    pixelwise unassociate8 mid out /\ only_pixels_differ 4 into out.
Proof.
  intros V D Hf P S. destruct (rgba_pipeline_u8 L f pool store into V D Hf P S)
    as (src & mid & out & A1 & A2 & A3 & A3a & A3b & A4 & A5 & A6 & A7 & A8).
  exists src, mid, out. split; [|split; [exact A2|split; [exact A3|split; [exact A4|split; [exact A5|split; [exact A6|split; [|exact A8]]]]]]].
  - intro Va. apply (pixelwise_ext premul_px_u8); auto using premul_px_spec.
    intros x y c v _ _ _ H. eapply samples_bytes; eauto.
  - apply (pixelwise_ext unpremul_px_u8); auto using unpremul_px_spec.
    intros x y c v Hx Hy Hc H. unfold resize_u8 in A4. rewrite (opd_width _ _ _ A5) in Hx. rewrite (opd_height _ _ _ A5) in Hy.
    destruct (call_range L f 4 255 false no_premul no_unpremul no_alpha ltac:(lia) Hf pool src into mid x y c A3 P) as (w & Hw & Hr); auto.
    { unfold changes_size in *. rewrite A3a, A3b. exact D. }
    rewrite Hw in H. inversion H; subst. exact Hr.
Qed.

(** ** Opaque images *)
Lemma unassociate_254 c : 0 <= c <= 254 -> c <= unassociate_channel8 254 c <= c + 1.
Proof.
  intro H. unfold unassociate_channel8. cbn [Z.eqb]. replace (c =? 255) with false by lia. cbn [andb].
  change (254 / 2) with 127. assert (E : c <= (c * 255 + 127) / 254 <= c + 1) by lia.
  rewrite Z.mod_small by lia. exact E.
Qed.

Lemma unassociate_255 c : byte c -> unassociate_channel8 255 c = c.
Proof. intro H. rewrite <- unpremul_ch_spec by (unfold byte; auto; lia). now apply unpremul_opaque. Qed.

Theorem opaque_call L f pool (store into : image Z) t :
  averaging f = true -> valid_call 4 false f store into -> changes_size store into -> f <> Nearest -> pool_ok pool ->
  samples_in 255 (buf store) -> 1 <= t <= 61 -> downscale_at_most t store into ->
  (forall x y, (x < width store)%nat -> (y < height store)%nat -> alpha_at store x y = Some 255) ->
  exists plain out, resize_rgba_u8 L f pool false store into = Returned Ok plain /\
    resize_rgba_u8 L f pool true store into = Returned Ok out /\ only_pixels_differ 4 plain out /\
    forall x y, (x < width into)%nat -> (y < height into)%nat ->
      alpha_at out x y = alpha_at plain x y /\
      forall c u v, (c < 4)%nat -> sample 4 plain x y c = Some u -> sample 4 out x y c = Some v ->
        u <= v <= u + 1 /\ (height store = height into -> v = u).
Proof.
  intros Av V D Hf P S T Dn Al.
  destruct (rgba_pipeline L f pool store into V D Hf P S) as (src & mid & out & A1 & A2 & A3 & A4 & A5 & A6 & A7 & A8).
  assert (E : src = store).
  { apply A2. intros (x & y & x' & y' & Hx & Hy & Hx' & Hy' & Df). apply Df. rewrite !Al; auto. }
  subst src. exists mid, out. split. { unfold resize_rgba_u8. rewrite with_alpha_off. exact A4. }
  split; [exact A6|]. split.
  { destruct A5 as [B1 B2 B3 B4 B5 B6 B7], A8 as [C1 C2 C3 C4 C5 C6 C7]. constructor; try congruence.
    intros i Hi. rewrite B1, B3 in Hi. rewrite C7, B7 by exact Hi. reflexivity. }
  intros x y Hx Hy. destruct (valid_good V) as [_ Gi]. pose proof (good_opd _ _ _ Gi A5) as Gm.
  destruct (pixel_exists mid x y Gm) as (r & g & b & a & Q); [rewrite (opd_width _ _ _ A5); auto|rewrite (opd_height _ _ _ A5); auto|].
  destruct A7 as (_ & _ & A7). destruct (A7 x y r g b a) as (r' & g' & b' & a' & Ep & Q'); auto;
    [rewrite (opd_width _ _ _ A5); auto|rewrite (opd_height _ _ _ A5); auto|].
  unfold unassociate8 in Ep. inversion Ep as [[E1 E2 E3 E4]]. subst a'.
  destruct Q as (Q0 & Q1 & Q2 & Q3), Q' as (Q0' & Q1' & Q2' & Q3').
  split; [unfold alpha_at; congruence|].
  (* alpha after resampling *)
  destruct (call_const L f 4 255 false no_premul no_unpremul no_alpha pool store into mid t 3 255 ltac:(lia) Av Hf V P D S A4
    ltac:(lia) Dn ltac:(lia) ltac:(lia) Al x y Hx Hy) as (a0 & R & Ra & Rh).
  rewrite Q3 in R. inversion R; subst a0.
  assert (Le : forall c u, (c < 4)%nat -> sample 4 mid x y c = Some u -> byte u /\ u <= a).
  { intros c u Hc Hu. split.
    - destruct (call_range L f 4 255 false no_premul no_unpremul no_alpha ltac:(lia) Hf pool store into mid x y c V P D A4 Hx Hy Hc) as (w & Hw & Hr).
      rewrite Hw in Hu. inversion Hu; subst. exact Hr.
    - refine (call_channels_mono L f 4 255 false no_premul no_unpremul no_alpha pool store into mid ltac:(lia) Av Hf V P D S A4 c 3 Hc ltac:(lia) _ x y u a Hx Hy Hu Q3).
      intros sx sy p q Hsx Hsy Hp Hq. pose proof (Al sx sy Hsx Hsy) as K. unfold alpha_at in K. rewrite K in Hq. inversion Hq; subst.
      pose proof (samples_bytes _ _ _ _ _ S Hp) as B. unfold byte in B. lia. }
  assert (K : forall u, byte u -> u <= a -> u <= unassociate_channel8 a u <= u + 1 /\ (height store = height into -> unassociate_channel8 a u = u)).
  { intros u Bu Lu. unfold byte in Bu. destruct (Z.eq_dec a 255) as [->|Na].
    - rewrite unassociate_255 by exact Bu. lia.
    - assert (a = 254) as -> by lia. split; [apply unassociate_254; lia|]. intro Hh. specialize (Rh Hh). lia. }
  intros c u v Hc Hu Hv.
  destruct (Le c u Hc Hu) as [Bu Lu].
  destruct c as [|[|[|[|]]]]; try lia.
  - rewrite Q0 in Hu. rewrite Q0' in Hv. inversion Hu; inversion Hv; subst. now apply K.
  - rewrite Q1 in Hu. rewrite Q1' in Hv. inversion Hu; inversion Hv; subst. now apply K.
  - rewrite Q2 in Hu. rewrite Q2' in Hv. inversion Hu; inversion Hv; subst. now apply K.
  - rewrite Q3 in Hu. rewrite Q3' in Hv. inversion Hu; inversion Hv; subst. lia.
Qed.

(** ** Images whose alpha does not vary: the alpha channel *)
Theorem constant_alpha_channel L f pool (store into : image Z) :
  valid_call 4 false f store into -> changes_size store into -> f <> Nearest -> pool_ok pool -> samples_in 255 (buf store) ->
  ~ alpha_varies store ->
  exists plain out, resize_rgba_u8 L f pool false store into = Returned Ok plain /\
    resize_rgba_u8 L f pool true store into = Returned Ok out /\
    forall x y, (x < width into)%nat -> (y < height into)%nat -> alpha_at out x y = alpha_at plain x y.
Proof.
  intros V D Hf P S NV.
  destruct (rgba_pipeline L f pool store into V D Hf P S) as (src & mid & out & A1 & A2 & A3 & A4 & A5 & A6 & A7 & A8).
  rewrite (A2 NV) in A4. exists mid, out. split. { unfold resize_rgba_u8. rewrite with_alpha_off. exact A4. }
  split; [exact A6|]. intros x y Hx Hy. destruct (valid_good V) as [_ Gi]. pose proof (good_opd _ _ _ Gi A5) as Gm.
  destruct (pixel_exists mid x y Gm) as (r & g & b & a & Q); [rewrite (opd_width _ _ _ A5); auto|rewrite (opd_height _ _ _ A5); auto|].
  destruct A7 as (_ & _ & A7). destruct (A7 x y r g b a) as (r' & g' & b' & a' & Ep & Q'); auto;
    [rewrite (opd_width _ _ _ A5); auto|rewrite (opd_height _ _ _ A5); auto|].
  unfold unassociate8 in Ep. inversion Ep. destruct Q as (_ & _ & _ & Q), Q' as (_ & _ & _ & Q'). unfold alpha_at. congruence.
Qed.

(** ** Concrete calls (the table is too large to evaluate) *)
Lemma unpremul_image pool (im : image Z) : pool_ok pool -> good 4 im -> samples_in 255 (buf im) ->
  exists out, unpremul_u8 pool im = Done out /\ pixelwise unassociate8 im out.
Proof.
  intros HP G S. destruct (unpremul_u8_ok pool HP im G) as (out & R & Rp). exists out. split; [exact R|].
  apply (pixelwise_ext unpremul_px_u8).
  - intros x y c v _ _ _ H. eapply samples_bytes; eauto.
  - exact unpremul_px_spec.
  - apply (repainted_pixelwise _ im im out); auto using four_un_u8.
Qed.

Lemma rgba_concrete L f pool (store into src mid : image Z) :
  checks 4 false store into = Done tt -> checks 4 false src into = Done tt -> f <> Nearest ->
  (width store <> width into \/ height store <> height into)%nat -> width src = width store -> height src = height store ->
  premultiply_stage 4 (scaler_engine L f 4 255 false premul_u8 no_unpremul alpha_needed_u8) pool true store into = Done (src, true) ->
  resize_u8 L f 4 pool src into = Returned Ok mid -> pool_ok pool -> good 4 mid -> samples_in 255 (buf mid) ->
  exists out, resize_rgba_u8 L f pool true store into = Returned Ok out /\ pixelwise unassociate8 mid out.
Proof.
  intros C1 C2 Hf D W H P R HP G S. destruct (unpremul_image pool mid HP G S) as (out & Ru & Pw). exists out. split; [|exact Pw].
  unfold resize_rgba_u8. rewrite (with_alpha_on 4 (rgba_engine_u8 L f) pool store into src); auto.
  - change (generic_resize 4 (rgba_engine_u8 L f) pool src into) with (resize_u8 L f 4 pool src into).
    rewrite R. cbn [rgba_engine_u8 scaler_engine portable fixed_engine unpremul]. rewrite Ru. reflexivity.
  - destruct f; try reflexivity; congruence.
Qed.
