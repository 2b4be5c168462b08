(** C93: 16-bit images on x86-64: locality and independence of rows. *)
From Coq Require Import ZArith List Lia Bool ZifyBool ZifyNat.
From Verif Require Import Base BaseProofs ImageStore FixedPoint Dispatch Resize Spec SpecApi SpecFloat F32 FloatConv Weights Sampler Api
  KernelProofs DispatchProofs ResizeProofs NoFail ImageProofs PoolProofs PortableProofs Center Alpha ApiFloat ApiProofs DriverProofs FloatApiProofs Witness
  X86Dispatch X86Alpha X86Float X86U16 SpecX86U16 X86U16Calls X86U16Facts X86U8Local X86U16Local AlphaLocal SpecAlpha AlphaProofs AlphaU16 X86AlphaU16 SpecX86AlphaU16 X86AlphaU16Proofs X86AlphaU16Scan X86AlphaU16Calls X86AlphaU16Facts RgbaProofs FloatConvProofs Properties4 Properties15 Properties16 Properties23.
Import ListNotations.
Local Open Scope nat_scope.

(** Up to 12 bits. [reads_in_place]: the columns pass reads every column from its own position. *)
Theorem C93_locality_low_u16_x86_partial : forall k c L f N pool pool' (store store' into into' out out' : image Z) x y ch,
  f <> Nearest -> bit_depth into <= 12 ->
  valid_call N true f store into -> valid_call N true f store' into' -> pool_ok pool -> pool_ok pool' ->
  samples_in (max_colors (bit_depth into)) (buf store) -> samples_in (max_colors (bit_depth into)) (buf store') ->
  sums_fit f (max_colors (bit_depth into)) store into ->
  height store = height into \/ reads_in_place (vparts c) (width store * N) \/ vectors c = false ->
  width store = width store' -> height store = height store' -> width into = width into' -> height into = height into' ->
  bit_depth into = bit_depth into' -> changes_size store into ->
  resize_u16_x86 k c L f N pool store into = Returned Ok out -> resize_u16_x86 k c L f N pool' store' into' = Returned Ok out' ->
  x < width into -> y < height into -> ch < N ->
  (forall sx sy, in_window (resampling_filter L f) store into x y sx sy -> sample N store sx sy ch = sample N store' sx sy ch) ->
  sample N out x y ch = sample N out' x y ch.
Proof. intros. eapply (u16_local_low k c L f N H pool pool' store store' into into'); eauto. Qed.
Print Assumptions C93_locality_low_u16_x86_partial.

(** More than 12 bits; the leftover rows of RGBA images (C73) included. *)
Theorem C93_locality_deep_u16_x86_partial : forall k c L f N pool pool' (store store' into into' out out' : image Z) x y ch,
  f <> Nearest -> 12 < bit_depth into ->
  valid_call N true f store into -> valid_call N true f store' into' -> pool_ok pool -> pool_ok pool' ->
  height store = height into \/ reads_in_place sse_parts (width store * N) \/ sse41 (base_cpu c) = false ->
  width store = width store' -> height store = height store' -> width into = width into' -> height into = height into' ->
  bit_depth into = bit_depth into' -> changes_size store into ->
  resize_u16_x86 k c L f N pool store into = Returned Ok out -> resize_u16_x86 k c L f N pool' store' into' = Returned Ok out' ->
  x < width into -> y < height into -> ch < N ->
  (forall sx sy, in_window (resampling_filter L f) store into x y sx sy -> sample N store sx sy ch = sample N store' sx sy ch) ->
  sample N out x y ch = sample N out' x y ch.
Proof. intros. eapply (u16_local_deep k c L f N H pool pool' store store' into into'); eauto. Qed.
Print Assumptions C93_locality_deep_u16_x86_partial.

(** Without [reads_in_place] the claim fails: column 4 of a grey image of width 5 shows column 0. *)
Theorem C93_columns_are_not_local_refuted : exists store store' into : image Z,
  valid_call 1 true Bilinear store into /\ valid_call 1 true Bilinear store' into /\ changes_size store into /\
  samples_in (max_colors 10) (buf store) /\ samples_in (max_colors 10) (buf store') /\
  (forall L sx sy, in_window (resampling_filter L Bilinear) store into 4 0 sx sy -> sample 1 store sx sy 0 = sample 1 store' sx sy 0) /\
  forall k L, value_at 1 (resize_u16_x86 k sse_only L Bilinear 1 None store into) 4 0 0 <>
              value_at 1 (resize_u16_x86 k sse_only L Bilinear 1 None store' into) 4 0 0.
Proof.
  set (store := mkImage [1; 2; 3; 4; 5]%Z 1 5 1 5 10). set (store' := mkImage [999; 2; 3; 4; 5]%Z 1 5 1 5 10).
  set (into := mkImage (repeat 0%Z 10) 1 5 2 5 10). exists store, store', into.
  assert (V : valid_call 1 true Bilinear store into) by (unfold store, into; deep_tac).
  assert (V' : valid_call 1 true Bilinear store' into) by (unfold store', into; deep_tac).
  split; [exact V|]. split; [exact V'|]. split; [right; cbn; lia|].
  split. { cbn [buf store]. change (max_colors 10) with 1023%Z. repeat (constructor; [lia|]). constructor. }
  split. { cbn [buf store']. change (max_colors 10) with 1023%Z. repeat (constructor; [lia|]). constructor. }
  split.
  { intros L sx sy Hin. destruct (in_window_bounds L 1 true Bilinear store into 4 0 sx sy V ltac:(cbn; lia) ltac:(cbn; lia) Hin) as [_ By].
    destruct Hin as [_ Q]. cbn in Q, By. subst sx. replace sy with 0 by lia. reflexivity. }
  intros k L. vm_compute. discriminate.
Qed.
Print Assumptions C93_columns_are_not_local_refuted.

(** Up to 12 bits rows are resized independently. *)
Theorem C93_rows_are_independent_low_u16_x86_partial : forall k c L f N pool pool' (store into out out' : image Z) y,
  f <> Nearest -> bit_depth into <= 12 -> valid_call N true f store into -> pool_ok pool -> pool_ok pool' ->
  samples_in (max_colors (bit_depth into)) (buf store) -> sums_fit f (max_colors (bit_depth into)) store into ->
  height store = height into -> width store <> width into -> y < height into ->
  resize_u16_x86 k c L f N pool store into = Returned Ok out ->
  resize_u16_x86 k c L f N pool' (row_image store y) (row_image into y) = Returned Ok out' ->
  forall x ch, x < width into -> ch < N -> sample N out x y ch = sample N out' x 0 ch.
Proof.
  intros k c L f N pool pool' store into out out' y Hf Hb V P P' S F Hh Hw Hy R R'.
  pose proof (row_call_valid N true f store into y V Hh Hy) as V'.
  rewrite (C73_rows_as_portable_u16_partial k c L f N pool store into Hf Hb V P Hh Hw S F) in R.
  rewrite (C73_rows_as_portable_u16_partial k c L f N pool' (row_image store y) (row_image into y) Hf Hb V' P' eq_refl Hw) in R'.
  - apply (C12_rows_are_independent_u16 k L f N pool pool' store into out out' y); assumption.
  - unfold samples_in in *. cbn [row_image bit_depth]. rewrite Forall_forall in *. intros v Hv. apply S. cbn [row_image buf] in Hv.
    rewrite <- (firstn_skipn (y * stride store) (buf store)). apply in_or_app. right.
    match type of Hv with In _ (firstn ?n ?l) => rewrite <- (firstn_skipn n l) end. apply in_or_app. now left.
  - destruct F as [F|(t & T1 & T2 & [T3 T4])]; [now left|right]. exists t. split; [exact T1|]. split; [exact T2|]. split; cbn [row_image width height]; [exact T3|lia].
Qed.
Print Assumptions C93_rows_are_independent_low_u16_x86_partial.

Example C93_nonvacuous :
  (let store := mkImage (repeat 7 32)%Z 4 4 2 16 10 in let into := mkImage (repeat 0%Z 48) 4 4 3 16 10 in
   valid_call 4 true Bilinear store into /\ changes_size store into /\ reads_in_place (vparts sse_only) (width store * 4) /\
   sums_fit Bilinear (max_colors 10) store into /\ samples_in (max_colors 10) (buf store)) /\
  (let store := mkImage (repeat 7 32)%Z 4 4 2 16 16 in let into := mkImage (repeat 0%Z 40) 4 5 2 20 16 in
   valid_call 4 true Bilinear store into /\ height store = height into /\ width store <> width into).
Proof.
  split.
  - cbv zeta. split; [deep_tac|]. split; [right; cbn; lia|].
    split. { change (vparts sse_only) with sse_parts. apply in_place_sse. cbn. lia. }
    split; [left; reflexivity|]. cbn [buf repeat]. change (max_colors 10) with 1023%Z. repeat (constructor; [lia|]). constructor.
  - cbv zeta. split; [deep_tac|]. cbn. lia.
Qed.

(** With alpha, more than 12 bits; alpha varies in both sources or in neither. *)
Theorem C93_locality_rgba_deep_u16_x86_partial : forall k c rcp L f pool pool' (store store' into into' out out' : image Z) x y ch,
  f <> Nearest -> pool_ok pool -> pool_ok pool' -> samples_in 65535 (buf store) -> samples_in 65535 (buf store') ->
  vectors c = true -> 12 < bit_depth into -> (Z.of_nat (width store) <= 32768)%Z ->
  height store = height into \/ reads_in_place sse_parts (width store * 4) \/ sse41 (base_cpu c) = false ->
  alike true L f store store' into into' x y -> (alpha_varies store <-> alpha_varies store') ->
  resize_rgba_u16_x86 k c rcp L f pool true store into = Returned Ok out ->
  resize_rgba_u16_x86 k c rcp L f pool' true store' into' = Returned Ok out' ->
  ch < 4 -> sample 4 out x y ch = sample 4 out' x y ch.
Proof.
  intros k c rcp L f pool pool' store store' into into' out out' x y ch Hf P P' SS SS' Vc Hb Hw RP A I R R' Hc.
  pose proof (alike_changes _ _ _ _ _ _ _ _ _ A) as Ch'.
  assert (Hw' : (Z.of_nat (width store') <= 32768)%Z) by (destruct A; lia).
  destruct (Properties16.C77_pipeline_rgba_x86_u16 k c rcp L f pool store into (al_v A) (al_ch _ _ _ _ _ _ _ _ _ A) Hf P SS Vc Hw) as (src & mid & o & A1 & A2 & VS & Ws & Hs & Rm & Om & Ro & Un & _).
  destruct (Properties16.C77_pipeline_rgba_x86_u16 k c rcp L f pool' store' into' (al_v' A) Ch' Hf P' SS' Vc Hw') as (src' & mid' & o' & B1 & B2 & VS' & Ws' & Hs' & Rm' & Om' & Ro' & Un' & _).
  rewrite R in Ro. rewrite R' in Ro'. inversion Ro; inversion Ro'; subst o o'. clear Ro Ro'.
  rewrite <- (al_d _ _ _ _ _ _ _ _ _ A) in B1, Un'.
  pose proof (same_stage _ _ _ _ _ I A1 A2 B1 B2) as Stg.
  refine (end_same true L f _ store store' into into' mid mid' out out' x y A Om Om' Un Un' _ ch Hc).
  pose proof (middle_same true L f _ store store' into into' src src' x y A VS Ws Hs Stg) as Md.
  destruct A as [V V' W H IW IH D Ch X Y Win].
  assert (Chs : changes_size src into) by (unfold changes_size in *; now rewrite Ws, Hs).
  intros i Hi. apply (u16_local_deep k c L f 4 Hf pool pool' src src' into into' mid mid' x y i VS VS' P P'); try congruence; try assumption.
  exact (Md i Hi).
Qed.
Print Assumptions C93_locality_rgba_deep_u16_x86_partial.
(** Up to 12 bits, on the processors and depths where a premultiplied sample cannot exceed the maximum (C78). *)
Lemma low_pipeline k c rcp L f pool (store into : image Z) : valid_call 4 true f store into -> changes_size store into -> f <> Nearest -> pool_ok pool ->
  vectors c = true -> (Z.of_nat (width store) <= 32768)%Z -> bit_depth into <= 12 -> bit_depth into = 10 \/ bit_depth into = 12 \/ fused c = false ->
  samples_in (max_colors (bit_depth into)) (buf store) ->
  exists src mid out,
    (alpha_varies store -> pixelwise (colours (associate_x86 c (bit_depth into))) store src) /\ (~ alpha_varies store -> src = store) /\
    valid_call 4 true f src into /\ width src = width store /\ height src = height store /\ samples_in (max_colors (bit_depth into)) (buf src) /\
    resize_u16_x86 k c L f 4 pool src into = Returned Ok mid /\ only_pixels_differ 4 into mid /\
    resize_rgba_u16_x86 k c rcp L f pool true store into = Returned Ok out /\
    pixelwise (colours (unassociate_x86 c rcp (bit_depth into))) mid out /\ only_pixels_differ 4 into out.
Proof.
  intros V D Hf HP Vc Hw Hb Hc S. pose proof (vc_depth _ _ _ _ _ V eq_refl) as D1.
  pose proof (Properties16.max_range (bit_depth into) ltac:(lia)) as HM.
  assert (HS : samples_in 65535 (buf store)) by (apply (Properties16.samples_up (max_colors (bit_depth into))); [exact (proj2 HM)|exact S]).
  destruct (scan_exact c f true store into V HS Hw) as (need & Hn & I). destruct (valid_good V) as [Gs Gi].
  destruct (rgba_pipeline_u16_any k c rcp L f pool store into V D Hf HP HS) as (need' & src & mid & out & A0 & A1 & A2 & A3 & A4 & A5 & A6 & A7 & A8 & A9 & A10).
  rewrite Hn in A0. inversion A0; subst need'. exists src, mid, out.
  assert (Pre : need = true -> pixelwise (colours (associate_x86 c (bit_depth into))) store src).
  { intro Nd. destruct (A1 Nd) as ((Q1 & Q2 & Q3) & _). split; [exact Q1|]. split; [exact Q2|].
    intros x y r g b a Hx Hy Px. destruct (pixel_words _ _ _ _ _ _ _ _ HS Px) as (B0 & B1 & B2 & B3).
    rewrite <- (Properties16.pre16_is c) by assumption. now apply Q3. }
  split. { intro Av. apply Pre. now apply I. }
  split. { intro Av. apply A2. destruct need; [exfalso; now apply Av, I|reflexivity]. }
  rewrite <- (Properties16.un16_is c rcp _ Vc). split; [exact A3|]. split; [exact A4|]. split; [exact A5|].
  split; [|auto]. destruct need; [|now rewrite (A2 eq_refl)]. destruct (A1 eq_refl) as ((Q1 & Q2 & _) & G & S1 & S2). destruct (Pre eq_refl) as (_ & _ & Q3).
  apply (packed_samples (max_colors (bit_depth into)) (width store) (height store)); auto.
  intros x0 y0 r g b a Hx0 Hy0 P. destruct (pixel_exists store x0 y0 Gs Hx0 Hy0) as (r0 & g0 & b0 & a0 & P0).
  destruct (pixel_words _ _ _ _ _ _ _ _ S P0) as (B0 & B1 & B2 & B3).
  destruct (Q3 x0 y0 r0 g0 b0 a0 Hx0 Hy0 P0) as (r' & g' & b' & a' & E & P').
  injection E as <- <- <- <-.
  destruct P as (e0 & e1 & e2 & e3), P' as (u0 & u1 & u2 & u3).
  rewrite e0 in u0. rewrite e1 in u1. rewrite e2 in u2. rewrite e3 in u3. injection u0 as ->. injection u1 as ->. injection u2 as ->. injection u3 as ->.
  pose proof (Properties16.associate_in c (bit_depth into) r0 a0 ltac:(lia) Hc B0 B3). pose proof (Properties16.associate_in c (bit_depth into) g0 a0 ltac:(lia) Hc B1 B3).
  pose proof (Properties16.associate_in c (bit_depth into) b0 a0 ltac:(lia) Hc B2 B3). unfold max_of, max_colors in *. auto.
Qed.
Theorem C93_locality_rgba_low_u16_x86_partial : forall k c rcp L f pool pool' (store store' into into' out out' : image Z) x y ch,
  f <> Nearest -> pool_ok pool -> pool_ok pool' ->
  samples_in (max_colors (bit_depth into)) (buf store) -> samples_in (max_colors (bit_depth into)) (buf store') ->
  vectors c = true -> bit_depth into <= 12 -> bit_depth into = 10 \/ bit_depth into = 12 \/ fused c = false -> (Z.of_nat (width store) <= 32768)%Z ->
  sums_fit f (max_colors (bit_depth into)) store into ->
  height store = height into \/ reads_in_place (vparts c) (width store * 4) ->
  alike true L f store store' into into' x y -> (alpha_varies store <-> alpha_varies store') ->
  resize_rgba_u16_x86 k c rcp L f pool true store into = Returned Ok out ->
  resize_rgba_u16_x86 k c rcp L f pool' true store' into' = Returned Ok out' ->
  ch < 4 -> sample 4 out x y ch = sample 4 out' x y ch.
Proof.
  intros k c rcp L f pool pool' store store' into into' out out' x y ch Hf P P' SS SS' Vc Hb Hd Hw F RP A I R R' Hc.
  pose proof (alike_changes _ _ _ _ _ _ _ _ _ A) as Ch'.
  assert (Hw' : (Z.of_nat (width store') <= 32768)%Z) by (destruct A; lia).
  pose proof (al_d _ _ _ _ _ _ _ _ _ A) as Dd.
  destruct (low_pipeline k c rcp L f pool store into (al_v A) (al_ch _ _ _ _ _ _ _ _ _ A) Hf P Vc Hw Hb Hd SS) as (src & mid & o & A1 & A2 & VS & Ws & Hs & Sm & Rm & Om & Ro & Un & _).
  destruct (low_pipeline k c rcp L f pool' store' into' (al_v' A) Ch' Hf P' Vc Hw') as (src' & mid' & o' & B1 & B2 & VS' & Ws' & Hs' & Sm' & Rm' & Om' & Ro' & Un' & _).
  { now rewrite <- Dd. } { now rewrite <- Dd. } { now rewrite <- Dd. }
  rewrite R in Ro. rewrite R' in Ro'. inversion Ro; inversion Ro'; subst o o'. clear Ro Ro'.
  rewrite <- Dd in B1, Un', Sm'.
  pose proof (same_stage _ _ _ _ _ I A1 A2 B1 B2) as Stg.
  refine (end_same true L f _ store store' into into' mid mid' out out' x y A Om Om' Un Un' _ ch Hc).
  pose proof (middle_same true L f _ store store' into into' src src' x y A VS Ws Hs Stg) as Md.
  destruct A as [V V' W H IW IH D Ch X Y Win].
  assert (Chs : changes_size src into) by (unfold changes_size in *; now rewrite Ws, Hs).
  assert (F' : sums_fit f (max_colors (bit_depth into)) src into) by (unfold sums_fit, downscale_at_most in *; now rewrite Ws, Hs).
  intros i Hi. apply (u16_local_low k c L f 4 Hf pool pool' src src' into into' mid mid' x y i VS VS' P P'); try congruence; try assumption.
  - exact (Md i Hi).
  - rewrite Ws, Hs. tauto.
Qed.
Print Assumptions C93_locality_rgba_low_u16_x86_partial.
Example C93_rgba_nonvacuous : forall L, exists store store' into : image Z,
  alike true L Bilinear store store' into into 0 0 /\ 12 < bit_depth into /\ alpha_varies store /\ alpha_varies store' /\
  samples_in 65535 (buf store) /\ samples_in 65535 (buf store') /\ reads_in_place sse_parts (width store * 4) /\ vectors sse_only = true.
Proof.
  intro L. set (store := mkImage [9; 9; 9; 3; 9; 9; 9; 9]%Z 4 2 1 8 16). set (store' := mkImage [9; 9; 9; 3; 65535; 9; 3; 9]%Z 4 2 1 8 16).
  set (into := mkImage (repeat 0%Z 16) 4 2 2 8 16). exists store, store', into.
  assert (V : valid_call 4 true Bilinear store into) by (unfold store, into; deep_tac).
  assert (V' : valid_call 4 true Bilinear store' into) by (unfold store', into; deep_tac).
  split.
  { constructor; try reflexivity; try (cbn; lia); [exact V|exact V'|right; cbn; lia|].
    intros sx sy i Hin Hi. destruct (in_window_bounds L 4 true Bilinear _ _ 0 0 sx sy V ltac:(cbn; lia) ltac:(cbn; lia) Hin) as [_ By].
    destruct Hin as [_ Q]. cbn in Q, By. replace sy with 0 by lia. subst sx. destruct i as [|[|[|[|i]]]]; try lia; reflexivity. }
  split; [cbn; lia|]. split; [exists 0, 0, 1, 0; repeat split; try (cbn; lia); discriminate|].
  split; [exists 0, 0, 1, 0; repeat split; try (cbn; lia); discriminate|].
  split; [repeat constructor; lia|]. split; [repeat constructor; lia|]. split; [apply in_place_sse; cbn; lia|reflexivity].
Qed.
Example C93_rgba_low_nonvacuous : forall L, exists store store' into : image Z,
  alike true L Bilinear store store' into into 0 0 /\ bit_depth into = 10 /\ alpha_varies store /\ alpha_varies store' /\
  samples_in (max_colors 10) (buf store) /\ samples_in (max_colors 10) (buf store') /\ sums_fit Bilinear (max_colors 10) store into /\
  reads_in_place (vparts sse_only) (width store * 4) /\ vectors sse_only = true.
Proof.
  intro L. set (store := mkImage [9; 9; 9; 3; 9; 9; 9; 9]%Z 4 2 1 8 10). set (store' := mkImage [9; 9; 9; 3; 1023; 9; 3; 9]%Z 4 2 1 8 10).
  set (into := mkImage (repeat 0%Z 16) 4 2 2 8 10). exists store, store', into.
  assert (V : valid_call 4 true Bilinear store into) by (unfold store, into; deep_tac).
  assert (V' : valid_call 4 true Bilinear store' into) by (unfold store', into; deep_tac).
  split.
  { constructor; try reflexivity; try (cbn; lia); [exact V|exact V'|right; cbn; lia|].
    intros sx sy i Hin Hi. destruct (in_window_bounds L 4 true Bilinear _ _ 0 0 sx sy V ltac:(cbn; lia) ltac:(cbn; lia) Hin) as [_ By].
    destruct Hin as [_ Q]. cbn in Q, By. replace sy with 0 by lia. subst sx. destruct i as [|[|[|[|i]]]]; try lia; reflexivity. }
  split; [reflexivity|]. split; [exists 0, 0, 1, 0; repeat split; try (cbn; lia); discriminate|].
  split; [exists 0, 0, 1, 0; repeat split; try (cbn; lia); discriminate|].
  split; [change (max_colors 10) with 1023%Z; repeat constructor; lia|]. split; [change (max_colors 10) with 1023%Z; repeat constructor; lia|].
  split; [left; reflexivity|]. split; [change (vparts sse_only) with sse_parts; apply in_place_sse; cbn; lia|reflexivity].
Qed.

(** Rows above 12 bits, except for the rows of whole groups of four in RGBA images with SSE 4.1 (those are
    computed by another kernel than a row alone is, see C73). *)
Theorem C93_rows_are_independent_deep_u16_x86_partial : forall k c L f N pool pool' (store into out out' : image Z) y,
  f <> Nearest -> 12 < bit_depth into -> valid_call N true f store into -> pool_ok pool -> pool_ok pool' ->
  N <> 4 \/ sse41 (base_cpu c) = false \/ 4 * (height into / 4) <= y ->
  height store = height into -> width store <> width into -> y < height into ->
  resize_u16_x86 k c L f N pool store into = Returned Ok out ->
  resize_u16_x86 k c L f N pool' (row_image store y) (row_image into y) = Returned Ok out' ->
  forall x ch, x < width into -> ch < N -> sample N out x y ch = sample N out' x 0 ch.
Proof.
  intros k c L f N pool pool' store into out out' y Hf Hb V P P' HN Hh Hw Hy R R' x ch Hx Hc.
  pose proof (row_call_valid N true f store into y V Hh Hy) as V'.
  destruct (valid_good V) as [G1 G2]. destruct (valid_good V') as [G1' G2']. pose proof (vc_N _ _ _ _ _ V) as N1.
  assert (D : changes_size store into) by (left; exact Hw).
  assert (D' : changes_size (row_image store y) (row_image into y)) by (left; exact Hw).
  rewrite (u16_deep_call k c L f N pool store into V P Hf D Hb) in R.
  rewrite (u16_deep_call k c L f N pool' (row_image store y) (row_image into y) V' P' Hf D' Hb) in R'.
  inversion R as [E1]. inversion R' as [E1'].
  rewrite !painted_sample by (auto; cbn [row_image width height]; lia). f_equal.
  unfold x86u_deep, u16_two_passes. cbn [row_image width height bit_depth]. rewrite Hh, !Nat.eqb_refl.
  replace (width store =? width into) with false by lia.
  set (HT := filter_taps (resampling_filter L f) (width store) (width into)).
  destruct (filter_windows_in (resampling_filter L f) (width store) (width into) x (sane_wf_h (valid_sane L V)) Hx) as (Q1 & Q2).
  destruct (taps_windows (resampling_filter L f) (width store) (width into) x) as (T1 & T2). fold HT in T1, T2.
  assert (Same : forall j, j < tsize HT x -> shown 0%Z N store y (tstart HT x + j) ch = shown 0%Z N (row_image store y) 0 (tstart HT x + j) ch).
  { intros j Hj. apply picture_same; auto; try (cbn [row_image width height]; lia).
    symmetry. apply (row_image_sample store (tstart HT x + j) y ch G1); lia. }
  unfold x86u_float_h. change (4 * (1 / 4)) with 0. cbn [Nat.leb]. rewrite andb_true_r.
  assert (B : (N =? 4) && sse41 (base_cpu c) && (4 * (height into / 4) <=? y) = (N =? 4) && sse41 (base_cpu c)).
  { destruct HN as [H|[H|H]]; [now replace (N =? 4) with false by lia|rewrite H; now rewrite !andb_false_r|].
    replace (4 * (height into / 4) <=? y) with true by lia. apply andb_true_r. }
  rewrite B. destruct ((N =? 4) && sse41 (base_cpu c)); cbv iota.
  - unfold u16_float_row, ordered_sum. do 2 f_equal. apply ordered_sum_ext. intros j Hj. f_equal. apply Same. apply tap_read_inside.
    assert (I : In j (seq 0 (tsize HT x))) by (eapply Permutation.Permutation_in; [apply tap_order_perm|exact Hj]). apply in_seq in I. lia.
  - unfold float_h. f_equal. apply (FloatConvProofs.weighted_ext f0 fmul (mlaf k) u16_as_f32 (to_mixed_u16 (bit_depth into)) 0%Z). intros j Hj. split; [|reflexivity]. now rewrite Same.
Qed.
Print Assumptions C93_rows_are_independent_deep_u16_x86_partial.
