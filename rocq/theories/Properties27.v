(** C92 and C93, continued: alpha-aware calls on x86-64 treat rows independently. *)
From Coq Require Import ZArith List Lia Bool ZifyBool ZifyNat.
From Verif Require Import Base BaseProofs ImageStore FixedPoint Dispatch Resize Spec SpecApi SpecAlpha F32 FloatConv Weights Sampler Api
  KernelProofs DispatchProofs ResizeProofs NoFail ImageProofs PoolProofs PortableProofs Center Alpha AlphaProofs ApiProofs DriverProofs FloatApiProofs RgbaProofs Witness AlphaLocal
  X86Dispatch SpecX86 SpecX86Alpha X86Pixels X86DispatchProofs X86Calls X86Facts X86Alpha X86AlphaCalls X86U8Local
  X86Float X86U16 SpecX86U16 X86U16Calls X86U16Facts X86U16Local AlphaU16 X86AlphaU16 SpecX86AlphaU16 X86AlphaU16Calls
  Properties9 Properties15 Properties16 Properties23 Properties24 Properties25 Properties26.
Import ListNotations.
Local Open Scope nat_scope.

Lemma tame_row {T} f (store into : image T) y : tame f store into -> tame f (row_image store y) (row_image into y).
Proof. intros [Ht|[Ht1 Ht2]]; [now left|right]. split; cbn [row_image width height]; [exact Ht1|lia]. Qed.

(** The conditions of the 8-bit theorems of C92: bounded sums, and a call that does not execute AVX2 code on a processor without it. *)
Theorem C92_rows_are_independent_rgba_u8_x86_partial : forall c s rcp L f pool pool' (store into out out' : image Z) y,
  f <> Nearest -> valid_call 4 false f store into -> pool_ok pool -> pool_ok pool' -> samples_in 255 (buf store) ->
  tame f store into -> traps c s 4 (width store) (width into) = false ->
  height store = height into -> width store <> width into -> y < height into ->
  (alpha_varies store <-> alpha_varies (row_image store y)) ->
  resize_rgba_u8_x86 c s rcp L f pool true store into = Returned Ok out ->
  resize_rgba_u8_x86 c s rcp L f pool' true (row_image store y) (row_image into y) = Returned Ok out' ->
  forall x ch, x < width into -> ch < 4 -> sample 4 out x y ch = sample 4 out' x 0 ch.
Proof.
  intros c s rcp L f pool pool' store into out out' y Hf V P P' SS Ht Tr Hh Hw Hy I R R'.
  pose proof (row_call_valid 4 false f store into y V Hh Hy) as V'. pose proof (tame_row f store into y Ht) as Ht'.
  destruct (rgba_pipeline_x86 c s rcp L f pool store into V (or_introl Hw) Hf P SS Ht Tr) as (src & mid & o & A1 & A2 & VS & SV & Ws & Hs & Rm & Om & Ro & Un & _).
  destruct (rgba_pipeline_x86 c s rcp L f pool' (row_image store y) (row_image into y) V' (or_introl Hw) Hf P' (row_samples 255 store y SS) Ht' Tr)
    as (srow & mrow & o' & B1 & B2 & VSr & SVr & Wr & Hr & Rr & Or & Ror & Ur & _).
  rewrite R in Ro. rewrite R' in Ror. inversion Ro; inversion Ror; subst o o'. clear Ro Ror.
  pose proof (same_stage _ _ _ _ _ I A1 A2 B1 B2) as Stg.
  assert (Hts : tame f src into) by (unfold tame, downscale_at_most in *; now rewrite Ws, Hs).
  assert (D : width (row_image src y) <> width (row_image into y)) by (cbn [row_image width]; congruence).
  refine (alpha_rows false L f (resize_u8_x86 c s L f 4) _ _ pool pool' store into src mid out srow mrow out' y V Hh Hw Hy _ _ _ VS Ws Hs (good_opd _ _ _ (proj2 (valid_good V)) Om) (eq_sym (opd_width _ _ _ Om)) (eq_sym (opd_height _ _ _ Om)) (eq_sym (opd_width _ _ _ Or)) (eq_sym (opd_height _ _ _ Or)) Stg Un Ur).
  - intro VR. destruct (C52_x86_result_partial c s L f 4 pool' (row_image src y) (row_image into y) VR P' Hf (or_introl D) (row_samples 255 src y SV) (tame_row f src into y Hts)) as (m & Rx & _).
    + cbn [row_image width]. now rewrite Ws.
    + now exists m.
  - intros m VR Rx x i Hx Hi. refine (C92_rows_are_independent_u8_x86_partial c s L f 4 pool pool' src into mid m y Hf VS P P' SV Hts _ _ Hy Rm Rx x i Hx Hi); congruence.
  - intros m VR Rx Same x i Hx Hi. rewrite <- Ws in Same.
    assert (H43 : 4 <> 3 \/ avx2 c = false) by (left; discriminate).
    refine (x86_local c s L f 4 Hf pool' pool' (row_image src y) srow (row_image into y) (row_image into y) m mrow x 0 i H43 VR VSr P' P'
      (row_samples 255 src y SV) SVr (tame_row f src into y Hts) _ _ eq_refl eq_refl (or_introl D) Rx Rr Hx Nat.lt_0_1 Hi (row_window false L f src into srow y x i VR Hx Same Hi));
      cbn [row_image width height] in *; congruence.
Qed.
Print Assumptions C92_rows_are_independent_rgba_u8_x86_partial.

Lemma fit_row {T} f M (store into : image T) y : sums_fit f M store into -> sums_fit f M (row_image store y) (row_image into y).
Proof.
  intros [F|(t & T1 & T2 & [T3 T4])]; [now left|right]. exists t. split; [exact T1|]. split; [exact T2|]. split; cbn [row_image width height]; [exact T3|lia].
Qed.
(** 16-bit images, up to 12 bits. *)
Theorem C93_rows_are_independent_rgba_low_u16_x86_partial : forall k c rcp L f pool pool' (store into out out' : image Z) y,
  f <> Nearest -> valid_call 4 true f store into -> pool_ok pool -> pool_ok pool' -> samples_in (max_colors (bit_depth into)) (buf store) ->
  vectors c = true -> bit_depth into <= 12 -> bit_depth into = 10 \/ bit_depth into = 12 \/ fused c = false -> (Z.of_nat (width store) <= 32768)%Z ->
  sums_fit f (max_colors (bit_depth into)) store into ->
  height store = height into -> width store <> width into -> y < height into ->
  (alpha_varies store <-> alpha_varies (row_image store y)) ->
  resize_rgba_u16_x86 k c rcp L f pool true store into = Returned Ok out ->
  resize_rgba_u16_x86 k c rcp L f pool' true (row_image store y) (row_image into y) = Returned Ok out' ->
  forall x ch, x < width into -> ch < 4 -> sample 4 out x y ch = sample 4 out' x 0 ch.
Proof.
  intros k c rcp L f pool pool' store into out out' y Hf V P P' SS Vc Hb Hd Hwd F Hh Hw Hy I R R'.
  pose proof (row_call_valid 4 true f store into y V Hh Hy) as V'.
  destruct (low_pipeline k c rcp L f pool store into V (or_introl Hw) Hf P Vc Hwd Hb Hd SS) as (src & mid & o & A1 & A2 & VS & Ws & Hs & SV & Rm & Om & Ro & Un & _).
  destruct (low_pipeline k c rcp L f pool' (row_image store y) (row_image into y) V' (or_introl Hw) Hf P' Vc Hwd Hb Hd (row_samples _ store y SS))
    as (srow & mrow & o' & B1 & B2 & VSr & Wr & Hr & SVr & Rr & Or & Ror & Ur & _).
  rewrite R in Ro. rewrite R' in Ror. inversion Ro; inversion Ror; subst o o'. clear Ro Ror.
  pose proof (same_stage _ _ _ _ _ I A1 A2 B1 B2) as Stg.
  assert (Fs : sums_fit f (max_colors (bit_depth into)) src into) by (unfold sums_fit, downscale_at_most in *; now rewrite Ws, Hs).
  assert (D : width (row_image src y) <> width (row_image into y)) by (cbn [row_image width]; congruence).
  refine (alpha_rows true L f (resize_u16_x86 k c L f 4) _ _ pool pool' store into src mid out srow mrow out' y V Hh Hw Hy _ _ _ VS Ws Hs (good_opd _ _ _ (proj2 (valid_good V)) Om) (eq_sym (opd_width _ _ _ Om)) (eq_sym (opd_height _ _ _ Om)) (eq_sym (opd_width _ _ _ Or)) (eq_sym (opd_height _ _ _ Or)) Stg Un Ur).
  - intro VR. now apply C74_valid_calls_succeed_x86_u16.
  - intros m VR Rx x i Hx Hi. refine (C93_rows_are_independent_low_u16_x86_partial k c L f 4 pool pool' src into mid m y Hf Hb VS P P' SV Fs _ _ Hy Rm Rx x i Hx Hi); congruence.
  - intros m VR Rx Same x i Hx Hi. rewrite <- Ws in Same.
    refine (C93_locality_low_u16_x86_partial k c L f 4 pool' pool' (row_image src y) srow (row_image into y) (row_image into y) m mrow x 0 i Hf Hb VR VSr P' P'
      (row_samples _ src y SV) SVr (fit_row f _ src into y Fs) _ _ _ eq_refl eq_refl eq_refl (or_introl D) Rx Rr Hx Nat.lt_0_1 Hi (row_window true L f src into srow y x i VR Hx Same Hi));
      cbn [row_image width height] in *; try congruence. now left.
Qed.
Print Assumptions C93_rows_are_independent_rgba_low_u16_x86_partial.
(** More than 12 bits: the rows after the last whole group of four (C73). *)
Theorem C93_rows_are_independent_rgba_deep_u16_x86_partial : forall k c rcp L f pool pool' (store into out out' : image Z) y,
  f <> Nearest -> valid_call 4 true f store into -> pool_ok pool -> pool_ok pool' -> samples_in 65535 (buf store) ->
  vectors c = true -> 12 < bit_depth into -> (Z.of_nat (width store) <= 32768)%Z -> sse41 (base_cpu c) = false \/ 4 * (height into / 4) <= y ->
  height store = height into -> width store <> width into -> y < height into ->
  (alpha_varies store <-> alpha_varies (row_image store y)) ->
  resize_rgba_u16_x86 k c rcp L f pool true store into = Returned Ok out ->
  resize_rgba_u16_x86 k c rcp L f pool' true (row_image store y) (row_image into y) = Returned Ok out' ->
  forall x ch, x < width into -> ch < 4 -> sample 4 out x y ch = sample 4 out' x 0 ch.
Proof.
  intros k c rcp L f pool pool' store into out out' y Hf V P P' SS Vc Hb Hwd HN Hh Hw Hy I R R'.
  pose proof (row_call_valid 4 true f store into y V Hh Hy) as V'.
  destruct (C77_pipeline_rgba_x86_u16 k c rcp L f pool store into V (or_introl Hw) Hf P SS Vc Hwd) as (src & mid & o & A1 & A2 & VS & Ws & Hs & Rm & Om & Ro & Un & _).
  destruct (C77_pipeline_rgba_x86_u16 k c rcp L f pool' (row_image store y) (row_image into y) V' (or_introl Hw) Hf P' (row_samples _ store y SS) Vc Hwd)
    as (srow & mrow & o' & B1 & B2 & VSr & Wr & Hr & Rr & Or & Ror & Ur & _).
  rewrite R in Ro. rewrite R' in Ror. inversion Ro; inversion Ror; subst o o'. clear Ro Ror.
  pose proof (same_stage _ _ _ _ _ I A1 A2 B1 B2) as Stg.
  assert (D : width (row_image src y) <> width (row_image into y)) by (cbn [row_image width]; congruence).
  refine (alpha_rows true L f (resize_u16_x86 k c L f 4) _ _ pool pool' store into src mid out srow mrow out' y V Hh Hw Hy _ _ _ VS Ws Hs (good_opd _ _ _ (proj2 (valid_good V)) Om) (eq_sym (opd_width _ _ _ Om)) (eq_sym (opd_height _ _ _ Om)) (eq_sym (opd_width _ _ _ Or)) (eq_sym (opd_height _ _ _ Or)) Stg Un Ur).
  - intro VR. now apply C74_valid_calls_succeed_x86_u16.
  - intros m VR Rx x i Hx Hi. refine (C93_rows_are_independent_deep_u16_x86_partial k c L f 4 pool pool' src into mid m y Hf Hb VS P P' (or_intror HN) _ _ Hy Rm Rx x i Hx Hi); congruence.
  - intros m VR Rx Same x i Hx Hi. rewrite <- Ws in Same.
    refine (C93_locality_deep_u16_x86_partial k c L f 4 pool' pool' (row_image src y) srow (row_image into y) (row_image into y) m mrow x 0 i Hf Hb VR VSr P' P'
      _ _ _ eq_refl eq_refl eq_refl (or_introl D) Rx Rr Hx Nat.lt_0_1 Hi (row_window true L f src into srow y x i VR Hx Same Hi));
      cbn [row_image width height] in *; try congruence. now left.
Qed.
Print Assumptions C93_rows_are_independent_rgba_deep_u16_x86_partial.
Example C92_C93_rows_nonvacuous :
  (let store := mkImage [9; 9; 9; 3; 9; 9; 9; 9; 9; 9; 9; 255; 9; 9; 9; 9]%Z 4 2 2 8 10 in let into := mkImage (repeat 0%Z 24) 4 3 2 12 10 in
   valid_call 4 false Bilinear store into /\ valid_call 4 true Bilinear store into /\ samples_in 255 (buf store) /\ tame Bilinear store into /\
   traps modern PreferSpeed 4 (width store) (width into) = false /\ sums_fit Bilinear (max_colors 10) store into /\ vectors sse_only = true /\
   height store = height into /\ width store <> width into /\ 4 * (height into / 4) <= 1 /\ alpha_varies store /\ alpha_varies (row_image store 1)).
Proof.
  cbv zeta. split; [valid_tac|]. split; [valid_tac|]. split; [repeat constructor; lia|]. split; [left; reflexivity|]. split; [reflexivity|].
  split; [left; reflexivity|]. split; [reflexivity|]. split; [reflexivity|]. split; [discriminate|]. split; [cbn; lia|].
  split; [exists 0, 0, 1, 0|exists 0, 0, 1, 0]; repeat split; try (cbn; lia); discriminate.
Qed.
