(** C91, continued: alpha-aware calls treat rows independently. *)
From Coq Require Import ZArith List Lia Bool ZifyBool ZifyNat.
From Verif Require Import Base BaseProofs ImageStore FixedPoint Dispatch Resize Spec SpecApi SpecAlpha F32 FloatConv Weights Sampler Api
  KernelProofs DispatchProofs ResizeProofs NoFail ImageProofs PoolProofs PortableProofs Alpha AlphaProofs AlphaScan AlphaU16 ApiFloat ApiRgba ApiProofs DriverProofs FloatApiProofs RgbaProofs RgbaFloat
  F16 SpecF16 F16Arith F16Proofs F16Calls Witness AlphaLocal Properties2 Properties3 Properties4 Properties17
  X86Dispatch X86Float X86FloatRows X86FloatCalls X86AlphaF32 X86AlphaF32Proofs X86AlphaF32Calls Properties13 AlphaProofs X86U8Local Properties2 Properties4 Properties23.
Import ListNotations.
Local Open Scope nat_scope.

(** A pixel of the output of a pixelwise step depends on the pixel of its input. *)
Lemma pixel_moves {T} (F : T -> T -> T -> T -> list T) (a b a' b' : image T) x y x' y' : good 4 a ->
  pixelwise F a b -> pixelwise F a' b' -> x < width a -> y < height a -> x' < width a' -> y' < height a' ->
  (forall i, i < 4 -> sample 4 a x y i = sample 4 a' x' y' i) -> forall i, i < 4 -> sample 4 b x y i = sample 4 b' x' y' i.
Proof.
  intros G (_ & _ & Q) (_ & _ & Q') Hx Hy Hx' Hy' Same i Hi.
  destruct (pixel_exists a x y G Hx Hy) as (r & g & bl & al & P).
  assert (P' : pixel a' x' y' r g bl al).
  { destruct P as (P0 & P1 & P2 & P3). repeat split; rewrite <- Same by lia; assumption. }
  destruct (Q x y r g bl al Hx Hy P) as (r1 & g1 & b1 & a1 & E & (M0 & M1 & M2 & M3)).
  destruct (Q' x' y' r g bl al Hx' Hy' P') as (r2 & g2 & b2 & a2 & E' & (N0 & N1 & N2 & N3)).
  rewrite E in E'. injection E' as <- <- <- <-.
  destruct i as [|[|[|[|i]]]]; [congruence|congruence|congruence|congruence|lia].
Qed.

Section Rows.
Context {T : Type}.
Variables (nd : bool) (L : libm) (f : resampling_function) (plain : pool_t -> image T -> image T -> callres T).
Variables (pre un : T -> T -> T -> T -> list T) (pool pool' : pool_t) (store into src mid out srow mrow orow : image T) (y : nat).
Hypothesis V : valid_call 4 nd f store into.
Hypothesis Hh : height store = height into.
Hypothesis Hw : width store <> width into.
Hypothesis Hy : y < height into.
(** The plain call: it succeeds, a row of it is the result on the row, and equal pictures give equal pictures. *)
Hypothesis succeeds : valid_call 4 nd f (row_image src y) (row_image into y) -> exists m, plain pool' (row_image src y) (row_image into y) = Returned Ok m.
Hypothesis rows : forall m, valid_call 4 nd f (row_image src y) (row_image into y) -> plain pool' (row_image src y) (row_image into y) = Returned Ok m ->
  forall x i, x < width into -> i < 4 -> sample 4 mid x y i = sample 4 m x 0 i.
Hypothesis pictures : forall m, valid_call 4 nd f (row_image src y) (row_image into y) -> plain pool' (row_image src y) (row_image into y) = Returned Ok m ->
  (forall sx i, sx < width store -> i < 4 -> sample 4 (row_image src y) sx 0 i = sample 4 srow sx 0 i) ->
  forall x i, x < width into -> i < 4 -> sample 4 m x 0 i = sample 4 mrow x 0 i.
Hypothesis VS : valid_call 4 nd f src into.
Hypothesis Ws : width src = width store.
Hypothesis Hs : height src = height store.
Hypothesis Gm : good 4 mid.
Hypothesis M1 : width into = width mid.
Hypothesis M2 : height into = height mid.
Hypothesis M3 : width (row_image into y) = width mrow.
Hypothesis M4 : height (row_image into y) = height mrow.
Hypothesis Stg : (pixelwise pre store src /\ pixelwise pre (row_image store y) srow) \/ (src = store /\ srow = row_image store y).
Theorem alpha_rows_mid : forall x j, x < width into -> j < 4 -> sample 4 mid x y j = sample 4 mrow x 0 j.
Proof using All.
  intros x i Hx Hi. destruct (valid_good V) as [Gs Gi]. destruct (valid_good VS) as [Gr _].
  assert (VR : valid_call 4 nd f (row_image src y) (row_image into y)) by (apply row_call_valid; [exact VS|congruence|exact Hy]).
  assert (Ss : forall sx j, sx < width store -> j < 4 -> sample 4 (row_image src y) sx 0 j = sample 4 srow sx 0 j).
  { intros sx j Hsx Hj. rewrite (row_image_sample src sx y j Gr ltac:(lia) ltac:(lia) Hj).
    destruct Stg as [[S1 S2]|[S1 S2]].
    - refine (pixel_moves pre store src (row_image store y) srow sx y sx 0 Gs S1 S2 Hsx ltac:(lia) _ _ _ j Hj); try (cbn [row_image width height]; lia).
      intros j' Hj'. symmetry. apply (row_image_sample store sx y j' Gs Hsx ltac:(lia) Hj').
    - rewrite S1, S2. symmetry. apply (row_image_sample store sx y j Gs Hsx ltac:(lia) Hj). }
  destruct (succeeds VR) as (m & Rm).
  rewrite (rows m VR Rm x i Hx Hi). exact (pictures m VR Rm Ss x i Hx Hi).
Qed.
Hypothesis Un : pixelwise un mid out.
Hypothesis Unr : pixelwise un mrow orow.
Theorem alpha_rows : forall x i, x < width into -> i < 4 -> sample 4 out x y i = sample 4 orow x 0 i.
Proof using All.
  intros x i Hx Hi. cbn [row_image width height] in M3, M4.
  refine (pixel_moves un mid out mrow orow x y x 0 Gm Un Unr _ _ _ _ _ i Hi); try lia.
  intros j Hj. now apply alpha_rows_mid.
Qed.
End Rows.
Lemma row_samples M (store : image Z) y : samples_in M (buf store) -> samples_in M (buf (row_image store y)).
Proof.
  unfold samples_in. rewrite !Forall_forall. intros S v Hv. apply S. cbn [row_image buf] in Hv.
  rewrite <- (firstn_skipn (y * stride store) (buf store)). apply in_or_app. right.
  match type of Hv with In _ (firstn ?n ?l) => rewrite <- (firstn_skipn n l) end. apply in_or_app. now left.
Qed.
(** What the window of a one-row call can see. *)
Lemma row_window {T} nd L f (src into srow : image T) y x i : valid_call 4 nd f (row_image src y) (row_image into y) -> x < width into ->
  (forall sx j, sx < width src -> j < 4 -> sample 4 (row_image src y) sx 0 j = sample 4 srow sx 0 j) -> i < 4 ->
  forall sx sy, in_window (resampling_filter L f) (row_image src y) (row_image into y) x 0 sx sy -> sample 4 (row_image src y) sx sy i = sample 4 srow sx sy i.
Proof.
  intros V Hx H Hi sx sy W. destruct (in_window_bounds L 4 nd f _ _ x 0 sx sy V Hx Nat.lt_0_1 W) as [B1 B2]. cbn [row_image width height] in B1, B2.
  replace sy with 0 by lia. now apply H.
Qed.

(** Alpha varies in the image and in the row, or in neither. *)
Theorem C91_rows_are_independent_rgba_u8 : forall L f pool pool' (store into out out' : image Z) y,
  f <> Nearest -> valid_call 4 false f store into -> pool_ok pool -> pool_ok pool' -> samples_in 255 (buf store) ->
  height store = height into -> width store <> width into -> y < height into ->
  (alpha_varies store <-> alpha_varies (row_image store y)) ->
  resize_rgba_u8 L f pool true store into = Returned Ok out ->
  resize_rgba_u8 L f pool' true (row_image store y) (row_image into y) = Returned Ok out' ->
  forall x ch, x < width into -> ch < 4 -> sample 4 out x y ch = sample 4 out' x 0 ch.
Proof.
  intros L f pool pool' store into out out' y Hf V P P' SS Hh Hw Hy I R R'.
  pose proof (row_call_valid 4 false f store into y V Hh Hy) as V'.
  destruct (rgba_pipeline_u8 L f pool store into V (or_introl Hw) Hf P SS) as (src & mid & o & A1 & A2 & VS & Ws & Hs & Rm & Om & Ro & Un & _).
  destruct (rgba_pipeline_u8 L f pool' (row_image store y) (row_image into y) V' (or_introl Hw) Hf P' (row_samples 255 store y SS)) as (srow & mrow & o' & B1 & B2 & VSr & Wr & Hr & Rr & Or & Ror & Ur & _).
  rewrite R in Ro. rewrite R' in Ror. inversion Ro; inversion Ror; subst o o'. clear Ro Ror.
  pose proof (same_stage premul_px_u8 _ _ _ _ I A1 A2 B1 B2) as Stg.
  refine (alpha_rows false L f (resize_u8 L f 4) premul_px_u8 unpremul_px_u8 pool pool' store into src mid out srow mrow out' y V Hh Hw Hy _ _ _ VS Ws Hs (good_opd _ _ _ (proj2 (valid_good V)) Om) (eq_sym (opd_width _ _ _ Om)) (eq_sym (opd_height _ _ _ Om)) (eq_sym (opd_width _ _ _ Or)) (eq_sym (opd_height _ _ _ Or)) Stg Un Ur).
  - intro VR. now apply C10_valid_calls_succeed_partial.
  - intros m VR Rx x i Hx Hi. refine (C12_rows_are_independent L f 4 pool pool' src into mid m y Hf VS P P' _ _ Hy Rm Rx x i Hx Hi); congruence.
  - intros m VR Rx Same x i Hx Hi. rewrite <- Ws in Same. unfold resize_u8 in Rx, Rr.
    refine (call_local L f 4 255 false no_premul no_unpremul no_alpha ltac:(lia) Hf pool' pool' (row_image src y) srow (row_image into y) (row_image into y) m mrow x 0 i
      VR VSr P' P' _ _ eq_refl eq_refl _ Rx Rr Hx Nat.lt_0_1 Hi (row_window false L f src into srow y x i VR Hx Same Hi)); cbn [row_image width height] in *; try congruence.
    left. cbn [row_image width]. congruence.
Qed.
Print Assumptions C91_rows_are_independent_rgba_u8.
Theorem C91_rows_are_independent_rgba_u16 : forall k L f pool pool' (store into out out' : image Z) y,
  f <> Nearest -> valid_call 4 true f store into -> pool_ok pool -> pool_ok pool' -> samples_in 65535 (buf store) ->
  height store = height into -> width store <> width into -> y < height into ->
  (alpha_varies store <-> alpha_varies (row_image store y)) ->
  resize_rgba_u16 k L f pool true store into = Returned Ok out ->
  resize_rgba_u16 k L f pool' true (row_image store y) (row_image into y) = Returned Ok out' ->
  forall x ch, x < width into -> ch < 4 -> sample 4 out x y ch = sample 4 out' x 0 ch.
Proof.
  intros k L f pool pool' store into out out' y Hf V P P' SS Hh Hw Hy I R R'.
  pose proof (row_call_valid 4 true f store into y V Hh Hy) as V'.
  destruct (rgba_pipeline_u16 k L f pool store into V (or_introl Hw) Hf P SS) as (src & mid & o & A1 & A2 & VS & Ws & Hs & Rm & Om & Ro & Un & _).
  destruct (rgba_pipeline_u16 k L f pool' (row_image store y) (row_image into y) V' (or_introl Hw) Hf P' (row_samples 65535 store y SS)) as (srow & mrow & o' & B1 & B2 & VSr & Wr & Hr & Rr & Or & Ror & Ur & _).
  rewrite R in Ro. rewrite R' in Ror. inversion Ro; inversion Ror; subst o o'. clear Ro Ror.
  cbn [row_image bit_depth] in B1, Ur.
  pose proof (same_stage _ _ _ _ _ I A1 A2 B1 B2) as Stg.
  refine (alpha_rows true L f (resize_u16 k L f 4) _ _ pool pool' store into src mid out srow mrow out' y V Hh Hw Hy _ _ _ VS Ws Hs (good_opd _ _ _ (proj2 (valid_good V)) Om) (eq_sym (opd_width _ _ _ Om)) (eq_sym (opd_height _ _ _ Om)) (eq_sym (opd_width _ _ _ Or)) (eq_sym (opd_height _ _ _ Or)) Stg Un Ur).
  - intro VR. now apply C10_valid_calls_succeed_u16.
  - intros m VR Rx x i Hx Hi. refine (C12_rows_are_independent_u16 k L f 4 pool pool' src into mid m y Hf VS P P' _ _ Hy Rm Rx x i Hx Hi); congruence.
  - intros m VR Rx Same x i Hx Hi. rewrite <- Ws in Same.
    refine (g_local L f 4 true _ _ _ (engine_u16_conv k L f 4 _ _ _) pool' pool' (row_image src y) srow (row_image into y) (row_image into y) m mrow x 0 i
      Hf VR VSr P' P' _ _ eq_refl eq_refl eq_refl _ Rx Rr Hx Nat.lt_0_1 Hi (row_window true L f src into srow y x i VR Hx Same Hi)); cbn [row_image width height] in *; try congruence.
    left. cbn [row_image width]. congruence.
Qed.
Print Assumptions C91_rows_are_independent_rgba_u16.
Theorem C91_rows_are_independent_rgba_f32 : forall k L f pool pool' (store into out out' : image f32) y,
  f <> Nearest -> valid_call 4 false f store into -> pool_ok pool -> pool_ok pool' ->
  height store = height into -> width store <> width into -> y < height into ->
  (alpha_varies store <-> alpha_varies (row_image store y)) ->
  resize_rgba_f32 k L f pool true store into = Returned Ok out ->
  resize_rgba_f32 k L f pool' true (row_image store y) (row_image into y) = Returned Ok out' ->
  forall x ch, x < width into -> ch < 4 -> sample 4 out x y ch = sample 4 out' x 0 ch.
Proof.
  intros k L f pool pool' store into out out' y Hf V P P' Hh Hw Hy I R R'.
  pose proof (row_call_valid 4 false f store into y V Hh Hy) as V'.
  destruct (rgba_pipeline_f32 k L f pool store into V (or_introl Hw) Hf P) as (src & mid & o & A1 & A2 & VS & Ws & Hs & Rm & Om & Ro & Un & _).
  destruct (rgba_pipeline_f32 k L f pool' (row_image store y) (row_image into y) V' (or_introl Hw) Hf P') as (srow & mrow & o' & B1 & B2 & VSr & Wr & Hr & Rr & Or & Ror & Ur & _).
  rewrite R in Ro. rewrite R' in Ror. inversion Ro; inversion Ror; subst o o'. clear Ro Ror.
  cbn [row_image bit_depth] in B1, Ur.
  pose proof (same_stage _ _ _ _ _ I A1 A2 B1 B2) as Stg.
  refine (alpha_rows false L f (resize_f32 k L f 4) _ _ pool pool' store into src mid out srow mrow out' y V Hh Hw Hy _ _ _ VS Ws Hs (good_opd _ _ _ (proj2 (valid_good V)) Om) (eq_sym (opd_width _ _ _ Om)) (eq_sym (opd_height _ _ _ Om)) (eq_sym (opd_width _ _ _ Or)) (eq_sym (opd_height _ _ _ Or)) Stg Un Ur).
  - intro VR. now apply C10_valid_calls_succeed_f32.
  - intros m VR Rx x i Hx Hi. refine (C12_rows_are_independent_f32 k L f 4 pool pool' src into mid m y Hf VS P P' _ _ Hy Rm Rx x i Hx Hi); congruence.
  - intros m VR Rx Same x i Hx Hi. rewrite <- Ws in Same.
    refine (g_local L f 4 false _ _ _ (engine_f32_conv k L f 4 _ _ _) pool' pool' (row_image src y) srow (row_image into y) (row_image into y) m mrow x 0 i
      Hf VR VSr P' P' _ _ eq_refl eq_refl eq_refl _ Rx Rr Hx Nat.lt_0_1 Hi (row_window false L f src into srow y x i VR Hx Same Hi)); cbn [row_image width height] in *; try congruence.
    left. cbn [row_image width]. congruence.
Qed.
Print Assumptions C91_rows_are_independent_rgba_f32.

(** The portable f16 path always takes the alpha stages: no condition on the alpha channel. *)
Theorem C91_rows_are_independent_rgba_f16 : forall k L f pool pool' (store into out out' : image f16) y,
  f <> Nearest -> valid_call 4 false f store into -> pool_ok pool -> pool_ok pool' ->
  height store = height into -> width store <> width into -> y < height into ->
  resize_rgba_f16 k L f pool true store into = Returned Ok out ->
  resize_rgba_f16 k L f pool' true (row_image store y) (row_image into y) = Returned Ok out' ->
  forall x ch, x < width into -> ch < 4 -> sample 4 out x y ch = sample 4 out' x 0 ch.
Proof.
  intros k L f pool pool' store into out out' y Hf V P P' Hh Hw Hy R R'.
  pose proof (row_call_valid 4 false f store into y V Hh Hy) as V'.
  destruct (rgba_pipeline_f16 k L f pool store into V (or_introl Hw) Hf P) as (src & mid & o & A1 & VS & Ws & Hs & Rm & Om & Ro & Un & _).
  destruct (rgba_pipeline_f16 k L f pool' (row_image store y) (row_image into y) V' (or_introl Hw) Hf P') as (srow & mrow & o' & B1 & VSr & Wr & Hr & Rr & Or & Ror & Ur & _).
  rewrite R in Ro. rewrite R' in Ror. inversion Ro; inversion Ror; subst o o'. clear Ro Ror.
  destruct (prepared_fields store into) as (E1 & E2 & _). destruct (prepared_fields (row_image store y) (row_image into y)) as (F1 & F2 & _).
  assert (Gp : good 4 (prepared store into)) by (apply (valid_good (prepared_valid _ _ _ _ _ V))).
  assert (M1 : width into = width mid) by (rewrite (opd_width _ _ _ Om); congruence). assert (M2 : height into = height mid) by (rewrite (opd_height _ _ _ Om); congruence).
  assert (M3 : width (row_image into y) = width mrow) by (rewrite (opd_width _ _ _ Or); congruence).
  assert (M4 : height (row_image into y) = height mrow) by (rewrite (opd_height _ _ _ Or); congruence).
  refine (alpha_rows false L f (resize_f16 k L f 4) _ _ pool pool' store into src mid out srow mrow out' y V Hh Hw Hy _ _ _ VS Ws Hs (good_opd _ _ _ Gp Om) M1 M2 M3 M4
    (or_introl (conj A1 B1)) Un Ur).
  - intro VR. now apply (C80_valid_calls_succeed_f16 k L f 4 pool' false).
  - intros m VR Rx x i Hx Hi. refine (C80_rows_are_independent_f16 k L f 4 pool pool' src into mid m y Hf VS P P' _ _ Hy Rm Rx x i Hx Hi); congruence.
  - intros m VR Rx Same x i Hx Hi. rewrite <- Ws in Same.
    refine (C80_locality_f16 k L f 4 pool' pool' (row_image src y) srow (row_image into y) (row_image into y) m mrow x 0 i
      Hf VR VSr P' P' _ _ eq_refl eq_refl _ Rx Rr Hx Nat.lt_0_1 Hi (row_window false L f src into srow y x i VR Hx Same Hi)); cbn [row_image width height] in *; try congruence.
    left. cbn [row_image width]. congruence.
Qed.
Print Assumptions C91_rows_are_independent_rgba_f16.

(** The condition is needed: alpha varies in the image but not in its first row. *)
Theorem C91_rows_depend_on_the_scan_refuted : exists store into : image Z,
  valid_call 4 false Bilinear store into /\ height store = height into /\ width store <> width into /\ samples_in 255 (buf store) /\
  alpha_varies store /\ ~ alpha_varies (row_image store 0) /\
  forall L, exists out out',
    resize_rgba_u8 L Bilinear None true store into = Returned Ok out /\
    resize_rgba_u8 L Bilinear None true (row_image store 0) (row_image into 0) = Returned Ok out' /\
    alpha_at out 0 0 = Some 64%Z /\ alpha_at out' 0 0 = Some 128%Z.
Proof.
  set (store := mkImage [200; 0; 0; 128; 200; 0; 0; 128; 9; 9; 9; 255; 9; 9; 9; 255]%Z 4 2 2 8 0).
  set (into := mkImage (repeat 0%Z 24) 4 3 2 12 0). exists store, into.
  split; [unfold store, into; valid_tac|]. split; [reflexivity|]. split; [discriminate|]. split; [repeat constructor; lia|].
  split. { exists 0, 0, 0, 1. repeat split; try (cbn; lia). discriminate. }
  split.
  { intros (x & y & x' & y' & H1 & H2 & H3 & H4 & D). cbn in H1, H2, H3, H4.
    assert (y = 0 /\ y' = 0) as [-> ->] by lia. destruct x as [|[|]], x' as [|[|]]; try lia; apply D; reflexivity. }
  intro L.
  assert (K : exists src mid, premultiply_stage 4 (scaler_engine L Bilinear 4 255 false premul_u8 no_unpremul alpha_needed_u8) None true store into = Done (src, true) /\
    resize_u8 L Bilinear 4 None src into = Returned Ok mid /\ checks 4 false src into = Done tt /\ width src = 2 /\ height src = 2 /\
    width mid = 3 /\ height mid = 2 /\ stride mid = 12 /\ length (buf mid) = 24 /\ samples_in 255 (buf mid) /\ pixel mid 0 0 100%Z 0%Z 0%Z 64%Z).
  { do 2 eexists. split; [vm_compute; reflexivity|]. split; [vm_compute; reflexivity|]. repeat split; repeat constructor; cbn; lia. }
  assert (K' : exists src mid, premultiply_stage 4 (scaler_engine L Bilinear 4 255 false premul_u8 no_unpremul alpha_needed_u8) None true (row_image store 0) (row_image into 0) = Done (src, true) /\
    resize_u8 L Bilinear 4 None src (row_image into 0) = Returned Ok mid /\ checks 4 false src (row_image into 0) = Done tt /\ width src = 2 /\ height src = 1 /\
    width mid = 3 /\ height mid = 1 /\ stride mid = 12 /\ length (buf mid) = 12 /\ samples_in 255 (buf mid) /\ pixel mid 0 0 200%Z 0%Z 0%Z 128%Z).
  { do 2 eexists. split; [vm_compute; reflexivity|]. split; [vm_compute; reflexivity|]. repeat split; repeat constructor; cbn; lia. }
  destruct K as (src & mid & K1 & K2 & K3 & K4 & K5 & K6 & K7 & K8 & K9 & K10 & K11).
  destruct K' as (src' & mid' & J1 & J2 & J3 & J4 & J5 & J6 & J7 & J8 & J9 & J10 & J11).
  destruct (rgba_concrete L Bilinear None store into src mid) as (out & R & _ & _ & Q); auto.
  1: discriminate. 1: left; cbn; lia. 1: exact Logic.I. 1: constructor; lia.
  destruct (rgba_concrete L Bilinear None (row_image store 0) (row_image into 0) src' mid') as (out' & R' & _ & _ & Q'); auto.
  1: discriminate. 1: left; cbn; lia. 1: exact Logic.I. 1: constructor; lia.
  exists out, out'. split; [exact R|]. split; [exact R'|]. split.
  - destruct (Q 0 0 100%Z 0%Z 0%Z 64%Z) as (r' & g' & b' & a' & E & _ & _ & _ & P3); [lia|lia|exact K11|].
    apply list4_inj in E as (_ & _ & _ & <-). assumption.
  - destruct (Q' 0 0 200%Z 0%Z 0%Z 128%Z) as (r' & g' & b' & a' & E & _ & _ & _ & P3); [lia|lia|exact J11|].
    apply list4_inj in E as (_ & _ & _ & <-). assumption.
Qed.
Print Assumptions C91_rows_depend_on_the_scan_refuted.
Example C91_rows_nonvacuous :
  let store := mkImage [9; 9; 9; 3; 9; 9; 9; 9; 9; 9; 9; 255; 9; 9; 9; 9]%Z 4 2 2 8 16 in let into := mkImage (repeat 0%Z 24) 4 3 2 12 16 in
  valid_call 4 false Bilinear store into /\ valid_call 4 true Bilinear store into /\ samples_in 255 (buf store) /\
  height store = height into /\ width store <> width into /\ alpha_varies store /\ alpha_varies (row_image store 1).
Proof.
  cbv zeta. split; [valid_tac|]. split; [valid_tac|]. split; [repeat constructor; lia|]. split; [reflexivity|]. split; [discriminate|].
  split; [exists 0, 0, 1, 0|exists 0, 0, 1, 0]; repeat split; try (cbn; lia); discriminate.
Qed.
