(** C92: 8-bit images on x86-64: locality and independence of rows. *)
From Coq Require Import ZArith List Lia Bool ZifyBool ZifyNat.
From Verif Require Import Base BaseProofs ImageStore FixedPoint Dispatch Resize Spec SpecApi SpecAlpha F32 FloatConv Weights Sampler Api
  KernelProofs DispatchProofs ResizeProofs NoFail ImageProofs PoolProofs PortableProofs Center Alpha AlphaProofs ApiProofs DriverProofs FloatApiProofs RgbaProofs Witness AlphaLocal
  X86Dispatch SpecX86 SpecX86Alpha X86Pixels X86DispatchProofs X86Calls X86Facts X86Alpha X86AlphaCalls X86U8Local Properties9 Properties23.
Import ListNotations.
Local Open Scope nat_scope.

(** A result depends on the samples of its channel in its window; AVX2 with RGB excepted. *)
Theorem C92_locality_u8_x86_partial : forall c s L f N pool pool' (store store' into into' out out' : image Z) x y ch,
  f <> Nearest -> N <> 3 \/ avx2 c = false ->
  valid_call N false f store into -> valid_call N false f store' into' -> pool_ok pool -> pool_ok pool' ->
  samples_in 255 (buf store) -> samples_in 255 (buf store') -> tame f store into ->
  width store = width store' -> height store = height store' -> width into = width into' -> height into = height into' ->
  changes_size store into ->
  resize_u8_x86 c s L f N pool store into = Returned Ok out -> resize_u8_x86 c s L f N pool' store' into' = Returned Ok out' ->
  x < width into -> y < height into -> ch < N ->
  (forall sx sy, in_window (resampling_filter L f) store into x y sx sy -> sample N store sx sy ch = sample N store' sx sy ch) ->
  sample N out x y ch = sample N out' x y ch.
Proof. intros c s L f N pool pool' store store' into into' out out' x y ch Hf. now apply x86_local. Qed.
Print Assumptions C92_locality_u8_x86_partial.

(** RGB with AVX2: a change of red or green in the first column changes every result of the row. *)
Theorem C92_rgb_avx2_is_not_local_refuted : forall c s L f pool pool' (store store' into out out' : image Z) x y ch,
  valid_call 3 false f store into -> valid_call 3 false f store' into -> pool_ok pool -> pool_ok pool' ->
  averaging f = true -> f <> Nearest -> samples_in 255 (buf store) -> samples_in 255 (buf store') ->
  avx2 c = true -> height store = height into -> height store' = height into -> width store < width into -> width store' < width into ->
  x < width into -> y < height into -> ch < 2 ->
  resize_u8_x86 c s L f 3 pool store into = Returned Ok out -> resize_u8_x86 c s L f 3 pool' store' into = Returned Ok out' ->
  sample 3 store 0 y ch <> sample 3 store' 0 y ch -> sample 3 out x y ch <> sample 3 out' x y ch.
Proof.
  intros c s L f pool pool' store store' into out out' x y ch V V' P P' A Hf S S' Ha E E' W W' Hx Hy Hc R R' D.
  destruct (C54_rgb_avx2_refuted c s L f pool store into x y ch V P A Hf S Ha E W Hx Hy Hc) as (o & Ro & Q).
  destruct (C54_rgb_avx2_refuted c s L f pool' store' into x y ch V' P' A Hf S' Ha E' W' Hx Hy Hc) as (o' & Ro' & Q').
  rewrite R in Ro. rewrite R' in Ro'. inversion Ro; inversion Ro'; subst o o'. congruence.
Qed.
Print Assumptions C92_rgb_avx2_is_not_local_refuted.

(** Rows are resized independently: all processors and channel counts. *)
Theorem C92_rows_are_independent_u8_x86_partial : forall c s L f N pool pool' (store into out out' : image Z) y,
  f <> Nearest -> valid_call N false f store into -> pool_ok pool -> pool_ok pool' -> samples_in 255 (buf store) -> tame f store into ->
  height store = height into -> width store <> width into -> y < height into ->
  resize_u8_x86 c s L f N pool store into = Returned Ok out ->
  resize_u8_x86 c s L f N pool' (row_image store y) (row_image into y) = Returned Ok out' ->
  forall x ch, x < width into -> ch < N -> sample N out x y ch = sample N out' x 0 ch.
Proof. intros c s L f N pool pool' store into out out' y Hf. now apply x86_rows. Qed.
Print Assumptions C92_rows_are_independent_u8_x86_partial.

(** With alpha. *)
Theorem C92_locality_rgba_u8_x86_partial : forall c s rcp L f pool pool' (store store' into into' out out' : image Z) x y ch,
  f <> Nearest -> pool_ok pool -> pool_ok pool' -> samples_in 255 (buf store) -> samples_in 255 (buf store') ->
  tame f store into -> traps c s 4 (width store) (width into) = false ->
  alike false L f store store' into into' x y -> (alpha_varies store <-> alpha_varies store') ->
  resize_rgba_u8_x86 c s rcp L f pool true store into = Returned Ok out ->
  resize_rgba_u8_x86 c s rcp L f pool' true store' into' = Returned Ok out' ->
  ch < 4 -> sample 4 out x y ch = sample 4 out' x y ch.
Proof.
  intros c s rcp L f pool pool' store store' into into' out out' x y ch Hf P P' SS SS' Ht Tr A I R R' Hc.
  pose proof (alike_changes _ _ _ _ _ _ _ _ _ A) as Ch'.
  assert (Ht' : tame f store' into').
  { destruct A. unfold tame, downscale_at_most in *. rewrite <- al_w, <- al_h, <- al_iw, <- al_ih. exact Ht. }
  assert (Tr' : traps c s 4 (width store') (width into') = false) by (destruct A; congruence).
  destruct (rgba_pipeline_x86 c s rcp L f pool store into (al_v A) (al_ch _ _ _ _ _ _ _ _ _ A) Hf P SS Ht Tr) as (src & mid & o & A1 & A2 & VS & SV & Ws & Hs & Rm & Om & Ro & Un & _).
  destruct (rgba_pipeline_x86 c s rcp L f pool' store' into' (al_v' A) Ch' Hf P' SS' Ht' Tr') as (src' & mid' & o' & B1 & B2 & VS' & SV' & Ws' & Hs' & Rm' & Om' & Ro' & Un' & _).
  rewrite R in Ro. rewrite R' in Ro'. inversion Ro; inversion Ro'; subst o o'. clear Ro Ro'.
  pose proof (same_stage _ _ _ _ _ I A1 A2 B1 B2) as Stg.
  refine (end_same false L f _ store store' into into' mid mid' out out' x y A Om Om' Un Un' _ ch Hc).
  pose proof (middle_same false L f _ store store' into into' src src' x y A VS Ws Hs Stg) as Md.
  destruct A as [V V' W H IW IH D Ch X Y Win].
  assert (H43 : 4 <> 3 \/ avx2 c = false) by (left; discriminate).
  assert (Hts : tame f src into) by (unfold tame, downscale_at_most in *; now rewrite Ws, Hs).
  intros i Hi. refine (x86_local c s L f 4 Hf pool pool' src src' into into' mid mid' x y i H43 VS VS' P P' SV SV' Hts _ _ IW IH _ Rm Rm' X Y Hi (Md i Hi)); try congruence.
  unfold changes_size in *. now rewrite Ws, Hs.
Qed.
Print Assumptions C92_locality_rgba_u8_x86_partial.

Example C92_nonvacuous : forall L,
  (let store := mkImage [9; 9; 9; 3; 9; 9; 9; 9]%Z 4 2 1 8 10 in let store' := mkImage [9; 9; 9; 3; 200; 9; 3; 9]%Z 4 2 1 8 10 in
   let into := mkImage (repeat 0%Z 16) 4 2 2 8 10 in
   alike false L Bilinear store store' into into 0 0 /\ tame Bilinear store into /\
   traps modern PreferSpeed 4 (width store) (width into) = false /\ traps pre_avx2 PreferSpeed 4 (width store) (width into) = false) /\
  (let store := rgb_image 3 2 [1;2;3; 4;5;6; 7;8;9; 1;2;3; 4;5;6; 7;8;9]%Z in let store' := rgb_image 3 2 [200;2;3; 4;5;6; 7;8;9; 1;2;3; 4;5;6; 7;8;9]%Z in
   let into := rgb_image 5 2 (repeat 0%Z 30) in
   valid_call 3 false Bilinear store into /\ valid_call 3 false Bilinear store' into /\ sample 3 store 0 0 0 <> sample 3 store' 0 0 0 /\
   tame Bilinear store into /\ height store = height into /\ width store < width into).
Proof.
  intro L. split.
  - intros store store' into. split; [exact (Properties23.alike_columns L 9%Z 3%Z 200%Z 0%Z false store store' into eq_refl eq_refl eq_refl)|].
    split; [left; reflexivity|]. split; reflexivity.
  - cbv zeta. unfold rgb_image. split; [valid_tac|]. split; [valid_tac|]. split; [discriminate|]. split; [left; reflexivity|]. cbn. lia.
Qed.
