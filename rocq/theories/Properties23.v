(** C91: alpha-aware resizing is local, on images whose alpha varies in both or in neither. *)
From Coq Require Import ZArith List Lia Bool ZifyBool ZifyNat.
From Verif Require Import Base BaseProofs ImageStore FixedPoint Dispatch Resize Spec SpecApi SpecAlpha F32 FloatConv Weights Sampler Api
  KernelProofs DispatchProofs ResizeProofs NoFail ImageProofs PoolProofs PortableProofs Alpha AlphaProofs AlphaScan AlphaU16 ApiFloat ApiRgba ApiProofs DriverProofs FloatApiProofs RgbaProofs RgbaFloat
  F16 SpecF16 F16Arith F16Proofs F16Calls Witness AlphaLocal Properties2 Properties3 Properties4 Properties17
  X86Dispatch X86Float X86FloatRows X86FloatCalls X86AlphaF32 X86AlphaF32Proofs X86AlphaF32Calls Properties13.
Import ListNotations.
Local Open Scope nat_scope.


Theorem C91_locality_rgba_u8 : forall L f pool pool' (store store' into into' out out' : image Z) x y c,
  f <> Nearest -> pool_ok pool -> pool_ok pool' -> samples_in 255 (buf store) -> samples_in 255 (buf store') ->
  alike false L f store store' into into' x y -> (alpha_varies store <-> alpha_varies store') ->
  resize_rgba_u8 L f pool true store into = Returned Ok out -> resize_rgba_u8 L f pool' true store' into' = Returned Ok out' ->
  c < 4 -> sample 4 out x y c = sample 4 out' x y c.
Proof.
  intros L f pool pool' store store' into into' out out' x y c Hf P P' SS SS' A I R R' Hc.
  pose proof (alike_changes _ _ _ _ _ _ _ _ _ A) as Ch'.
  destruct (rgba_pipeline_u8 L f pool store into (al_v A) (al_ch _ _ _ _ _ _ _ _ _ A) Hf P SS) as (src & mid & o & A1 & A2 & VS & Ws & Hs & Rm & Om & Ro & Un & _).
  destruct (rgba_pipeline_u8 L f pool' store' into' (al_v' A) Ch' Hf P' SS') as (src' & mid' & o' & B1 & B2 & VS' & Ws' & Hs' & Rm' & Om' & Ro' & Un' & _).
  rewrite R in Ro. rewrite R' in Ro'. inversion Ro; inversion Ro'; subst o o'. clear Ro Ro'.
  pose proof (same_stage premul_px_u8 _ _ _ _ I A1 A2 B1 B2) as Stg.
  refine (end_same false L f unpremul_px_u8 store store' into into' mid mid' out out' x y A Om Om' Un Un' _ c Hc).
  pose proof (middle_same false L f premul_px_u8 store store' into into' src src' x y A VS Ws Hs Stg) as Md.
  destruct A as [V V' W H IW IH D Ch X Y Win].
  intros i Hi. unfold resize_u8 in Rm, Rm'. refine (call_local L f 4 255 false no_premul no_unpremul no_alpha ltac:(lia) Hf pool pool' src src' into into' mid mid' x y i VS VS' P P' _ _ IW IH _ Rm Rm' X Y Hi (Md i Hi)); try congruence.
  unfold changes_size in *. now rewrite Ws, Hs.
Qed.
Print Assumptions C91_locality_rgba_u8.

Theorem C91_locality_rgba_u16 : forall k L f pool pool' (store store' into into' out out' : image Z) x y c,
  f <> Nearest -> pool_ok pool -> pool_ok pool' -> samples_in 65535 (buf store) -> samples_in 65535 (buf store') ->
  alike true L f store store' into into' x y -> (alpha_varies store <-> alpha_varies store') ->
  resize_rgba_u16 k L f pool true store into = Returned Ok out -> resize_rgba_u16 k L f pool' true store' into' = Returned Ok out' ->
  c < 4 -> sample 4 out x y c = sample 4 out' x y c.
Proof.
  intros k L f pool pool' store store' into into' out out' x y c Hf P P' SS SS' A I R R' Hc.
  pose proof (alike_changes _ _ _ _ _ _ _ _ _ A) as Ch'.
  destruct (rgba_pipeline_u16 k L f pool store into (al_v A) (al_ch _ _ _ _ _ _ _ _ _ A) Hf P SS) as (src & mid & o & A1 & A2 & VS & Ws & Hs & Rm & Om & Ro & Un & _).
  destruct (rgba_pipeline_u16 k L f pool' store' into' (al_v' A) Ch' Hf P' SS') as (src' & mid' & o' & B1 & B2 & VS' & Ws' & Hs' & Rm' & Om' & Ro' & Un' & _).
  rewrite R in Ro. rewrite R' in Ro'. inversion Ro; inversion Ro'; subst o o'. clear Ro Ro'.
  rewrite <- (al_d _ _ _ _ _ _ _ _ _ A) in B1, Un'.
  pose proof (same_stage _ _ _ _ _ I A1 A2 B1 B2) as Stg.
  refine (end_same true L f _ store store' into into' mid mid' out out' x y A Om Om' Un Un' _ c Hc).
  pose proof (middle_same true L f _ store store' into into' src src' x y A VS Ws Hs Stg) as Md.
  destruct A as [V V' W H IW IH D Ch X Y Win].
  intros i Hi. refine (g_local L f 4 true _ _ _ (engine_u16_conv k L f 4 _ _ _) pool pool' src src' into into' mid mid' x y i Hf VS VS' P P' _ _ IW IH D _ Rm Rm' X Y Hi (Md i Hi)); try congruence.
  unfold changes_size in *. now rewrite Ws, Hs.
Qed.
Print Assumptions C91_locality_rgba_u16.

Theorem C91_locality_rgba_f32 : forall k L f pool pool' (store store' into into' out out' : image f32) x y c,
  f <> Nearest -> pool_ok pool -> pool_ok pool' ->
  alike false L f store store' into into' x y -> (alpha_varies store <-> alpha_varies store') ->
  resize_rgba_f32 k L f pool true store into = Returned Ok out -> resize_rgba_f32 k L f pool' true store' into' = Returned Ok out' ->
  c < 4 -> sample 4 out x y c = sample 4 out' x y c.
Proof.
  intros k L f pool pool' store store' into into' out out' x y c Hf P P' A I R R' Hc.
  pose proof (alike_changes _ _ _ _ _ _ _ _ _ A) as Ch'.
  destruct (rgba_pipeline_f32 k L f pool store into (al_v A) (al_ch _ _ _ _ _ _ _ _ _ A) Hf P) as (src & mid & o & A1 & A2 & VS & Ws & Hs & Rm & Om & Ro & Un & _).
  destruct (rgba_pipeline_f32 k L f pool' store' into' (al_v' A) Ch' Hf P') as (src' & mid' & o' & B1 & B2 & VS' & Ws' & Hs' & Rm' & Om' & Ro' & Un' & _).
  rewrite R in Ro. rewrite R' in Ro'. inversion Ro; inversion Ro'; subst o o'. clear Ro Ro'.
  pose proof (same_stage _ _ _ _ _ I A1 A2 B1 B2) as Stg.
  refine (end_same false L f _ store store' into into' mid mid' out out' x y A Om Om' Un Un' _ c Hc).
  pose proof (middle_same false L f _ store store' into into' src src' x y A VS Ws Hs Stg) as Md.
  destruct A as [V V' W H IW IH D Ch X Y Win].
  intros i Hi. refine (C19_locality_f32 k L f 4 pool pool' src src' into into' mid mid' x y i Hf VS VS' P P' _ _ IW IH D _ Rm Rm' X Y Hi (Md i Hi)); try congruence.
  unfold changes_size in *. now rewrite Ws, Hs.
Qed.
Print Assumptions C91_locality_rgba_f32.

Theorem C91_locality_rgba_f32_x86 : forall k cpu L f pool pool' (store store' into into' out out' : image f32) x y c,
  f <> Nearest -> pool_ok pool -> pool_ok pool' ->
  alike false L f store store' into into' x y -> (alpha_varies store <-> alpha_varies store') ->
  resize_rgba_f32_x86 k cpu L f pool true store into = Returned Ok out -> resize_rgba_f32_x86 k cpu L f pool' true store' into' = Returned Ok out' ->
  c < 4 -> sample 4 out x y c = sample 4 out' x y c.
Proof.
  intros k cpu L f pool pool' store store' into into' out out' x y c Hf P P' A I R R' Hc.
  pose proof (alike_changes _ _ _ _ _ _ _ _ _ A) as Ch'.
  destruct (rgba_pipeline_f32_x86 k cpu L f pool store into (al_v A) (al_ch _ _ _ _ _ _ _ _ _ A) Hf P) as (src & mid & o & A1 & A2 & VS & Ws & Hs & Rm & Om & Ro & Un & _).
  destruct (rgba_pipeline_f32_x86 k cpu L f pool' store' into' (al_v' A) Ch' Hf P') as (src' & mid' & o' & B1 & B2 & VS' & Ws' & Hs' & Rm' & Om' & Ro' & Un' & _).
  rewrite R in Ro. rewrite R' in Ro'. inversion Ro; inversion Ro'; subst o o'. clear Ro Ro'.
  pose proof (same_stage _ _ _ _ _ I A1 A2 B1 B2) as Stg.
  pose proof (middle_same false L f _ store store' into into' src src' x y A VS Ws Hs Stg) as Md.
  destruct A as [V V' W H IW IH D Ch X Y Win]. destruct (valid_good V) as [Gs Gi]. pose proof (good_opd _ _ _ Gi Om) as Gm.
  pose proof (opd_width _ _ _ Om) as M1. pose proof (opd_height _ _ _ Om) as M2. pose proof (opd_width _ _ _ Om') as M3. pose proof (opd_height _ _ _ Om') as M4.
  assert (Em : width mid' = width mid) by congruence. rewrite Em in Un'.
  refine (end_same_pixel out out' mid mid' (un_at (base_cpu cpu) (width mid) x) x y Gm ltac:(lia) ltac:(lia) _ _ _ c Hc).
  - intros r g b a Px. apply Un; [lia|lia|exact Px].
  - intros r g b a Px. apply Un'; [lia|lia|exact Px].
  - intros i Hi. refine (C69_locality_x86_f32 k cpu L f 4 pool pool' src src' into into' mid mid' x y i Hf VS VS' P P' _ _ IW IH D _ Rm Rm' X Y Hi (Md i Hi)); try congruence.
    unfold changes_size in *. now rewrite Ws, Hs.
Qed.
Print Assumptions C91_locality_rgba_f32_x86.

(** The portable f16 path always takes the alpha stages: no condition on the alpha channel. *)
Theorem C91_locality_rgba_f16 : forall k L f pool pool' (store store' into into' out out' : image f16) x y c,
  f <> Nearest -> pool_ok pool -> pool_ok pool' ->
  alike false L f store store' into into' x y ->
  resize_rgba_f16 k L f pool true store into = Returned Ok out -> resize_rgba_f16 k L f pool' true store' into' = Returned Ok out' ->
  c < 4 -> sample 4 out x y c = sample 4 out' x y c.
Proof.
  intros k L f pool pool' store store' into into' out out' x y c Hf P P' A R R' Hc.
  pose proof (alike_changes _ _ _ _ _ _ _ _ _ A) as Ch'.
  destruct (rgba_pipeline_f16 k L f pool store into (al_v A) (al_ch _ _ _ _ _ _ _ _ _ A) Hf P) as (src & mid & o & P1 & VS & Ws & Hs & Rm & Om & Ro & Un & _).
  destruct (rgba_pipeline_f16 k L f pool' store' into' (al_v' A) Ch' Hf P') as (src' & mid' & o' & P1' & VS' & Ws' & Hs' & Rm' & Om' & Ro' & Un' & _).
  rewrite R in Ro. rewrite R' in Ro'. inversion Ro; inversion Ro'; subst o o'. clear Ro Ro'.
  pose proof (middle_same false L f premul_px_f16 store store' into into' src src' x y A VS Ws Hs (or_introl (conj P1 P1'))) as Md.
  destruct (prepared_fields store into) as (E1 & E2 & E3 & E4 & E5 & E6). destruct (prepared_fields store' into') as (F1 & F2 & F3 & F4 & F5 & F6).
  assert (Gp : good 4 (prepared store into)) by (apply (valid_good (prepared_valid _ _ _ _ _ (al_v A)))).
  destruct A as [V V' W H IW IH D Ch X Y Win]. pose proof (good_opd _ _ _ Gp Om) as Gm.
  pose proof (opd_width _ _ _ Om) as M1. pose proof (opd_height _ _ _ Om) as M2. pose proof (opd_width _ _ _ Om') as M3. pose proof (opd_height _ _ _ Om') as M4.
  refine (last_local unpremul_px_f16 unpremul_px_f16 mid mid' out out' x y Gm ltac:(lia) ltac:(lia) Un Un' ltac:(lia) ltac:(lia) _ c Hc).
  intros i Hi. refine (C80_locality_f16 k L f 4 pool pool' src src' into into' mid mid' x y i Hf VS VS' P P' _ _ IW IH _ Rm Rm' X Y Hi (Md i Hi)); try congruence.
  unfold changes_size in *. now rewrite Ws, Hs.
Qed.
Print Assumptions C91_locality_rgba_f16.

(** The condition is needed: a far pixel of another alpha changes a pixel whose window is the same. *)
Theorem C91_alpha_scan_is_not_local_refuted : exists store store' into : image Z,
  (forall L, alike false L Bilinear store store' into into 0 0) /\
  samples_in 255 (buf store) /\ samples_in 255 (buf store') /\ ~ alpha_varies store /\ alpha_varies store' /\
  forall L, exists out out',
    resize_rgba_u8 L Bilinear None true store into = Returned Ok out /\
    resize_rgba_u8 L Bilinear None true store' into = Returned Ok out' /\
    alpha_at out 0 0 = Some 127%Z /\ alpha_at out' 0 0 = Some 63%Z.
Proof.
  set (store := mkImage [200; 0; 0; 128; 9; 9; 9; 128]%Z 4 2 1 8 0). set (store' := mkImage [200; 0; 0; 128; 9; 9; 9; 255]%Z 4 2 1 8 0).
  set (into := mkImage (repeat 0%Z 16) 4 2 2 8 0). exists store, store', into.
  assert (V : valid_call 4 false Bilinear store into) by (unfold store, into; valid_tac).
  assert (V' : valid_call 4 false Bilinear store' into) by (unfold store', into; valid_tac).
  split.
  { intro L. constructor; try assumption; try reflexivity; [right; cbn; lia|cbn; lia|cbn; lia|].
    intros sx sy i Hin Hi. destruct (in_window_bounds L 4 false Bilinear store into 0 0 sx sy V ltac:(cbn; lia) ltac:(cbn; lia) Hin) as [_ By].
    destruct Hin as [_ Hx]. cbn in Hx, By. replace sy with 0 by lia. subst sx. destruct i as [|[|[|[|i]]]]; try lia; reflexivity. }
  split; [repeat constructor; lia|]. split; [repeat constructor; lia|]. split.
  { intros (x & y & x' & y' & H1 & H2 & H3 & H4 & D). cbn in H1, H2, H3, H4.
    assert (y = 0 /\ y' = 0) as [-> ->] by lia. destruct x as [|[|]], x' as [|[|]]; try lia; apply D; reflexivity. }
  split. { exists 0, 0, 1, 0. repeat split; try (cbn; lia). discriminate. }
  intro L.
  assert (K : exists src mid, premultiply_stage 4 (scaler_engine L Bilinear 4 255 false premul_u8 no_unpremul alpha_needed_u8) None true store into = Done (src, true) /\
    resize_u8 L Bilinear 4 None src into = Returned Ok mid /\ checks 4 false src into = Done tt /\ width src = 2 /\ height src = 1 /\
    width mid = 2 /\ height mid = 2 /\ stride mid = 8 /\ length (buf mid) = 16 /\ samples_in 255 (buf mid) /\ pixel mid 0 0 199%Z 0%Z 0%Z 127%Z).
  { do 2 eexists. split; [vm_compute; reflexivity|]. split; [vm_compute; reflexivity|]. repeat split; repeat constructor; cbn; lia. }
  assert (K' : exists src mid, premultiply_stage 4 (scaler_engine L Bilinear 4 255 false premul_u8 no_unpremul alpha_needed_u8) None true store' into = Done (src, true) /\
    resize_u8 L Bilinear 4 None src into = Returned Ok mid /\ checks 4 false src into = Done tt /\ width src = 2 /\ height src = 1 /\
    width mid = 2 /\ height mid = 2 /\ stride mid = 8 /\ length (buf mid) = 16 /\ samples_in 255 (buf mid) /\ pixel mid 0 0 99%Z 0%Z 0%Z 63%Z).
  { do 2 eexists. split; [vm_compute; reflexivity|]. split; [vm_compute; reflexivity|]. repeat split; repeat constructor; cbn; lia. }
  destruct K as (src & mid & K1 & K2 & K3 & K4 & K5 & K6 & K7 & K8 & K9 & K10 & K11).
  destruct K' as (src' & mid' & J1 & J2 & J3 & J4 & J5 & J6 & J7 & J8 & J9 & J10 & J11).
  destruct (rgba_concrete L Bilinear None store into src mid) as (out & R & _ & _ & Q); auto.
  1: discriminate. 1: right; cbn; lia. 1: exact I. 1: constructor; lia.
  destruct (rgba_concrete L Bilinear None store' into src' mid') as (out' & R' & _ & _ & Q'); auto.
  1: discriminate. 1: right; cbn; lia. 1: exact I. 1: constructor; lia.
  exists out, out'. split; [exact R|]. split; [exact R'|]. split.
  - destruct (Q 0 0 199%Z 0%Z 0%Z 127%Z) as (r' & g' & b' & a' & E & _ & _ & _ & P3); [lia|lia|exact K11|].
    apply list4_inj in E as (_ & _ & _ & <-). assumption.
  - destruct (Q' 0 0 99%Z 0%Z 0%Z 63%Z) as (r' & g' & b' & a' & E & _ & _ & _ & P3); [lia|lia|exact J11|].
    apply list4_inj in E as (_ & _ & _ & <-). assumption.
Qed.
Print Assumptions C91_alpha_scan_is_not_local_refuted.
Lemma alike_columns {T} L (p q q' d : T) : forall nd (store store' into : image T),
  store = mkImage [p; p; p; q; p; p; p; p] 4 2 1 8 10 -> store' = mkImage [p; p; p; q; q'; p; q; p] 4 2 1 8 10 ->
  into = mkImage (repeat d 16) 4 2 2 8 10 -> alike nd L Bilinear store store' into into 0 0.
Proof.
  intros nd store store' into -> -> ->. assert (V : forall r, r = mkImage [p; p; p; q; p; p; p; p] 4 2 1 8 10 \/ r = mkImage [p; p; p; q; q'; p; q; p] 4 2 1 8 10 ->
    valid_call 4 nd Bilinear r (mkImage (repeat d 16) 4 2 2 8 10)) by (intros r [-> | ->]; valid_tac).
  constructor; try reflexivity; try (cbn; lia); [apply V; now left|apply V; now right|right; cbn; lia|].
  intros sx sy i Hin Hi. destruct (in_window_bounds L 4 nd Bilinear _ _ 0 0 sx sy (V _ (or_introl eq_refl)) ltac:(cbn; lia) ltac:(cbn; lia) Hin) as [_ By].
  destruct Hin as [_ Hx]. cbn in Hx, By. replace sy with 0 by lia. subst sx. destruct i as [|[|[|[|i]]]]; try lia; reflexivity.
Qed.
(** Both alpha channels vary; the pixels outside the window differ. *)
Example C91_nonvacuous : forall L,
  (let store := mkImage [9; 9; 9; 3; 9; 9; 9; 9]%Z 4 2 1 8 10 in let store' := mkImage [9; 9; 9; 3; 200; 9; 3; 9]%Z 4 2 1 8 10 in
   let into := mkImage (repeat 0%Z 16) 4 2 2 8 10 in
   alike false L Bilinear store store' into into 0 0 /\ alike true L Bilinear store store' into into 0 0 /\
   (alpha_varies store <-> alpha_varies store') /\ alpha_varies store /\ samples_in 255 (buf store') /\ samples_in 65535 (buf store')) /\
  (let store := mkImage [h1; h1; h1; h0; h1; h1; h1; h1] 4 2 1 8 10 in let store' := mkImage [h1; h1; h1; h0; h0; h1; h0; h1] 4 2 1 8 10 in
   alike false L Bilinear store store' (mkImage (repeat h0 16) 4 2 2 8 10) (mkImage (repeat h0 16) 4 2 2 8 10) 0 0).
Proof.
  intro L. split.
  - intros store store' into. split; [exact (alike_columns L 9%Z 3%Z 200%Z 0%Z false store store' into eq_refl eq_refl eq_refl)|].
    split; [exact (alike_columns L 9%Z 3%Z 200%Z 0%Z true store store' into eq_refl eq_refl eq_refl)|].
    assert (A : alpha_varies store) by (exists 0, 0, 1, 0; repeat split; try (cbn; lia); discriminate).
    assert (A' : alpha_varies store') by (exists 0, 0, 1, 0; repeat split; try (cbn; lia); discriminate).
    split; [tauto|]. split; [exact A|]. split; repeat constructor; lia.
  - exact (alike_columns L h1 h0 h0 h0 false _ _ _ eq_refl eq_refl eq_refl).
Qed.
