(** Alpha-aware calls: a pixel of the result depends on the pixels in its window. *)
From Coq Require Import Classical_Prop ZArith List Lia Bool ZifyBool ZifyNat.
From Verif Require Import Base BaseProofs ImageStore FixedPoint Dispatch Resize Spec SpecApi SpecAlpha F32 FloatConv Weights Sampler Api
  KernelProofs DispatchProofs ResizeProofs NoFail ImageProofs PoolProofs PortableProofs Alpha AlphaProofs AlphaScan AlphaU16 ApiFloat ApiProofs DriverProofs FloatApiProofs RgbaProofs RgbaFloat
  F16 F16Arith F16Proofs F16Calls.
Import ListNotations.
Local Open Scope nat_scope.

Section Local.
Context {T : Type}.
Variables (pre un : T -> T -> T -> T -> list T).
(** The stage before the resampling. *)
Lemma stage_local (store store' src src' : image T) sx sy : good 4 store -> width store = width store' -> height store = height store' ->
  (pixelwise pre store src /\ pixelwise pre store' src') \/ (src = store /\ src' = store') ->
  sx < width store -> sy < height store ->
  (forall i, i < 4 -> sample 4 store sx sy i = sample 4 store' sx sy i) ->
  forall i, i < 4 -> sample 4 src sx sy i = sample 4 src' sx sy i.
Proof.
  intros G Ew Eh [((_ & _ & Q) & (_ & _ & Q'))|(-> & ->)] Bx By H i Hi; [|now apply H].
  destruct (pixel_exists store sx sy G Bx By) as (r & g & b & a & P).
  assert (P' : pixel store' sx sy r g b a).
  { destruct P as (P0 & P1 & P2 & P3). repeat split; rewrite <- H by lia; assumption. }
  destruct (Q sx sy r g b a Bx By P) as (r1 & g1 & b1 & a1 & E & (S0 & S1 & S2 & S3)).
  destruct (Q' sx sy r g b a ltac:(lia) ltac:(lia) P') as (r2 & g2 & b2 & a2 & E' & (T0 & T1 & T2 & T3)).
  rewrite E in E'. inversion E'; subst. destruct i as [|[|[|[|i]]]]; try lia; congruence.
Qed.
(** The stage after it. *)
Lemma last_local (mid mid' out out' : image T) x y : good 4 mid -> width mid = width mid' -> height mid = height mid' ->
  pixelwise un mid out -> pixelwise un mid' out' -> x < width mid -> y < height mid ->
  (forall i, i < 4 -> sample 4 mid x y i = sample 4 mid' x y i) ->
  forall i, i < 4 -> sample 4 out x y i = sample 4 out' x y i.
Proof.
  intros G Ew Eh (_ & _ & Q) (_ & _ & Q') Hx Hy H i Hi.
  destruct (pixel_exists mid x y G Hx Hy) as (r & g & b & a & P).
  assert (P' : pixel mid' x y r g b a).
  { destruct P as (P0 & P1 & P2 & P3). repeat split; rewrite <- H by lia; assumption. }
  destruct (Q x y r g b a Hx Hy P) as (r1 & g1 & b1 & a1 & E & (S0 & S1 & S2 & S3)).
  destruct (Q' x y r g b a ltac:(lia) ltac:(lia) P') as (r2 & g2 & b2 & a2 & E' & (T0 & T1 & T2 & T3)).
  rewrite E in E'. inversion E'; subst. destruct i as [|[|[|[|i]]]]; try lia; congruence.
Qed.
Lemma same_stage (store store' src src' : image T) : (alpha_varies store <-> alpha_varies store') ->
  (alpha_varies store -> pixelwise pre store src) -> (~ alpha_varies store -> src = store) ->
  (alpha_varies store' -> pixelwise pre store' src') -> (~ alpha_varies store' -> src' = store') ->
  (pixelwise pre store src /\ pixelwise pre store' src') \/ (src = store /\ src' = store').
Proof.
  intros I A1 A2 B1 B2. destruct (classic (alpha_varies store)) as [V|V].
  - left. split; [auto|]. apply B1. now apply I.
  - right. split; [auto|]. apply B2. intro V'. apply V. now apply I.
Qed.
End Local.

Lemma window_same {T} L f (store src into : image T) x y sx sy : width src = width store -> height src = height store ->
  in_window (resampling_filter L f) src into x y sx sy -> in_window (resampling_filter L f) store into x y sx sy.
Proof. unfold in_window. now intros -> ->. Qed.

(** Everything two calls have in common except the source samples. *)
Record alike {T} (nd : bool) (L : libm) (f : resampling_function) (store store' into into' : image T) (x y : nat) : Prop := {
  al_v : valid_call 4 nd f store into; al_v' : valid_call 4 nd f store' into';
  al_w : width store = width store'; al_h : height store = height store';
  al_iw : width into = width into'; al_ih : height into = height into';
  al_d : bit_depth into = bit_depth into';
  al_ch : changes_size store into;
  al_x : x < width into; al_y : y < height into;
  al_win : forall sx sy i, in_window (resampling_filter L f) store into x y sx sy -> i < 4 -> sample 4 store sx sy i = sample 4 store' sx sy i }.
Arguments al_v {_ _ _ _ _ _ _ _ _ _}. Arguments al_v' {_ _ _ _ _ _ _ _ _ _}.

Lemma middle_same {T} nd L f (pre : T -> T -> T -> T -> list T) (store store' into into' src src' : image T) x y :
  alike nd L f store store' into into' x y -> valid_call 4 nd f src into ->
  width src = width store -> height src = height store ->
  (pixelwise pre store src /\ pixelwise pre store' src') \/ (src = store /\ src' = store') ->
  forall i, i < 4 -> forall sx sy, in_window (resampling_filter L f) src into x y sx sy -> sample 4 src sx sy i = sample 4 src' sx sy i.
Proof.
  intros [V V' W H IW IH D Ch X Y Win] VS Ws Hs Stg i Hi sx sy Hin. destruct (valid_good V) as [Gs Gi].
  destruct (in_window_bounds L 4 nd f src into x y sx sy VS X Y Hin) as [Bx By]. rewrite Ws in Bx. rewrite Hs in By.
  apply (stage_local pre pre store store' src src' sx sy Gs W H Stg Bx By); [|exact Hi].
  intros j Hj. apply Win; [exact (window_same L f store src into x y sx sy Ws Hs Hin)|exact Hj].
Qed.
Lemma end_same {T} nd L f (un : T -> T -> T -> T -> list T) (store store' into into' mid mid' out out' : image T) x y :
  alike nd L f store store' into into' x y -> only_pixels_differ 4 into mid -> only_pixels_differ 4 into' mid' ->
  pixelwise un mid out -> pixelwise un mid' out' ->
  (forall i, i < 4 -> sample 4 mid x y i = sample 4 mid' x y i) ->
  forall i, i < 4 -> sample 4 out x y i = sample 4 out' x y i.
Proof.
  intros [V V' W H IW IH D Ch X Y Win] Om Om' Un Un' Same. destruct (valid_good V) as [Gs Gi].
  pose proof (good_opd _ _ _ Gi Om) as Gm.
  pose proof (opd_width _ _ _ Om) as M1. pose proof (opd_height _ _ _ Om) as M2. pose proof (opd_width _ _ _ Om') as M3. pose proof (opd_height _ _ _ Om') as M4.
  exact (last_local un un mid mid' out out' x y Gm ltac:(congruence) ltac:(congruence) Un Un' ltac:(lia) ltac:(lia) Same).
Qed.
Lemma end_same_pixel {T} (out out' mid mid' : image T) (un : T -> T -> T -> T -> list T) x y :
  good 4 mid -> x < width mid -> y < height mid ->
  (forall r g b a, pixel mid x y r g b a -> forall i, i < 4 -> sample 4 out x y i = nth_error (un r g b a) i) ->
  (forall r g b a, pixel mid' x y r g b a -> forall i, i < 4 -> sample 4 out' x y i = nth_error (un r g b a) i) ->
  (forall i, i < 4 -> sample 4 mid x y i = sample 4 mid' x y i) ->
  forall i, i < 4 -> sample 4 out x y i = sample 4 out' x y i.
Proof.
  intros G Hx Hy Q Q' Same i Hi. destruct (pixel_exists mid x y G Hx Hy) as (r & g & b & a & P).
  assert (P' : pixel mid' x y r g b a).
  { destruct P as (P0 & P1 & P2 & P3). repeat split; rewrite <- Same by lia; assumption. }
  rewrite (Q r g b a P i Hi). symmetry. exact (Q' r g b a P' i Hi).
Qed.
Lemma alike_changes {T} nd L f (store store' into into' : image T) x y : alike nd L f store store' into into' x y -> changes_size store' into'.
Proof. intros [V V' W H IW IH D Ch X Y Win]. unfold changes_size in *. lia. Qed.
