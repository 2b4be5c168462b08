(** The fixed point resize calls at the level of the public API: filters of the
    public enumeration, valid calls, and the facts the property files state. *)
From Coq Require Import ZArith List Lia Bool ZifyBool ZifyNat ZifyN.
From Verif Require Import Base BaseProofs ImageStore ColorGroup FixedPoint Dispatch Resize Spec
  KernelProofs Kernel4Proofs DispatchProofs ResizeProofs F32 F32Proofs Weights WeightsProofs QuantProofs NoFail ImageProofs
  PoolProofs NearestProofs PortableProofs Sampler SamplerProofs WeightSum FilterSums Center QuantSums.
Import ListNotations.
Local Open Scope nat_scope.

Lemma valid_sane {T} L {N nd f} {store into : image T} : valid_call N nd f store into ->
  sane_call N nd (resampling_filter L f) store into.
Proof.
  intros [A1 (B1 & B2 & B3 & B4) (C1 & C2 & C3 & C4) A4 (D1 & D2 & D3) A6 (E1 & E2) A8].
  constructor; auto.
  - apply filter_support_ok.
  - constructor; auto.
  - constructor; auto.
  - intro H. apply A8. now apply is_area_iff in H.
Qed.

Lemma valid_good {T} {N nd f} {store into : image T} : valid_call N nd f store into -> good N store /\ good N into.
Proof. intros [A1 (B1 & B2 & B3 & B4) (C1 & C2 & C3 & C4) _ _ _ _ _]. split; constructor; auto. Qed.

Lemma valid_sides {T} {N nd f} {store into : image T} : valid_call N nd f store into ->
  sides_ok f (height store) (height into) /\ sides_ok f (width store) (width into).
Proof.
  intros V. pose proof (sane_fits (valid_sane (mkLibm (fun x => x) (fun x => x) (fun x => x) (fun x => x) (fun x => x)) V)) as (_ & _ & F1 & F2).
  destruct V as [A1 (B1 & B2 & B3 & B4) (C1 & C2 & C3 & C4) A4 (D1 & D2 & D3) A6 (E1 & E2) A8].
  unfold sides_ok. repeat split; try lia; intro H; apply A8; exact H.
Qed.

(** The windows of filter [f] in each direction. *)
Definition vwin L f (store into : image Z) : windows := filter_windows (resampling_filter L f) (height store) (height into).
Definition hwin L f (store into : image Z) : windows := filter_windows (resampling_filter L f) (width store) (width into).

(** No 32-bit accumulator overflow in either direction. *)
Definition no_overflow L f maxv (store into : image Z) : Prop :=
  accumulator_safe maxv (vwin L f store into) (height into) /\ accumulator_safe maxv (hwin L f store into) (width into).

Lemma averaging_no_overflow L f N nd maxv store into : averaging f = true -> valid_call N nd f store into ->
  (0 <= maxv <= 4095)%Z -> no_overflow L f maxv store into.
Proof. intros A V M. destruct (valid_sides V) as [S1 S2]. split; apply averaging_safe; auto. Qed.

Lemma any_no_overflow L f N nd maxv t store into : valid_call N nd f store into ->
  (0 <= maxv -> 1 <= t <= 10000 -> 6 * t * maxv <= 65535 -> 
   downscale_at_most t store into -> no_overflow L f maxv store into)%Z.
Proof.
  intros V M T B [D1 D2]. destruct (valid_sides V) as [S1 S2].
  assert (H : (Z.max 2 (e_support (filter_entry f) * t) * maxv <= 65535)%Z).
  { assert (1 <= e_support (filter_entry f) <= 6)%Z by (destruct f; cbn; lia). nia. }
  split; apply any_filter_safe with t; auto.
Qed.

Section Calls.
Variables (L : libm) (f : resampling_function) (N : nat) (maxv : Z) (nd : bool).
Variables (pre : pool_t -> image Z -> image Z -> outcome (image Z))
  (unpre : pool_t -> image Z -> outcome (image Z)) (need : image Z -> outcome bool).
Let E := scaler_engine L f N maxv nd pre unpre need.

Lemma scaler_passes_nofail : passes_nofail E.
Proof. constructor; intros; [apply nf_vpass|apply nf_hpass]. Qed.
Lemma scaler_pool_blind : pool_blind E.
Proof. constructor; intros; [now apply vpass_pool|now apply hpass_pool]. Qed.

Hypothesis Hmax : (0 <= maxv)%Z.

(** Convolving filters. *)
Lemma call_raw pool store into : f <> Nearest ->
  valid_call N nd f store into -> changes_size store into -> pool_ok pool ->
  generic_resize N E pool store into =
  Returned Ok (result_image N (passes maxv (resampling_filter L f) store into (picture_of N store)) into).
Proof.
  intros Hf V D HP. unfold E, scaler_engine. assert (wants_nearest f = false) as -> by (destruct f; try reflexivity; congruence).
  apply portable_raw; auto. now apply valid_sane.
Qed.

Lemma call_closed pool store into : f <> Nearest ->
  valid_call N nd f store into -> changes_size store into -> pool_ok pool ->
  samples_in maxv (buf store) -> no_overflow L f maxv store into ->
  generic_resize N E pool store into =
  Returned Ok (result_image N
    (resample maxv (negb (height store =? height into)) (negb (width store =? width into))
       (vwin L f store into) (hwin L f store into) (picture_of N store)) into).
Proof.
  intros Hf V D HP Hin [Sv Sh]. unfold E, scaler_engine. assert (wants_nearest f = false) as -> by (destruct f; try reflexivity; congruence).
  apply portable_closed; auto. now apply valid_sane.
Qed.

(** The same size: a copy. *)
Lemma call_same pool store into : valid_call N nd f store into ->
  width store = width into -> height store = height into ->
  generic_resize N E pool store into =
  Returned Ok (set_buf into (pixmap 0%Z (height into) (stride into) (Nat.min (stride store) (stride into))
    (fun y j => nth (y * stride store + j) (buf store) 0%Z) (buf into))).
Proof.
  intros V Hw Hh. destruct (valid_good V) as [G1 G2]. pose proof (sane_checks (valid_sane L V)) as C.
  unfold generic_resize. cbn [E scaler_engine portable fixed_engine needs_depth]. rewrite C. cbn [try].
  replace (width store =? width into) with true by lia. replace (height store =? height into) with true by lia. cbn [andb].
  rewrite (copied_to_mut_spec N 0%Z store into); auto; try (destruct V; lia).
Qed.
End Calls.

(** Nearest on densely packed images. *)
Lemma nearest_call L N maxv nd pre unpre need pool store into :
  valid_call N nd Nearest store into -> changes_size store into -> pool_ok pool ->
  stride store = width store * N -> stride into = width into * N ->
  generic_resize N (scaler_engine L Nearest N maxv nd pre unpre need) pool store into =
  Returned Ok (result_image N (fun y x c => picture_of N store (nearest_coord (height store) (height into) y)
                                                        (nearest_coord (width store) (width into) x) c) into).
Proof.
  intros V D HP Ss Si. destruct (valid_good V) as [G1 G2]. pose proof (sane_checks (valid_sane L V)) as C.
  destruct (valid_sides V) as [(S1 & S2 & _) (S3 & S4 & _)].
  unfold generic_resize. cbn [scaler_engine portable fixed_engine needs_depth is_nearest wants_nearest coord].
  rewrite C. cbn [try]. unfold changes_size in D.
  replace ((width store =? width into) && (height store =? height into))%bool with false by lia.
  rewrite (resize_nearest_closed N 0%Z); auto; try (destruct V; lia); try (apply G1); try (apply G2).
  - cbn [try]. unfold result_image. do 2 f_equal. rewrite <- Si. apply pixmap_ext.
    { apply (good_stride_pos N into); [destruct V; lia|exact G2]. }
    intros y j Hy Hj. unfold picture_of. rewrite <- Ss. f_equal. lia.
  - intros x Hx. apply nc_range; lia.
  - intros y Hy. apply nc_range; lia.
Qed.

(** ** Reading results *)
Lemma returned_sample N p into x y c (r : callres Z) : 0 < N -> good N into ->
  r = Returned Ok (result_image N p into) -> x < width into -> y < height into -> c < N ->
  exists out, r = Returned Ok out /\ sample N out x y c = Some (p y x c).
Proof. intros HN G -> Hx Hy Hc. eexists; split; [reflexivity|]. now apply result_sample. Qed.

(** ** Prefix sums stay in 32 bits *)
Lemma zsum_prefix_abs n m (g : nat -> Z) : m <= n -> (Z.abs (zsum m g) <= zsum n (fun k => Z.abs (g k)))%Z.
Proof.
  intro H. eapply Z.le_trans; [apply zsum_abs|].
  induction n as [|n IH]; [replace m with 0 by lia; cbn; lia|].
  destruct (Nat.eq_dec m (S n)) as [->|]; [lia|]. cbn [zsum]. specialize (IH ltac:(lia)). lia.
Qed.
Lemma safe_prefix maxv W n o (p : nat -> Z) m : (0 <= maxv)%Z -> accumulator_safe maxv W n -> o < n -> m <= wsize W o ->
  (forall k, k < wsize W o -> (0 <= p k <= maxv)%Z) ->
  (- 2 ^ 31 < zsum m (fun k => wcoef W o k * p k) /\ 2 ^ 14 + zsum m (fun k => wcoef W o k * p k) < 2 ^ 31)%Z.
Proof.
  intros Hm S Ho Hmn Hp. specialize (S o Ho).
  pose proof (zsum_prefix_abs (wsize W o) m (fun k => wcoef W o k * p k)%Z Hmn) as A.
  assert (B : (zsum (wsize W o) (fun k => Z.abs (wcoef W o k * p k)) <= zsum (wsize W o) (fun k => Z.abs (wcoef W o k)) * maxv)%Z).
  { rewrite (zsum_ext _ _ (fun k => Z.abs (wcoef W o k) * p k)%Z).
    - apply zsum_le_max; auto; [intros; lia|]. intros k Hk. now apply Hp.
    - intros k Hk. rewrite Z.abs_mul. specialize (Hp k Hk). rewrite (Z.abs_eq (p k)) by lia. reflexivity. }
  unfold accumulator_safe in *. change (2^31)%Z with 2147483648%Z in *. change (2^14)%Z with 16384%Z in *.
  lia.
Qed.

(** ** The calls in terms of what the user sees *)
Lemma result_opd N p into : 0 < N -> good N into -> only_pixels_differ N into (result_image N p into).
Proof.
  intros HN G. constructor; try reflexivity.
  - unfold result_image, set_buf. cbn [buf]. apply pixmap_length.
  - intros i Hi. now apply result_padding.
Qed.
Lemma result_shows N p into : 0 < N -> good N into -> shows N (result_image N p into) p.
Proof. intros HN G x y c Hx Hy Hc. now apply result_sample. Qed.

(** [r] is a successful call that leaves picture [p] in the destination and changes
    nothing else of it. *)
Definition paints {T} (N : nat) (into : image T) (p : nat -> nat -> nat -> T) (r : callres T) : Prop :=
  exists out, r = Returned Ok out /\ only_pixels_differ N into out /\ shows N out p.

Lemma paints_result N p into : 0 < N -> good N into -> paints N into p (Returned Ok (result_image N p into)).
Proof. intros HN G. eexists; split; [reflexivity|]. split; [now apply result_opd|now apply result_shows]. Qed.

Lemma paints_ext {T} N (into : image T) p q r : paints N into p r ->
  (forall x y c, x < width into -> y < height into -> c < N -> p y x c = q y x c) -> paints N into q r.
Proof.
  intros (out & -> & O & S) H. exists out. split; [reflexivity|]. split; [exact O|].
  intros x y c Hx Hy Hc. rewrite (S x y c Hx Hy Hc). f_equal.
  rewrite (opd_width _ _ _ O) in Hx. rewrite (opd_height _ _ _ O) in Hy. now apply H.
Qed.

Section Paints.
Variables (L : libm) (f : resampling_function) (N : nat) (maxv : Z) (nd : bool).
Variables (pre : pool_t -> image Z -> image Z -> outcome (image Z))
  (unpre : pool_t -> image Z -> outcome (image Z)) (need : image Z -> outcome bool).
Variables (pool : pool_t) (store into : image Z).
Hypothesis Hmax : (0 <= maxv)%Z.
Hypothesis V : valid_call N nd f store into.
Hypothesis HP : pool_ok pool.
Let E := scaler_engine L f N maxv nd pre unpre need.
Let HN : 0 < N. Proof. destruct V; lia. Qed.

Lemma paint_raw : f <> Nearest -> changes_size store into ->
  paints N into (passes maxv (resampling_filter L f) store into (picture_of N store)) (generic_resize N E pool store into).
Proof.
  intros Hf D. unfold E. rewrite call_raw by (auto; lia). apply paints_result; auto. now apply valid_good in V.
Qed.

Lemma paint_closed : f <> Nearest -> changes_size store into -> samples_in maxv (buf store) -> no_overflow L f maxv store into ->
  paints N into
    (resample maxv (negb (height store =? height into)) (negb (width store =? width into))
       (filter_windows (resampling_filter L f) (height store) (height into))
       (filter_windows (resampling_filter L f) (width store) (width into)) (picture_of N store))
    (generic_resize N E pool store into).
Proof.
  intros Hf D S O. unfold E. rewrite call_closed by (auto; lia). apply paints_result; auto. now apply valid_good in V.
Qed.
End Paints.

(** With the premultiply flag off, the alpha-aware driver is the plain one. *)
Lemma with_alpha_off {T F} N (E : engine T F) pool store into :
  generic_resize_with_alpha N E pool false store into = generic_resize N E pool store into.
Proof.
  unfold generic_resize_with_alpha, generic_resize, forward_resize_with_alpha, forward_resize_vertical_with_alpha,
    forward_resize_horizontal_with_alpha, premultiply_stage, unpremultiply_stage. cbn [try andb].
  reflexivity.
Qed.

(** ** Sources that agree on visible samples *)
Definition agree_on {T} (N : nat) (a b : image T) : Prop :=
  forall x y c, x < width a -> y < height a -> c < N -> sample N a x y c = sample N b x y c.

Lemma agree_picture N (a b : image Z) x y c : good N a -> good N b -> width a = width b -> height a = height b ->
  sample N a x y c = sample N b x y c -> x < width a -> y < height a -> c < N ->
  picture_of N a y x c = picture_of N b y x c.
Proof.
  intros Ga Gb Hw Hh H Hx Hy Hc. rewrite (good_sample N a) in H by auto. rewrite (good_sample N b) in H by (auto; lia).
  now inversion H.
Qed.

(** Positions of the source that can influence destination sample (x, y). *)
Definition in_window {T} (f : rfilter) (store into : image T) (x y sx sy : nat) : Prop :=
  (if height store =? height into then sy = y
   else wstart (filter_windows f (height store) (height into)) y <= sy <
        wstart (filter_windows f (height store) (height into)) y + wsize (filter_windows f (height store) (height into)) y) /\
  (if width store =? width into then sx = x
   else wstart (filter_windows f (width store) (width into)) x <= sx <
        wstart (filter_windows f (width store) (width into)) x + wsize (filter_windows f (width store) (width into)) x).

Lemma agree_window_in fl store into c x y p p' :
  (forall sx sy, in_window fl store into x y sx sy -> p sy sx c = p' sy sx c) -> agree_window fl store into c x y p p'.
Proof.
  intros H sy sx A B. apply H. split.
  - destruct (height store =? height into); exact A.
  - destruct (width store =? width into); exact B.
Qed.

Lemma in_window_bounds {T} L N nd f (store into : image T) x y sx sy : valid_call N nd f store into -> x < width into -> y < height into ->
  in_window (resampling_filter L f) store into x y sx sy -> sx < width store /\ sy < height store.
Proof.
  intros V Hx Hy [A B]. pose proof (valid_sane L V) as S.
  pose proof (filter_windows_in _ _ _ y (sane_wf_v S) Hy). pose proof (filter_windows_in _ _ _ x (sane_wf_h S) Hx).
  destruct (height store =? height into) eqn:E1, (width store =? width into) eqn:E2; lia.
Qed.

(** ** Constant images under averaging filters *)
Lemma averaging_const L f N nd maxv t v store into p x y c :
  averaging f = true -> valid_call N nd f store into ->
  (1 <= t <= 10000 -> downscale_at_most t store into ->
   0 <= v <= maxv -> (66 * t + 34) * v < 1048576 ->
   (forall sx sy, (sx < width store)%nat -> (sy < height store)%nat -> p sy sx c = v) ->
   (x < width into)%nat -> (y < height into)%nat ->
   let r := resample maxv (negb (height store =? height into)%nat) (negb (width store =? width into)%nat)
              (vwin L f store into) (hwin L f store into) p y x c in
   v - 1 <= r <= v /\ (height store = height into -> r = v))%Z.
Proof.
  intros A V Ht [D1 D2] Hv Hs Hp Hx Hy r. destruct (valid_sides V) as [S1 S2].
  pose proof (valid_sane L V) as S.
  assert (Hn : forall insz outsz o, sides_ok f insz outsz -> (Zn insz <= t * Zn outsz)%Z -> o < outsz ->
             (Zn (wsize (filter_windows (resampling_filter L f) insz outsz) o) <= 2 * t)%Z).
  { intros insz outsz o S0 D Ho. pose proof (window_length L f insz outsz t o S0 Ht D Ho) as W.
    assert (e_support (filter_entry f) = 2%Z) as E by (destruct f; try discriminate A; reflexivity). lia. }
  (* vertical *)
  set (q := if negb (height store =? height into)%nat then resample_v maxv (vwin L f store into) p else p).
  assert (Q : exists u, (0 <= u /\ v - 1 <= u <= v)%Z /\ (height store = height into -> u = v) /\
              forall sx, sx < width store -> q y sx c = u).
  { unfold q. destruct (Nat.eqb_spec (height store) (height into)) as [E|E]; cbn [negb].
    - exists v. split; [lia|]. split; [auto|]. intros sx Hsx. apply Hp; auto. lia.
    - destruct (averaging_windows L f _ _ y A S1 Hy) as (_ & _ & W).
      pose proof (filter_windows_in _ _ _ y (sane_wf_v S) Hy) as WI.
      eexists. split; [|split; [intro; contradiction|]].
      2:{ intros sx Hsx. unfold resample_v, vwin. rewrite (zsum_const _ _ v). reflexivity. intros k Hk. apply Hp; auto. lia. }
      split; [unfold floor_q15, clampZ; lia|].
      apply const_pass_v with (2 * t)%Z; auto; try (apply Hn; auto). lia. }
  destruct Q as (u & Hu & Hu2 & Q). unfold r, resample. fold q.
  destruct (Nat.eqb_spec (width store) (width into)) as [E|E]; cbn [negb].
  - rewrite Q by lia. split; [lia|exact Hu2].
  - destruct (averaging_windows L f _ _ x A S2 Hx) as (W1 & _ & W).
    pose proof (filter_windows_in _ _ _ x (sane_wf_h S) Hx) as WI.
    unfold resample_h, hwin. rewrite (zsum_const _ _ u) by (intros k Hk; apply Q; lia).
    rewrite (const_pass_h _ (2 * t)%Z); auto; try (apply Hn; auto); try lia; try nia.
Qed.
