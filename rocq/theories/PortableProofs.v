(** The portable (non-SIMD) fixed point resize at the level of the public call:
    consequences of the closed form of ResizeProofs.v. *)
From Coq Require Import ZArith List Lia Bool ZifyBool ZifyNat ZifyN.
From Verif Require Import Base BaseProofs ImageStore ColorGroup FixedPoint Dispatch Resize Spec
  KernelProofs DispatchProofs ResizeProofs F32 Weights WeightsProofs QuantProofs NoFail ImageProofs PoolProofs NearestProofs.
Import ListNotations.

(** A call a user would consider valid: 1..4 channels; both images consist of
    [height] rows of [stride >= width*channels] samples; sizes fit the machine;
    the sides do not exceed the range in which f32 counts exactly. *)
Record sane_call {T} (N : nat) (nd : bool) (fl : rfilter) (store into : image T) : Prop := mkSane {
  sc_N : 1 <= N <= 4;
  sc_fl : support_ok fl;
  sc_src : good N store;
  sc_dst : good N into;
  sc_chan : channels store = N;
  sc_slen : fits_usize (length (buf store));
  sc_dlen : fits_usize (length (buf into));
  sc_mid : fits_usize (width store * height into * N);
  sc_depth : nd = true -> 1 <= bit_depth into <= 16;
  sc_w : (Z.of_nat (width store) <= 2 ^ 23)%Z;
  sc_h : (Z.of_nat (height store) <= 2 ^ 23)%Z;
  sc_area : is_area fl = true -> (Z.of_nat (width into) <= 2 ^ 22 /\ Z.of_nat (height into) <= 2 ^ 22)%Z
}.

Lemma sane_fits {T} {N nd fl} {store into : image T} : sane_call N nd fl store into ->
  span_fits store /\ span_fits into /\ (Z.of_nat (width into) <= 2 ^ 64)%Z /\ (Z.of_nat (height into) <= 2 ^ 64)%Z.
Proof.
  intros [A1 A2 A3 A4 A5 A6 A7 A8 A9 A10 A11 A12]. destruct A3 as [B1 B2 B3 B4], A4 as [C1 C2 C3 C4].
  unfold span_fits, fits_usize, usize_mod in *. rewrite B4 in A6. rewrite C4 in A7.
  repeat split; nia.
Qed.

Lemma sane_checks {T} {N nd fl} {store into : image T} : sane_call N nd fl store into -> checks N nd store into = Done tt.
Proof.
  intro H. destruct (sane_fits H) as (S1 & S2 & _). destruct H. apply good_checks; auto. lia.
Qed.

Lemma sane_wf_v {T} {N nd fl} {store into : image T} : sane_call N nd fl store into ->
  wf_fw (generate_weights fl (height store) (height into)) (height store) (height into).
Proof.
  intro H. destruct (sane_fits H) as (_ & _ & _ & S4). destruct H as [A1 A2 A3 A4 A5 A6 A7 A8 A9 A10 A11 A12].
  destruct A3, A4. apply generate_weights_wf; try assumption; try lia; intro Q; apply A12; exact Q.
Qed.
Lemma sane_wf_h {T} {N nd fl} {store into : image T} : sane_call N nd fl store into ->
  wf_fw (generate_weights fl (width store) (width into)) (width store) (width into).
Proof.
  intro H. destruct (sane_fits H) as (_ & _ & S3 & _). destruct H as [A1 A2 A3 A4 A5 A6 A7 A8 A9 A10 A11 A12].
  destruct A3, A4. apply generate_weights_wf; try assumption; try lia; intro Q; apply A12; exact Q.
Qed.

(** The sample each pass produces with 32-bit wrap-around arithmetic. *)
Definition acc32 (z : Z) : Z := wrap32 z.
Definition pass_v (maxv : Z) (W : windows) (p : picture) : picture := fun y x c =>
  clampZ 0 maxv (acc32 (zsum (wsize W y) (fun k => wcoef W y k * p (wstart W y + k)%nat x c)) / 2 ^ 15)%Z.
Definition pass_h (maxv : Z) (W : windows) (p : picture) : picture := fun y x c =>
  clampZ 0 maxv (acc32 (2 ^ 14 + zsum (wsize W x) (fun k => wcoef W x k * p y (wstart W x + k)%nat c)) / 2 ^ 15)%Z.
Definition passes (maxv : Z) (fl : rfilter) (store into : image Z) (p : picture) : picture :=
  let p := if negb (height store =? height into) then pass_v maxv (filter_windows fl (height store) (height into)) p else p in
  if negb (width store =? width into) then pass_h maxv (filter_windows fl (width store) (width into)) p else p.

Definition result_image (N : nat) (p : picture) (into : image Z) : image Z :=
  set_buf into (pixmap 0%Z (height into) (stride into) (width into * N) (fun y j => p y (j / N) (j mod N)) (buf into)).

Section Portable.
Variables (N : nat) (maxv : Z) (nd : bool) (fl : rfilter).
Variables (pre : pool_t -> image Z -> image Z -> outcome (image Z))
  (unpre : pool_t -> image Z -> outcome (image Z)) (need : image Z -> outcome bool).
Hypothesis Hmax : (0 <= maxv)%Z.
Let E := portable N maxv nd false fl pre unpre need.

Lemma portable_raw pool store into :
  sane_call N nd fl store into -> changes_size store into -> pool_ok pool ->
  generic_resize N E pool store into =
  Returned Ok (result_image N (passes maxv fl store into (picture_of N store)) into).
Proof.
  intros S D HP. unfold E, portable. rewrite (resize_raw N maxv quant_i16 nd nearest_coord (generate_weights fl) pre unpre need
    (sc_N _ _ _ _ _ S) pool store into HP (sane_checks S) (sc_src _ _ _ _ _ S) (sc_dst _ _ _ _ _ S) D
    (sane_wf_v S) (sane_wf_h S) (sc_mid _ _ _ _ _ S)).
  unfold result_image. do 2 f_equal. apply pixmap_ext.
  { apply (good_stride_pos N into); [pose proof (sc_N _ _ _ _ _ S); lia|apply (sc_dst _ _ _ _ _ S)]. }
  intros y j Hy Hj. unfold raw_resample, passes.
  assert (Vr : forall p y x c, raw_v maxv quant_i16 (generate_weights fl) store into p y x c =
                 pass_v maxv (filter_windows fl (height store) (height into)) p y x c).
  { intros. unfold raw_v, pass_v, acc32. rewrite saturate_narrow_spec by auto. reflexivity. }
  assert (Hr : forall p y x c, raw_h maxv quant_i16 (generate_weights fl) store into p y x c =
                 pass_h maxv (filter_windows fl (width store) (width into)) p y x c).
  { intros. unfold raw_h, pass_h, acc32. rewrite saturate_narrow_spec by auto. rewrite ROUNDING_CONST_val. reflexivity. }
  destruct (negb (height store =? height into)), (negb (width store =? width into)); auto.
  rewrite Hr. unfold pass_h. do 4 f_equal. apply zsum_ext. intros k Hk. now rewrite Vr.
Qed.

Lemma portable_closed pool store into :
  sane_call N nd fl store into -> changes_size store into -> pool_ok pool ->
  samples_in maxv (buf store) ->
  accumulator_safe maxv (filter_windows fl (height store) (height into)) (height into) ->
  accumulator_safe maxv (filter_windows fl (width store) (width into)) (width into) ->
  generic_resize N E pool store into =
  Returned Ok (result_image N
    (resample maxv (negb (height store =? height into)) (negb (width store =? width into))
       (filter_windows fl (height store) (height into)) (filter_windows fl (width store) (width into))
       (picture_of N store)) into).
Proof.
  intros S D HP Hin Sv Sh. unfold E, portable.
  rewrite (resize_closed N maxv quant_i16 nd nearest_coord (generate_weights fl) pre unpre need
    (sc_N _ _ _ _ _ S) Hmax pool store into HP (sane_checks S) (sc_src _ _ _ _ _ S) (sc_dst _ _ _ _ _ S) D
    (sane_wf_v S) (sane_wf_h S) (sc_mid _ _ _ _ _ S) Hin Sv Sh). reflexivity.
Qed.

Lemma portable_passes_nofail : passes_nofail E.
Proof. constructor; intros; [apply nf_vpass|apply nf_hpass]. Qed.
Lemma portable_pool_blind : pool_blind E.
Proof. constructor; intros; [now apply vpass_pool|now apply hpass_pool]. Qed.
End Portable.

(** ** Reading the result image *)
Lemma result_sample N p into x y c : 0 < N -> good N into ->
  x < width into -> y < height into -> c < N ->
  sample N (result_image N p into) x y c = Some (p y x c).
Proof.
  intros HN G Hx Hy Hc. unfold sample, result_image, set_buf. cbn [buf stride].
  replace (y * stride into + x * N + c) with (y * stride into + (x * N + c)) by lia.
  rewrite pixmap_at; try assumption.
  - f_equal. f_equal.
    + rewrite Nat.add_comm, Nat.div_add, Nat.div_small by lia. lia.
    + rewrite Nat.add_comm, Nat.mod_add by lia. apply Nat.mod_small. lia.
  - apply (good_stride_pos N into HN G).
  - apply (g_len _ _ G).
  - nia.
  - apply (g_stride _ _ G).
Qed.

Lemma result_padding N p into i : 0 < N -> good N into ->
  width into * N <= i mod stride into ->
  nth_error (buf (result_image N p into)) i = nth_error (buf into) i.
Proof.
  intros HN G Hi. unfold result_image, set_buf. cbn [buf]. rewrite nth_error_pixmap.
  replace (i mod stride into <? width into * N) with false by lia. rewrite andb_false_r.
  destruct (i <? length (buf into)) eqn:L.
  - symmetry. apply nth_error_nth_lt. lia.
  - symmetry. apply nth_error_None. lia.
Qed.

Lemma result_length N p into : length (buf (result_image N p into)) = length (buf into).
Proof. unfold result_image. cbn. apply pixmap_length. Qed.

Lemma picture_sample N im x y c v : sample N im x y c = Some v -> picture_of N im y x c = v.
Proof.
  unfold sample, picture_of. intro H. replace (y * stride im + (x * N + c)) with (y * stride im + x * N + c) by lia.
  now apply nth_error_nth.
Qed.
Lemma good_sample N (im : image Z) x y c : good N im -> x < width im -> y < height im -> c < N ->
  sample N im x y c = Some (picture_of N im y x c).
Proof.
  intros G Hx Hy Hc. unfold sample, picture_of.
  replace (y * stride im + (x * N + c)) with (y * stride im + x * N + c) by lia.
  apply nth_error_nth_lt. now apply good_addressable.
Qed.

(** ** Windows of a filter stay inside the source *)
Lemma filter_windows_in fl insz outsz o :
  wf_fw (generate_weights fl insz outsz) insz outsz -> o < outsz ->
  1 <= wsize (filter_windows fl insz outsz) o /\
  wstart (filter_windows fl insz outsz) o + wsize (filter_windows fl insz outsz) o <= insz.
Proof.
  intros W Ho. pose proof (wf_nth _ _ _ o W Ho) as B. cbv zeta in B.
  unfold filter_windows, windows_of. cbn [wsize wstart]. lia.
Qed.

Local Open Scope Z_scope.
(** ** Locality: a destination sample depends only on its window *)
Definition agree_window (fl : rfilter) (store into : image Z) (c x y : nat) (p p' : picture) : Prop :=
  forall sy sx,
    (if negb (height store =? height into)%nat
     then (wstart (filter_windows fl (height store) (height into)) y <= sy <
           wstart (filter_windows fl (height store) (height into)) y + wsize (filter_windows fl (height store) (height into)) y)%nat
     else sy = y) ->
    (if negb (width store =? width into)%nat
     then (wstart (filter_windows fl (width store) (width into)) x <= sx <
           wstart (filter_windows fl (width store) (width into)) x + wsize (filter_windows fl (width store) (width into)) x)%nat
     else sx = x) ->
    p sy sx c = p' sy sx c.

Lemma passes_local maxv fl store into p p' x y c :
  agree_window fl store into c x y p p' ->
  passes maxv fl store into p y x c = passes maxv fl store into p' y x c.
Proof.
  unfold agree_window, passes. intro H.
  destruct (negb (height store =? height into)%nat), (negb (width store =? width into)%nat).
  - unfold pass_h. do 4 f_equal. apply zsum_ext. intros k Hk. f_equal.
    unfold pass_v. do 3 f_equal. apply zsum_ext. intros k' Hk'. f_equal. apply H; lia.
  - unfold pass_v. do 3 f_equal. apply zsum_ext. intros k' Hk'. f_equal. apply H; lia.
  - unfold pass_h. do 4 f_equal. apply zsum_ext. intros k Hk. f_equal. apply H; lia.
  - apply H; reflexivity.
Qed.

Lemma passes_range maxv fl store into p x y c : 0 <= maxv -> changes_size store into ->
  0 <= passes maxv fl store into p y x c <= maxv.
Proof.
  intros Hm D. unfold passes, changes_size in *.
  destruct (negb (width store =? width into)%nat) eqn:E1; [apply clampZ_range; auto|].
  destruct (negb (height store =? height into)%nat) eqn:E2; [apply clampZ_range; auto|]. lia.
Qed.

(** ** Monotonicity *)
Lemma zsum_le_pointwise n (w f g : nat -> Z) :
  (forall k, (k < n)%nat -> 0 <= w k) -> (forall k, (k < n)%nat -> f k <= g k) ->
  zsum n (fun k => w k * f k) <= zsum n (fun k => w k * g k).
Proof. intros Hw Hf. apply zsum_le. intros k Hk. specialize (Hw k Hk). specialize (Hf k Hk). nia. Qed.

Definition nonneg_weights (W : windows) (n : nat) : Prop :=
  forall o k, (o < n)%nat -> (k < wsize W o)%nat -> 0 <= wcoef W o k.

Lemma clampZ_mono lo hi a b : a <= b -> clampZ lo hi a <= clampZ lo hi b.
Proof. unfold clampZ. lia. Qed.

Lemma floor_q15_mono maxv a b : a <= b -> floor_q15 maxv a <= floor_q15 maxv b.
Proof. intro H. unfold floor_q15. apply clampZ_mono. apply Z.div_le_mono; lia. Qed.
Lemma round_q15_mono maxv a b : a <= b -> round_q15 maxv a <= round_q15 maxv b.
Proof. intro H. unfold round_q15. apply clampZ_mono. apply Z.div_le_mono; lia. Qed.

Lemma resample_mono maxv dv dh V H (hs ws hd wd : nat) p p' y x c :
  (dv = false -> hs = hd) -> (dh = false -> ws = wd) ->
  (forall o, (o < hd)%nat -> (wstart V o + wsize V o <= hs)%nat) ->
  (forall o, (o < wd)%nat -> (wstart H o + wsize H o <= ws)%nat) ->
  nonneg_weights V hd -> nonneg_weights H wd ->
  (forall y x, (y < hs)%nat -> (x < ws)%nat -> p y x c <= p' y x c) ->
  (y < hd)%nat -> (x < wd)%nat ->
  resample maxv dv dh V H p y x c <= resample maxv dv dh V H p' y x c.
Proof.
  intros Ev Eh Wv Wh NV NH Hp Hy Hx. unfold resample.
  assert (Mv : forall x, (x < ws)%nat ->
    (if dv then resample_v maxv V p else p) y x c <= (if dv then resample_v maxv V p' else p') y x c).
  { intros x' Hx'. destruct dv.
    - unfold resample_v. apply floor_q15_mono. specialize (Wv y Hy). apply zsum_le_pointwise.
      + intros k Hk. now apply NV.
      + intros k Hk. apply Hp; lia.
    - apply Hp; [rewrite Ev; auto|auto]. }
  destruct dh.
  - unfold resample_h. apply round_q15_mono. specialize (Wh x Hx). apply zsum_le_pointwise.
    + intros k Hk. now apply NH.
    + intros k Hk. apply Mv. lia.
  - apply Mv. rewrite Eh; auto.
Qed.

(** ** Constants *)
Lemma zsum_const n (w : nat -> Z) v f :
  (forall k, (k < n)%nat -> f k = v) -> zsum n (fun k => w k * f k) = zsum n w * v.
Proof.
  induction n as [|n IH]; intro H; cbn [zsum]; [reflexivity|].
  rewrite IH by (intros; apply H; lia). rewrite (H n) by lia. ring.
Qed.

(** The coefficients of every window sum to exactly one. *)
Definition unit_weights (W : windows) (n : nat) : Prop :=
  forall o, (o < n)%nat -> zsum (wsize W o) (wcoef W o) = 2 ^ 15.

Lemma resample_const maxv dv dh V H (hs ws hd wd : nat) p v y x c :
  0 <= v <= maxv ->
  (dv = false -> hs = hd) -> (dh = false -> ws = wd) ->
  (forall o, (o < hd)%nat -> (wstart V o + wsize V o <= hs)%nat) ->
  (forall o, (o < wd)%nat -> (wstart H o + wsize H o <= ws)%nat) ->
  (dv = true -> unit_weights V hd) -> (dh = true -> unit_weights H wd) ->
  (forall y x, (y < hs)%nat -> (x < ws)%nat -> p y x c = v) ->
  (y < hd)%nat -> (x < wd)%nat ->
  resample maxv dv dh V H p y x c = v.
Proof.
  intros Hv Ev Eh Wv Wh UV UH Hp Hy Hx. unfold resample.
  assert (Mv : forall x, (x < ws)%nat -> (if dv then resample_v maxv V p else p) y x c = v).
  { intros x' Hx'. destruct dv.
    - unfold resample_v. specialize (Wv y Hy). rewrite (zsum_const _ _ v).
      + rewrite (UV eq_refl y Hy). unfold floor_q15, clampZ.
        rewrite Z.mul_comm, Z.div_mul by lia. lia.
      + intros k Hk. apply Hp; lia.
    - apply Hp; [rewrite Ev; auto|auto]. }
  destruct dh.
  - unfold resample_h. specialize (Wh x Hx). rewrite (zsum_const _ _ v).
    + rewrite (UH eq_refl x Hx). unfold round_q15, clampZ.
      replace (2 ^ 15 * v + 2 ^ 14) with (2 ^ 14 + v * 2 ^ 15) by ring.
      rewrite Z.div_add by lia. change (2 ^ 14 / 2 ^ 15) with 0. lia.
    + intros k Hk. apply Mv. lia.
  - apply Mv. rewrite Eh; auto.
Qed.

(** Non-negative coefficients that sum to at most one keep the window maximum. *)
Lemma zsum_le_max n (w f : nat -> Z) M :
  0 <= M -> (forall k, (k < n)%nat -> 0 <= w k) -> (forall k, (k < n)%nat -> f k <= M) ->
  zsum n (fun k => w k * f k) <= zsum n w * M.
Proof.
  intros HM. induction n as [|n IH]; intros Hw Hf; cbn [zsum]; [lia|].
  assert (zsum n (fun k => w k * f k) <= zsum n w * M) by (apply IH; intros; [apply Hw|apply Hf]; lia).
  pose proof (Hw n ltac:(lia)). pose proof (Hf n ltac:(lia)). nia.
Qed.
