(** 16-bit images on x86-64: a result depends on its window where the columns are read in place. *)
From Coq Require Import ZArith List Lia Bool ZifyBool ZifyNat Permutation.
From Verif Require Import Base BaseProofs ImageStore FixedPoint Dispatch Resize Spec SpecApi SpecFloat F32 FloatConv Weights Sampler Api
  KernelProofs DispatchProofs ResizeProofs NoFail ImageProofs PoolProofs PortableProofs FloatConvProofs Alpha ApiFloat ApiProofs DriverProofs FloatApiProofs Witness
  X86Dispatch X86Alpha X86Float X86U16 SpecX86U16 X86U16Calls X86U16Facts X86U8Local.
Import ListNotations.
Local Open Scope nat_scope.

Lemma taps_windows fl n m o : tstart (filter_taps fl n m) o = wstart (filter_windows fl n m) o /\ tsize (filter_taps fl n m) o = wsize (filter_windows fl n m) o.
Proof. split; reflexivity. Qed.

Lemma ordered_sum_ext (madd : f32 -> f32 -> f32 -> f32) (l : list nat) (x x' w : nat -> f32) a : (forall k, In k l -> x k = x' k) ->
  fold_left (fun s k => madd s (x k) (w k)) l a = fold_left (fun s k => madd s (x' k) (w k)) l a.
Proof.
  revert a. induction l as [|k l IH]; intros a H; [reflexivity|]. cbn [fold_left]. rewrite (H k) by (left; reflexivity).
  apply IH. intros; apply H; now right.
Qed.
Lemma tap_read_inside n k : k < n -> tap_read n k < n.
Proof.
  intro H. unfold tap_read. destruct ((k =? taps8 n) && (taps8 n <? taps4 n)) eqn:E1; [|clear E1; match goal with |- context [if ?b then _ else _] => destruct b end; lia].
  apply andb_prop in E1 as [E1 E2]. apply Nat.eqb_eq in E1. apply Nat.ltb_lt in E2.
  assert (A : taps8 n < n) by (unfold taps8; pose proof (Nat.div_mod (n - 1) 8 ltac:(lia)); lia).
  assert (B : taps4 n < n) by (unfold taps4; pose proof (Nat.div_mod (n - taps8 n - 1) 4 ltac:(lia)); lia).
  lia.
Qed.

Section Formula.
Variables (k : mlaf_kind) (c : fcpu) (N : nat) (p q : picture).
(** The columns pass of a picture w pixels wide reads column (x, ch) from its own position. *)
Lemma flat_in_place (parts : list nat) w (r : picture) y x ch : reads_in_place parts (w * N) -> x < w -> ch < N ->
  flat N r y (column_read parts 0 (w * N) (x * N + ch)) = r y x ch.
Proof using Type. intros R Hx Hc. rewrite R by nia. now apply flat_at. Qed.

Lemma low_v_window w maxv W y x ch : reads_in_place (vparts c) (w * N) \/ vectors c = false -> x < w -> ch < N ->
  (forall j, j < wsize W y -> p (wstart W y + j) x ch = q (wstart W y + j) x ch) ->
  x86u_v c N w maxv W p y x ch = x86u_v c N w maxv W q y x ch.
Proof using Type.
  intros R Hx Hc H. unfold x86u_v. destruct (vectors c).
  - destruct R as [R|R]; [|discriminate]. unfold u16_fixed_v. f_equal. apply zsum_ext. intros j Hj.
    rewrite !flat_in_place by assumption. now rewrite H.
  - unfold resample_v. f_equal. apply zsum_ext. intros j Hj. now rewrite H.
Qed.
Lemma deep_v_window d w W y x ch : reads_in_place sse_parts (w * N) \/ sse41 (base_cpu c) = false -> x < w -> ch < N ->
  (forall j, j < tsize W y -> p (tstart W y + j) x ch = q (tstart W y + j) x ch) ->
  x86u_float_v k c d N w W p y x ch = x86u_float_v k c d N w W q y x ch.
Proof using Type.
  intros R Hx Hc H. unfold x86u_float_v. destruct (sse41 (base_cpu c)).
  - destruct R as [R|R]; [|discriminate]. unfold u16_float_v.
    destruct (x * N + ch <? w * N / 4 * 4); f_equal; apply accumulate_ext; intros j Hj; (split; [|reflexivity]);
      cbv beta zeta; rewrite !flat_in_place by assumption; now rewrite H.
  - unfold float_v. f_equal. apply (weighted_ext f0 fmul (mlaf k) u16_as_f32 (to_mixed_u16 d) 0%Z). intros j Hj. split; [|reflexivity]. now rewrite H.
Qed.
Lemma deep_h_window d h W y x ch :
  (forall j, j < tsize W x -> p y (tstart W x + j) ch = q y (tstart W x + j) ch) ->
  x86u_float_h k c d N h W p y x ch = x86u_float_h k c d N h W q y x ch.
Proof using Type.
  intros H. unfold x86u_float_h. destruct (_ && _).
  - unfold u16_float_row, ordered_sum. do 2 f_equal. apply ordered_sum_ext. intros j Hj. f_equal. apply H. apply tap_read_inside.
    assert (I : In j (seq 0 (tsize W x))) by (eapply Permutation_in; [apply tap_order_perm|exact Hj]). apply in_seq in I. lia.
  - unfold float_h. f_equal. apply (weighted_ext f0 fmul (mlaf k) u16_as_f32 (to_mixed_u16 d) 0%Z). intros j Hj. split; [|reflexivity]. now rewrite H.
Qed.
End Formula.

Section Window.
Variables (k : mlaf_kind) (c : fcpu) (L : libm) (f : resampling_function) (N : nat) (store into : image Z) (p q : picture) (x y ch : nat).
Let VW := filter_windows (resampling_filter L f) (height store) (height into).
Let HW := filter_windows (resampling_filter L f) (width store) (width into).
Hypothesis Hch : ch < N.
Hypothesis Hx : x < width into.
Hypothesis Inside : wstart HW x + wsize HW x <= width store.
Hypothesis H : forall sx sy, in_window (resampling_filter L f) store into x y sx sy -> p sy sx ch = q sy sx ch.
Lemma low_window maxv : height store = height into \/ reads_in_place (vparts c) (width store * N) \/ vectors c = false ->
  x86u_low c N (width store) (height store) (width into) (height into) maxv VW HW p y x ch =
  x86u_low c N (width store) (height store) (width into) (height into) maxv VW HW q y x ch.
Proof using All.
  intros R. unfold x86u_low, u16_two_passes. unfold in_window in H. fold VW in H. fold HW in H.
  destruct (height store =? height into) eqn:Eh; destruct (width store =? width into) eqn:Ew.
  - apply H. auto.
  - unfold resample_h. f_equal. apply zsum_ext. intros j Hj. f_equal. apply H. split; [reflexivity|lia].
  - destruct R as [R|R]; [lia|]. apply low_v_window; auto; [lia|]. intros j Hj. apply H. split; [lia|reflexivity].
  - destruct R as [R|R]; [lia|]. unfold resample_h. f_equal. apply zsum_ext. intros j Hj. f_equal.
    apply low_v_window; auto; [lia|]. intros i Hi. apply H. lia.
Qed.
Lemma deep_window d : height store = height into \/ reads_in_place sse_parts (width store * N) \/ sse41 (base_cpu c) = false ->
  let VT := filter_taps (resampling_filter L f) (height store) (height into) in
  let HT := filter_taps (resampling_filter L f) (width store) (width into) in
  x86u_deep k c d N (width store) (height store) (width into) (height into) VT HT p y x ch =
  x86u_deep k c d N (width store) (height store) (width into) (height into) VT HT q y x ch.
Proof using All.
  intros R VT HT. unfold x86u_deep, u16_two_passes. unfold in_window in H. fold VW in H. fold HW in H.
  assert (S1 : forall o, tstart VT o = wstart VW o) by reflexivity. assert (S2 : forall o, tsize VT o = wsize VW o) by reflexivity.
  assert (S3 : forall o, tstart HT o = wstart HW o) by reflexivity. assert (S4 : forall o, tsize HT o = wsize HW o) by reflexivity.
  destruct (height store =? height into) eqn:Eh; destruct (width store =? width into) eqn:Ew.
  - apply H. auto.
  - apply deep_h_window. rewrite S3, S4. intros j Hj. apply H. split; [reflexivity|lia].
  - destruct R as [R|R]; [lia|]. apply deep_v_window; auto; [lia|]. rewrite S1, S2. intros j Hj. apply H. split; [lia|reflexivity].
  - destruct R as [R|R]; [lia|]. apply deep_h_window. rewrite S3, S4. intros j Hj.
    apply deep_v_window; auto; [lia|]. rewrite S1, S2. intros i Hi. apply H. lia.
Qed.
End Window.

Lemma low_depth d : 1 <= d -> d <= 12 -> (1 <= max_colors d <= 4095)%Z.
Proof.
  intros H1 H2. unfold max_colors.
  assert (2 ^ 1 <= 2 ^ Z.of_nat d <= 2 ^ 12)%Z by (split; apply Z.pow_le_mono_r; lia). lia.
Qed.
Section Calls.
Variables (k : mlaf_kind) (c : fcpu) (L : libm) (f : resampling_function) (N : nat).
Hypothesis Hf : f <> Nearest.
Variables (pool pool' : pool_t) (store store' into into' out out' : image Z) (x y ch : nat).
Hypothesis V : valid_call N true f store into.
Hypothesis V' : valid_call N true f store' into'.
Hypothesis P : pool_ok pool.
Hypothesis P' : pool_ok pool'.
Hypothesis W1 : width store = width store'.
Hypothesis W2 : height store = height store'.
Hypothesis W3 : width into = width into'.
Hypothesis W4 : height into = height into'.
Hypothesis W5 : bit_depth into = bit_depth into'.
Hypothesis D : changes_size store into.
Hypothesis R : resize_u16_x86 k c L f N pool store into = Returned Ok out.
Hypothesis R' : resize_u16_x86 k c L f N pool' store' into' = Returned Ok out'.
Hypothesis Hx : x < width into.
Hypothesis Hy : y < height into.
Hypothesis Hc : ch < N.
Hypothesis A : forall sx sy, in_window (resampling_filter L f) store into x y sx sy -> sample N store sx sy ch = sample N store' sx sy ch.
Let D' : changes_size store' into'. Proof. unfold changes_size in *; lia. Qed.
Let inside : wstart (filter_windows (resampling_filter L f) (width store) (width into)) x + wsize (filter_windows (resampling_filter L f) (width store) (width into)) x <= width store.
Proof. destruct (filter_windows_in _ _ _ x (sane_wf_h (valid_sane L V)) Hx) as (Q1 & Q2). lia. Qed.
Let same : forall sx sy, in_window (resampling_filter L f) store into x y sx sy -> picture_of N store sy sx ch = picture_of N store' sy sx ch.
Proof.
  intros sx sy Hin. destruct (valid_good V) as [G1 G2]. destruct (valid_good V') as [G1' G2'].
  destruct (in_window_bounds L N true f store into x y sx sy V Hx Hy Hin) as [B1 B2]. apply picture_same; auto; lia.
Qed.
Theorem u16_local_low : bit_depth into <= 12 -> samples_in (max_colors (bit_depth into)) (buf store) -> samples_in (max_colors (bit_depth into)) (buf store') ->
  sums_fit f (max_colors (bit_depth into)) store into ->
  height store = height into \/ reads_in_place (vparts c) (width store * N) \/ vectors c = false ->
  sample N out x y ch = sample N out' x y ch.
Proof using All.
  intros Hb S S' F RP. pose proof (vc_N _ _ _ _ _ V) as HN. destruct (valid_good V) as [G1 G2]. destruct (valid_good V') as [G1' G2'].
  assert (M : (1 <= max_colors (bit_depth into) <= 4095)%Z) by (apply low_depth; [apply V; reflexivity|exact Hb]).
  destruct (fit_small L f N true _ store into V M F) as [S1 S2].
  assert (F' : sums_fit f (max_colors (bit_depth into')) store' into').
  { rewrite <- W5. unfold sums_fit, downscale_at_most in *. now rewrite <- W1, <- W2, <- W3, <- W4. }
  assert (S'' : samples_in (max_colors (bit_depth into')) (buf store')) by (rewrite <- W5; exact S').
  assert (M' : (1 <= max_colors (bit_depth into') <= 4095)%Z) by (rewrite <- W5; exact M).
  destruct (fit_small L f N true _ store' into' V' M' F') as [S1' S2'].
  pose proof (u16_low_call k c L f N pool store into V P Hf D Hb S S1 S2) as E.
  pose proof (u16_low_call k c L f N pool' store' into' V' P' Hf D' ltac:(lia) S'' S1' S2') as E'.
  rewrite R in E. rewrite R' in E'. inversion E as [E1]. inversion E' as [E1']. 
  rewrite !painted_sample by (auto; lia). f_equal. rewrite <- W1, <- W2, <- W3, <- W4, <- W5.
  apply (low_window k c L f N store into); auto.
Qed.
Theorem u16_local_deep : 12 < bit_depth into ->
  height store = height into \/ reads_in_place sse_parts (width store * N) \/ sse41 (base_cpu c) = false ->
  sample N out x y ch = sample N out' x y ch.
Proof using All.
  intros Hb RP. pose proof (vc_N _ _ _ _ _ V) as HN. destruct (valid_good V) as [G1 G2]. destruct (valid_good V') as [G1' G2'].
  pose proof (u16_deep_call k c L f N pool store into V P Hf D Hb) as E.
  pose proof (u16_deep_call k c L f N pool' store' into' V' P' Hf D' ltac:(lia)) as E'.
  rewrite R in E. rewrite R' in E'. inversion E as [E1]. inversion E' as [E1'].
  rewrite !painted_sample by (auto; lia). f_equal. rewrite <- W1, <- W2, <- W3, <- W4, <- W5.
  apply (deep_window k c L f N store into); auto.
Qed.
End Calls.
