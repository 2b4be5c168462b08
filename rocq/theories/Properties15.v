(** C72-C75: 16-bit images on x86-64. *)
From Coq Require Import ZArith List Bool Lia Permutation ZifyBool ZifyNat.
From Verif Require Import Base BaseProofs FixedPoint FloatConv ImageStore Dispatch Resize Spec SpecApi SpecFloat SpecKernels F32 Weights Sampler
  Center SamplerProofs PortableProofs ResizeProofs NoFail PoolProofs ApiProofs Api Alpha ApiFloat DriverProofs FloatApiProofs KernelProofs X86Dispatch X86Alpha X86Float
  SpecX86 DispatchProofs X86U16 SpecX86U16 X86U16Calls X86U16Facts X86Calls QuantSums DeepCalls Properties4.
From Verif Require Import ImageProofs.
From Verif Require Properties13.
Import ListNotations.
Local Open Scope nat_scope.

Definition any_libm : libm := Properties13.any_libm.
Definition sse_only : fcpu := Properties13.sse_only.
Definition avx2_fma : fcpu := Properties13.avx2_fma.
(** RGBA, tightly packed. *)
Definition deep4 (w h d : nat) (b : list Z) : image Z := mkImage b 4 w h (w * 4) d.
Definition value_at (N : nat) (r : callres Z) (x y c : nat) : option Z :=
  match r with Returned Ok out => sample N out x y c | _ => None end.
Lemma value_at_is N r x y c v : value_at N r x y c = Some v -> exists out, r = Returned Ok out /\ sample N out x y c = Some v.
Proof. unfold value_at. destruct r as [[|e] out|]; try discriminate. intro H. exists out. auto. Qed.

(** ** Closed forms *)
Lemma low_paints k c L f N pool (store into : image Z) :
  f <> Nearest -> bit_depth into <= 12 -> valid_call N true f store into -> changes_size store into -> pool_ok pool ->
  samples_in (max_colors (bit_depth into)) (buf store) -> sums_fit f (max_colors (bit_depth into)) store into ->
  resize_u16_x86 k c L f N pool store into =
  Returned Ok (painted 0%Z N (x86u_low c N (width store) (height store) (width into) (height into) (max_colors (bit_depth into))
    (filter_windows (resampling_filter L f) (height store) (height into)) (filter_windows (resampling_filter L f) (width store) (width into)) (picture_of N store)) into).
Proof.
  intros Hf Hb V D P S F. pose proof (low_max into ltac:(apply V; reflexivity) Hb) as M.
  destruct (fit_small L f N true _ store into V M F) as [S1 S2].
  exact (u16_low_call k c L f N pool store into V P Hf D Hb S S1 S2).
Qed.
Lemma painted_shows N p (into : image Z) : 1 <= N -> good N into -> shows N (painted 0%Z N p into) p.
Proof. intros HN G x y ch Hx Hy Hc. apply painted_sample; auto. Qed.

(** ** C75 Whole calls in closed form *)
Theorem C75_low_u16_x86_partial : forall k c L f N pool (store into : image Z),
  f <> Nearest -> bit_depth into <= 12 -> valid_call N true f store into -> changes_size store into -> pool_ok pool ->
  samples_in (max_colors (bit_depth into)) (buf store) -> sums_fit f (max_colors (bit_depth into)) store into ->
  exists out, resize_u16_x86 k c L f N pool store into = Returned Ok out /\ only_pixels_differ N into out /\
    shows N out (x86u_low c N (width store) (height store) (width into) (height into) (max_colors (bit_depth into))
      (filter_windows (resampling_filter L f) (height store) (height into))
      (filter_windows (resampling_filter L f) (width store) (width into)) (picture_of N store)).
Proof.
  intros k c L f N pool store into Hf Hb V D P S F. pose proof (vc_N _ _ _ _ _ V). eexists. split; [apply low_paints; assumption|].
  split; [apply painted_opd; lia|]. apply painted_shows; [lia|apply (valid_good V)].
Qed.
Print Assumptions C75_low_u16_x86_partial.
Theorem C75_deep_u16_x86 : forall k c L f N pool (store into : image Z),
  f <> Nearest -> valid_call N true f store into -> changes_size store into -> pool_ok pool -> 12 < bit_depth into ->
  exists out, resize_u16_x86 k c L f N pool store into = Returned Ok out /\ only_pixels_differ N into out /\
    shows N out (x86u_deep k c (bit_depth into) N (width store) (height store) (width into) (height into)
      (filter_taps (resampling_filter L f) (height store) (height into))
      (filter_taps (resampling_filter L f) (width store) (width into)) (picture_of N store)).
Proof.
  intros k c L f N pool store into Hf V D P Hb. pose proof (vc_N _ _ _ _ _ V). eexists. split; [apply u16_deep_call; assumption|].
  split; [apply painted_opd; lia|]. apply painted_shows; [lia|apply (valid_good V)].
Qed.
Print Assumptions C75_deep_u16_x86.
(** The range of what is written: up to 12 bits always between 0 and the maximum of the depth. *)
Theorem C75_low_range_u16_x86_partial : forall k c L f N pool (store into out : image Z) x y ch,
  f <> Nearest -> bit_depth into <= 12 -> valid_call N true f store into -> changes_size store into -> pool_ok pool ->
  samples_in (max_colors (bit_depth into)) (buf store) -> sums_fit f (max_colors (bit_depth into)) store into ->
  resize_u16_x86 k c L f N pool store into = Returned Ok out -> x < width into -> y < height into -> ch < N ->
  exists v, sample N out x y ch = Some v /\ (0 <= v <= max_colors (bit_depth into))%Z.
Proof.
  intros k c L f N pool store into out x y ch Hf Hb V D P S F R Hx Hy Hc.
  pose proof (low_max into ltac:(apply V; reflexivity) Hb) as M. pose proof (vc_N _ _ _ _ _ V).
  rewrite low_paints in R by assumption. inversion R; subst out. eexists. split; [apply painted_sample; auto; [lia|apply (valid_good V)]|].
  unfold x86u_low, u16_two_passes, x86u_v. unfold changes_size in D.
  destruct (Nat.eqb_spec (height store) (height into)) as [E|E]; destruct (Nat.eqb_spec (width store) (width into)) as [E'|E']; try tauto;
    destruct (vectors c); unfold resample_h, u16_fixed_v, resample_v, round_q15, floor_q15, clampZ; lia.
Qed.
Print Assumptions C75_low_range_u16_x86_partial.
Example C75_nonvacuous :
  valid_call 4 true Bilinear (deep4 3 1 12 (repeat 4095 12)%Z) (deep4 5 2 12 (repeat 0 40)%Z) /\
  sums_fit Lanczos3 4095 (deep4 3 1 12 (repeat 4095 12)%Z) (deep4 5 2 12 (repeat 0 40)%Z) /\
  samples_in (max_colors 12) (repeat 4095 12)%Z /\ changes_size (deep4 3 1 12 (repeat 4095 12)%Z) (deep4 5 2 12 (repeat 0 40)%Z).
Proof.
  split; [unfold deep4; deep_tac|]. split; [right; exists 1%Z; unfold downscale_at_most, deep4; cbn [width height]; lia|].
  split; [|right; cbn; lia]. apply Forall_forall. intros v Hv. apply repeat_spec in Hv. subst v. cbn. lia.
Qed.

(** ** C72 Columns *)
(** Row lengths (in samples) for which every column is computed from itself. *)
Theorem C72_in_place_sse : forall n, reads_in_place sse_parts n <-> n mod 16 = 0 \/ n <= 4 \/ n = 8.
Proof. exact in_place_sse. Qed.
Print Assumptions C72_in_place_sse.
Theorem C72_in_place_avx : forall n, reads_in_place avx_parts n <-> n mod 32 = 0 \/ n <= 4 \/ n = 8 \/ n = 16.
Proof. exact in_place_avx. Qed.
Print Assumptions C72_in_place_avx.

Lemma in_place_is parts N w maxv W p y x ch : reads_in_place parts (w * N) -> x < w -> ch < N ->
  u16_fixed_v parts N w maxv W p y x ch = round_q15 maxv (zsum (wsize W y) (fun k => (wcoef W y k * p (wstart W y + k)%nat x ch)%Z)).
Proof.
  intros I Hx Hc. unfold u16_fixed_v. rewrite I by nia. f_equal. apply zsum_ext. intros i Hi. now rewrite flat_at.
Qed.
(** Up to 12 bits, only the height changes: every sample is the rounded weighted sum over the
    window of its own column. *)
Theorem C72_columns_u16_x86_partial : forall k c L f N pool (store into : image Z),
  f <> Nearest -> bit_depth into <= 12 -> valid_call N true f store into -> pool_ok pool ->
  width store = width into -> height store <> height into -> vectors c = true ->
  samples_in (max_colors (bit_depth into)) (buf store) -> sums_fit f (max_colors (bit_depth into)) store into ->
  reads_in_place (vparts c) (width store * N) ->
  let W := filter_windows (resampling_filter L f) (height store) (height into) in
  exists out, resize_u16_x86 k c L f N pool store into = Returned Ok out /\ only_pixels_differ N into out /\
    shows N out (fun y x ch => round_q15 (max_colors (bit_depth into))
      (zsum (wsize W y) (fun k => wcoef W y k * picture_of N store (wstart W y + k)%nat x ch)%Z)).
Proof.
  intros k c L f N pool store into Hf Hb V P Ew Eh Vc S F I W.
  destruct (C75_low_u16_x86_partial k c L f N pool store into Hf Hb V ltac:(right; exact Eh) P S F) as (out & R & O & Sh).
  exists out. split; [exact R|]. split; [exact O|]. intros x y ch Hx Hy Hc. rewrite Sh by assumption.
  unfold x86u_low, u16_two_passes, x86u_v. rewrite Vc. fold W.
  replace (height store =? height into) with false by lia. replace (width store =? width into) with true by lia.
  f_equal. apply in_place_is; try assumption. rewrite (opd_width _ _ _ O) in Hx. lia.
Qed.
Print Assumptions C72_columns_u16_x86_partial.

Lemma round_above_floor maxv z : (0 <= maxv)%Z -> (0 <= round_q15 maxv z - floor_q15 maxv z <= 1)%Z.
Proof.
  intro M. unfold round_q15, floor_q15, clampZ.
  assert (z / 2 ^ 15 <= (z + 2 ^ 14) / 2 ^ 15 <= z / 2 ^ 15 + 1)%Z.
  { split; [apply Z.div_le_mono; lia|]. rewrite <- (Z.div_add z 1 (2 ^ 15)) by lia. apply Z.div_le_mono; lia. }
  lia.
Qed.
(** There the result exceeds the portable one by at most 1. *)
Theorem C72_close_to_portable_u16_partial : forall k c L f N pool (store into : image Z),
  f <> Nearest -> bit_depth into <= 12 -> valid_call N true f store into -> pool_ok pool ->
  width store = width into -> height store <> height into -> vectors c = true ->
  samples_in (max_colors (bit_depth into)) (buf store) -> sums_fit f (max_colors (bit_depth into)) store into ->
  reads_in_place (vparts c) (width store * N) ->
  exists out out', resize_u16_x86 k c L f N pool store into = Returned Ok out /\ resize_u16 k L f N pool store into = Returned Ok out' /\
    differ_by 0 1 N out out'.
Proof.
  intros k c L f N pool store into Hf Hb V P Ew Eh Vc S F I. pose proof (low_max into ltac:(apply V; reflexivity) Hb) as M.
  destruct (C72_columns_u16_x86_partial k c L f N pool store into Hf Hb V P Ew Eh Vc S F I) as (out & R & O & Sh).
  assert (Q : exists out', resize_u16 k L f N pool store into = Returned Ok out' /\ only_pixels_differ N into out' /\
    shows N out' (two_pass_u16 L f store into (picture_of N store))).
  { unfold resize_u16. rewrite u16_low by auto. destruct (fit_small L f N true _ store into V M F) as [S1 S2].
    apply (paint_closed L f N (max_colors (bit_depth into)) true); auto; try lia; [right; exact Eh|].
    split; apply small_accumulator; assumption. }
  destruct Q as (out' & R' & O' & Sh'). exists out, out'. split; [exact R|]. split; [exact R'|].
  intros x y ch v w Hx Hy Hc Ev Ev'. rewrite Sh in Ev by assumption.
  rewrite Sh' in Ev' by (rewrite ?(opd_width _ _ _ O'), ?(opd_height _ _ _ O'); rewrite ?(opd_width _ _ _ O), ?(opd_height _ _ _ O) in *; assumption).
  inversion Ev; subst v. inversion Ev'; subst w. unfold two_pass_u16, resample, resample_v.
  replace (height store =? height into) with false by lia. replace (width store =? width into) with true by lia. cbn [negb].
  apply round_above_floor. lia.
Qed.
Print Assumptions C72_close_to_portable_u16_partial.

(** Elsewhere columns are mixed up: a five-column black image whose last column is white, halved in
    height, becomes entirely black. *)
Theorem C72_columns_u16_x86_refuted : forall k L,
  let store := deep 5 2 5 8 [0; 0; 0; 0; 255; 0; 0; 0; 0; 255]%Z in let into := deep 5 1 5 8 (repeat 7%Z 5) in
  valid_call 1 true Box store into /\
  (exists out, resize_u16_x86 k sse_only L Box 1 None store into = Returned Ok out /\ buf out = repeat 0%Z 5) /\
  (exists out, resize_u16_x86 k avx2_fma L Box 1 None store into = Returned Ok out /\ buf out = repeat 0%Z 5) /\
  (exists out, resize_u16 k L Box 1 None store into = Returned Ok out /\ sample 1 out 4 0 0 = Some 255%Z).
Proof.
  intros k L store into. split; [unfold store, into; deep_tac|]. unfold resize_u16_x86, x86_engine_u16, resize_u16, engine_u16. cbn [Nat.eqb].
  change (resampling_filter L Box) with (resampling_filter any_libm Box).
  split; [|split]; eexists; (split; [destruct k; vm_compute; reflexivity|vm_compute; reflexivity]).
Qed.
Print Assumptions C72_columns_u16_x86_refuted.
(** More than 12 bits, SSE 4.1, row length in place: every sample is the f32 sum over its own
    column, rounded to nearest; the last n mod 4 columns by the portable rounding. *)
Theorem C72_columns_deep_x86 : forall k c L f N pool (store into : image Z),
  f <> Nearest -> valid_call N true f store into -> pool_ok pool -> 12 < bit_depth into ->
  width store = width into -> height store <> height into -> sse41 (base_cpu c) = true ->
  reads_in_place sse_parts (width store * N) ->
  let W := filter_taps (resampling_filter L f) (height store) (height into) in
  let column y x ch := fun j => u16_as_f32 (picture_of N store (tstart W y + j) x ch) in
  exists out, resize_u16_x86 k c L f N pool store into = Returned Ok out /\ only_pixels_differ N into out /\
    shows N out (fun y x ch =>
      if x * N + ch <? width store * N / 4 * 4
      then nearest_u16 (bit_depth into) (accumulate_from (prefer_fma (has_fma c)) 0 (tsize W y) (column y x ch) (tweight W y) f0)
      else to_mixed_u16 (bit_depth into) (accumulate_from (mlaf k) 0 (tsize W y) (column y x ch) (tweight W y) f0)).
Proof.
  intros k c L f N pool store into Hf V P Hb Ew Eh Sc I W column.
  destruct (C75_deep_u16_x86 k c L f N pool store into Hf V ltac:(right; exact Eh) P Hb) as (out & R & O & Sh).
  exists out. split; [exact R|]. split; [exact O|]. intros x y ch Hx Hy Hc. rewrite Sh by assumption.
  unfold x86u_deep, u16_two_passes, x86u_float_v. rewrite Sc. fold W.
  replace (height store =? height into) with false by lia. replace (width store =? width into) with true by lia.
  f_equal. unfold u16_float_v. rewrite (opd_width _ _ _ O) in Hx. rewrite I by nia.
  assert (G : forall y x ch j, ch < N -> u16_as_f32 (flat N (picture_of N store) (tstart W y + j) (x * N + ch)) = column y x ch j).
  { intros. unfold column. now rewrite flat_at. }
  destruct (x * N + ch <? width store * N / 4 * 4); f_equal; apply accumulate_ext; intros j Hj; (split; [now apply G|reflexivity]).
Qed.
Print Assumptions C72_columns_deep_x86.
Example C72_nonvacuous : valid_call 4 true Box (deep4 4 2 12 (repeat 4095 32)%Z) (deep4 4 1 12 (repeat 0 16)%Z) /\
  reads_in_place (vparts avx2_fma) (4 * 4) /\ ~ reads_in_place (vparts sse_only) (5 * 4) /\
  sums_fit Box 4095 (deep4 4 2 12 (repeat 4095 32)%Z) (deep4 4 1 12 (repeat 0 16)%Z).
Proof.
  split; [unfold deep4; deep_tac|]. split; [apply in_place_avx; lia|]. split; [|left; reflexivity].
  change (vparts sse_only) with sse_parts. rewrite in_place_sse. cbn. lia.
Qed.

(** ** C73 Rows *)
Theorem C73_rows_as_portable_u16_partial : forall k c L f N pool (store into : image Z),
  f <> Nearest -> bit_depth into <= 12 -> valid_call N true f store into -> pool_ok pool ->
  height store = height into -> width store <> width into ->
  samples_in (max_colors (bit_depth into)) (buf store) -> sums_fit f (max_colors (bit_depth into)) store into ->
  resize_u16_x86 k c L f N pool store into = resize_u16 k L f N pool store into.
Proof.
  intros k c L f N pool store into Hf Hb V P Eh Ew S F. pose proof (low_max into ltac:(apply V; reflexivity) Hb) as M.
  destruct (fit_small L f N true _ store into V M F) as [S1 S2].
  rewrite low_paints; try assumption; [|left; exact Ew].
  unfold resize_u16. etransitivity; [|symmetry; apply (g_call L f N true _ _ _ (engine_u16_conv k L f N no_premul no_unpremul no_alpha) pool store into Hf V (or_introl Ew) P)].
  f_equal. apply painted_ext; [pose proof (vc_N _ _ _ _ _ V); lia|apply (valid_good V)|].
  intros y x ch Hy Hx Hc. unfold x86u_low, u16_two_passes, g_passes, two_passes.
  replace (height store =? height into) with true by lia. replace (width store =? width into) with false by lia. cbn [negb].
  unfold u16_h. replace (12 <? bit_depth into) with false by lia.
  symmetry. apply (pass_h_small _ _ (width into)); try assumption.
  intros x'. apply shown_fits; [lia|exact S].
Qed.
Print Assumptions C73_rows_as_portable_u16_partial.
(** More than 12 bits: rows that belong to a complete group of four, and all rows of images that
    are not RGBA, are the portable ones. *)
Theorem C73_rows_deep_x86 : forall k c L f N pool (store into : image Z),
  f <> Nearest -> valid_call N true f store into -> pool_ok pool -> 12 < bit_depth into ->
  height store = height into -> width store <> width into ->
  exists out out', resize_u16_x86 k c L f N pool store into = Returned Ok out /\ resize_u16 k L f N pool store into = Returned Ok out' /\
    forall x y ch, x < width into -> y < height into -> ch < N ->
      N <> 4 \/ sse41 (base_cpu c) = false \/ y < 4 * (height into / 4) -> sample N out x y ch = sample N out' x y ch.
Proof.
  intros k c L f N pool store into Hf V P Hb Eh Ew.
  destruct (C75_deep_u16_x86 k c L f N pool store into Hf V ltac:(left; exact Ew) P Hb) as (out & R & O & Sh).
  destruct (C11_convolution_deep k L f N pool store into Hf V ltac:(left; exact Ew) P Hb) as (out' & R' & O' & Sh').
  exists out, out'. split; [exact R|]. split; [exact R'|]. intros x y ch Hx Hy Hc G.
  rewrite Sh by (rewrite ?(opd_width _ _ _ O), ?(opd_height _ _ _ O); assumption).
  rewrite Sh' by (rewrite ?(opd_width _ _ _ O'), ?(opd_height _ _ _ O'); assumption).
  unfold x86u_deep, u16_two_passes, x86u_float_h, float_resample.
  replace (height store =? height into) with true by lia. replace (width store =? width into) with false by lia. cbn [negb].
  replace ((N =? 4) && sse41 (base_cpu c) && (4 * (height into / 4) <=? y)) with false; [reflexivity|].
  destruct (sse41 (base_cpu c)); [|now rewrite andb_false_r]. destruct G as [G|[G|G]]; [|discriminate|]; lia.
Qed.
Print Assumptions C73_rows_deep_x86.
(** The leftover rows of RGBA images: every weight of the window is used once, but it may be applied to
    a neighbouring pixel ... *)
Theorem C73_leftover_rows_deep_x86 : forall k c L f pool (store into : image Z),
  f <> Nearest -> valid_call 4 true f store into -> pool_ok pool -> 12 < bit_depth into ->
  height store = height into -> width store <> width into -> sse41 (base_cpu c) = true ->
  let W := filter_taps (resampling_filter L f) (width store) (width into) in
  exists out, resize_u16_x86 k c L f 4 pool store into = Returned Ok out /\
    forall x y ch, x < width into -> 4 * (height into / 4) <= y < height into -> ch < 4 ->
      exists order, Permutation order (seq 0 (tsize W x)) /\
      sample 4 out x y ch = Some (nearest_u16 (bit_depth into) (not_below_0 (ordered_sum (prefer_fma (has_fma c)) order
        (fun j => u16_as_f32 (picture_of 4 store y (tstart W x + tap_read (tsize W x) j) ch)) (tweight W x)))).
Proof.
  intros k c L f pool store into Hf V P Hb Eh Ew Sc W.
  destruct (C75_deep_u16_x86 k c L f 4 pool store into Hf V ltac:(left; exact Ew) P Hb) as (out & R & O & Sh).
  exists out. split; [exact R|]. intros x y ch Hx Hy Hc. exists (tap_order (tsize W x)). split; [apply tap_order_perm|].
  rewrite Sh by (rewrite ?(opd_width _ _ _ O), ?(opd_height _ _ _ O); try assumption; lia).
  unfold x86u_deep, u16_two_passes, x86u_float_h. rewrite Sc. fold W.
  replace (height store =? height into) with true by lia. replace (width store =? width into) with false by lia.
  replace (4 * (height into / 4) <=? y) with true by lia. cbn [Nat.eqb andb]. reflexivity.
Qed.
Print Assumptions C73_leftover_rows_deep_x86.
(** ... unless the window has 8 m + 1 or 8 m + 2 taps. *)
Theorem C73_own_taps : forall n, 1 <= n -> ((forall j, j < n -> tap_read n j = j) <-> n mod 8 = 1 \/ n mod 8 = 2).
Proof. exact tap_read_own. Qed.
Print Assumptions C73_own_taps.
(** So the white pixel in the middle of a black one-row image disappears. *)
Theorem C73_leftover_rows_refuted : forall k L,
  let store := deep4 3 1 16 [0; 0; 0; 0; 65535; 65535; 65535; 65535; 0; 0; 0; 0]%Z in let into := deep4 1 1 16 (repeat 7%Z 4) in
  valid_call 4 true Box store into /\
  (exists out, resize_u16_x86 k sse_only L Box 4 None store into = Returned Ok out /\ buf out = repeat 0%Z 4) /\
  (exists out, resize_u16 k L Box 4 None store into = Returned Ok out /\ buf out = repeat 21845%Z 4).
Proof.
  intros k L store into. split; [unfold store, into, deep4; deep_tac|]. unfold resize_u16_x86, x86_engine_u16, resize_u16, engine_u16. cbn [Nat.eqb].
  change (resampling_filter L Box) with (resampling_filter any_libm Box).
  split; eexists; (split; [destruct k; vm_compute; reflexivity|vm_compute; reflexivity]).
Qed.
Print Assumptions C73_leftover_rows_refuted.
Example C73_nonvacuous : valid_call 4 true Lanczos3 (deep4 3 5 16 (repeat 65535 60)%Z) (deep4 2 5 16 (repeat 0 40)%Z) /\
  valid_call 4 true Box (deep4 3 5 10 (repeat 1023 60)%Z) (deep4 2 5 10 (repeat 0 40)%Z) /\
  sums_fit Lanczos3 1023 (deep4 3 5 10 (repeat 1023 60)%Z) (deep4 2 5 10 (repeat 0 40)%Z) /\ 4 * (5 / 4) <= 4 < 5.
Proof.
  split; [unfold deep4; deep_tac|]. split; [unfold deep4; deep_tac|]. split; [|cbn; lia].
  right. exists 5%Z. unfold downscale_at_most, deep4. cbn [width height]. lia.
Qed.

(** ** C74 The guarantees of 16-bit calls, on x86-64 *)
Theorem C74_refusals_x86_u16 : forall k c L f N pool (store into : image Z),
  match first_error (refusal_table N true store into) with
  | Some e => resize_u16_x86 k c L f N pool store into = Returned (Err e) into
  | None => resize_u16_x86 k c L f N pool store into = Panicked \/ exists out, resize_u16_x86 k c L f N pool store into = Returned Ok out
  end.
Proof.
  intros. rewrite u16_is_generic. match goal with |- context[generic_resize N ?E] => apply (generic_resize_cases N E) end. apply x86u_nofail.
Qed.
Print Assumptions C74_refusals_x86_u16.
Theorem C74_failure_is_clean_x86_u16 : forall k c L f N pool (store into out : image Z) e,
  resize_u16_x86 k c L f N pool store into = Returned (Err e) out -> out = into.
Proof.
  intros k c L f N pool store into out e H. pose proof (C74_refusals_x86_u16 k c L f N pool store into) as C.
  destruct (first_error _); [congruence|]. destruct C as [C|[o C]]; congruence.
Qed.
Print Assumptions C74_failure_is_clean_x86_u16.
Theorem C74_schedule_independent_x86_u16 : forall k c L f N pool (store into : image Z), pool_ok pool ->
  resize_u16_x86 k c L f N pool store into = resize_u16_x86 k c L f N None store into.
Proof. intros k c L f N pool store into P. rewrite !u16_is_generic. apply generic_resize_pool; auto. apply x86u_pool_blind. Qed.
Print Assumptions C74_schedule_independent_x86_u16.
Theorem C74_valid_calls_succeed_x86_u16 : forall k c L f N pool (store into : image Z),
  f <> Nearest -> valid_call N true f store into -> pool_ok pool ->
  exists out, resize_u16_x86 k c L f N pool store into = Returned Ok out.
Proof.
  intros k c L f N pool store into Hf V P.
  destruct (Nat.eq_dec (width store) (width into)) as [E|E]; [destruct (Nat.eq_dec (height store) (height into)) as [E'|E']|].
  - rewrite u16_no_pass by auto. exact (C10_valid_calls_succeed_u16 k L f N pool store into Hf V P).
  - destruct (u16_paints k c L f N pool store into V P Hf ltac:(right; exact E')) as (p & R). rewrite R. eauto.
  - destruct (u16_paints k c L f N pool store into V P Hf ltac:(left; exact E)) as (p & R). rewrite R. eauto.
Qed.
Print Assumptions C74_valid_calls_succeed_x86_u16.
Theorem C74_padding_x86_u16 : forall k c L f N pool (store into out : image Z),
  f <> Nearest -> valid_call N true f store into -> changes_size store into -> pool_ok pool ->
  resize_u16_x86 k c L f N pool store into = Returned Ok out -> only_pixels_differ N into out.
Proof.
  intros k c L f N pool store into out Hf V D P R.
  destruct (u16_paints k c L f N pool store into V P Hf D) as (p & R'). rewrite R in R'. inversion R'; subst out.
  apply painted_opd. pose proof (vc_N _ _ _ _ _ V). lia.
Qed.
Print Assumptions C74_padding_x86_u16.
Theorem C74_same_size_x86_u16 : forall k c L f N pool (store into : image Z),
  valid_call N true f store into -> width store = width into -> height store = height into ->
  exists out, resize_u16_x86 k c L f N pool store into = Returned Ok out /\ same_picture N store out /\
    width out = width into /\ height out = height into /\ stride out = stride into /\ bit_depth out = bit_depth into.
Proof.
  intros k c L f N pool store into V Ew Eh. rewrite u16_no_pass by auto.
  exact (g_same L f N true _ _ _ (engine_u16_conv k L f N _ _ _) pool store into V Ew Eh).
Qed.
Print Assumptions C74_same_size_x86_u16.
(** Nearest neighbour, and any call on a processor with neither SSE 4.1 nor AVX2, is the portable
    call. *)
Theorem C74_portable_cases_u16 : forall k c L f N pool (store into : image Z),
  f = Nearest \/ (sse41 (base_cpu c) = false /\ avx2 (base_cpu c) = false) ->
  resize_u16_x86 k c L f N pool store into = resize_u16 k L f N pool store into.
Proof.
  intros k c L f N pool store into [H|[H1 H2]]; [apply u16_no_pass; auto|apply u16_no_vectors].
  unfold vectors. rewrite H1, H2. reflexivity.
Qed.
Print Assumptions C74_portable_cases_u16.
Example C74_nonvacuous :
  first_error (refusal_table 1 true (deep 0 1 1 16 []) (deep 2 1 2 16 [0; 0]%Z)) <> None /\
  valid_call 1 true Lanczos3 (deep 2 1 3 16 [1; 65535; 9]%Z) (deep 3 2 4 16 (repeat 0%Z 8)) /\ pool_ok None.
Proof. split; [vm_compute; discriminate|]. split; [deep_tac|exact I]. Qed.
