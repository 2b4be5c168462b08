(** Property theorems for the packed 30-bit formats with the x86 kernels: C85, C86. *)
From Coq Require Import ZArith List Bool Lia ZifyBool ZifyNat ZifyN Permutation.
From Verif Require Import Base BaseProofs ImageStore ColorGroup FixedPoint Dispatch Resize F32 Weights Sampler Api Spec SpecApi
  KernelProofs DispatchProofs ResizeProofs SamplerProofs FilterSums Center QuantSums ApiProofs Witness NearestProofs PoolProofs
  Ar30 SpecAr30 Ar30Proofs Ar30Kernels Ar30Calls Properties5 X86Ar30 SpecX86Ar30 X86Ar30Proofs X86Ar30Columns X86Ar30Calls.
Import ListNotations.
Local Open Scope nat_scope.

(** The two public calls; [sse] says whether the processor has SSE4.1. *)
Definition resize30_x86 (t : rgb30) (sse : bool) := match t with Ar30 => resize_ar30_x86 sse | Ra30 => resize_ra30_x86 sse end.
Lemma resize30_x86_impl t sse o L f pool src ss sw sh dst ds dw dh :
  resize30_x86 t sse L f pool src ss sw sh dst ds dw dh o = resize_ar30_impl_x86 t o sse L f pool src ss sw sh dst ds dw dh.
Proof. destruct t; reflexivity. Qed.

(** Either the filter is an averaging one, or the image shrinks at most fivefold. *)
Definition no_overflow30_x86 (f : resampling_function) (sw sh dw dh : nat) : Prop :=
  averaging f = true \/ (Z.of_nat sw <= 5 * Z.of_nat dw /\ Z.of_nat sh <= 5 * Z.of_nat dh)%Z.
Lemma safe30_x86 L f src ss sw sh dst ds dw dh : valid30 f src ss sw sh dst ds dw dh -> no_overflow30_x86 f sw sh dw dh ->
  accumulator_safe 2047 (filter_windows (resampling_filter L f) sh dh) dh /\
  accumulator_safe 2047 (filter_windows (resampling_filter L f) sw dw) dw.
Proof.
  intros V [A|[Tw Th]]; destruct (valid30_sides _ _ _ _ _ _ _ _ _ V) as [Sv Sh].
  - split; apply averaging_safe; auto; lia.
  - pose proof (support_le f). split; apply any_filter_safe with (t := 5%Z); auto; lia.
Qed.

(** ** C85 *)
Theorem C85_x86_rows_exact : forall t o L f pool src ss sw sh dst ds dw dh,
  valid30 f src ss sw sh dst ds dw dh -> f <> Nearest -> sizes_differ sw sh dw dh -> pool_ok pool ->
  no_overflow30_x86 f sw sh dw dh -> (sw = dw -> ss = ds) ->
  exists out, resize30_x86 t true L f pool src ss sw sh dst ds dw dh o = BytesReturned Ok out /\
    only_visible_differ ds dw dst out /\
    shows30 t o out ds dw dh (resample30_x86 dh (negb (sh =? dh)) (negb (sw =? dw))
      (filter_windows (resampling_filter L f) sh dh) (filter_windows (resampling_filter L f) sw dw) (picture30 t o src ss)).
Proof.
  intros t o L f pool src ss sw sh dst ds dw dh V Hf Hc HP NO Hs. rewrite resize30_x86_impl.
  destruct (safe30_x86 L _ _ _ _ _ _ _ _ _ V NO) as [A B]. apply ar30_x86_call; auto.
Qed.
Print Assumptions C85_x86_rows_exact.

(** No horizontal pass, or no row left over after the groups of four and at most four taps. *)
Definition x86_kernels_complete (L : libm) (f : resampling_function) (sw dw dh : nat) : Prop :=
  sw = dw \/ (dh mod 4 = 0 /\ forall x, x < dw -> wsize (filter_windows (resampling_filter L f) sw dw) x <= 4).
(** [a] is the rounding of [b] up to the choice made at exact halves. *)
Definition half_rounding (s a b : Z) : Prop := a = b \/ (s mod 2 ^ 15 = 2 ^ 14 /\ a = b - 1)%Z.
Lemma nearest_down_round s : half_rounding s (nearest_down s) (round_q15 1023 s).
Proof.
  unfold half_rounding, nearest_down, round_q15. change (2 ^ 14)%Z with 16384%Z. change (2 ^ 15)%Z with 32768%Z.
  pose proof (Z.div_mod s 32768 ltac:(lia)) as D. pose proof (Z.mod_pos_bound s 32768 ltac:(lia)) as B.
  set (q := (s / 32768)%Z) in *. set (r := (s mod 32768)%Z) in *.
  assert (E : forall a, (-32768 <= a < 32768)%Z -> ((s + a) / 32768 = q + (r + a) / 32768)%Z).
  { intros a Ha. rewrite D. replace (32768 * q + r + a)%Z with (r + a + q * 32768)%Z by ring. rewrite Z.div_add by lia. lia. }
  replace (s + 16384 - 1)%Z with (s + 16383)%Z by ring. rewrite !E by lia.
  destruct (Z.lt_ge_cases r 16384) as [H|H].
  - left. rewrite !(Z.div_small (r + _)) by lia. reflexivity.
  - assert (E1 : ((r + 16384) / 32768 = 1)%Z) by (symmetry; apply Z.div_unique with (r - 16384)%Z; lia).
    destruct (Z.eq_dec r 16384) as [->|N].
    + change ((16384 + 16383) / 32768)%Z with 0%Z. change ((16384 + 16384) / 32768)%Z with 1%Z.
      unfold clampZ. destruct (Z.lt_ge_cases q 0); [left; lia|]. destruct (Z.lt_ge_cases q 1023); [right; lia|left; lia].
    + assert (E2 : ((r + 16383) / 32768 = 1)%Z) by (symmetry; apply Z.div_unique with (r - 16385)%Z; lia).
      left. rewrite E1, E2. reflexivity.
Qed.

(** Where every tap meets its own pixel: one pass is the fixed-point convolution, rounded to
    the nearest integer. *)
Theorem C85_one_pass_partial : forall t o L f pool src ss sw sh dst ds dw dh,
  valid30 f src ss sw sh dst ds dw dh -> f <> Nearest -> sizes_differ sw sh dw dh -> pool_ok pool ->
  no_overflow30_x86 f sw sh dw dh -> (sw = dw -> ss = ds) -> x86_kernels_complete L f sw dw dh -> (sw = dw \/ sh = dh) ->
  let V := filter_windows (resampling_filter L f) sh dh in
  let H := filter_windows (resampling_filter L f) sw dw in
  let p := picture30 t o src ss in
  let sum y x c := if sw =? dw then zsum (wsize V y) (fun k => wcoef V y k * p (wstart V y + k)%nat x c)%Z
                   else zsum (wsize H x) (fun k => wcoef H x k * p y (wstart H x + k)%nat c)%Z in
  exists out, resize30_x86 t true L f pool src ss sw sh dst ds dw dh o = BytesReturned Ok out /\
    only_visible_differ ds dw dst out /\
    forall x y c, x < dw -> y < dh -> c < 3 ->
      half_rounding (sum y x c) (picture30 t o out ds y x c) (round_q15 1023 (sum y x c)).
Proof.
  intros t o L f pool src ss sw sh dst ds dw dh Va Hf Hc HP NO Hs K One V H p sum.
  destruct (C85_x86_rows_exact t o L f pool src ss sw sh dst ds dw dh Va Hf Hc HP NO Hs) as (out & R & O & P).
  exists out. split; [exact R|]. split; [exact O|]. intros x y c Hx Hy Hc0. destruct (P x y Hx Hy) as [_ P2]. rewrite (P2 c Hc0).
  unfold resample30_x86. cbv zeta. fold V H p. unfold sum. unfold sizes_differ in Hc.
  destruct (sw =? dw) eqn:E; cbn [negb].
  - replace (sh =? dh) with false by lia. cbn [negb]. apply nearest_down_round.
  - replace (sh =? dh) with true by lia. cbn [negb].
    destruct K as [K|[K1 K2]]; [lia|]. specialize (K2 x Hx). fold H in K2.
    pose proof (Nat.div_mod dh 4 ltac:(lia)). replace (y <? 4 * (dh / 4)) with true by lia.
    assert (E1 : zsum (wsize H x) (fun k => wcoef H x k * p y (wstart H x + tap30 (wsize H x) k)%nat c)%Z =
                 zsum (wsize H x) (fun k => wcoef H x k * p y (wstart H x + k)%nat c)%Z); [|rewrite E1; apply nearest_down_round].
    apply zsum_ext. intros k Hk. do 3 f_equal. unfold tap30. replace ((wsize H x - 1) / 8) with 0 by (symmetry; apply Nat.div_small; lia).
    cbn [Nat.mul Nat.add]. replace (k <? 0) with false by lia. replace (4 <? wsize H x) with false by lia. now rewrite andb_false_r.
Qed.
Print Assumptions C85_one_pass_partial.

(** Changing only the height: the x86 result and the portable one differ by at most one step,
    and only at exact halves. *)
Theorem C85_height_near_portable : forall t o L f pool pool' src ss w sh dst dh,
  valid30 f src ss w sh dst ss w dh -> f <> Nearest -> sh <> dh -> pool_ok pool -> pool_ok pool' -> no_overflow30_x86 f w sh w dh ->
  exists out out',
    resize30_x86 t true L f pool src ss w sh dst ss w dh o = BytesReturned Ok out /\
    resize30 t L f pool' src ss w sh dst ss w dh o = BytesReturned Ok out' /\
    forall x y c, x < w -> y < dh -> c < 3 ->
      (picture30 t o out' ss y x c - 1 <= picture30 t o out ss y x c <= picture30 t o out' ss y x c)%Z.
Proof.
  intros t o L f pool pool' src ss w sh dst dh V Hf Hh HP HP' NO.
  assert (NO' : no_overflow30 f w sh w dh) by (destruct NO as [A|[A B]]; [left; exact A|right; lia]).
  destruct (C85_x86_rows_exact t o L f pool src ss w sh dst ss w dh V Hf ltac:(right; exact Hh) HP NO ltac:(reflexivity)) as (out & R & _ & P).
  destruct (C32_rows_exact t o L f pool' src ss w sh dst ss w dh V Hf ltac:(right; exact Hh) HP' NO' ltac:(reflexivity)) as (out' & R' & _ & P').
  exists out, out'. split; [exact R|]. split; [exact R'|]. intros x y c Hx Hy Hc.
  destruct (P x y Hx Hy) as [_ P2]. destruct (P' x y Hx Hy) as [_ P2']. rewrite (P2 c Hc), (P2' c Hc).
  unfold resample30_x86, resample30_taps. cbv zeta. rewrite Nat.eqb_refl. replace (sh =? dh) with false by lia. cbn [negb].
  set (s := zsum _ _). destruct (nearest_down_round s) as [->|[_ ->]]; lia.
Qed.
Print Assumptions C85_height_near_portable.

Example C85_nonvacuous :
  let src := concat (repeat (white30 Ar30 HostOrder) 4) in
  valid30 Bilinear src 4 1 4 (repeat 0%Z 32) 8 2 4 /\ sizes_differ 1 4 2 4 /\ no_overflow30_x86 Bilinear 1 4 2 4 /\
  pool_ok (Some (fun _ n => rev (seq 0 n))) /\ (forall L, x86_kernels_complete L Bilinear 1 2 4) /\
  valid30 Lanczos3 (repeat 7%Z 48) 8 2 6 (repeat 0%Z 16) 8 2 2 /\ no_overflow30_x86 Lanczos3 2 6 2 2.
Proof.
  cbv zeta. split; [vm_compute concat; valid30_tac|]. split; [left; lia|]. split; [left; reflexivity|].
  split; [apply pool_two|]. split; [|split; [valid30_tac|right; lia]]. intro L. right. split; [reflexivity|].
  intros x Hx. destruct x as [|[|x]]; [| |lia]; vm_compute; repeat constructor.
Qed.

(** A single row of one white pixel widened to two pixels: half the red and blue, no green. *)
Theorem C85_leftover_row_refuted : forall L, exists src dst,
  valid30 Bilinear src 4 1 1 dst 8 2 1 /\ no_overflow30_x86 Bilinear 1 1 2 1 /\
  (forall c, c < 3 -> picture30 Ar30 HostOrder src 4 0 0 c = 1023%Z) /\
  exists out, resize_ar30_x86 true L Bilinear None src 4 1 1 dst 8 2 1 HostOrder = BytesReturned Ok out /\
    forall x, x < 2 -> map (picture30 Ar30 HostOrder out 8 0 x) [0; 1; 2] = [511; 0; 511]%Z.
Proof.
  intro L. exists (white30 Ar30 HostOrder), (repeat 0%Z 8).
  split; [vm_compute white30; valid30_tac|]. split; [left; reflexivity|].
  split; [intros c Hc; destruct c as [|[|[|c]]]; try lia; reflexivity|].
  eexists. split; [vm_compute; reflexivity|].
  intros x Hx. destruct x as [|[|x]]; try lia; reflexivity.
Qed.
Print Assumptions C85_leftover_row_refuted.

(** Rows of pixels that are white where [on] says and black elsewhere. *)
Definition row30 (n : nat) (on : nat -> bool) : list Z :=
  concat (map (fun i => if on i then white30 Ar30 HostOrder else bytes_of_word (pack_w_a Ar30 HostOrder 0 0 0)) (seq 0 n)).
Definition rows30 (n : nat) (on : nat -> bool) : list Z := row30 n on ++ row30 n on ++ row30 n on ++ row30 n on.

(** Five pixels, the second and fourth white, averaged by the Box filter: black on x86, two
    fifths of white with the portable kernels. *)
Theorem C85_five_taps_refuted : forall L,
  let src := rows30 5 (fun i => (i =? 1) || (i =? 3)) in
  let dst := repeat 0%Z 16 in
  valid30 Box src 20 5 4 dst 4 1 4 /\ no_overflow30_x86 Box 5 4 1 4 /\
  exists out out',
    resize_ar30_x86 true L Box None src 20 5 4 dst 4 1 4 HostOrder = BytesReturned Ok out /\
    resize_ar30 L Box None src 20 5 4 dst 4 1 4 HostOrder = BytesReturned Ok out' /\
    forall y, y < 4 -> map (picture30 Ar30 HostOrder out 4 y 0) [0; 1; 2] = [0; 0; 0]%Z /\
                       map (picture30 Ar30 HostOrder out' 4 y 0) [0; 1; 2] = [409; 409; 409]%Z.
Proof.
  intros L src dst. split; [unfold src, dst; vm_compute rows30; valid30_tac|]. split; [left; reflexivity|].
  eexists. eexists. split; [vm_compute; reflexivity|]. split; [vm_compute; reflexivity|].
  intros y Hy. destruct y as [|[|[|[|y]]]]; try lia; split; reflexivity.
Qed.
Print Assumptions C85_five_taps_refuted.

(** Ten pixels, the third white, Bilinear: the x86 kernel gives it the weight of the fifth. *)
Theorem C85_eight_block_refuted : forall L,
  let src := rows30 10 (fun i => i =? 2) in
  let src' := rows30 10 (fun i => i =? 4) in
  let dst := repeat 0%Z 16 in
  valid30 Bilinear src 40 10 4 dst 4 1 4 /\ valid30 Bilinear src' 40 10 4 dst 4 1 4 /\ no_overflow30_x86 Bilinear 10 4 1 4 /\
  exists out out',
    resize_ar30_x86 true L Bilinear None src 40 10 4 dst 4 1 4 HostOrder = BytesReturned Ok out /\
    resize_ar30 L Bilinear None src 40 10 4 dst 4 1 4 HostOrder = BytesReturned Ok out' /\
    resize_ar30 L Bilinear None src' 40 10 4 dst 4 1 4 HostOrder = BytesReturned Ok out /\
    forall y c, y < 4 -> c < 3 -> picture30 Ar30 HostOrder out 4 y 0 c = 130%Z /\ picture30 Ar30 HostOrder out' 4 y 0 c = 102%Z.
Proof.
  intros L src src' dst. split; [unfold src, dst; vm_compute rows30; valid30_tac|]. split; [unfold src', dst; vm_compute rows30; valid30_tac|].
  split; [left; reflexivity|].
  eexists. eexists. split; [vm_compute; reflexivity|]. split; [vm_compute; reflexivity|]. split; [vm_compute; reflexivity|].
  intros y c Hy Hc. destruct y as [|[|[|[|y]]]]; try lia; destruct c as [|[|[|c]]]; try lia; split; reflexivity.
Qed.
Print Assumptions C85_eight_block_refuted.

(** ** C86 *)
Theorem C86_refusals_30_x86 : forall t sse o L f pool src ss sw sh dst ds dw dh,
  match first_error (refusal_table30 src ss sw sh dst ds dw dh) with
  | Some e => resize30_x86 t sse L f pool src ss sw sh dst ds dw dh o = BytesReturned (Err e) dst
  | None => resize30_x86 t sse L f pool src ss sw sh dst ds dw dh o = BytesPanicked \/
            exists out, resize30_x86 t sse L f pool src ss sw sh dst ds dw dh o = BytesReturned Ok out
  end.
Proof. intros. rewrite resize30_x86_impl. apply ar30_x86_cases. Qed.
Print Assumptions C86_refusals_30_x86.
Theorem C86_schedule_independent_30_x86 : forall t sse o L f pool src ss sw sh dst ds dw dh, pool_ok pool ->
  resize30_x86 t sse L f pool src ss sw sh dst ds dw dh o = resize30_x86 t sse L f None src ss sw sh dst ds dw dh o.
Proof. intros. rewrite !resize30_x86_impl. now apply ar30_x86_pool. Qed.
Print Assumptions C86_schedule_independent_30_x86.
(** Without SSE4.1, and for every copy and every Nearest resize, the processor does not matter. *)
Theorem C86_portable_without_sse : forall t o L f pool src ss sw sh dst ds dw dh,
  resize30_x86 t false L f pool src ss sw sh dst ds dw dh o = resize30 t L f pool src ss sw sh dst ds dw dh o.
Proof. intros. rewrite resize30_x86_impl, resize30_impl. apply ar30_x86_portable. Qed.
Print Assumptions C86_portable_without_sse.
Theorem C86_copy_any_processor : forall t sse o L f pool src ss sw sh dst ds dw dh,
  (sw = dw /\ sh = dh) \/ f = Nearest ->
  resize30_x86 t sse L f pool src ss sw sh dst ds dw dh o = resize30 t L f pool src ss sw sh dst ds dw dh o.
Proof.
  intros t sse o L f pool src ss sw sh dst ds dw dh H. rewrite resize30_x86_impl, resize30_impl.
  unfold resize_ar30_impl_x86, resize_ar30_impl. apply btry_ext2; [reflexivity|]. intros _.
  destruct H as [[-> ->]| ->]; [rewrite !Nat.eqb_refl; reflexivity|]. destruct (_ && _); reflexivity.
Qed.
Print Assumptions C86_copy_any_processor.
(** Only the visible bytes of the source matter, whatever the strides and the schedules. *)
Theorem C86_strides_partial : forall t o L f pool pool' src ss src' ss' sw sh dst ds dw dh,
  valid30 f src ss sw sh dst ds dw dh -> valid30 f src' ss' sw sh dst ds dw dh ->
  f <> Nearest -> sw <> dw -> pool_ok pool -> pool_ok pool' -> no_overflow30_x86 f sw sh dw dh ->
  (forall x y c, x < sw -> y < sh -> c < 3 -> picture30 t o src ss y x c = picture30 t o src' ss' y x c) ->
  exists out out',
    resize30_x86 t true L f pool src ss sw sh dst ds dw dh o = BytesReturned Ok out /\
    resize30_x86 t true L f pool' src' ss' sw sh dst ds dw dh o = BytesReturned Ok out' /\
    only_visible_differ ds dw dst out /\ only_visible_differ ds dw dst out' /\
    forall x y c, x < dw -> y < dh -> c < 3 -> picture30 t o out ds y x c = picture30 t o out' ds y x c.
Proof.
  intros t o L f pool pool' src ss src' ss' sw sh dst ds dw dh V V' Hf Hw HP HP' NO A.
  destruct (C85_x86_rows_exact t o L f pool src ss sw sh dst ds dw dh V Hf ltac:(left; exact Hw) HP NO ltac:(lia)) as (out & R & O & P).
  destruct (C85_x86_rows_exact t o L f pool' src' ss' sw sh dst ds dw dh V' Hf ltac:(left; exact Hw) HP' NO ltac:(lia)) as (out' & R' & O' & P').
  exists out, out'. split; [exact R|]. split; [exact R'|]. split; [exact O|]. split; [exact O'|].
  intros x y c Hx Hy Hc. destruct (P x y Hx Hy) as [_ P2]. destruct (P' x y Hx Hy) as [_ P2']. rewrite (P2 c Hc), (P2' c Hc).
  destruct (valid30_sides _ _ _ _ _ _ _ _ _ V) as [Sv Sh].
  destruct (win_row (resampling_filter L f) sw dw (sides_wf L f sw dw Sh) x Hx) as (_ & Bh & _).
  unfold resample30_x86. cbv zeta. replace (sw =? dw) with false by lia. cbn [negb].
  match goal with |- (if _ then nearest_down ?a else _) = (if _ then nearest_down ?b else _) => assert (E : a = b); [|rewrite E; reflexivity] end.
  apply zsum_ext. intros k Hk. pose proof (tap30_le (wsize (filter_windows (resampling_filter L f) sw dw) x) k Hk) as Tn.
  f_equal. destruct (sh =? dh) eqn:Eh; cbn [negb].
  - apply A; lia.
  - f_equal. apply zsum_ext. intros j Hj. f_equal.
    destruct (win_row (resampling_filter L f) sh dh (sides_wf L f sh dh Sv) y Hy) as (_ & Bv & _). apply A; lia.
Qed.
Print Assumptions C86_strides_partial.
Example C86_nonvacuous :
  first_error (refusal_table30 (repeat 0%Z 8) 4 2 2 (repeat 0%Z 4) 4 1 1) = Some (InvalidStride 8 4) /\
  valid30 Lanczos3 (repeat 7%Z 30) 15 3 2 (repeat 0%Z 54) 18 4 3 /\ valid30 Lanczos3 (repeat 7%Z 24) 12 3 2 (repeat 0%Z 54) 18 4 3 /\
  no_overflow30_x86 Lanczos3 3 2 4 3 /\ pool_ok (Some (fun _ n => rev (seq 0 n))).
Proof. split; [reflexivity|]. split; [valid30_tac|]. split; [valid30_tac|]. split; [right; lia|apply pool_two]. Qed.
