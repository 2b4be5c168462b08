(** Property theorems for the packed 30-bit formats: C31-C33, C46 on the portable path. *)
From Coq Require Import ZArith List Bool Lia ZifyBool ZifyNat ZifyN Permutation.
From Verif Require Import Base BaseProofs ImageStore ColorGroup FixedPoint Dispatch Resize F32 Weights Sampler Api Spec SpecApi
  KernelProofs DispatchProofs ResizeProofs SamplerProofs FilterSums Center QuantSums ApiProofs Witness NearestProofs PoolProofs
  Ar30 SpecAr30 Ar30Proofs Ar30Kernels Ar30Calls.
Import ListNotations.
Local Open Scope nat_scope.

(** The two public calls. *)
Definition resize30 (t : rgb30) := match t with Ar30 => resize_ar30 | Ra30 => resize_ra30 end.

Lemma resize30_impl t o L f pool src ss sw sh dst ds dw dh :
  resize30 t L f pool src ss sw sh dst ds dw dh o = resize_ar30_impl t o L f pool src ss sw sh dst ds dw dh.
Proof. destruct t; reflexivity. Qed.

(** ** C31: packing *)

(** The four bytes of a packed pixel, read back by the arithmetic of SpecAr30.v, hold the
    colours given, with alpha 3. *)
Theorem C31_pack_layout : forall t o r g b,
  (0 <= r <= 1023 -> 0 <= g <= 1023 -> 0 <= b <= 1023 ->
   let bytes := bytes_of_word (pack_w_a t o r g b) in
   length bytes = 4%nat /\ bytes_in bytes /\
   alpha_bits t (word_at o bytes 0) = 3 /\ colour t (word_at o bytes 0) 0 = r /\
   colour t (word_at o bytes 0) 1 = g /\ colour t (word_at o bytes 0) 2 = b)%Z.
Proof.
  intros t o r g b Hr Hg Hb bytes.
  set (A := fun c : nat => (match c with O => r | 1%nat => g | _ => b end * 2 ^ 15)%Z).
  assert (C : forall v, (0 <= v <= 1023)%Z -> clamp10 (wrap32 (v * 2 ^ 15)) = v).
  { intros v Hv. rewrite wrap32_small by lia. unfold clamp10, PRECISION. rewrite Z.shiftr_div_pow2 by lia.
    rewrite Z.div_mul by lia. lia. }
  assert (E : bytes = packed t o A).
  { unfold bytes, packed, A. rewrite !C by assumption. reflexivity. }
  split; [reflexivity|]. split; [rewrite E; apply packed_bytes|].
  destruct (stored_colour t o bytes 0 A) as [P Q].
  { intros k Hk. rewrite E. reflexivity. }
  assert (F : forall v, (0 <= v <= 1023)%Z -> floor_q15 1023 (wrap32 (v * 2 ^ 15)) = v).
  { intros v Hv. rewrite <- clamp10_spec. now apply C. }
  repeat split; [exact P| | |]; rewrite Q by lia; apply F; assumption.
Qed.
Print Assumptions C31_pack_layout.

Theorem C31_round_trip : forall t o r g b,
  (0 <= r <= 1023 -> 0 <= g <= 1023 -> 0 <= b <= 1023 ->
   0 <= pack_w_a t o r g b < 2 ^ 32 /\ unpack t o (pack_w_a t o r g b) = mkCG r g b 3)%Z.
Proof.
  intros t o r g b Hr Hg Hb. split; [apply pack_is_word|apply unpack_pack]; unfold ten; lia.
Qed.
Print Assumptions C31_round_trip.

Theorem C31_unpack : forall t o bytes,
  length bytes = 4%nat -> bytes_in bytes ->
  let w := word_of_bytes (nth 0 bytes 0%Z) (nth 1 bytes 0%Z) (nth 2 bytes 0%Z) (nth 3 bytes 0%Z) in
  (cr (unpack t o w) = colour t (word_at o bytes 0) 0 /\ cgr (unpack t o w) = colour t (word_at o bytes 0) 1 /\
   cb (unpack t o w) = colour t (word_at o bytes 0) 2 /\ ca (unpack t o w) = 3 /\
   (forall c, (c < 3)%nat -> 0 <= colour t (word_at o bytes 0) c <= 1023) /\
   (* packing an opaque pixel again returns it *)
   (alpha_bits t (word_at o bytes 0) = 3 ->
    bytes_of_word (pack_w_a t o (cr (unpack t o w)) (cgr (unpack t o w)) (cb (unpack t o w))) = bytes))%Z.
Proof.
  intros t o bytes L B w.
  destruct bytes as [|b0 [|b1 [|b2 [|b3 [|]]]]]; try discriminate L.
  assert (B' := B). unfold bytes_in in B'. inversion B' as [|? ? H0 B1]; subst. inversion B1 as [|? ? H1 B2]; subst.
  inversion B2 as [|? ? H2 B3]; subst. inversion B3 as [|? ? H3 _]; subst.
  assert (CC : forall c, c < 3 -> comp t o [b0; b1; b2; b3] 0 c = colour t (word_at o [b0; b1; b2; b3] 0) c)
    by (intros c Hc; apply comp_colour; assumption).
  assert (CR : forall c, c < 3 -> (0 <= colour t (word_at o [b0; b1; b2; b3] 0) c <= 1023)%Z)
    by (intros c Hc; apply colour_range; assumption).
  destruct (bytes_word b0 b1 b2 b3 H0 H1 H2 H3) as [Ww Bw]. fold w in Ww, Bw.
  pose proof (CC 0 ltac:(lia)) as C0. pose proof (CC 1 ltac:(lia)) as C1. pose proof (CC 2 ltac:(lia)) as C2.
  unfold comp in C0, C1, C2. cbn [nth Nat.add] in C0, C1, C2. cbn [nth] in w. fold w in C0, C1, C2. cbn [lane] in C0, C1, C2.
  split; [exact C0|]. split; [exact C1|]. split; [exact C2|]. split; [apply unpack_range; exact Ww|]. split; [exact CR|].
  - intro A. rewrite pack_unpack; [exact Bw|exact Ww|].
    destruct (word_at_ordered o [b0; b1; b2; b3] 0) as [E _]; try assumption. cbn [nth Nat.add] in E. fold w in E.
    rewrite <- E. destruct t; exact A.
Qed.
Print Assumptions C31_unpack.
Example C31_nonvacuous : unpack Ra30 NetworkOrder (pack_w_a Ra30 NetworkOrder 1023 512 1)%Z = (mkCG 1023 512 1 3)%Z /\
  bytes_of_word (pack_w_a Ar30 HostOrder 1023 512 1)%Z = [255; 3; 24; 192]%Z /\ bytes_in [255; 3; 24; 192]%Z.
Proof. repeat split; try reflexivity. repeat constructor; lia. Qed.

(** ** C32, C33: the calls *)
Definition sizes_differ (sw sh dw dh : nat) : Prop := sw <> dw \/ sh <> dh.

(** Either the filter is an averaging one, or the image shrinks at most tenfold. *)
Definition no_overflow30 (f : resampling_function) (sw sh dw dh : nat) : Prop :=
  averaging f = true \/ (Z.of_nat sw <= 10 * Z.of_nat dw /\ Z.of_nat sh <= 10 * Z.of_nat dh)%Z.

Lemma support_le f : (1 <= e_support (filter_entry f) <= 6)%Z.
Proof. destruct f; cbn; lia. Qed.

Lemma safe30 L f src ss sw sh dst ds dw dh : valid30 f src ss sw sh dst ds dw dh -> no_overflow30 f sw sh dw dh ->
  accumulator_safe 1023 (filter_windows (resampling_filter L f) sh dh) dh /\
  accumulator_safe 1023 (filter_windows (resampling_filter L f) sw dw) dw.
Proof.
  intros V [A|[Tw Th]]; destruct (valid30_sides _ _ _ _ _ _ _ _ _ V) as [Sv Sh].
  - split; apply averaging_safe; auto; lia.
  - pose proof (support_le f). split; apply any_filter_safe with (t := 10%Z); auto; lia.
Qed.

(** What every call does: the horizontal pass of the rows left over after the groups of
    four uses only some of the taps ([taps30], SpecAr30.v). *)
Theorem C32_rows_exact : forall t o L f pool src ss sw sh dst ds dw dh,
  valid30 f src ss sw sh dst ds dw dh -> f <> Nearest -> sizes_differ sw sh dw dh -> pool_ok pool ->
  no_overflow30 f sw sh dw dh -> (sw = dw -> ss = ds) ->
  exists out, resize30 t L f pool src ss sw sh dst ds dw dh o = BytesReturned Ok out /\
    only_visible_differ ds dw dst out /\
    shows30 t o out ds dw dh (resample30_taps (taps30 dh) (negb (sh =? dh)) (negb (sw =? dw))
      (filter_windows (resampling_filter L f) sh dh) (filter_windows (resampling_filter L f) sw dw) (picture30 t o src ss)).
Proof.
  intros t o L f pool src ss sw sh dst ds dw dh V Hf Hc HP NO Hs. rewrite resize30_impl.
  destruct (safe30 L _ _ _ _ _ _ _ _ _ V NO) as [A B]. apply ar30_call; auto.
Qed.
Print Assumptions C32_rows_exact.

(** When no row is left over, or the leftover rows only meet windows of 2, 3, 4 or 6 taps,
    every row is the fixed point convolution. *)
Definition kernels_complete (L : libm) (f : resampling_function) (sw dw dh : nat) : Prop :=
  sw = dw \/ dh mod 4 = 0 \/
  forall x, x < dw -> In (wsize (filter_windows (resampling_filter L f) sw dw) x) [2; 3; 4; 6].

Theorem C32_rows_agree_partial : forall t o L f pool src ss sw sh dst ds dw dh,
  valid30 f src ss sw sh dst ds dw dh -> f <> Nearest -> sizes_differ sw sh dw dh -> pool_ok pool ->
  no_overflow30 f sw sh dw dh -> (sw = dw -> ss = ds) -> kernels_complete L f sw dw dh ->
  exists out, resize30 t L f pool src ss sw sh dst ds dw dh o = BytesReturned Ok out /\
    only_visible_differ ds dw dst out /\
    shows30 t o out ds dw dh (resample30 (negb (sh =? dh)) (negb (sw =? dw))
      (filter_windows (resampling_filter L f) sh dh) (filter_windows (resampling_filter L f) sw dw) (picture30 t o src ss)).
Proof.
  intros t o L f pool src ss sw sh dst ds dw dh V Hf Hc HP NO Hs K.
  destruct (C32_rows_exact t o L f pool src ss sw sh dst ds dw dh V Hf Hc HP NO Hs) as (out & R & O & P).
  exists out. split; [exact R|]. split; [exact O|]. intros x y Hx Hy. destruct (P x y Hx Hy) as [P1 P2]. split; [exact P1|].
  intros c Hc0. rewrite (P2 c Hc0). unfold resample30_taps, resample30. cbv zeta.
  destruct (sw =? dw) eqn:E; cbn [negb]; [reflexivity|]. unfold resample_h.
  replace (taps30 dh y (wsize (filter_windows (resampling_filter L f) sw dw) x)) with
    (wsize (filter_windows (resampling_filter L f) sw dw) x); [reflexivity|].
  unfold taps30. destruct (y <? 4 * (dh / 4)) eqn:Ey; [reflexivity|].
  destruct K as [K|[K|K]]; [lia| |].
  - pose proof (Nat.div_mod dh 4 ltac:(lia)). lia.
  - specialize (K x Hx). set (n := wsize _ x) in *. cbn [In] in K. destruct K as [<-|[<-|[<-|[<-|[]]]]]; reflexivity.
Qed.
Print Assumptions C32_rows_agree_partial.

(** A white pixel, and an image of h rows of one white pixel. *)
Definition white30 (t : rgb30) (o : byte_order) : list Z := bytes_of_word (pack_w_a t o 1023 1023 1023)%Z.

Ltac valid30_tac := constructor; cbn [length repeat app bytes_of_word]; unfold fits_usize, usize_mod, bytes_in; repeat split;
  try lia; try (intro; discriminate); try (repeat (constructor; [lia|])); try constructor.

Example C32_nonvacuous :
  let src := concat (repeat (white30 Ar30 HostOrder) 4) in
  valid30 Bilinear src 4 1 4 (repeat 0%Z 32) 8 2 4 /\ sizes_differ 1 4 2 4 /\ no_overflow30 Bilinear 1 4 2 4 /\
  pool_ok (Some (fun _ n => rev (seq 0 n))) /\ forall L, kernels_complete L Bilinear 1 2 4.
Proof.
  cbv zeta. split; [vm_compute concat; valid30_tac|]. split; [left; lia|]. split; [left; reflexivity|].
  split; [apply pool_two|]. intro L. right; left. reflexivity.
Qed.

(** A single row of one white pixel widened to two pixels comes out black. *)
Theorem C32_rows_agree_refuted : forall L, exists src dst,
  valid30 Bilinear src 4 1 1 dst 8 2 1 /\ no_overflow30 Bilinear 1 1 2 1 /\
  picture30 Ar30 HostOrder src 4 0 0 0 = 1023%Z /\
  exists out, resize_ar30 L Bilinear None src 4 1 1 dst 8 2 1 HostOrder = BytesReturned Ok out /\
    forall x c, x < 2 -> c < 3 -> picture30 Ar30 HostOrder out 8 0 x c = 0%Z.
Proof.
  intro L. exists (white30 Ar30 HostOrder), (repeat 0%Z 8).
  split; [vm_compute white30; valid30_tac|]. split; [left; reflexivity|]. split; [reflexivity|].
  exists [0; 0; 0; 192; 0; 0; 0; 192]%Z. split; [vm_compute; reflexivity|].
  intros x c Hx Hc. destruct x as [|[|x]]; try lia; destruct c as [|[|[|c]]]; try lia; reflexivity.
Qed.
Print Assumptions C32_rows_agree_refuted.

(** The same row among four is right. *)
Example C32_four_rows : forall L, exists out,
  resize_ar30 L Bilinear None (concat (repeat (white30 Ar30 HostOrder) 4)) 4 1 4 (repeat 0%Z 32) 8 2 4 HostOrder = BytesReturned Ok out /\
  firstn 8 out = white30 Ar30 HostOrder ++ white30 Ar30 HostOrder.
Proof. intro L. eexists. split; vm_compute; reflexivity. Qed.

(** C33: with a filter other than Nearest and both sizes changing or only the width, any
    strides are honoured: only visible source bytes matter and padding is kept. *)
Theorem C33_strides_partial : forall t o L f pool pool' src ss src' ss' sw sh dst ds dw dh,
  valid30 f src ss sw sh dst ds dw dh -> valid30 f src' ss' sw sh dst ds dw dh ->
  f <> Nearest -> sw <> dw -> pool_ok pool -> pool_ok pool' -> no_overflow30 f sw sh dw dh ->
  (forall x y c, x < sw -> y < sh -> c < 3 -> picture30 t o src ss y x c = picture30 t o src' ss' y x c) ->
  exists out out',
    resize30 t L f pool src ss sw sh dst ds dw dh o = BytesReturned Ok out /\
    resize30 t L f pool' src' ss' sw sh dst ds dw dh o = BytesReturned Ok out' /\
    only_visible_differ ds dw dst out /\ only_visible_differ ds dw dst out' /\
    forall x y c, x < dw -> y < dh -> c < 3 -> picture30 t o out ds y x c = picture30 t o out' ds y x c.
Proof.
  intros t o L f pool pool' src ss src' ss' sw sh dst ds dw dh V V' Hf Hw HP HP' NO A.
  destruct (C32_rows_exact t o L f pool src ss sw sh dst ds dw dh V Hf ltac:(left; exact Hw) HP NO ltac:(lia)) as (out & R & O & P).
  destruct (C32_rows_exact t o L f pool' src' ss' sw sh dst ds dw dh V' Hf ltac:(left; exact Hw) HP' NO ltac:(lia)) as (out' & R' & O' & P').
  exists out, out'. split; [exact R|]. split; [exact R'|]. split; [exact O|]. split; [exact O'|].
  intros x y c Hx Hy Hc. destruct (P x y Hx Hy) as [_ P2]. destruct (P' x y Hx Hy) as [_ P2']. rewrite (P2 c Hc), (P2' c Hc).
  destruct (valid30_sides _ _ _ _ _ _ _ _ _ V) as [Sv Sh].
  destruct (win_row (resampling_filter L f) sw dw (sides_wf L f sw dw Sh) x Hx) as (_ & Bh & _).
  pose proof (taps30_le dh y (wsize (filter_windows (resampling_filter L f) sw dw) x)) as Tn.
  unfold resample30_taps. cbv zeta. replace (sw =? dw) with false by lia. cbn [negb].
  f_equal. apply zsum_ext. intros k Hk. f_equal. destruct (sh =? dh) eqn:Eh; cbn [negb].
  - apply A; lia.
  - f_equal. apply zsum_ext. intros j Hj. f_equal.
    destruct (win_row (resampling_filter L f) sh dh (sides_wf L f sh dh Sv) y Hy) as (_ & Bv & _). apply A; lia.
Qed.
Print Assumptions C33_strides_partial.

Theorem C33_same_size_partial : forall t o L f pool src ss w h dst,
  valid30 f src ss w h dst ss w h ->
  resize30 t L f pool src ss w h dst ss w h o = BytesReturned Ok src.
Proof.
  intros t o L f pool src ss w h dst V. rewrite resize30_impl. destruct (valid30_checks _ _ _ _ _ _ _ _ _ V) as (CK & _).
  destruct V as [(S1 & S2 & S3 & S4) (D1 & D2 & D3 & D4) _ _ _ _].
  unfold resize_ar30_impl. rewrite CK. cbn [btry]. rewrite !Nat.eqb_refl. cbn [andb]. f_equal.
  unfold copy_row. rewrite firstn_all2 by lia. rewrite skipn_all2 by lia. apply app_nil_r.
Qed.
Print Assumptions C33_same_size_partial.

Example C33_nonvacuous :
  valid30 Lanczos3 (repeat 7%Z 30) 15 3 2 (repeat 0%Z 54) 18 4 3 /\ 3 <> 4 /\ no_overflow30 Lanczos3 3 2 4 3.
Proof. split; [valid30_tac|]. split; [lia|right; lia]. Qed.

(** Nearest leaves the destination of a valid call as it was. *)
Theorem C33_nearest_refuted : forall L, exists src dst,
  valid30 Nearest src 8 2 1 dst 4 1 1 /\ ~ In (firstn 4 dst) [firstn 4 src; skipn 4 src] /\
  resize_ar30 L Nearest None src 8 2 1 dst 4 1 1 HostOrder = BytesReturned Ok dst.
Proof.
  intro L. exists (white30 Ar30 HostOrder ++ white30 Ar30 HostOrder), [7; 7; 7; 7]%Z.
  split; [vm_compute app; valid30_tac|]. split; [vm_compute; intros [H|[H|[]]]; discriminate H|].
  vm_compute. reflexivity.
Qed.
Print Assumptions C33_nearest_refuted.

(** Changing only the height with a destination stride other than the source stride panics,
    or leaves rows unwritten. *)
Theorem C33_strides_refuted : forall L, exists src dst dst',
  valid30 Bilinear src 4 1 1 dst 6 1 2 /\
  resize_ar30 L Bilinear None src 4 1 1 dst 6 1 2 HostOrder = BytesPanicked /\
  valid30 Bilinear (src ++ [0%Z]) 5 1 1 dst' 4 1 2 /\
  picture30 Ar30 HostOrder src 4 0 0 0 = 1023%Z /\
  exists out, resize_ar30 L Bilinear None (src ++ [0%Z]) 5 1 1 dst' 4 1 2 HostOrder = BytesReturned Ok out /\
    skipn 4 out = skipn 4 dst' /\ picture30 Ar30 HostOrder out 4 1 0 0 = 0%Z.
Proof.
  intro L. exists (white30 Ar30 HostOrder), (repeat 0%Z 12), (repeat 0%Z 8).
  split; [vm_compute white30; valid30_tac|]. split; [vm_compute; reflexivity|].
  split; [vm_compute app; valid30_tac|]. split; [reflexivity|].
  eexists. split; [vm_compute; reflexivity|]. split; reflexivity.
Qed.
Print Assumptions C33_strides_refuted.

(** A copy of the same size between different strides copies bytes, not pixels. *)
Theorem C33_same_size_refuted : forall L, exists src dst out,
  valid30 Bilinear src 4 1 2 dst 5 1 2 /\
  resize_ar30 L Bilinear None src 4 1 2 dst 5 1 2 HostOrder = BytesReturned Ok out /\
  picture30 Ar30 HostOrder src 4 1 0 2 = 1023%Z /\ picture30 Ar30 HostOrder out 5 1 0 2 <> 1023%Z.
Proof.
  intro L. exists (repeat 0%Z 4 ++ white30 Ar30 HostOrder), (repeat 0%Z 10). eexists.
  split; [vm_compute app; valid30_tac|]. split; [vm_compute; reflexivity|].
  split; [reflexivity|]. intro H. vm_compute in H. discriminate H.
Qed.
Print Assumptions C33_same_size_refuted.

(** ** C46: refused calls, schedules *)
Theorem C46_refusals_30 : forall t o L f pool src ss sw sh dst ds dw dh,
  match first_error (refusal_table30 src ss sw sh dst ds dw dh) with
  | Some e => resize30 t L f pool src ss sw sh dst ds dw dh o = BytesReturned (Err e) dst
  | None => resize30 t L f pool src ss sw sh dst ds dw dh o = BytesPanicked \/
            exists out, resize30 t L f pool src ss sw sh dst ds dw dh o = BytesReturned Ok out
  end.
Proof. intros. rewrite resize30_impl. apply ar30_cases. Qed.
Print Assumptions C46_refusals_30.
(** Valid calls are not refused. *)
Theorem C46_valid_not_refused_30 : forall f src ss sw sh dst ds dw dh,
  valid30 f src ss sw sh dst ds dw dh -> first_error (refusal_table30 src ss sw sh dst ds dw dh) = None.
Proof.
  intros f src ss sw sh dst ds dw dh V. destruct (valid30_checks _ _ _ _ _ _ _ _ _ V) as (CK & _).
  rewrite ar_checks_table in CK. destruct (first_error _); [discriminate CK|reflexivity].
Qed.
Print Assumptions C46_valid_not_refused_30.
Theorem C46_schedule_independent_30 : forall t o L f pool src ss sw sh dst ds dw dh, pool_ok pool ->
  resize30 t L f pool src ss sw sh dst ds dw dh o = resize30 t L f None src ss sw sh dst ds dw dh o.
Proof. intros. rewrite !resize30_impl. now apply ar30_pool. Qed.
Print Assumptions C46_schedule_independent_30.
Example C46_nonvacuous :
  first_error (refusal_table30 (repeat 0%Z 8) 4 2 2 (repeat 0%Z 4) 4 1 1) = Some (InvalidStride 8 4) /\
  valid30 Lanczos3 (repeat 7%Z 30) 15 3 2 (repeat 0%Z 54) 18 4 3 /\ pool_ok (Some (fun _ n => rev (seq 0 n))).
Proof. split; [reflexivity|]. split; [valid30_tac|apply pool_two]. Qed.
