(** Packed 30-bit calls succeed on every valid input, and depend only on the visible source,
    on every processor and without any overflow condition. *)
From Coq Require Import ZArith List Bool Lia ZifyBool ZifyNat ZifyN.
From Verif Require Import Base BaseProofs ImageStore ColorGroup FixedPoint Dispatch Resize F32 Weights Sampler Api Spec SpecApi
  KernelProofs Kernel4Proofs ColumnProofs DispatchProofs ResizeProofs WeightsProofs SamplerProofs QuantProofs QuantSums PortableProofs ApiProofs NoFail PoolProofs ImageProofs
  Ar30 SpecAr30 Ar30Proofs Ar30Kernels Ar30Calls
  Simd SimdProofs X86Vertical X86VerticalProofs X86Horizontal X86HorizontalProofs X86DispatchProofs X86Ar30 SpecX86Ar30 X86Ar30Proofs X86Ar30Columns X86Ar30Calls.
Import ListNotations.
Local Open Scope nat_scope.

(** The rewritten buffer: padding kept, visible byte (y, j) given by [v]. *)
Definition written (h ds w : nat) (v : nat -> nat -> Z) (dst out : list Z) : Prop :=
  only_visible_differ ds w dst out /\
  forall y j, y < h -> j < w * 4 -> nth (y * ds + j) out 0%Z = v y j.
Lemma pixmap_written h ds w v dst : 0 < ds -> w * 4 <= ds -> length dst = h * ds -> written h ds w v dst (pixmap 0%Z h ds (w * 4) v dst).
Proof.
  intros Hd Hw L. split; [split; [apply pixmap_length|]|].
  - intros i Hi. rewrite nth_error_pixmap. destruct (i <? length dst) eqn:E.
    + replace (i mod ds <? w * 4) with false by lia. rewrite andb_false_r. symmetry. apply nth_error_nth_lt. lia.
    + symmetry. apply nth_error_None. lia.
  - intros y j Hy Hj. apply nth_error_nth. now apply pixmap_at.
Qed.
Lemma written_ext h ds w v v' dst out : (forall y j, y < h -> j < w * 4 -> v y j = v' y j) -> written h ds w v dst out -> written h ds w v' dst out.
Proof. intros H [A B]. split; [exact A|]. intros y j Hy Hj. rewrite <- H by assumption. now apply B. Qed.
Lemma written_full h w v dst out : 0 < w -> length dst = h * (w * 4) -> written h (w * 4) w v dst out ->
  out = map (fun i => v (i / (w * 4)) (i mod (w * 4))) (seq 0 (h * (w * 4))).
Proof.
  intros Hw L [[A _] B]. apply nth_ext with (d := 0%Z) (d' := 0%Z); [rewrite map_length, seq_length; lia|].
  intros i Hi. rewrite A, L in Hi.
  rewrite nth_map_seq by exact Hi. pose proof (Nat.div_mod i (w * 4) ltac:(lia)) as D.
  pose proof (Nat.mod_upper_bound i (w * 4) ltac:(lia)) as M.
  rewrite <- B; [f_equal; lia| |exact M]. apply Nat.div_lt_upper_bound; lia.
Qed.

Section Passes.
Variables (t : rgb30) (o : byte_order) (sse : bool).

Lemma bytes_of_dword v k : byte (nth k (dword_bytes v) 0%Z).
Proof.
  destruct (Nat.lt_ge_cases k 4) as [H|H].
  - assert (F : Forall byte (dword_bytes v)).
    { unfold dword_bytes. repeat constructor; unfold byte; apply Z.mod_pos_bound; lia. }
    rewrite Forall_forall in F. apply F. apply nth_In. exact H.
  - rewrite nth_overflow by exact H. unfold byte. lia.
Qed.

(** Byte j of row y after the vertical pass with windows W. *)
Definition vbyte30 (W : windows) (p : picture) (y j : nat) : Z :=
  let a c := (2 ^ 14 - (if sse then 1 else 0) + zsum (wsize W y) (fun k => wcoef W y k * p (wstart W y + k)%nat (j / 4)%nat c))%Z in
  if sse then nth (j mod 4) (px30_raw t o (low30 (a 0)) (low30 (a 1)) (low30 (a 2))) 0%Z
  else nth (j mod 4) (packed t o a) 0%Z.
Definition cut30 (c : nat) : Z := match c with 1 => 0%Z | _ => 1023%Z end.
(** Byte j of row y of h after the horizontal pass with windows W. *)
Definition hbyte30 (W : windows) (h : nat) (p : picture) (y j : nat) : Z :=
  let x := j / 4 in
  let s c := zsum (wsize W x) (fun k => wcoef W x k * p y (wstart W x + tap30 (wsize W x) k)%nat c)%Z in
  let r c := zsum (taps30 h y (wsize W x)) (fun k => wcoef W x k * p y (wstart W x + k)%nat c)%Z in
  if sse then nth (j mod 4) (packed t o (fun c =>
      (if (y <? 4 * (h / 4))%nat then out30 15 1023 (2 ^ 14 - 1 + s c) else out30 16 (cut30 c) (2 ^ 15 - 1 + s c)) * 2 ^ 15)%Z) 0%Z
  else nth (j mod 4) (packed t o (fun c => 2 ^ 14 + r c)%Z) 0%Z.

Lemma vbyte30_byte W p y j : byte (vbyte30 W p y j).
Proof. unfold vbyte30. destruct sse; [apply bytes_of_dword|]. apply (packed_nth_byte t o). Qed.

Section Pass.
Variables (fl : rfilter) (insz outsz : nat).
Let fw := generate_weights fl insz outsz.
Let W := filter_windows fl insz outsz.
Hypothesis WF : wf_fw fw insz outsz.

Lemma vbyte30_local p q w y j : y < outsz -> j < w * 4 ->
  (forall x y c, x < w -> y < insz -> c < 3 -> p y x c = q y x c) -> vbyte30 W p y j = vbyte30 W q y j.
Proof using WF.
  intros Hy Hj H. unfold vbyte30. cbv zeta. destruct (win_row fl insz outsz WF y Hy) as (_ & E2 & _). fold W in E2.
  assert (J : j / 4 < w) by (apply Nat.div_lt_upper_bound; lia).
  assert (E : forall c, c < 3 -> zsum (wsize W y) (fun k => wcoef W y k * p (wstart W y + k)%nat (j / 4)%nat c)%Z = zsum (wsize W y) (fun k => wcoef W y k * q (wstart W y + k)%nat (j / 4)%nat c)%Z).
  { intros c Hc. apply zsum_ext. intros k Hk. f_equal. apply H; lia. }
  destruct sse.
  - rewrite !E by lia. reflexivity.
  - f_equal. apply packed_ext. intros c Hc. rewrite E by exact Hc. reflexivity.
Qed.
Lemma hbyte30_local p q h y j : y < h -> j < outsz * 4 ->
  (forall x y c, x < insz -> y < h -> c < 3 -> p y x c = q y x c) -> hbyte30 W h p y j = hbyte30 W h q y j.
Proof using WF.
  intros Hy Hj H. unfold hbyte30. cbv zeta.
  assert (J : j / 4 < outsz) by (apply Nat.div_lt_upper_bound; lia).
  destruct (win_row fl insz outsz WF (j / 4) J) as (_ & E2 & _). fold W in E2. set (x := j / 4) in *.
  destruct sse.
  - f_equal. apply packed_ext. intros c Hc.
    assert (E : zsum (wsize W x) (fun k => wcoef W x k * p y (wstart W x + tap30 (wsize W x) k)%nat c)%Z = zsum (wsize W x) (fun k => wcoef W x k * q y (wstart W x + tap30 (wsize W x) k)%nat c)%Z).
    { apply zsum_ext. intros k Hk. pose proof (tap30_le (wsize W x) k Hk). f_equal. apply H; lia. }
    rewrite E. reflexivity.
  - f_equal. apply packed_ext. intros c Hc. f_equal. apply zsum_ext. intros k Hk. pose proof (taps30_le h y (wsize W x)). f_equal. apply H; lia.
Qed.

Lemma vpass_written pool src ss dst ds w :
  pool_ok pool -> 0 < w -> w * 4 <= ss -> w * 4 <= ds -> length src = insz * ss -> length dst = outsz * ds -> bytes src ->
  exists out, ar_vpass_x86 t o sse quant_i16 fw pool src ss dst ds w = Done out /\
    written outsz ds w (vbyte30 W (picture30 t o src ss)) dst out.
Proof using WF.
  intros HP Hw Ls Ld Es Ed B. pose proof (bytes_visible src ss w insz B) as VB. unfold vbyte30. destruct sse.
  - unfold ar_vpass_x86. rewrite (numerical_approximation_qfw quant_i16 fw _ _ WF). cbn [bind].
    pose proof (qfw_wf quant_i16 fw _ _ WF) as W'.
    assert (S1 : stride_of 4 (byte_image src 0 0 ss) = ss) by (unfold stride_of, byte_image; cbn; destruct ss; [lia|reflexivity]).
    assert (S2 : stride_of 4 (byte_image dst w 0 ds) = ds) by (unfold stride_of, byte_image; cbn [stride width]; destruct ds; [lia|reflexivity]).
    pose proof (weights_i16 fw) as WI. cbn [qfw bounds aligned_size weights] in *.
    set (ws y := skipn (y * aligned_size fw) (map quant_i16 (weights fw))). set (bd y := nth y (bounds fw) (mkBound 0 0)).
    set (val y := map (vbyteraw t o src ss (ws y) (bd y)) (seq 0 (w * 4))).
    rewrite (vertical_dispatch_closed 4 _ _ _ _ val pool _ _ ds outsz HP S2 ltac:(lia)).
    + cbn [bind buf set_buf byte_image width]. eexists. split; [reflexivity|].
      assert (X : concat (map (fun y => rowmap (w * 4) (vbyteraw t o src ss (ws y) (bd y)) (chunk ds dst y)) (seq 0 outsz)) = pixmap 0%Z outsz ds (w * 4) (fun y => vbyteraw t o src ss (ws y) (bd y)) dst)
        by (apply pixmap_rows; auto; lia).
      unfold val. unfold rowmap in X. rewrite X.
      eapply written_ext; [|apply pixmap_written; auto; lia].
      intros y j Hy Hj. cbv beta zeta. unfold vbyteraw, vraw.
      assert (J : j / 4 < w) by (apply Nat.div_lt_upper_bound; lia). unfold ws, bd.
      rewrite !(vsum_colour t o fl insz outsz WF src ss w) by (assumption || lia). reflexivity.
    + cbn [width byte_image]. lia.
    + exact Ed.
    + apply (wf_blen _ _ _ WF).
    + rewrite map_length, (wf_wlen _ _ _ WF). lia.
    + intros y b d Hb Hy Hd. cbn [width byte_image buf] in *. rewrite S1.
      destruct (wf_win _ _ _ WF y b Hb) as (B1 & B2 & B3).
      assert (Eb : bd y = b) by (apply nth_error_nth; exact Hb).
      split.
      * rewrite (ar_column_sse_raw t o src ss _ b d w B).
        -- f_equal. unfold val. rewrite Eb, Hd. reflexivity.
        -- rewrite Forall_forall in *. intros x Hx. apply WI. rewrite <- (firstn_skipn (y * aligned_size fw) (map quant_i16 (weights fw))). apply in_or_app. now right.
        -- exact Hd.
        -- rewrite skipn_length, map_length, (wf_wlen _ _ _ WF). nia.
        -- intros k Hk. rewrite Es. nia.
      * unfold val. rewrite map_length, seq_length. reflexivity.
  - change (ar_vpass_x86 t o false quant_i16 fw pool src ss dst ds w) with (ar_vpass t o quant_i16 fw pool src ss dst ds w).
    rewrite (ar_vpass_closed t o quant_i16 fw pool src ss dst ds w insz outsz HP WF Hw Ls Ld Es Ed).
    eexists. split; [reflexivity|]. eapply written_ext; [|apply pixmap_written; auto; lia].
    intros y j Hy Hj. cbv beta zeta. unfold vbyte. f_equal. apply packed_ext. intros c Hc.
    assert (J : j / 4 < w) by (apply Nat.div_lt_upper_bound; lia). unfold vacc.
    destruct (win_row fl insz outsz WF y Hy) as (E1 & E2 & E3). fold fw in E1, E3. fold W in E1, E2, E3. rewrite E1. cbn [bstart bsize].
    change ROUNDING_CONST with (2 ^ 14)%Z. rewrite Z.sub_0_r. f_equal. apply zsum_ext. intros k Hk. rewrite E3, Z.mul_comm. f_equal.
    rewrite (Nat.mul_comm ss). apply (visible_comp t o src ss w insz); auto; lia.
Qed.

Lemma hpass_written pool src ss dst ds h :
  pool_ok pool -> 0 < insz -> 0 < outsz -> insz * 4 <= ss -> outsz * 4 <= ds -> length src = h * ss -> length dst = h * ds -> bytes src ->
  exists out, ar_hpass_x86 t o sse quant_i16 fw pool src ss dst ds = Done out /\
    written h ds outsz (hbyte30 W h (picture30 t o src ss)) dst out.
Proof using WF.
  intros HP Hi Ho Ls Ld Es Ed B. pose proof (bytes_visible src ss insz h B) as VB. unfold hbyte30. destruct sse.
  - pose proof (hpass_closed t o fw pool src ss dst ds h insz outsz HP WF B Hi Ho Ls Ld Es Ed) as R. cbv beta zeta in R.
    rewrite R; clear R. eexists; split; [reflexivity|]. eapply written_ext; [|apply pixmap_written; auto; lia].
    intros y j Hy Hj. cbv beta zeta. f_equal. apply packed_ext. intros c Hc. f_equal.
    assert (J : j / 4 < outsz) by (apply Nat.div_lt_upper_bound; lia). set (x := j / 4) in *.
    destruct (win_row fl insz outsz WF x J) as (E1 & E2 & E3). fold fw in E1, E3. fold W in E1, E2, E3.
    assert (HS : forall prec, acc30 t o prec (fun i => nth i (chunk ss src y) 0%Z) (nth x (bounds (qfw quant_i16 fw)) (mkBound 0 0))
       (fun k => nth (x * aligned_size (qfw quant_i16 fw) + k) (weights (qfw quant_i16 fw)) 0%Z) c =
       (2 ^ (prec - 1) - 1 + zsum (wsize W x) (fun k => wcoef W x k * picture30 t o src ss y (wstart W x + tap30 (wsize W x) k)%nat c))%Z).
    { intro prec. unfold acc30. change (bounds (qfw quant_i16 fw)) with (bounds fw). change (aligned_size (qfw quant_i16 fw)) with (aligned_size fw).
      change (weights (qfw quant_i16 fw)) with (map quant_i16 (weights fw)). rewrite E1. cbn [bstart bsize]. f_equal.
      apply zsum_ext. intros k Hk. rewrite <- nth_skipn, E3, Z.mul_comm. f_equal. pose proof (tap30_le (wsize W x) k Hk).
      change (compf t o (fun i => nth i (chunk ss src y) 0%Z) ((wstart W x + tap30 (wsize W x) k) * 4) c)
        with (comp t o (chunk ss src y) ((wstart W x + tap30 (wsize W x) k) * 4) c).
      rewrite (comp_ext t o (chunk ss src y) src _ (y * ss + (wstart W x + tap30 (wsize W x) k) * 4)).
      - apply (visible_comp t o src ss insz h); auto; lia.
      - intros i Hk4. rewrite nth_chunk by nia. f_equal. lia. }
    unfold hout. rewrite !HS. reflexivity.
  - change (ar_hpass_x86 t o false quant_i16 fw pool src ss dst ds) with (ar_hpass t o quant_i16 fw pool src ss dst ds).
    rewrite (ar_hpass_closed t o quant_i16 fw pool src ss dst ds h insz outsz HP WF Hi Ho Ls Ld Es Ed).
    eexists; split; [reflexivity|]. eapply written_ext; [|apply pixmap_written; auto; lia].
    intros y j Hy Hj. cbv beta zeta. f_equal. apply packed_ext. intros c Hc.
    assert (J : j / 4 < outsz) by (apply Nat.div_lt_upper_bound; lia). set (x := j / 4) in *.
    destruct (win_row fl insz outsz WF x J) as (E1 & E2 & E3). fold fw in E1, E3. fold W in E1, E2, E3.
    unfold hacc. cbv zeta. change (bounds (qfw quant_i16 fw)) with (bounds fw). change (aligned_size (qfw quant_i16 fw)) with (aligned_size fw).
    change (weights (qfw quant_i16 fw)) with (map quant_i16 (weights fw)). rewrite E1. cbn [bstart bsize].
    replace (taps_in h y (wsize W x)) with (taps30 h y (wsize W x)) by (unfold taps30, taps_in; destruct (y <? 4 * (h / 4)); [reflexivity|]; unfold short_taps; destruct (wsize W x) as [|[|[|[|[|[|[|n]]]]]]]; reflexivity).
    pose proof (taps30_le h y (wsize W x)) as Tn. change ROUNDING_CONST with (2 ^ 14)%Z. f_equal. unfold comps.
    apply zsum_ext. intros k Hk. rewrite E3, Z.mul_comm. f_equal.
    rewrite (comp_ext t o (chunk ss src y) src _ (y * ss + (wstart W x + k) * 4)).
    + apply (visible_comp t o src ss insz h); auto; lia.
    + intros i Hk4. rewrite nth_chunk by nia. f_equal. lia.
Qed.
End Pass.

(** The picture after the vertical pass, as a list of bytes. *)
Definition mid30 (W : windows) (p : picture) (w h : nat) : list Z := map (fun i => vbyte30 W p (i / (w * 4)) (i mod (w * 4))) (seq 0 (h * (w * 4))).
(** Byte j of row y of the result. *)
Definition result30 (L : libm) (f : resampling_function) (p : picture) (sw sh dw dh : nat) : nat -> nat -> Z :=
  let V := filter_windows (resampling_filter L f) sh dh in
  let H := filter_windows (resampling_filter L f) sw dw in
  if sw =? dw then vbyte30 V p
  else if sh =? dh then hbyte30 H dh p
  else hbyte30 H dh (picture30 t o (mid30 V p sw dh) (sw * 4)).

Theorem ar30_total L f pool src ss sw sh dst ds dw dh :
  valid30 f src ss sw sh dst ds dw dh -> f <> Nearest -> (sw <> dw \/ sh <> dh) -> pool_ok pool -> (sw = dw -> ss = ds) ->
  exists out, resize_ar30_impl_x86 t o sse L f pool src ss sw sh dst ds dw dh = BytesReturned Ok out /\
    written dh ds dw (result30 L f (picture30 t o src ss) sw sh dw dh) dst out.
Proof.
  intros V Hf Hc HP Hs. destruct (valid30_checks _ _ _ _ _ _ _ _ _ V) as (CK & E1 & E2 & E3).
  destruct (valid30_sides _ _ _ _ _ _ _ _ _ V) as [Sv Sh].
  pose proof (sides_wf L f sh dh Sv) as WV. pose proof (sides_wf L f sw dw Sh) as WH.
  destruct V as [(S1 & S2 & S3 & S4) (D1 & D2 & D3 & D4) (F1 & F2 & F3) _ _ B].
  unfold resize_ar30_impl_x86, result30. cbv zeta. rewrite CK. cbn [btry].
  replace ((sw =? dw) && (sh =? dh)) with false by lia. rewrite (wants_nearest_false f Hf). cbv zeta. rewrite E3, !E1.
  destruct (sw =? dw) eqn:Ew; destruct (sh =? dh) eqn:Eh; try lia; cbn [negb andb].
  - assert (sw = dw) as X by lia. rewrite <- (Hs X) in *. subst dw.
    destruct (vpass_written (resampling_filter L f) sh dh WV pool src ss dst ss sw HP S1 S3 S3 S4 D4 B) as (out & R & O).
    rewrite R. cbn [btry]. exists out. split; [reflexivity|exact O].
  - assert (sh = dh) by lia. subst dh.
    destruct (hpass_written (resampling_filter L f) sw dw WH pool src ss dst ds sh HP S1 D1 S3 D3 S4 D4 B) as (out & R & O).
    rewrite R. cbn [btry]. exists out. split; [reflexivity|exact O].
  - destruct (vpass_written (resampling_filter L f) sh dh WV pool src ss (repeat 0%Z (sw * dh * 4)) (sw * 4) sw HP S1 S3
      (le_n _) S4 ltac:(rewrite repeat_length; lia) B) as (mid & R & O).
    rewrite R. cbn [btry].
    assert (Em : mid = mid30 (filter_windows (resampling_filter L f) sh dh) (picture30 t o src ss) sw dh)
      by (apply written_full with (dst := repeat 0%Z (sw * dh * 4)); [exact S1|rewrite repeat_length; lia|exact O]).
    assert (Lm : length mid = dh * (sw * 4)) by (rewrite Em; unfold mid30; rewrite map_length, seq_length; reflexivity).
    assert (BM : bytes mid).
    { rewrite Em. unfold mid30, bytes. apply Forall_forall. intros x Hx. apply in_map_iff in Hx. destruct Hx as (i & <- & _). apply vbyte30_byte. }
    destruct (hpass_written (resampling_filter L f) sw dw WH pool mid (sw * 4) dst ds dh HP S1 D1 (le_n _) D3 Lm D4 BM) as (out & R' & P).
    rewrite R'. cbn [btry]. exists out. split; [reflexivity|]. rewrite <- Em. exact P.
Qed.

(** The bytes of the result depend only on the visible picture. *)
Theorem result30_local L f p q sw sh dw dh y j :
  sides_ok f sh dh -> sides_ok f sw dw -> y < dh -> j < dw * 4 -> (sw <> dw \/ sh <> dh) ->
  (forall x y c, x < sw -> y < sh -> c < 3 -> p y x c = q y x c) ->
  result30 L f p sw sh dw dh y j = result30 L f q sw sh dw dh y j.
Proof.
  intros Sv Sh Hy Hj Hc H.
  pose proof (sides_wf L f sh dh Sv) as WV. pose proof (sides_wf L f sw dw Sh) as WH.
  unfold result30. cbv zeta. destruct (sw =? dw) eqn:Ew; [|destruct (sh =? dh) eqn:Eh].
  - apply (vbyte30_local (resampling_filter L f) sh dh WV p q dw); auto. intros. apply H; auto. lia.
  - apply (hbyte30_local (resampling_filter L f) sw dw WH); auto. intros. apply H; auto. lia.
  - assert (E : mid30 (filter_windows (resampling_filter L f) sh dh) p sw dh = mid30 (filter_windows (resampling_filter L f) sh dh) q sw dh); [|rewrite E; reflexivity].
    unfold mid30. apply map_ext_in. intros i Hi. rewrite in_seq in Hi.
    assert (S1 : 0 < sw) by (destruct sw; lia).
    pose proof (Nat.mod_upper_bound i (sw * 4) ltac:(lia)) as M.
    apply (vbyte30_local (resampling_filter L f) sh dh WV p q sw); auto. apply Nat.div_lt_upper_bound; lia.
Qed.
End Passes.
