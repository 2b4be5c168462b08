(** Closed form of the packed 30-bit calls with the x86 kernels. *)
From Coq Require Import ZArith List Bool Lia ZifyBool ZifyNat ZifyN.
From Verif Require Import Base BaseProofs ImageStore ColorGroup FixedPoint Dispatch Resize F32 Weights Sampler Api Spec SpecApi
  KernelProofs Kernel4Proofs ColumnProofs DispatchProofs ResizeProofs WeightsProofs SamplerProofs QuantProofs QuantSums PortableProofs ApiProofs NoFail PoolProofs ImageProofs
  Ar30 SpecAr30 Ar30Proofs Ar30Kernels Ar30Calls
  Simd SimdProofs X86Vertical X86VerticalProofs X86Horizontal X86HorizontalProofs X86DispatchProofs X86Ar30 SpecX86Ar30 X86Ar30Proofs X86Ar30Columns.
Import ListNotations.
Local Open Scope nat_scope.

(** horizontal_dispatch with two kernels, on buffers whose elements satisfy P. *)
Theorem horizontal_dispatch_split_on {T} (P : T -> Prop) N k4 k1 (row4 row1 : list T -> list T -> list T)
  pool (im into : image T) ss ds h :
  pool_ok pool ->
  stride_of N im = ss -> stride_of N into = ds -> 0 < ss -> 0 < ds ->
  length (buf im) = h * ss -> length (buf into) = h * ds -> Forall P (buf im) ->
  (forall s d, Forall P s -> length s = ss -> length d = ds -> k1 s d = Done (row1 s d)) ->
  (forall s d, Forall P s -> length s = 4 * ss -> length d = 4 * ds ->
     k4 s ss d ds = Done (row4 (chunk ss s 0) (chunk ds d 0) ++ row4 (chunk ss s 1) (chunk ds d 1) ++
                          row4 (chunk ss s 2) (chunk ds d 2) ++ row4 (chunk ss s 3) (chunk ds d 3))) ->
  horizontal_dispatch N k4 k1 pool im into =
  Done (set_buf into (concat (map (fun y =>
     (if y <? 4 * (h / 4) then row4 else row1) (chunk ss (buf im) y) (chunk ds (buf into) y)) (seq 0 h)))).
Proof.
  intros HP Ess Eds Hss Hds Lsrc Ldst FP K1 K4. unfold horizontal_dispatch. rewrite Ess, Eds.
  set (src := buf im) in *. set (dst := buf into) in *.
  assert (Qs : length src / (ss * 4) = h / 4) by (rewrite Lsrc; apply div_div_4; auto).
  assert (Qd : length dst / (ds * 4) = h / 4) by (rewrite Ldst; apply div_div_4; auto).
  pose proof (Nat.div_mod h 4 ltac:(lia)) as DM. pose proof (Nat.mod_upper_bound h 4 ltac:(lia)) as MB.
  set (q := h / 4) in *. set (r := h mod 4) in *.
  rewrite !chunks_exact_o_ok by lia. cbn [bind].
  set (f y := (if y <? 4 * q then row4 else row1) (chunk ss src y) (chunk ds dst y)).
  rewrite (for_each_seq pool lbl_rows4 _ _ _
      (map (fun i => f (4 * i) ++ f (4 * i + 1) ++ f (4 * i + 2) ++ f (4 * i + 3)) (seq 0 q))); [| auto |].
  2:{ rewrite (zip_mut_idx _ (fun i => f (4 * i) ++ f (4 * i + 1) ++ f (4 * i + 2) ++ f (4 * i + 3))).
      - rewrite chunks_exact_length, Qs. f_equal. rewrite skipn_all2; [apply app_nil_r|].
        rewrite chunks_exact_length, Qd. lia.
      - intros i d s Hd Hs. rewrite nth_error_chunks, Qd in Hd. rewrite nth_error_chunks, Qs in Hs.
        destruct (i <? q) eqn:E; [|discriminate]. injection Hd as <-. injection Hs as <-.
        rewrite K4.
        + rewrite !chunk_chunk by lia. rewrite Nat.add_0_r. unfold f.
          replace (4 * i <? 4 * q) with true by lia. replace (4 * i + 1 <? 4 * q) with true by lia.
          replace (4 * i + 2 <? 4 * q) with true by lia. replace (4 * i + 3 <? 4 * q) with true by lia. reflexivity.
        + apply Forall_chunk. exact FP.
        + rewrite chunk_length; lia.
        + rewrite chunk_length; lia.
      - rewrite !chunks_exact_length, Qs, Qd. lia. }
  cbn [bind].
  assert (Rs : length (chunks_rem (ss * 4) src) = r * ss).
  { unfold chunks_rem. rewrite skipn_length, Qs. nia. }
  assert (Rd : length (chunks_rem (ds * 4) dst) = r * ds).
  { unfold chunks_rem. rewrite skipn_length, Qd. nia. }
  rewrite (for_each_seq pool lbl_rows1 _ _ _ (map (fun i => f (4 * q + i)) (seq 0 r))); [| auto |].
  2:{ rewrite (zip_mut_idx _ (fun i => f (4 * q + i))).
      - rewrite chunks_exact_length, Rs, Nat.div_mul by lia. f_equal.
        rewrite skipn_all2; [apply app_nil_r|].
        rewrite chunks_exact_length, Rd, Nat.div_mul by lia. lia.
      - intros i d s Hd Hs. rewrite nth_error_chunks, Rd, Nat.div_mul in Hd by lia.
        rewrite nth_error_chunks, Rs, Nat.div_mul in Hs by lia.
        destruct (i <? r) eqn:E; [|discriminate]. injection Hd as <-. injection Hs as <-.
        rewrite K1.
        + rewrite !chunk_rem, Qs, Qd. unfold f. replace (4 * q + i <? 4 * q) with false by lia. reflexivity.
        + apply Forall_chunk. unfold chunks_rem. now apply Forall_skipn'.
        + apply chunk_length. rewrite Rs, Nat.div_mul by lia. lia.
        + apply chunk_length. rewrite Rd, Nat.div_mul by lia. lia.
      - rewrite !chunks_exact_length, Rs, Rd, !Nat.div_mul by lia. lia. }
  cbn [bind]. f_equal. apply set_buf_ext. unfold unchunk.
  rewrite (chunks_rem_exact ds (chunks_rem (ds * 4) dst) r) by auto. rewrite app_nil_r.
  change (fun y => (if y <? 4 * q then row4 else row1) (chunk ss src y) (chunk ds dst y)) with f.
  rewrite DM at 1. rewrite concat_split4. reflexivity.
Qed.

(** ** Sums of ten-bit values stay below 2^30 *)
Lemma safe30 W n i (p : nat -> Z) : accumulator_safe 2047 W n -> i < n ->
  (forall k, k < wsize W i -> (0 <= p k <= 1023)%Z) ->
  (- 2 ^ 30 < zsum (wsize W i) (fun k => wcoef W i k * p k) /\ 2 ^ 15 + zsum (wsize W i) (fun k => wcoef W i k * p k) < 2 ^ 30)%Z.
Proof.
  intros S Ho Hp. specialize (S i Ho).
  pose proof (zsum_prefix_abs (wsize W i) (wsize W i) (fun k => wcoef W i k * p k)%Z (le_n _)) as A.
  assert (B : (zsum (wsize W i) (fun k => Z.abs (wcoef W i k * p k)) <= zsum (wsize W i) (fun k => Z.abs (wcoef W i k)) * 1023)%Z).
  { rewrite (zsum_ext _ _ (fun k => Z.abs (wcoef W i k) * p k)%Z).
    - apply zsum_le_max; [lia|intros; lia|]. intros k Hk. apply Hp. lia.
    - intros k Hk. rewrite Z.abs_mul. specialize (Hp k Hk). rewrite (Z.abs_eq (p k)) by lia. reflexivity. }
  assert (C1 : (zsum (wsize W i) (fun k => Z.abs (wcoef W i k)) * 2047 + 16384 < 2147483648)%Z) by exact S.
  cbv beta in A. change (2^30)%Z with 1073741824%Z. change (2^15)%Z with 32768%Z. lia.
Qed.

Section Passes.
Variables (t : rgb30) (o : byte_order).

Definition pick3 (c0 c1 c2 : Z) (c : nat) : Z := match c with O => c0 | 1 => c1 | _ => c2 end.
(** What the row kernels put in component c. *)
Definition hout (h y : nat) (s : nat -> Z) (b : fbound) (w : nat -> Z) (c : nat) : Z :=
  if y <? 4 * (h / 4) then out30 15 1023 (acc30 t o 15 s b w c)
  else out30 16 (match c with 1 => 0%Z | _ => 1023%Z end) (acc30 t o 16 s b w c).
Lemma hout_ten h y s b w c : ten (hout h y s b w c).
Proof. unfold hout. destruct (_ <? _); apply out30_ten. Qed.

Lemma hpass_closed (fw : fweights f32) pool src ss dst ds h insz outsz :
  pool_ok pool -> wf_fw fw insz outsz -> bytes src -> 0 < insz -> 0 < outsz -> insz * 4 <= ss -> outsz * 4 <= ds ->
  length src = h * ss -> length dst = h * ds ->
  let fz := qfw quant_i16 fw in
  ar_hpass_x86 t o true quant_i16 fw pool src ss dst ds =
  Done (pixmap 0%Z h ds (outsz * 4) (fun y j => nth (j mod 4) (packed t o (fun c =>
     hout h y (fun i => nth i (chunk ss src y) 0%Z) (nth (j / 4) (bounds fz) (mkBound 0 0)) (fun k => nth (j / 4 * aligned_size fz + k) (weights fz) 0%Z) c * 2 ^ 15)%Z) 0%Z) dst).
Proof.
  intros HP W B Hi Ho Ls Ld Es Ed fz. unfold ar_hpass_x86. rewrite (numerical_approximation_qfw quant_i16 fw _ _ W). cbn [bind].
  pose proof (qfw_wf quant_i16 fw _ _ W) as W'. pose proof (weights_i16 fw) as WI. fold fz in W', WI |- *.
  assert (S1 : stride_of 4 (byte_image src 0 0 ss) = ss) by (unfold stride_of, byte_image; cbn; destruct ss; [lia|reflexivity]).
  assert (S2 : stride_of 4 (byte_image dst 0 0 ds) = ds) by (unfold stride_of, byte_image; cbn; destruct ds; [lia|reflexivity]).
  assert (P4 : pixel_ok 4 (pixel30_4 t o) (val30 t o 15 1023 1023 1023)) by (eapply pixel30_ok; [lia|reflexivity]).
  assert (P1 : pixel_ok 4 (pixel30_1 t o) (val30 t o 16 1023 0 1023)) by (eapply pixel30_ok; [lia|reflexivity]).
  rewrite (horizontal_dispatch_split_on byte 4 _ _ (hrow_of 4 (val30 t o 15 1023 1023 1023) fz outsz) (hrow_of 4 (val30 t o 16 1023 0 1023) fz outsz)
     pool _ _ ss ds h HP S1 S2 ltac:(lia) ltac:(lia) Es Ed B).
  - cbn [bind buf set_buf byte_image]. f_equal. rewrite <- (pixmap_rows 0%Z h ds) by (auto; lia). f_equal.
    apply map_seq_ext. intros y Hy.
    assert (Q : forall prec c0 c1 c2 s b w c, val30 t o prec c0 c1 c2 s b w c =
       nth c (packed t o (fun c => out30 prec (pick3 c0 c1 c2 c) (acc30 t o prec s b w c) * 2 ^ 15)%Z) 0%Z).
    { intros. unfold val30. rewrite <- (packed_out t o (fun c => out30 prec (pick3 c0 c1 c2 c) (acc30 t o prec s b w c))) by (intro; apply out30_ten).
      reflexivity. }
    assert (Lc : length (chunk ds dst y) = ds) by (apply chunk_length; rewrite Ed, Nat.div_mul; lia).
    destruct (y <? 4 * (h / 4)) eqn:E; unfold hrow_of, rowmap; f_equal; apply map_seq_ext; intros j Hj; unfold hpx;
      rewrite Q; f_equal; apply packed_ext; intros c Hc; unfold hout; rewrite E; destruct c as [|[|[|c]]]; try lia; reflexivity.
  - intros s d F L1 L2. eapply (hrow_closed 4 (pixel30_1 t o)); [lia|exact P1|apply val30_local|exact W'|exact F|exact WI|lia|lia].
  - intros s d F L1 L2. eapply (hrow4_closed 4 (pixel30_4 t o)); [lia|exact P4|apply val30_local|exact W'|exact F|exact WI|lia|lia|lia|lia].
Qed.

Lemma vpass_closed (fw : fweights f32) pool src ss dst ds w insz outsz :
  pool_ok pool -> wf_fw fw insz outsz -> bytes src -> 0 < w -> w * 4 <= ss -> w * 4 <= ds ->
  length src = insz * ss -> length dst = outsz * ds ->
  let ws y := skipn (y * aligned_size fw) (map quant_i16 (weights fw)) in
  let bd y := nth y (bounds fw) (mkBound 0 0) in
  (forall y x c, y < outsz -> x < w -> c < 3 -> (wrap32 (vaccx t o src ss (ws y) (bd y) x c) < 2 ^ 30)%Z) ->
  ar_vpass_x86 t o true quant_i16 fw pool src ss dst ds w =
  Done (pixmap 0%Z outsz ds (w * 4) (fun y j => nth (j mod 4) (packed t o (fun c =>
     out30 15 1023 (vaccx t o src ss (ws y) (bd y) (j / 4) c) * 2 ^ 15)%Z) 0%Z) dst).
Proof.
  intros HP W B Hw Ls Ld Es Ed ws bd Sm. unfold ar_vpass_x86. rewrite (numerical_approximation_qfw quant_i16 fw _ _ W). cbn [bind].
  pose proof (qfw_wf quant_i16 fw _ _ W) as W'.
  assert (S1 : stride_of 4 (byte_image src 0 0 ss) = ss) by (unfold stride_of, byte_image; cbn; destruct ss; [lia|reflexivity]).
  assert (S2 : stride_of 4 (byte_image dst w 0 ds) = ds) by (unfold stride_of, byte_image; cbn [stride width]; destruct ds; [lia|reflexivity]).
  pose proof (weights_i16 fw) as WI. cbn [qfw bounds aligned_size weights] in *.
  set (val y := map (vbytex t o src ss (ws y) (bd y)) (seq 0 (w * 4))).
  rewrite (vertical_dispatch_closed 4 _ _ _ _ val pool _ _ ds outsz HP S2 ltac:(lia)).
  - cbn [bind buf set_buf byte_image width]. f_equal. rewrite <- (pixmap_rows 0%Z outsz ds) by (auto; lia). f_equal.
    apply map_seq_ext. intros y Hy. unfold val, rowmap. f_equal.
    apply map_seq_ext. intros j Hj. unfold vbytex, vpx, px30. f_equal.
    rewrite <- (packed_out t o (fun c => out30 15 1023 (vaccx t o src ss (ws y) (bd y) (j / 4) c))) by (intro; apply out30_ten). reflexivity.
  - cbn [width byte_image]. lia.
  - exact Ed.
  - apply (wf_blen _ _ _ W).
  - rewrite map_length, (wf_wlen _ _ _ W). lia.
  - intros y b d Hb Hy Hd. cbn [width byte_image buf] in *. rewrite S1.
    destruct (wf_win _ _ _ W y b Hb) as (B1 & B2 & B3).
    assert (Eb : bd y = b) by (apply nth_error_nth; exact Hb).
    split.
    + rewrite (ar_column_sse_closed t o src ss _ b d w B).
      * f_equal. unfold val. rewrite Eb, Hd. reflexivity.
      * rewrite Forall_forall in *. intros x Hx. apply WI. rewrite <- (firstn_skipn (y * aligned_size fw) (map quant_i16 (weights fw))). apply in_or_app. now right.
      * exact Hd.
      * rewrite skipn_length, map_length, (wf_wlen _ _ _ W). nia.
      * intros k Hk. rewrite Es. nia.
      * intros x c Hx Hc. rewrite <- Eb. apply Sm; assumption.
    + unfold val. rewrite map_length, seq_length. reflexivity.
Qed.

(** ** What a pass shows *)
Section Pass.
Variables (fl : rfilter) (insz outsz : nat).
Let fw := generate_weights fl insz outsz.
Let W := filter_windows fl insz outsz.
Hypothesis WF : wf_fw fw insz outsz.
Hypothesis Hsafe : accumulator_safe 2047 W outsz.

Lemma vsum_colour src ss w y x c : visible_bytes src ss w insz -> x < w -> y < outsz -> c < 3 ->
  vaccx t o src ss (skipn (y * aligned_size fw) (map quant_i16 (weights fw))) (nth y (bounds fw) (mkBound 0 0)) x c =
  (2 ^ 14 - 1 + zsum (wsize W y) (fun k => wcoef W y k * picture30 t o src ss (wstart W y + k)%nat x c))%Z.
Proof using WF.
  intros B Hx Hy Hc. unfold vaccx. destruct (win_row fl insz outsz WF y Hy) as (E1 & E2 & E3). fold fw in E1, E3. fold W in E1, E2, E3.
  rewrite E1. cbn [bstart bsize]. f_equal. apply zsum_ext. intros k Hk. rewrite E3, Z.mul_comm. f_equal.
  rewrite (Nat.mul_comm ss). apply (visible_comp t o src ss w insz); auto; lia.
Qed.
Lemma vsum_safe src ss w y x c : visible_bytes src ss w insz -> x < w -> y < outsz -> c < 3 ->
  let S := zsum (wsize W y) (fun k => wcoef W y k * picture30 t o src ss (wstart W y + k)%nat x c)%Z in
  (- 2 ^ 30 < S /\ 2 ^ 15 + S < 2 ^ 30)%Z.
Proof using WF Hsafe.
  intros B Hx Hy Hc S. apply safe30 with (n := outsz); [exact Hsafe|exact Hy|].
  intros k Hk. destruct (win_row fl insz outsz WF y Hy) as (_ & E2 & _). fold W in E2.
  apply (visible_comp t o src ss w insz); auto; lia.
Qed.

Lemma vpass_shows pool src ss dst ds w :
  pool_ok pool -> 0 < w -> w * 4 <= ss -> w * 4 <= ds -> length src = insz * ss -> length dst = outsz * ds -> bytes src ->
  exists out, ar_vpass_x86 t o true quant_i16 fw pool src ss dst ds w = Done out /\
    only_visible_differ ds w dst out /\ visible_bytes out ds w outsz /\
    shows30 t o out ds w outsz (fun y x c => nearest_down (zsum (wsize W y) (fun k => wcoef W y k * picture30 t o src ss (wstart W y + k)%nat x c)%Z)).
Proof using WF Hsafe.
  intros HP Hw Ls Ld Es Ed B. pose proof (bytes_visible src ss w insz B) as VB.
  pose proof (vpass_closed fw pool src ss dst ds w insz outsz HP WF B Hw Ls Ld Es Ed) as R. cbv beta zeta in R.
  rewrite R; clear R.
  2:{ intros y x c Hy Hx Hc. rewrite (vsum_colour src ss w) by assumption. pose proof (vsum_safe src ss w y x c VB Hx Hy Hc) as Q. cbv zeta in Q.
      change (2 ^ 30)%Z with 1073741824%Z in *. change (2 ^ 15)%Z with 32768%Z in *. change (2 ^ 14 - 1)%Z with 16383%Z.
      rewrite wrap32_small by (change (2 ^ 31)%Z with 2147483648%Z; lia). lia. }
  eexists; split; [reflexivity|].
  set (A y x c := (out30 15 1023 (vaccx t o src ss (skipn (y * aligned_size fw) (map quant_i16 (weights fw))) (nth y (bounds fw) (mkBound 0 0)) x c) * 2 ^ 15)%Z).
  destruct (pixmap_packed t o outsz ds w A _ dst ltac:(lia) Ld Ed (fun y j => eq_refl)) as (O1 & O2 & O3).
  split; [exact O1|]. split; [exact O2|]. intros x y Hx Hy. destruct (O3 x y Hx Hy) as [P Q]. split; [exact P|].
  intros c Hc. etransitivity; [exact (Q c Hc)|]. unfold A. rewrite floor_out by apply out30_ten.
  rewrite (vsum_colour src ss w) by assumption. pose proof (vsum_safe src ss w y x c VB Hx Hy Hc) as Q'. cbv zeta in Q'.
  set (S := zsum _ _) in *. change (2 ^ 30)%Z with 1073741824%Z in *. change (2 ^ 15)%Z with 32768%Z in *.
  rewrite out30_safe by (change (2 ^ 31)%Z with 2147483648%Z; change (2 ^ 30)%Z with 1073741824%Z; change (2 ^ 14)%Z with 16384%Z; lia).
  unfold nearest_down. do 2 f_equal. ring.
Qed.

Lemma hpass_shows pool src ss dst ds h :
  pool_ok pool -> 0 < insz -> 0 < outsz -> insz * 4 <= ss -> outsz * 4 <= ds -> length src = h * ss -> length dst = h * ds -> bytes src ->
  exists out, ar_hpass_x86 t o true quant_i16 fw pool src ss dst ds = Done out /\
    only_visible_differ ds outsz dst out /\
    shows30 t o out ds outsz h (fun y x c =>
      let s := zsum (wsize W x) (fun k => wcoef W x k * picture30 t o src ss y (wstart W x + tap30 (wsize W x) k)%nat c)%Z in
      if y <? 4 * (h / 4) then nearest_down s else match c with 1 => 0%Z | _ => nearest_half s end).
Proof using WF Hsafe.
  intros HP Hi Ho Ls Ld Es Ed B. pose proof (bytes_visible src ss insz h B) as VB.
  pose proof (hpass_closed fw pool src ss dst ds h insz outsz HP WF B Hi Ho Ls Ld Es Ed) as R. cbv beta zeta in R.
  rewrite R; clear R. eexists; split; [reflexivity|].
  set (A y x c := (hout h y (fun i => nth i (chunk ss src y) 0%Z) (nth x (bounds (qfw quant_i16 fw)) (mkBound 0 0))
     (fun k => nth (x * aligned_size (qfw quant_i16 fw) + k) (weights (qfw quant_i16 fw)) 0%Z) c * 2 ^ 15)%Z).
  destruct (pixmap_packed t o h ds outsz A _ dst ltac:(lia) Ld Ed (fun y j => eq_refl)) as (O1 & _ & O3).
  split; [exact O1|]. intros x y Hx Hy. destruct (O3 x y Hx Hy) as [P Q]. split; [exact P|].
  intros c Hc. etransitivity; [exact (Q c Hc)|]. unfold A. rewrite floor_out by apply hout_ten.
  destruct (win_row fl insz outsz WF x Hx) as (E1 & E2 & E3). fold fw in E1, E3. fold W in E1, E2, E3.
  assert (HS : forall prec, acc30 t o prec (fun i => nth i (chunk ss src y) 0%Z) (nth x (bounds (qfw quant_i16 fw)) (mkBound 0 0))
     (fun k => nth (x * aligned_size (qfw quant_i16 fw) + k) (weights (qfw quant_i16 fw)) 0%Z) c =
     (2 ^ (prec - 1) - 1 + zsum (wsize W x) (fun k => wcoef W x k * picture30 t o src ss y (wstart W x + tap30 (wsize W x) k)%nat c))%Z).
  { intro prec. unfold acc30. change (bounds (qfw quant_i16 fw)) with (bounds fw). change (aligned_size (qfw quant_i16 fw)) with (aligned_size fw).
    change (weights (qfw quant_i16 fw)) with (map quant_i16 (weights fw)). rewrite E1. cbn [bstart bsize]. f_equal.
    apply zsum_ext. intros k Hk. rewrite <- nth_skipn, E3, Z.mul_comm. f_equal. pose proof (tap30_le (wsize W x) k Hk).
    change (compf t o (fun i => nth i (chunk ss src y) 0%Z) ((wstart W x + tap30 (wsize W x) k) * 4) c)
      with (comp t o (chunk ss src y) ((wstart W x + tap30 (wsize W x) k) * 4) c).
    rewrite (comp_ext t o (chunk ss src y) src _ (y * ss + (wstart W x + tap30 (wsize W x) k) * 4)).
    - apply (visible_comp t o src ss insz h); auto; lia.
    - intros i Hk4. rewrite nth_chunk by nia. f_equal. lia. }
  assert (SB : let S := zsum (wsize W x) (fun k => wcoef W x k * picture30 t o src ss y (wstart W x + tap30 (wsize W x) k)%nat c)%Z in
    (- 2 ^ 30 < S /\ 2 ^ 15 + S < 2 ^ 30)%Z).
  { cbv zeta. apply (safe30 W outsz x (fun k => picture30 t o src ss y (wstart W x + tap30 (wsize W x) k) c)); [exact Hsafe|exact Hx|].
    intros k Hk. pose proof (tap30_le (wsize W x) k Hk). apply (visible_comp t o src ss insz h); auto; lia. }
  unfold hout. rewrite !HS. cbv zeta in SB |- *. set (S := zsum _ _) in *.
  change (2 ^ 30)%Z with 1073741824%Z in *. change (2 ^ 15)%Z with 32768%Z in *.
  destruct (y <? 4 * (h / 4)).
  - rewrite out30_safe by (change (2 ^ 31)%Z with 2147483648%Z; change (2 ^ 30)%Z with 1073741824%Z; change (2 ^ (15 - 1))%Z with 16384%Z; lia).
    unfold nearest_down. do 2 f_equal. change (2 ^ (15 - 1))%Z with (2 ^ 14)%Z. ring.
  - assert (N : out30 16 1023 (2 ^ (16 - 1) - 1 + S) = nearest_half S).
    { rewrite out30_half by (change (2 ^ 31)%Z with 2147483648%Z; change (2 ^ (16 - 1))%Z with 32768%Z; lia).
      unfold nearest_half. do 2 f_equal. change (2 ^ (16 - 1))%Z with (2 ^ 15)%Z. ring. }
    destruct c as [|[|c]]; [exact N|apply out30_zero|exact N].
Qed.
End Pass.

(** A buffer without padding whose pixels are bytes is a list of bytes. *)
Lemma visible_all b w h : 0 < w -> length b = h * (w * 4) -> visible_bytes b (w * 4) w h -> bytes b.
Proof.
  intros Hw L V. unfold bytes. rewrite Forall_forall. intros x Hx. apply In_nth with (d := 0%Z) in Hx. destruct Hx as (i & Hi & <-).
  pose proof (Nat.div_mod i (w * 4) ltac:(lia)) as D1. pose proof (Nat.mod_upper_bound i (w * 4) ltac:(lia)) as D2.
  assert (D3 : i / (w * 4) < h) by (apply Nat.div_lt_upper_bound; lia).
  set (y := i / (w * 4)) in *. set (r := i mod (w * 4)) in *.
  pose proof (Nat.div_mod r 4 ltac:(lia)) as D4. pose proof (Nat.mod_upper_bound r 4 ltac:(lia)) as D5.
  assert (D6 : r / 4 < w) by (apply Nat.div_lt_upper_bound; lia).
  specialize (V (r / 4) y (r mod 4) D6 D3 D5). replace (y * (w * 4) + r / 4 * 4 + r mod 4) with i in V by lia. exact V.
Qed.

Theorem ar30_x86_call L f pool src ss sw sh dst ds dw dh :
  valid30 f src ss sw sh dst ds dw dh -> f <> Nearest -> (sw <> dw \/ sh <> dh) -> pool_ok pool ->
  (sw = dw -> ss = ds) ->
  (sh <> dh -> accumulator_safe 2047 (filter_windows (resampling_filter L f) sh dh) dh) ->
  (sw <> dw -> accumulator_safe 2047 (filter_windows (resampling_filter L f) sw dw) dw) ->
  exists out, resize_ar30_impl_x86 t o true L f pool src ss sw sh dst ds dw dh = BytesReturned Ok out /\
    only_visible_differ ds dw dst out /\
    shows30 t o out ds dw dh (resample30_x86 dh (negb (sh =? dh)) (negb (sw =? dw))
      (filter_windows (resampling_filter L f) sh dh) (filter_windows (resampling_filter L f) sw dw) (picture30 t o src ss)).
Proof.
  intros V Hf Hc HP Hs SV SH. destruct (valid30_checks _ _ _ _ _ _ _ _ _ V) as (CK & E1 & E2 & E3).
  destruct (valid30_sides _ _ _ _ _ _ _ _ _ V) as [Sv Sh].
  pose proof (sides_wf L f sh dh Sv) as WV. pose proof (sides_wf L f sw dw Sh) as WH.
  destruct V as [(S1 & S2 & S3 & S4) (D1 & D2 & D3 & D4) (F1 & F2 & F3) _ _ B].
  unfold resize_ar30_impl_x86. rewrite CK. cbn [btry].
  replace ((sw =? dw) && (sh =? dh)) with false by lia. rewrite (wants_nearest_false f Hf). cbv zeta. rewrite E3, !E1.
  destruct (sw =? dw) eqn:Ew; destruct (sh =? dh) eqn:Eh; try lia; cbn [negb andb].
  - (* vertical only *)
    assert (sw = dw) as X by lia. rewrite <- (Hs X) in *. subst dw.
    destruct (vpass_shows (resampling_filter L f) sh dh WV (SV ltac:(lia)) pool src ss dst ss sw HP S1 S3 S3 S4 D4 B) as (out & R & O1 & _ & O3).
    rewrite R. cbn [btry]. exists out. split; [reflexivity|]. split; [exact O1|]. exact O3.
  - (* horizontal only *)
    assert (sh = dh) by lia. subst dh.
    destruct (hpass_shows (resampling_filter L f) sw dw WH (SH ltac:(lia)) pool src ss dst ds sh HP S1 D1 S3 D3 S4 D4 B) as (out & R & O1 & O3).
    rewrite R. cbn [btry]. exists out. split; [reflexivity|]. split; [exact O1|]. exact O3.
  - (* both *)
    destruct (vpass_shows (resampling_filter L f) sh dh WV (SV ltac:(lia)) pool src ss (repeat 0%Z (sw * dh * 4)) (sw * 4) sw HP S1 S3
      (le_n _) S4 ltac:(rewrite repeat_length; lia) B) as (mid & R & O1 & O2 & O3).
    rewrite R. cbn [btry].
    assert (Lm : length mid = dh * (sw * 4)) by (rewrite (proj1 O1), repeat_length; lia).
    pose proof (visible_all mid sw dh S1 Lm O2) as BM.
    destruct (hpass_shows (resampling_filter L f) sw dw WH (SH ltac:(lia)) pool mid (sw * 4) dst ds dh HP S1 D1 (le_n _) D3 Lm D4
      BM) as (out & R' & P1 & P3).
    rewrite R'. cbn [btry]. exists out. split; [reflexivity|]. split; [exact P1|].
    intros x y Hx Hy. destruct (P3 x y Hx Hy) as [Q1 Q2]. split; [exact Q1|]. intros c Hc0. rewrite (Q2 c Hc0).
    unfold resample30_x86. cbn [negb]. cbv zeta.
    rewrite (zsum_ext _ _ (fun k => wcoef (filter_windows (resampling_filter L f) sw dw) x k *
       nearest_down (zsum (wsize (filter_windows (resampling_filter L f) sh dh) y) (fun k0 =>
         wcoef (filter_windows (resampling_filter L f) sh dh) y k0 * picture30 t o src ss (wstart (filter_windows (resampling_filter L f) sh dh) y + k0)%nat
           (wstart (filter_windows (resampling_filter L f) sw dw) x + tap30 (wsize (filter_windows (resampling_filter L f) sw dw) x) k)%nat c)))%Z); [reflexivity|].
    intros k Hk. f_equal.
    destruct (win_row (resampling_filter L f) sw dw WH x Hx) as (_ & G & _).
    pose proof (tap30_le (wsize (filter_windows (resampling_filter L f) sw dw) x) k Hk).
    apply O3; [lia|exact Hy|exact Hc0].
Qed.
End Passes.

(** ** No error values, any schedule, the portable path *)
From Verif Require Import X86NoFail.
Section Outcomes.
Variables (t : rgb30) (o : byte_order) (sse : bool).
Lemma nf_pixel30 prec cut s b w : nofail (pixel30 t o prec cut s b w).
Proof.
  unfold pixel30, conv8, conv4, conv1, ld1, unzip_4_separate, unzip_3, unzips_4_separate, unzips_3. 
  destruct t; cbn [lanes30]; unfold interleave4; repeat first [apply nf_taps; intros | progress nfx].
Qed.
Lemma nf_col_block n src ss d w b x : nofail (col_block t o n src ss d w b x).
Proof.
  unfold col_block, col_taps, load_px, unzip_3. destruct t; cbn [lanes30]; nfx.
Qed.
Lemma nf_column_sse b src dst ss w : nofail (ar_column_sse t o b src dst ss w).
Proof. unfold ar_column_sse. cbv zeta. repeat first [apply nf_col_block | progress nfx]. Qed.
Lemma nf_h4 src ss dst ds fw : nofail (if sse then hrow4 4 (pixel30_4 t o) src ss dst ds fw else ar_row_handler_4 t o src ss dst ds fw).
Proof. destruct sse; [apply nf_hrow4; intros; apply nf_pixel30|apply nf_ar_row_4]. Qed.
Lemma nf_h1 src dst fw : nofail (if sse then hrow 4 (pixel30_1 t o) src dst fw else ar_row_handler t o src dst fw).
Proof. destruct sse; [apply nf_hrow; intros; apply nf_pixel30|apply nf_ar_row]. Qed.
Lemma nf_v b src dst ss w : nofail (if sse then ar_column_sse t o b src dst ss w else ar_column_handler t o b src dst ss w).
Proof. destruct sse; [apply nf_column_sse|apply nf_ar_column]. Qed.
Lemma nf_hpass_x86 {F} (q : F -> Z) fw pool src ss dst ds : nofail (ar_hpass_x86 t o sse q fw pool src ss dst ds).
Proof.
  unfold ar_hpass_x86, horizontal_dispatch. repeat first [apply nf_numapprox | apply nf_h4 | apply nf_h1 | (apply nf_hrow4; intros; apply nf_pixel30) | (apply nf_hrow; intros; apply nf_pixel30) | apply nf_ar_row_4 | apply nf_ar_row | progress nf].
Qed.
Lemma nf_vpass_x86 {F} (q : F -> Z) fw pool src ss dst ds w : nofail (ar_vpass_x86 t o sse q fw pool src ss dst ds w).
Proof.
  unfold ar_vpass_x86, vertical_dispatch. repeat first [apply nf_numapprox | apply nf_v | apply nf_column_sse | apply nf_ar_column | progress nf].
Qed.
Lemma hpass_x86_pool {F} (q : F -> Z) fw p src ss dst ds : pool_ok p ->
  ar_hpass_x86 t o sse q fw p src ss dst ds = ar_hpass_x86 t o sse q fw None src ss dst ds.
Proof.
  intro HP. unfold ar_hpass_x86. destruct (numerical_approximation q 0 fw) as [a| |]; cbn [bind]; auto.
  unfold horizontal_dispatch. set (im := byte_image src 0 0 ss). set (into := byte_image dst 0 0 ds).
  destruct (chunks_exact_o (stride_of 4 into * 4) (buf into)) as [d4| |]; cbn [bind]; auto.
  destruct (chunks_exact_o (stride_of 4 im * 4) (buf im)) as [s4| |]; cbn [bind]; auto.
  rewrite (for_each_any p) by (auto; intros; apply nf_h4).
  destruct (for_each None _ _ _ _) as [d4'| |]; cbn [bind]; auto.
  destruct (chunks_exact_o (stride_of 4 into) _) as [d1| |]; cbn [bind]; auto.
  destruct (chunks_exact_o (stride_of 4 im) _) as [s1| |]; cbn [bind]; auto.
  rewrite (for_each_any p) by (auto; intros; apply nf_h1). reflexivity.
Qed.
Lemma vpass_x86_pool {F} (q : F -> Z) fw p src ss dst ds w : pool_ok p ->
  ar_vpass_x86 t o sse q fw p src ss dst ds w = ar_vpass_x86 t o sse q fw None src ss dst ds w.
Proof.
  intro HP. unfold ar_vpass_x86. destruct (numerical_approximation q 0 fw) as [a| |]; cbn [bind]; auto.
  unfold vertical_dispatch.
  destruct (chunks_exact_o _ _) as [rows| |]; cbn [bind]; auto.
  rewrite (for_each_any p); auto. intros d s.
  repeat first [apply nf_v | apply nf_column_sse | apply nf_ar_column | progress nf].
Qed.

Theorem ar30_x86_pool L f p src ss sw sh dst ds dw dh : pool_ok p ->
  resize_ar30_impl_x86 t o sse L f p src ss sw sh dst ds dw dh = resize_ar30_impl_x86 t o sse L f None src ss sw sh dst ds dw dh.
Proof.
  intro HP. unfold resize_ar30_impl_x86. apply btry_ext2; [reflexivity|]. intros _.
  destruct (_ && _); [reflexivity|]. destruct (wants_nearest f).
  { rewrite nearest_pool by assumption. reflexivity. }
  cbv zeta. repeat match goal with
  | |- (if ?b then _ else _) = _ => destruct b
  | |- btry _ _ _ = btry _ _ _ => apply btry_ext2; [first [apply vpass_x86_pool | apply hpass_x86_pool]; assumption|intro]
  end; reflexivity.
Qed.

Theorem ar30_x86_cases L f p src ss sw sh dst ds dw dh :
  match first_error (refusal_table30 src ss sw sh dst ds dw dh) with
  | Some e => resize_ar30_impl_x86 t o sse L f p src ss sw sh dst ds dw dh = BytesReturned (Err e) dst
  | None => resize_ar30_impl_x86 t o sse L f p src ss sw sh dst ds dw dh = BytesPanicked \/
            exists out, resize_ar30_impl_x86 t o sse L f p src ss sw sh dst ds dw dh = BytesReturned Ok out
  end.
Proof.
  unfold resize_ar30_impl_x86. rewrite ar_checks_table.
  destruct (first_error _) as [e|]; [reflexivity|]. cbn [btry].
  destruct (_ && _); [right; eexists; reflexivity|].
  assert (G : forall (m : outcome (list Z)) (k : list Z -> bytes_res), nofail m ->
     (forall a, k a = BytesPanicked \/ exists out, k a = BytesReturned Ok out) ->
     btry m dst k = BytesPanicked \/ exists out, btry m dst k = BytesReturned Ok out).
  { intros m k NF K. destruct m as [a|e|]; cbn [btry]; [apply K|now destruct (NF e)|now left]. }
  assert (O : forall d, BytesReturned Ok d = BytesPanicked \/ exists out, BytesReturned Ok d = BytesReturned Ok out)
    by (intro d; right; eexists; reflexivity).
  destruct (wants_nearest f); [apply G; [apply nf_nearest|exact O]|]. cbv zeta.
  destruct (_ && _); [apply G; [apply nf_vpass_x86|exact O]|].
  destruct (_ && _); [apply G; [apply nf_vpass_x86|intro mid; apply G; [apply nf_hpass_x86|exact O]]|].
  apply G; [apply nf_hpass_x86|exact O].
Qed.
End Outcomes.
Lemma ar30_x86_portable t o L f p src ss sw sh dst ds dw dh :
  resize_ar30_impl_x86 t o false L f p src ss sw sh dst ds dw dh = resize_ar30_impl t o L f p src ss sw sh dst ds dw dh.
Proof. reflexivity. Qed.
