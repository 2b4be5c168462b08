(** The f16 passes on x86-64 in closed form, and the engine built from them. *)
From Coq Require Import ZArith List Lia Bool Permutation ZifyBool ZifyNat.
From Flocq Require Import Core.Core IEEE754.BinarySingleNaN.
From Verif Require Import Base BaseProofs ImageStore ColorGroup FixedPoint Dispatch FloatConv Resize Spec SpecApi SpecAlpha SpecFloat F32 Weights Sampler
  KernelProofs Kernel4Proofs ColumnProofs DispatchProofs FloatConvProofs ResizeProofs NoFail ImageProofs PoolProofs NearestProofs PortableProofs
  Api ApiFloat Alpha ApiProofs Witness DriverProofs FloatApiProofs SimdProofs X86HorizontalProofs X86Dispatch X86NoFail AlphaProofs AlphaScan AlphaU16 RgbaProofs RgbaFloat
  X86Float SpecX86Float X86FloatKernels X86FloatRows X86FloatCalls F16 F16Arith F16Proofs F16Calls X86F16 X86F16Proofs.
Import ListNotations.
Local Open Scope nat_scope.

Lemma cvt_up_h0 c : cvt_up c h0 = f0.
Proof. unfold cvt_up. destruct (f16c c); [reflexivity|]. vm_compute. reflexivity. Qed.

(** The selected horizontal kernels. *)
Lemma f16_kernel_ok c N px : f16_pixel c N = Some px -> kernel_ok N px (sums_taps no_extra).
Proof.
  intro H. destruct N as [|[|[|[|[|N]]]]]; cbn [f16_pixel] in H; try discriminate.
  - destruct (sse41 _); [|discriminate]. injection H as <-.
    constructor; [eapply pixel_gives_weaken; [apply in_order_sums|apply rgb_sse_value]|apply rgb_sse_local|apply sums_respects].
  - destruct (avx2 _ && f16c c); [|destruct (sse41 _); [|discriminate]]; injection H as <-.
    + constructor; [apply rgba_avx_value|apply rgba_avx_local|apply sums_respects].
    + constructor; [eapply pixel_gives_weaken; [apply in_order_sums|apply rgba_sse_value]|apply rgba_sse_local|apply sums_respects].
Qed.

(** The passes as functions on pictures. *)
Definition x86h_h (k : mlaf_kind) (c : hcpu) (N : nat) (fw : fweights f32) (p : nat -> nat -> nat -> f16) : nat -> nat -> nat -> f16 :=
  fun y x ch => match f16_pixel c N with
  | Some px => cvt_down c (px_val N px (tsize (taps_of f0 fw) x) (fun i => cvt_up c (p y (tstart (taps_of f0 fw) x + i) ch)) (tweight (taps_of f0 fw) x) ch)
  | None => float_h f0 fmul (mlaf k) as_f32 as_f16 (taps_of f0 fw) p y x ch
  end.
Definition x86h_v (k : mlaf_kind) (c : hcpu) (fw : fweights f32) (p : nat -> nat -> nat -> f16) : nat -> nat -> nat -> f16 :=
  fun y x ch =>
  let n := tsize (taps_of f0 fw) y in let xs := (fun j => p (tstart (taps_of f0 fw) y + j) x ch) in let w := tweight (taps_of f0 fw) y in
  if avx2 (hbase c) && f16c c then as_f16 (accumulate_from (prefer_fma (hfma c)) 0 n (fun j => as_f32 (xs j)) w f0)
  else if sse41 (hbase c) then cvt_down c (accumulate_from (prefer_fma false) 0 n (fun j => cvt_up c (xs j)) w f0)
  else as_f16 (weighted f0 fmul (mlaf k) n (fun j => as_f32 (xs j)) w).

(** The vector kernels store pixels only; the portable pass clears the rest of the row. *)
Definition keeps (c : hcpu) (N : nat) : bool := match f16_pixel c N with Some _ => true | None => false end.

Lemma x86_hconv_f16_painted k c N fw pool im into :
  cn_ok N -> pool_ok pool -> good N im -> good N into -> height im = height into -> wf_fw fw (width im) (width into) ->
  x86_hconv_f16 k c N fw pool im into = Done (painted h0 N (x86h_h k c N fw (shown h0 N im)) (if keeps c N then into else blanked into)).
Proof.
  intros HN HP Gi Go Hh W. assert (N0 : 0 < N) by (unfold cn_ok in HN; lia).
  unfold keeps, x86h_h, x86_hconv_f16. destruct (f16_pixel c N) as [px|] eqn:Ep.
  - destruct (f16_kernel_ok c N px Ep) as [KG KL KR].
    pose proof (good_stride_pos N im N0 Gi) as Si. pose proof (good_stride_pos N into N0 Go) as So.
    set (row := fun (s d : list f16) =>
      rowmap (width into * N) (fun j => cvt_down c (fxval N px fw (fun i => nth i (map (cvt_up c) s) f0) (j / N) (j mod N))) d).
    rewrite (horizontal_dispatch_two N _ _ row row pool im into (stride im) (stride into) (height into)); auto using good_stride_of.
    + f_equal. unfold painted. apply set_buf_ext.
      rewrite <- (pixmap_rows h0 (height into) (stride into) (width into * N)) by
        (try apply (g_stride _ _ Go); try apply (g_len _ _ Go); lia).
      f_equal. apply map_seq_ext. intros y Hy.
      transitivity (row (chunk (stride im) (buf im) y) (chunk (stride into) (buf into) y)); [now destruct (_ <? _)|].
      unfold row. apply rowmap_ext. intros j Hj. f_equal. unfold fxval. apply px_val_ext; [|reflexivity]. intros i Hi.
      pose proof (wf_nth fw _ _ (j / N) W ltac:(apply Nat.div_lt_upper_bound; lia)) as Wx. cbv zeta in Wx.
      pose proof (Nat.mod_upper_bound j N ltac:(lia)). pose proof (g_stride _ _ Gi).
      cbn [taps_of tsize tstart] in *.
      set (bb := nth (j / N) (bounds fw) (mkBound 0 0)) in *.
      assert (Q : nth ((bstart bb + i) * N + j mod N) (chunk (stride im) (buf im) y) h0 = shown h0 N im y (bstart bb + i) (j mod N)).
      { unfold shown. rewrite nth_chunk by nia. reflexivity. }
      rewrite <- Q, <- (cvt_up_h0 c), map_nth. reflexivity.
    + rewrite (g_len _ _ Gi). now rewrite Hh.
    + apply (g_len _ _ Go).
    + intros s d Ls Ld. apply (hrow16_closed (cvt_up c) (cvt_down c) N px _ N0 KG KL KR fw (width im) (width into) W).
      * rewrite Ls. apply (g_stride _ _ Gi).
      * rewrite Ld. apply (g_stride _ _ Go).
    + intros s d Ls Ld. apply (hrow16_4_closed (cvt_up c) (cvt_down c) N px _ N0 KG KL KR fw (width im) (width into) W); auto.
      * apply (g_stride _ _ Gi).
      * apply (g_stride _ _ Go).
  - change (hconv_f16 k N fw pool im into = Done (painted h0 N (float_h f0 fmul (mlaf k) as_f32 as_f16 (taps_of f0 fw) (shown h0 N im)) (blanked into))).
    rewrite (hconv_f16_closed k N fw pool im into HN HP Gi Go Hh W).
    apply (fhpass_painted f0 fmul (mlaf k) as_f32 as_f16 h0 f0); auto using blanked_good.
Qed.

Lemma f16_column_closed k c b src dst ss ws : avx2 (hbase c) && f16c c = true \/ sse41 (hbase c) = true ->
  bsize b <= length ws -> (forall j, j < bsize b -> ss * (bstart b + j) + length dst <= length src) ->
  f16_column k c b src dst ss ws = Done (map (fun p =>
    let w := fun j => nth j ws f0 in
    if avx2 (hbase c) && f16c c then as_f16 (accumulate_from (prefer_fma (hfma c)) 0 (bsize b) (fun j => as_f32 (nth (ss * (bstart b + j) + p) src h0)) w f0)
    else cvt_down c (accumulate_from (prefer_fma false) 0 (bsize b) (fun j => cvt_up c (nth (ss * (bstart b + j) + p) src h0)) w f0)) (seq 0 (length dst))).
Proof.
  intros HC Hw Hs. unfold f16_column. destruct (avx2 (hbase c) && f16c c).
  - rewrite vertical_avx_f16_closed by auto. f_equal. apply map_ext. intro p. cbv zeta. f_equal. unfold vacc.
    eapply in_order_ext; [| |reflexivity|reflexivity]; intros; [|reflexivity].
    cbv beta. rewrite <- (map_nth as_f32). reflexivity.
  - destruct HC as [HC|HC]; [discriminate|]. rewrite HC.
    rewrite vertical_sse_f16_closed by auto. f_equal. apply map_ext. intro p. cbv zeta. f_equal. unfold vacc.
    eapply in_order_ext; [| |reflexivity|reflexivity]; intros; [|reflexivity].
    cbv beta. rewrite <- (map_nth (cvt_up c)), cvt_up_h0. reflexivity.
Qed.

Lemma x86_vconv_f16_painted k c N fw pool im into :
  cn_ok N -> pool_ok pool -> good N im -> good N into -> width im = width into -> wf_fw fw (height im) (height into) ->
  x86_vconv_f16 k c N fw pool im into = Done (painted h0 N (x86h_v k c fw (shown h0 N im)) into).
Proof.
  intros HN PO Gi Go Hw W. assert (N0 : 0 < N) by (unfold cn_ok in HN; lia).
  pose proof (good_stride_pos N im N0 Gi) as Si. pose proof (good_stride_pos N into N0 Go) as So.
  destruct ((avx2 (hbase c) && f16c c) || sse41 (hbase c)) eqn:HC.
  - unfold x86_vconv_f16.
    rewrite (vertical_dispatch_closed N _ (bounds fw) (aligned_size fw) (weights fw)
      (fun y => map (fun j => x86h_v k c fw (shown h0 N im) y (j / N) (j mod N)) (seq 0 (width into * N)))
      pool im into (stride into) (height into)); auto using good_stride_of.
    + f_equal. unfold painted. apply set_buf_ext. rewrite <- (pixmap_rows h0 (height into) (stride into) (width into * N)) by
        (try apply (g_stride _ _ Go); try apply (g_len _ _ Go); lia).
      reflexivity.
    + apply (g_stride _ _ Go).
    + apply (g_len _ _ Go).
    + apply (wf_blen _ _ _ W).
    + rewrite (wf_wlen _ _ _ W). lia.
    + intros y b d Hb Hy Ld.
      assert (Eb : nth y (bounds fw) (mkBound 0 0) = b) by (now apply nth_error_nth).
      destruct (wf_win _ _ _ W y b Hb) as (B1 & B2 & B3).
      split; [|now rewrite map_length, seq_length].
      rewrite (good_stride_of N im N0 Gi). rewrite f16_column_closed.
      * rewrite Ld. f_equal. apply map_ext_in. intros j Hj. apply in_seq in Hj. unfold x86h_v. cbn [taps_of tsize tstart tweight]. rewrite Eb. cbv zeta.
        assert (X : forall i, nth (stride im * (bstart b + i) + j) (buf im) h0 = shown h0 N im (bstart b + i) (j / N) (j mod N)).
        { intro i. unfold shown. f_equal. pose proof (Nat.div_mod j N ltac:(lia)). lia. }
        assert (Y : forall i, nth i (skipn (y * aligned_size fw) (weights fw)) f0 = nth (y * aligned_size fw + i) (weights fw) f0) by (intro; apply nth_skipn).
        destruct (avx2 (hbase c) && f16c c) eqn:Ec; [|replace (sse41 (hbase c)) with true by (symmetry; exact HC)]; f_equal;
          (eapply in_order_ext; [| |reflexivity|reflexivity]; intros; cbv beta; [now rewrite X|apply Y]).
      * apply orb_true_iff in HC. exact HC.
      * rewrite skipn_length, (wf_wlen _ _ _ W). nia.
      * intros i Hi. rewrite Ld, <- Hw, (g_len _ _ Gi). pose proof (g_stride _ _ Gi). nia.
  - apply orb_false_iff in HC. destruct HC as [E1 E2].
    unfold x86_vconv_f16, f16_column, x86h_v. cbv zeta. rewrite E1, E2.
    change (vconv_f16 k N fw pool im into = Done (painted h0 N (float_v f0 fmul (mlaf k) as_f32 as_f16 (taps_of f0 fw) (shown h0 N im)) into)).
    rewrite vconv_f16_closed by assumption.
    apply (fvpass_painted f0 fmul (mlaf k) as_f32 as_f16 h0 f0); auto.
Qed.

(** ** Errors and thread pools *)
Lemma nf_store16 d o v : nofail (store16 d o v). Proof. unfold store16. destruct (_ <=? _); nfx. Qed.
Ltac nfh := repeat first [ apply nf_store16 | progress nff ].
Lemma nf_vpart16 up down fma src ss ws b lanes m dst cx : nofail (vpart16 up down fma src ss ws b lanes m dst cx).
Proof.
  unfold vpart16. nfh. apply nf_seqM. apply Forall_forall. intros o Ho. apply in_map_iff in Ho. destruct Ho as (i & <- & _). apply nf_loadf.
Qed.
Lemma nf_column16 k c b src dst ss ws : nofail (f16_column k c b src dst ss ws).
Proof.
  unfold f16_column. destruct (avx2 _ && _); [|destruct (sse41 _)].
  - unfold vertical_avx_f16. cbv zeta. nff; apply nf_vpart16.
  - unfold vertical_sse_f16. cbv zeta. nff; apply nf_vpart16.
  - apply nf_vcol.
Qed.
Lemma nf_f16_pixel c N px : f16_pixel c N = Some px -> forall s b w, nofail (px s b w).
Proof.
  intros H s b w. destruct N as [|[|[|[|[|N]]]]]; cbn [f16_pixel] in H; try discriminate.
  - destruct (sse41 _); [|discriminate]. injection H as <-. apply nf_rgb_sse.
  - destruct (avx2 _ && _); [|destruct (sse41 _); [|discriminate]]; injection H as <-; [apply nf_rgba_avx|apply nf_rgba_sse].
Qed.
Lemma nf_hrow16 up down cn px dw s d fw : (forall s b w, nofail (px s b w)) -> nofail (hrow16 up down cn px dw s d fw).
Proof. intro H. unfold hrow16. repeat first [apply H | apply nf_slice_from | apply nf_store16 | progress nff]. Qed.
Lemma nf_hrow16_4 up down cn px dw s ss d ds fw : (forall s b w, nofail (px s b w)) -> nofail (hrow16_4 up down cn px dw s ss d ds fw).
Proof. intro H. unfold hrow16_4. repeat first [apply H | apply nf_slice_from | apply nf_store16 | progress nff]. Qed.

Section Engine.
Variables (k : mlaf_kind) (c : hcpu) (N : nat).
Let row4 (dw : nat) (fw : fweights f32) (src : list f16) (ss : nat) (dst : list f16) (ds : nat) :=
  match f16_pixel c N with Some px => hrow16_4 (cvt_up c) (cvt_down c) N px dw src ss dst ds fw | None => hrow4_f16 k N fw src ss dst ds end.
Let row1 (dw : nat) (fw : fweights f32) (src dst : list f16) :=
  match f16_pixel c N with Some px => hrow16 (cvt_up c) (cvt_down c) N px dw src dst fw | None => hrow1_f16 k N fw src dst end.
Lemma nf_row16_4 dw fw s ss d ds : nofail (row4 dw fw s ss d ds).
Proof. unfold row4. destruct (f16_pixel c N) eqn:E; [apply nf_hrow16_4; eapply nf_f16_pixel; eauto|apply nf_hrow4]. Qed.
Lemma nf_row16_1 dw fw s d : nofail (row1 dw fw s d).
Proof. unfold row1. destruct (f16_pixel c N) eqn:E; [apply nf_hrow16; eapply nf_f16_pixel; eauto|apply nf_hrow1]. Qed.

Lemma nf_x86_hconv_f16 fw pool im into : nofail (x86_hconv_f16 k c N fw pool im into).
Proof.
  change (x86_hconv_f16 k c N fw pool im into) with (horizontal_dispatch N (row4 (width into) fw) (row1 (width into) fw) pool im into).
  unfold horizontal_dispatch. repeat first [apply nf_row16_4 | apply nf_row16_1 | progress nf].
Qed.
Lemma nf_x86_vconv_f16 fw pool im into : nofail (x86_vconv_f16 k c N fw pool im into).
Proof. unfold x86_vconv_f16, vertical_dispatch. repeat first [apply nf_column16 | progress nf]. Qed.
Lemma x86_hconv_f16_pool fw p im into : pool_ok p -> x86_hconv_f16 k c N fw p im into = x86_hconv_f16 k c N fw None im into.
Proof.
  intro HP.
  change (horizontal_dispatch N (row4 (width into) fw) (row1 (width into) fw) p im into =
          horizontal_dispatch N (row4 (width into) fw) (row1 (width into) fw) None im into).
  unfold horizontal_dispatch.
  destruct (chunks_exact_o (stride_of N into * 4) (buf into)) as [d4| |]; cbn [bind]; auto.
  destruct (chunks_exact_o (stride_of N im * 4) (buf im)) as [s4| |]; cbn [bind]; auto.
  rewrite (for_each_any p) by (auto; intros; apply nf_row16_4).
  destruct (for_each None _ _ _ _) as [d4'| |]; cbn [bind]; auto.
  destruct (chunks_exact_o (stride_of N into) _) as [d1| |]; cbn [bind]; auto.
  destruct (chunks_exact_o (stride_of N im) _) as [s1| |]; cbn [bind]; auto.
  rewrite (for_each_any p) by (auto; intros; apply nf_row16_1). reflexivity.
Qed.
Lemma x86_vconv_f16_pool fw p im into : pool_ok p -> x86_vconv_f16 k c N fw p im into = x86_vconv_f16 k c N fw None im into.
Proof.
  intro HP. unfold x86_vconv_f16, vertical_dispatch.
  destruct (chunks_exact_o _ _) as [rows| |]; cbn [bind]; auto.
  rewrite (for_each_any p); auto. intros d y.
  repeat first [apply nf_column16 | progress nf].
Qed.

Variables (L : libm) (f : resampling_function).
Variables (pre : pool_t -> image f16 -> image f16 -> outcome (image f16))
  (un : pool_t -> image f16 -> outcome (image f16)) (need : image f16 -> outcome bool).
Notation EN := (x86_engine_f16 k c L f N pre un need).
Lemma x86h_passes_nofail : passes_nofail EN.
Proof. constructor; intros; [apply nf_x86_vconv_f16|apply nf_x86_hconv_f16]. Qed.
Lemma x86h_pool_blind : pool_blind EN.
Proof. constructor; intros; [now apply x86_vconv_f16_pool|now apply x86_hconv_f16_pool]. Qed.

(** The same calls with a horizontal pass that leaves the padding alone. *)
Definition x86_tidy_f16 : engine f16 f32 :=
  mkEngine h0 false (wants_nearest f) nearest_coord (generate_weights (resampling_filter L f))
    (x86_vconv_f16 k c N)
    (if keeps c N then x86_hconv_f16 k c N else fhpass f0 fmul (mlaf k) as_f32 as_f16 N)
    pre un need.

Lemma x86_tidy_conv : conv_engine L f N false x86_tidy_f16 (fun _ => x86h_v k c) (fun _ => x86h_h k c N).
Proof.
  constructor; try reflexivity.
  - intros d HN. constructor.
    + intros. cbn [vconv x86_tidy_f16 dflt]. now apply x86_vconv_f16_painted.
    + intros fw pool im into P Gi Go E W Bd. cbn [hconv x86_tidy_f16 dflt]. destruct (keeps c N) eqn:K.
      * rewrite x86_hconv_f16_painted by assumption. now rewrite K.
      * unfold keeps in K. unfold x86h_h. destruct (f16_pixel c N); [discriminate|].
        apply (fhpass_painted f0 fmul (mlaf k) as_f32 as_f16 h0 f0); auto.
    + intros fw p q y x ch H. unfold x86h_v. cbn [taps_of tsize tstart tweight]. cbv zeta.
      assert (X : forall i, i < bsize (nth y (bounds fw) (mkBound 0 0)) -> p (bstart (nth y (bounds fw) (mkBound 0 0)) + i) x ch = q (bstart (nth y (bounds fw) (mkBound 0 0)) + i) x ch).
      { intros i Hi. apply H. lia. }
      destruct (avx2 (hbase c) && f16c c); [|destruct (sse41 (hbase c))]; f_equal.
      * eapply in_order_ext; [| |reflexivity|reflexivity]; intros; [cbv beta; rewrite X by assumption; reflexivity|reflexivity].
      * eapply in_order_ext; [| |reflexivity|reflexivity]; intros; [cbv beta; rewrite X by assumption; reflexivity|reflexivity].
      * apply (weighted_ext f0 fmul (mlaf k) as_f32 as_f16 h0). intros i Hi. split; [cbv beta; rewrite X by assumption; reflexivity|reflexivity].
    + intros fw p q y x ch H. unfold x86h_h. cbn [taps_of tsize tstart tweight].
      assert (X : forall i, i < bsize (nth x (bounds fw) (mkBound 0 0)) -> p y (bstart (nth x (bounds fw) (mkBound 0 0)) + i) ch = q y (bstart (nth x (bounds fw) (mkBound 0 0)) + i) ch).
      { intros i Hi. apply H. lia. }
      destruct (f16_pixel c N) as [px|]; [f_equal; apply px_val_ext; [intros; cbv beta; rewrite X by assumption; reflexivity|reflexivity]|].
      unfold float_h. cbn [taps_of tsize tstart tweight]. f_equal.
      apply (weighted_ext f0 fmul (mlaf k) as_f32 as_f16 h0). intros i Hi. split; [cbv beta; rewrite X by assumption; reflexivity|reflexivity].
  - constructor; intros; cbn [vconv hconv x86_tidy_f16]; [apply nf_x86_vconv_f16|]. destruct (keeps c N); [apply nf_x86_hconv_f16|apply nf_fhpass].
  - constructor; intros; cbn [vconv hconv x86_tidy_f16]; [now apply x86_vconv_f16_pool|]. destruct (keeps c N); [now apply x86_hconv_f16_pool|now apply fhpass_pool].
Qed.
End Engine.

(** The destination a call paints on: the portable horizontal pass clears it. *)
Definition x86_prepared (c : hcpu) (N : nat) (store into : image f16) : image f16 := if keeps c N then into else prepared store into.
Lemma x86_prepared_fields c N store into : width (x86_prepared c N store into) = width into /\ height (x86_prepared c N store into) = height into /\
  stride (x86_prepared c N store into) = stride into /\ bit_depth (x86_prepared c N store into) = bit_depth into /\
  channels (x86_prepared c N store into) = channels into /\ length (buf (x86_prepared c N store into)) = length (buf into).
Proof. unfold x86_prepared. destruct (keeps c N); [auto 10|apply prepared_fields]. Qed.
Lemma x86_prepared_valid c N nd f store into : valid_call N nd f store into -> valid_call N nd f store (x86_prepared c N store into).
Proof. intro V. unfold x86_prepared. destruct (keeps c N); [exact V|now apply prepared_valid]. Qed.

Lemma x86_hconv_clears k c N fw pool im into : keeps c N = false ->
  x86_hconv_f16 k c N fw pool im into = hconv_f16 k N fw pool im into.
Proof. unfold keeps, x86_hconv_f16, hconv_f16. destruct (f16_pixel c N); [discriminate|reflexivity]. Qed.

Section Call.
Variables (k : mlaf_kind) (c : hcpu) (L : libm) (f : resampling_function) (N : nat).
Variables (pre : pool_t -> image f16 -> image f16 -> outcome (image f16)) (un : pool_t -> image f16 -> outcome (image f16))
  (need : image f16 -> outcome bool).
Notation E := (x86_engine_f16 k c L f N pre un need).
Notation TE := (x86_tidy_f16 k c N L f pre un need).

Theorem x86_f16_is_tidy pool (store into : image f16) : f <> Nearest -> valid_call N false f store into -> changes_size store into -> pool_ok pool ->
  generic_resize N E pool store into = generic_resize N TE pool store (x86_prepared c N store into).
Proof.
  intros Hf V D HP. unfold x86_prepared. destruct (keeps c N) eqn:K.
  { apply engine_ext; try reflexivity. cbn [hconv x86_tidy_f16 x86_engine_f16]. rewrite K. reflexivity. }
  pose proof (prepared_valid _ _ _ _ _ V) as V'.
  assert (CN : cn_ok N) by (pose proof (vc_N _ _ _ _ _ V); unfold cn_ok; lia).
  destruct (valid_good V) as [Gs Gi].
  pose proof (sane_wf_v (valid_sane L V)) as Wv. pose proof (sane_wf_h (valid_sane L V)) as Wh.
  pose proof (vc_fits _ _ _ _ _ V) as (_ & _ & Hmid).
  destruct (prepared_fields store into) as (E1 & E2 & E3 & E4 & E5 & E6).
  assert (HH : forall fw im, good N im -> height im = height into -> wf_fw fw (width im) (width into) ->
            exists r, hconv E fw pool im into = Done r /\ hconv TE fw pool im (blanked into) = Done r).
  { intros fw im Gm Hh W. cbn [hconv x86_tidy_f16 x86_engine_f16]. rewrite K, x86_hconv_clears by assumption.
    rewrite hconv_f16_closed by assumption. eexists.
    split; apply (fhpass_painted f0 fmul (mlaf k) as_f32 as_f16 h0 f0); auto using blanked_good. }
  unfold generic_resize, try.
  change (needs_depth E) with false. change (needs_depth TE) with false.
  rewrite (sane_checks (valid_sane L V)), (sane_checks (valid_sane L V')).
  rewrite E1, E2, E4.
  replace ((width store =? width into) && (height store =? height into)) with false by (destruct D; lia).
  assert (Hn : wants_nearest f = false) by (destruct f; try reflexivity; congruence).
  change (is_nearest E) with (wants_nearest f). change (is_nearest TE) with (wants_nearest f). rewrite Hn.
  change (dflt TE) with (dflt E). change (gen TE) with (gen E). change (vconv TE) with (vconv E).
  set (fwv := gen E (height store) (height into)) in *. set (fwh := gen E (width store) (width into)) in *.
  destruct (negb (height store =? height into)) eqn:Ev; destruct (negb (width store =? width into)) eqn:Eh; cbn [andb].
  - set (T := width store * height into * N). unfold fits_usize in Hmid.
    assert (F1 : wmul (width store) (height into) = width store * height into).
    { apply wmul_small. pose proof (vc_N _ _ _ _ _ V). unfold usize_mod in *. nia. }
    assert (F2 : wmul (width store * height into) N = T).
    { apply wmul_small. unfold usize_mod in *. lia. }
    assert (F3 : wmul (width store) N = width store * N).
    { apply wmul_small. pose proof (g_h _ _ Gi). unfold usize_mod in *. nia. }
    unfold from_slice. rewrite repeat_length, F1, F2, Nat.eqb_refl, F3. cbn [negb].
    set (nv := set_bit_depth _ _).
    assert (Gnv : good N nv).
    { constructor; cbn.
      - apply (g_w _ _ Gs). - apply (g_h _ _ Gi). - lia.
      - rewrite repeat_length. unfold T. lia. }
    change (vconv E fwv pool store nv) with (x86_vconv_f16 k c N fwv pool store nv).
    rewrite (x86_vconv_f16_painted k c N fwv pool store nv CN HP Gs Gnv eq_refl Wv).
    set (mid := painted _ _ _ nv).
    assert (Gmid : good N mid) by (apply (good_opd _ _ _ Gnv); apply painted_opd; pose proof (vc_N _ _ _ _ _ V); lia).
    cbv beta iota.
    match goal with |- context [mkImage (buf mid) ?a ?b ?cc ?d ?e] => set (mid' := mkImage (buf mid) a b cc d e) end.
    assert (Gm' : good N mid') by exact Gmid.
    destruct (HH fwh mid' Gm' eq_refl Wh) as (r & R1 & R2). rewrite R1.
    unfold prepared. replace (width store =? width into) with false by (destruct (width store =? width into); cbn in Eh; congruence).
    rewrite R2. reflexivity.
  - unfold prepared. replace (width store =? width into) with true by lia. reflexivity.
  - assert (Hh : height store = height into) by lia.
    unfold prepared. replace (width store =? width into) with false by (destruct (width store =? width into); cbn in Eh; congruence).
    destruct (HH fwh store Gs Hh Wh) as (r & R1 & R2). rewrite R1, R2. reflexivity.
  - exfalso. destruct D; lia.
Qed.

(** Calls that run no pass. *)
Lemma x86_f16_no_pass pool (store into : image f16) :
  (width store = width into /\ height store = height into) \/ f = Nearest ->
  generic_resize N E pool store into = generic_resize N TE pool store into.
Proof using.
  intro H. unfold generic_resize. change (needs_depth TE) with (needs_depth E).
  apply try_ext. intros _. destruct H as [[H1 H2]|H].
  - now rewrite H1, H2, !Nat.eqb_refl.
  - subst f. reflexivity.
Qed.
End Call.

Lemma resize_f16_x86_is k c L f N pool store into :
  resize_f16_x86 k c L f N pool store into =
  generic_resize N (x86_engine_f16 k c L f N (fun _ _ _ => Panic) (fun _ _ => Panic) (fun _ => Panic)) pool store into.
Proof. unfold resize_f16_x86. destruct (N =? 4); [apply with_alpha_off|reflexivity]. Qed.

Definition x86_f16_passes (k : mlaf_kind) (c : hcpu) (L : libm) (f : resampling_function) (N : nat) (store into : image f16) :=
  g_passes (x86_tidy_f16 k c N L f (fun _ _ _ => Panic) (fun _ _ => Panic) (fun _ => Panic)) (fun _ => x86h_v k c) (fun _ => x86h_h k c N) store into.

Theorem x86_f16_paints k c L f N pool (store into : image f16) :
  f <> Nearest -> valid_call N false f store into -> changes_size store into -> pool_ok pool ->
  exists out, resize_f16_x86 k c L f N pool store into = Returned Ok out /\ only_pixels_differ N (x86_prepared c N store into) out /\
    shows N out (x86_f16_passes k c L f N store into (shown h0 N store)).
Proof.
  intros Hf V D P. rewrite resize_f16_x86_is, x86_f16_is_tidy by assumption.
  pose proof (x86_prepared_valid c _ _ _ _ _ V) as V'. destruct (x86_prepared_fields c N store into) as (E1 & E2 & E3 & E4 & E5 & E6).
  assert (D' : changes_size store (x86_prepared c N store into)) by (unfold changes_size; rewrite E1, E2; exact D).
  match goal with |- context [x86_tidy_f16 k c N L f ?a ?b ?d] => pose proof (x86_tidy_conv k c N L f a b d) as CE end.
  destruct (g_paints L f N false _ _ _ CE pool store (x86_prepared c N store into) Hf V' D' P) as (out & R & O & S).
  exists out. split; [exact R|]. split; [exact O|].
  intros x y ch Hx Hy Hc. rewrite S by (rewrite ?(opd_width _ _ _ O), ?(opd_height _ _ _ O) in *; auto).
  unfold x86_f16_passes, g_passes, two_passes. rewrite E1, E2. reflexivity.
Qed.

(** What stays of the destination outside the pixels. *)
Lemma x86_prepared_padding c N store into (out : image f16) : only_pixels_differ N (x86_prepared c N store into) out ->
  width out = width into /\ height out = height into /\ stride out = stride into /\ bit_depth out = bit_depth into /\
  length (buf out) = length (buf into) /\
  forall i, i < length (buf into) -> width into * N <= i mod stride into ->
    nth_error (buf out) i = if keeps c N || (width store =? width into) then nth_error (buf into) i else Some h0.
Proof.
  unfold x86_prepared. destruct (keeps c N) eqn:K; cbn [orb]; [|apply prepared_padding].
  intros [A1 A2 A3 A4 A5 A6 A7]. repeat split; try congruence. intros i Hi Hp. apply A7. exact Hp.
Qed.
