(** The f16 passes: what they compute, on images with and without padding. *)
From Coq Require Import ZArith List Lia Bool ZifyBool ZifyNat.
From Flocq Require Import Core.Core IEEE754.BinarySingleNaN.
From Verif Require Import Base BaseProofs ImageStore ColorGroup FixedPoint Dispatch FloatConv Resize Spec SpecApi SpecFloat F32 Weights Sampler
  KernelProofs Kernel4Proofs ColumnProofs DispatchProofs FloatConvProofs ResizeProofs NoFail ImageProofs PoolProofs NearestProofs PortableProofs
  Api ApiFloat Alpha ApiProofs Witness DriverProofs FloatApiProofs AlphaProofs AlphaScan AlphaU16 RgbaProofs RgbaFloat F16 F16Arith.
Import ListNotations.
Local Open Scope nat_scope.

Lemma as_f32_h0 : as_f32 h0 = f0. Proof. reflexivity. Qed.
Lemma as_f16_f0 : as_f16 f0 = h0. Proof. reflexivity. Qed.

(** The destination with every sample, padding included, set to +0. *)
Definition blanked (im : image f16) : image f16 := set_buf im (repeat h0 (length (buf im))).

Lemma blanked_good N im : good N im -> good N (blanked im).
Proof. intros [A B C D]. constructor; cbn; rewrite ?repeat_length; auto. Qed.

Lemma map_repeat {A B} (g : A -> B) a n : map g (repeat a n) = repeat (g a) n.
Proof. induction n; cbn; congruence. Qed.
Lemma skipn_repeat' {A} (a : A) n m : skipn n (repeat a m) = repeat a (m - n).
Proof. revert m; induction n; intros [|m]; cbn; auto. Qed.

Lemma weighted_id (k : mlaf_kind) n (x : nat -> f16) (y : nat -> f32) w :
  (forall i, i < n -> y i = as_f32 (x i)) ->
  weighted f0 fmul (mlaf k) n y w = weighted f0 fmul (mlaf k) n (fun i => as_f32 (x i)) w.
Proof. intro H. apply (weighted_ext f0 fmul (mlaf k) as_f32 as_f16 h0). intros i Hi. auto. Qed.

Notation idf := (fun v : f32 => v).
Definition hval16 (k : mlaf_kind) (N : nat) (fw : fweights f32) (s : nat -> f16) : nat -> nat -> f16 :=
  fhval f0 fmul (mlaf k) as_f32 as_f16 N fw f0 s.

Lemma rowmap_narrow k N fw (src : list f16) n m :
  map as_f16 (rowmap n (fun j => fhval f0 fmul (mlaf k) idf idf N fw f0 (fun i => nth i (map as_f32 src) f0) (j / N) (j mod N)) (repeat f0 m)) =
  rowmap n (fun j => hval16 k N fw (fun i => nth i src h0) (j / N) (j mod N)) (repeat h0 m).
Proof.
  unfold rowmap. rewrite map_app, map_map, !skipn_repeat', map_repeat. f_equal.
  apply map_ext. intro j. unfold hval16, fhval. f_equal. apply weighted_id. intros i _. rewrite <- as_f32_h0. apply map_nth.
Qed.

Lemma chunk_map {A B} (g : A -> B) n l i : chunk n (map g l) i = map g (chunk n l i).
Proof. unfold chunk. now rewrite <- firstn_map, <- skipn_map. Qed.
Lemma chunk_repeat {A} (a : A) n m i : (i + 1) * n <= m -> chunk n (repeat a m) i = repeat a n.
Proof.
  intro H. unfold chunk. rewrite skipn_repeat'.
  assert (E : m - i * n = n + (m - i * n - n)) by nia. rewrite E, repeat_app, firstn_app, repeat_length.
  rewrite Nat.sub_diag. cbn [firstn]. rewrite app_nil_r. apply firstn_all2. rewrite repeat_length. lia.
Qed.

Lemma hrow1_closed k N fw insz outsz src dst : cn_ok N -> wf_fw fw insz outsz ->
  insz * N <= length src -> outsz * N <= length dst ->
  hrow1_f16 k N fw src dst =
  Done (rowmap (outsz * N) (fun j => hval16 k N fw (fun i => nth i src h0) (j / N) (j mod N)) (repeat h0 (length dst))).
Proof.
  intros HN W H1 H2. unfold hrow1_f16.
  rewrite (frow_handler_closed f0 fmul (mlaf k) idf idf f0 N fw f0 insz outsz); auto; rewrite ?map_length, ?repeat_length; auto.
  cbn [bind]. f_equal. apply rowmap_narrow.
Qed.

Lemma hrow4_closed k N fw insz outsz src ss dst ds : cn_ok N -> wf_fw fw insz outsz ->
  insz * N <= ss -> outsz * N <= ds -> length src = 4 * ss -> length dst = 4 * ds ->
  let row r := rowmap (outsz * N) (fun j => hval16 k N fw (fun i => nth i (chunk ss src r) h0) (j / N) (j mod N)) (repeat h0 ds) in
  hrow4_f16 k N fw src ss dst ds = Done (row 0 ++ row 1 ++ row 2 ++ row 3).
Proof.
  intros HN W H1 H2 Ls Ld. cbv zeta. unfold hrow4_f16.
  pose proof (frow_handler_4_closed f0 fmul (mlaf k) idf idf f0 N fw f0 insz outsz (map as_f32 src) ss (repeat f0 (length dst)) ds HN W H1 H2
    ltac:(now rewrite map_length) ltac:(now rewrite repeat_length)) as R. cbv beta zeta in R. rewrite R. cbn [bind]. f_equal.
  rewrite !map_app. rewrite !chunk_map, !chunk_repeat by lia.
  rewrite !rowmap_narrow. reflexivity.
Qed.

Theorem hconv_f16_closed k N fw pool im into :
  cn_ok N -> pool_ok pool -> good N im -> good N into -> height im = height into -> wf_fw fw (width im) (width into) ->
  hconv_f16 k N fw pool im into = fhpass f0 fmul (mlaf k) as_f32 as_f16 N fw pool im (blanked into).
Proof.
  intros HN PO Gi Go Hh W. assert (N0 : 0 < N) by (unfold cn_ok in HN; lia).
  pose proof (good_stride_pos N im N0 Gi) as Si. pose proof (good_stride_pos N into N0 Go) as So.
  rewrite (fhpass_closed f0 fmul (mlaf k) as_f32 as_f16 h0 N fw f0 pool im (blanked into)); auto using blanked_good.
  unfold hconv_f16.
  rewrite (horizontal_dispatch_closed N _ _
     (fun s d => rowmap (width into * N) (fun j => hval16 k N fw (fun i => nth i s h0) (j / N) (j mod N)) (repeat h0 (length d)))
     pool im into (stride im) (stride into) (height into)); auto using good_stride_of.
  - unfold blanked. cbn [set_buf width height stride bit_depth channels buf]. unfold set_buf. cbn [buf width height stride channels bit_depth]. f_equal. f_equal.
    rewrite <- (pixmap_rows h0 (height into) (stride into) (width into * N)) by
      (rewrite ?repeat_length; try apply (g_stride _ _ Go); try apply (g_len _ _ Go); lia).
    f_equal. apply map_seq_ext. intros y Hy.
    assert (L : length (chunk (stride into) (buf into) y) = stride into).
    { unfold chunk. rewrite firstn_length, skipn_length, (g_len _ _ Go). nia. }
    rewrite L, chunk_repeat by (rewrite (g_len _ _ Go); nia).
    apply rowmap_ext. intros j Hj.
    unfold hval16, fhval. f_equal. apply (weighted_ext f0 fmul (mlaf k) as_f32 as_f16 h0). intros i Hk. split; [|reflexivity]. f_equal.
    pose proof (wf_nth fw _ _ (j / N) W ltac:(apply Nat.div_lt_upper_bound; lia)) as Wx. cbv zeta in Wx.
    apply nth_chunk. pose proof (g_stride _ _ Gi). pose proof (Nat.mod_upper_bound j N ltac:(lia)). nia.
  - rewrite (g_len _ _ Gi). now rewrite Hh.
  - apply (g_len _ _ Go).
  - intros s d Ls Ld. apply (hrow1_closed k N fw (width im) (width into)); auto.
    + rewrite Ls. apply (g_stride _ _ Gi).
    + rewrite Ld. apply (g_stride _ _ Go).
  - intros s d Ls Ld.
    pose proof (hrow4_closed k N fw (width im) (width into) s (stride im) d (stride into) HN W (g_stride _ _ Gi) (g_stride _ _ Go) Ls Ld) as R.
    cbv beta zeta in R. rewrite R.
    assert (L : forall r, r < 4 -> length (chunk (stride into) d r) = stride into).
    { intros r Hr. unfold chunk. rewrite firstn_length, skipn_length, Ld. nia. }
    now rewrite !L by lia.
Qed.

Theorem vconv_f16_closed k N fw pool im into :
  cn_ok N -> pool_ok pool -> good N im -> good N into -> width im = width into -> wf_fw fw (height im) (height into) ->
  vconv_f16 k N fw pool im into = fvpass f0 fmul (mlaf k) as_f32 as_f16 N fw pool im into.
Proof.
  intros HN PO Gi Go Hw W. assert (N0 : 0 < N) by (unfold cn_ok in HN; lia).
  pose proof (good_stride_pos N im N0 Gi) as Si. pose proof (good_stride_pos N into N0 Go) as So.
  unfold vconv_f16, fvpass.
  assert (G : forall kc, (forall y b d, nth_error (bounds fw) y = Some b -> y < height into -> length d = width into * N ->
     kc b (buf im) d (stride_of N im) (skipn (y * aligned_size fw) (weights fw)) =
       Done ((fun y => map (fun j => as_f16 (fvval f0 fmul (mlaf k) as_f32 h0 (buf im) (stride im) (skipn (y * aligned_size fw) (weights fw)) f0
                      (nth y (bounds fw) (mkBound 0 0)) j)) (seq 0 (width into * N))) y)) ->
     vertical_dispatch N kc (bounds fw) (aligned_size fw) (weights fw) pool im into =
     Done (set_buf into (concat (map (fun y => (fun y => map (fun j => as_f16 (fvval f0 fmul (mlaf k) as_f32 h0 (buf im) (stride im) (skipn (y * aligned_size fw) (weights fw)) f0
                      (nth y (bounds fw) (mkBound 0 0)) j)) (seq 0 (width into * N))) y ++ skipn (width into * N) (chunk (stride into) (buf into) y)) (seq 0 (height into)))))).
  { intros kc H. apply vertical_dispatch_closed; auto using good_stride_of.
    - apply (g_stride _ _ Go).
    - apply (g_len _ _ Go).
    - apply (wf_blen _ _ _ W).
    - rewrite (wf_wlen _ _ _ W). lia.
    - intros y b d Hb Hy Ld. split; [now apply H|]. now rewrite map_length, seq_length. }
  rewrite !G; auto.
  - intros y b d Hb Hy Ld. cbv beta.
    assert (Eb : nth y (bounds fw) (mkBound 0 0) = b) by (now apply nth_error_nth).
    destruct (wf_win _ _ _ W y b Hb) as (B1 & B2 & B3).
    rewrite Eb, (good_stride_of N im N0 Gi). rewrite (fcolumn_handler_closed _ _ _ _ _ h0 _ _ _ f0); [now rewrite Ld| |].
    + rewrite skipn_length, (wf_wlen _ _ _ W). nia.
    + intros i Hk. rewrite Ld, <- Hw, (g_len _ _ Gi). pose proof (g_stride _ _ Gi). nia.
  - intros y b d Hb Hy Ld. cbv beta. unfold vcol_f16.
    assert (Eb : nth y (bounds fw) (mkBound 0 0) = b) by (now apply nth_error_nth).
    destruct (wf_win _ _ _ W y b Hb) as (B1 & B2 & B3).
    rewrite Eb, (good_stride_of N im N0 Gi). rewrite (fcolumn_handler_closed _ _ _ _ _ f0 _ _ _ f0).
    + cbn [bind]. f_equal. rewrite map_map, repeat_length, Ld. apply map_ext. intro j. f_equal. unfold fvval.
      apply weighted_id. intros i _. rewrite <- as_f32_h0. apply map_nth.
    + rewrite skipn_length, (wf_wlen _ _ _ W). nia.
    + intros i Hk. rewrite repeat_length, map_length, Ld, <- Hw, (g_len _ _ Gi). pose proof (g_stride _ _ Gi). nia.
Qed.
