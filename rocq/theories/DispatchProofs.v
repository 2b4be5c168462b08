(** Closed forms of the row dispatchers and of the two convolution passes. *)
From Coq Require Import ZifyBool ZifyNat.
From Verif Require Import Base BaseProofs ImageStore ColorGroup FixedPoint Dispatch Spec
  KernelProofs Kernel4Proofs ColumnProofs.

(** ** chunk algebra *)
Lemma chunk_chunk {A} k m (l : list A) i r :
  r < m -> chunk k (chunk (k * m) l i) r = chunk k l (m * i + r).
Proof.
  intro H. apply list_ext. intro j. rewrite !nth_error_chunk.
  destruct (j <? k) eqn:E; [|reflexivity].
  replace (r * k + j <? k * m) with true by nia. f_equal. nia.
Qed.

Lemma chunk_rem {A} k m (l : list A) r :
  chunk k (chunks_rem (k * m) l) r = chunk k l (m * (length l / (k * m)) + r).
Proof.
  apply list_ext. intro j. rewrite !nth_error_chunk.
  destruct (j <? k) eqn:E; [|reflexivity].
  unfold chunks_rem. rewrite nth_error_skipn. f_equal. nia.
Qed.

Lemma concat_split4 {A} (f : nat -> list A) q r :
  concat (map f (seq 0 (4 * q + r))) =
  concat (map (fun i => f (4 * i) ++ f (4 * i + 1) ++ f (4 * i + 2) ++ f (4 * i + 3)) (seq 0 q)) ++
  concat (map (fun i => f (4 * q + i)) (seq 0 r)).
Proof.
  rewrite seq_app, map_app, concat_app. cbn [Nat.add]. f_equal.
  - induction q as [|q IH]; [reflexivity|].
    replace (4 * S q) with (4 * q + 4) by lia. rewrite seq_app, map_app, concat_app, IH.
    rewrite (seq_S q), map_app, concat_app. f_equal. cbn [Nat.add seq map concat].
    rewrite !app_nil_r.
    replace (4 * q + 1) with (S (4 * q)) by lia.
    replace (4 * q + 2) with (S (S (4 * q))) by lia.
    replace (4 * q + 3) with (S (S (S (4 * q)))) by lia. reflexivity.
  - f_equal. clear. generalize (4 * q) as a. intro a. revert a.
    induction r as [|r IH]; intro a; [reflexivity|].
    cbn [seq map]. rewrite Nat.add_0_r. f_equal.
    rewrite IH. rewrite <- seq_shift, map_map. apply map_ext. intro. f_equal. lia.
Qed.

Lemma div_div_4 h k : 0 < k -> h * k / (k * 4) = h / 4.
Proof.
  intro H. rewrite <- Nat.div_div by lia. rewrite Nat.div_mul by lia. reflexivity.
Qed.

Lemma set_buf_ext {T} (im : image T) b1 b2 : b1 = b2 -> set_buf im b1 = set_buf im b2.
Proof. now intros ->. Qed.

(** ** horizontal dispatcher *)
Lemma Forall_firstn' {A} (P : A -> Prop) n l : Forall P l -> Forall P (firstn n l).
Proof. intros H. revert n. induction H; intros [|n]; cbn; auto. Qed.
Lemma Forall_skipn' {A} (P : A -> Prop) n l : Forall P l -> Forall P (skipn n l).
Proof. intros H. revert n. induction H; intros [|n]; cbn; auto. Qed.
Lemma Forall_chunk {A} (P : A -> Prop) n l i : Forall P l -> Forall P (chunk n l i).
Proof. intros H. unfold chunk. now apply Forall_firstn', Forall_skipn'. Qed.

(** [P]: what is known of every source sample. *)
Theorem horizontal_dispatch_on {T} (P : T -> Prop) N k4 k1 (rowf : list T -> list T -> list T)
  pool (im into : image T) ss ds h :
  pool_ok pool ->
  stride_of N im = ss -> stride_of N into = ds -> 0 < ss -> 0 < ds ->
  length (buf im) = h * ss -> length (buf into) = h * ds -> Forall P (buf im) ->
  (forall s d, Forall P s -> length s = ss -> length d = ds -> k1 s d = Done (rowf s d)) ->
  (forall s d, Forall P s -> length s = 4 * ss -> length d = 4 * ds ->
     k4 s ss d ds = Done (rowf (chunk ss s 0) (chunk ds d 0) ++ rowf (chunk ss s 1) (chunk ds d 1) ++
                          rowf (chunk ss s 2) (chunk ds d 2) ++ rowf (chunk ss s 3) (chunk ds d 3))) ->
  horizontal_dispatch N k4 k1 pool im into =
  Done (set_buf into (concat (map (fun y => rowf (chunk ss (buf im) y) (chunk ds (buf into) y)) (seq 0 h)))).
Proof.
  intros HP Ess Eds Hss Hds Lsrc Ldst FP K1 K4. unfold horizontal_dispatch. rewrite Ess, Eds.
  set (src := buf im) in *. set (dst := buf into) in *.
  assert (Qs : length src / (ss * 4) = h / 4) by (rewrite Lsrc; apply div_div_4; auto).
  assert (Qd : length dst / (ds * 4) = h / 4) by (rewrite Ldst; apply div_div_4; auto).
  pose proof (Nat.div_mod h 4 ltac:(lia)) as DM. pose proof (Nat.mod_upper_bound h 4 ltac:(lia)) as MB.
  set (q := h / 4) in *. set (r := h mod 4) in *.
  rewrite !chunks_exact_o_ok by lia. cbn [bind].
  set (f y := rowf (chunk ss src y) (chunk ds dst y)).
  rewrite (for_each_seq pool lbl_rows4 _ _ _
      (map (fun i => f (4 * i) ++ f (4 * i + 1) ++ f (4 * i + 2) ++ f (4 * i + 3)) (seq 0 q))); [| auto |].
  2:{ rewrite (zip_mut_idx _ (fun i => f (4 * i) ++ f (4 * i + 1) ++ f (4 * i + 2) ++ f (4 * i + 3))).
      - rewrite chunks_exact_length, Qs. f_equal. rewrite skipn_all2; [apply app_nil_r|].
        rewrite chunks_exact_length, Qd. lia.
      - intros i d s Hd Hs. rewrite nth_error_chunks, Qd in Hd. rewrite nth_error_chunks, Qs in Hs.
        destruct (i <? q) eqn:E; [|discriminate]. injection Hd as <-. injection Hs as <-.
        rewrite K4.
        + rewrite !chunk_chunk by lia. rewrite Nat.add_0_r. reflexivity.
        + apply Forall_chunk. exact FP.
        + rewrite chunk_length; lia.
        + rewrite chunk_length; lia.
      - rewrite !chunks_exact_length, Qs, Qd. lia. }
  cbn [bind].
  assert (Rs : length (chunks_rem (ss * 4) src) = r * ss).
  { unfold chunks_rem. rewrite skipn_length, Qs. nia. }
  assert (Rd : length (chunks_rem (ds * 4) dst) = r * ds).
  { unfold chunks_rem. rewrite skipn_length, Qd. nia. }
  rewrite (for_each_seq pool lbl_rows1 _ _ _ (map (fun i => f (4 * q + i)) (seq 0 r))); [| auto |].
  2:{ rewrite (zip_mut_idx _ (fun i => f (4 * q + i))).
      - rewrite chunks_exact_length, Rs, Nat.div_mul by lia. f_equal.
        rewrite skipn_all2; [apply app_nil_r|].
        rewrite chunks_exact_length, Rd, Nat.div_mul by lia. lia.
      - intros i d s Hd Hs. rewrite nth_error_chunks, Rd, Nat.div_mul in Hd by lia.
        rewrite nth_error_chunks, Rs, Nat.div_mul in Hs by lia.
        destruct (i <? r) eqn:E; [|discriminate]. injection Hd as <-. injection Hs as <-.
        rewrite K1.
        + rewrite !chunk_rem, Qs, Qd. reflexivity.
        + apply Forall_chunk. unfold chunks_rem. now apply Forall_skipn'.
        + apply chunk_length. rewrite Rs, Nat.div_mul by lia. lia.
        + apply chunk_length. rewrite Rd, Nat.div_mul by lia. lia.
      - rewrite !chunks_exact_length, Rs, Rd, !Nat.div_mul by lia. lia. }
  cbn [bind]. f_equal. apply set_buf_ext. unfold unchunk.
  rewrite (chunks_rem_exact ds (chunks_rem (ds * 4) dst) r) by auto. rewrite app_nil_r.
  rewrite DM at 1. rewrite concat_split4. reflexivity.
Qed.
Theorem horizontal_dispatch_closed {T} N k4 k1 (rowf : list T -> list T -> list T)
  pool (im into : image T) ss ds h :
  pool_ok pool ->
  stride_of N im = ss -> stride_of N into = ds -> 0 < ss -> 0 < ds ->
  length (buf im) = h * ss -> length (buf into) = h * ds ->
  (forall s d, length s = ss -> length d = ds -> k1 s d = Done (rowf s d)) ->
  (forall s d, length s = 4 * ss -> length d = 4 * ds ->
     k4 s ss d ds = Done (rowf (chunk ss s 0) (chunk ds d 0) ++ rowf (chunk ss s 1) (chunk ds d 1) ++
                          rowf (chunk ss s 2) (chunk ds d 2) ++ rowf (chunk ss s 3) (chunk ds d 3))) ->
  horizontal_dispatch N k4 k1 pool im into =
  Done (set_buf into (concat (map (fun y => rowf (chunk ss (buf im) y) (chunk ds (buf into) y)) (seq 0 h)))).
Proof.
  intros. apply (horizontal_dispatch_on (fun _ => True)); auto. apply Forall_forall. auto.
Qed.

(** ** vertical dispatcher *)
Theorem vertical_dispatch_closed {T W} N kcol (fbs : list fbound) aligned (ws : list W)
  (val : nat -> list T) pool (im into : image T) ds h :
  pool_ok pool ->
  stride_of N into = ds -> 0 < ds -> width into * N <= ds ->
  length (buf into) = h * ds -> length fbs = h -> h * aligned <= length ws ->
  (forall y b d, nth_error fbs y = Some b -> y < h -> length d = width into * N ->
     kcol b (buf im) d (stride_of N im) (skipn (y * aligned) ws) = Done (val y) /\ length (val y) = width into * N) ->
  vertical_dispatch N kcol fbs aligned ws pool im into =
  Done (set_buf into (concat (map (fun y => val y ++ skipn (width into * N) (chunk ds (buf into) y)) (seq 0 h)))).
Proof.
  intros HP Eds Hds Hw Ldst Lb Lw K. unfold vertical_dispatch. rewrite Eds.
  set (dst := buf into) in *.
  rewrite chunks_exact_o_ok by lia. cbn [bind].
  assert (Qd : length dst / ds = h) by (rewrite Ldst; apply Nat.div_mul; lia).
  rewrite (for_each_seq pool lbl_vertical _ _ _
     (map (fun y => val y ++ skipn (width into * N) (chunk ds dst y)) (seq 0 h))); [|auto|].
  - cbn [bind]. f_equal. apply set_buf_ext. unfold unchunk.
    rewrite (chunks_rem_exact ds dst h) by auto. apply app_nil_r.
  - rewrite (zip_mut_idx _ (fun y => val y ++ skipn (width into * N) (chunk ds dst y))).
    + rewrite seq_length, chunks_exact_length, Qd. f_equal. rewrite skipn_all2; [apply app_nil_r|].
      rewrite chunks_exact_length, Qd. lia.
    + intros i d y Hd Hy. rewrite chunks_exact_length, Qd in Hy. rewrite nth_error_chunks, Qd in Hd.
      destruct (i <? h) eqn:E; [|discriminate]. injection Hd as <-.
      rewrite (nth_error_nth_lt _ i 0) in Hy by (rewrite seq_length; lia).
      rewrite seq_nth in Hy by lia. injection Hy as <-. cbn [Nat.add].
      assert (Lc : length (chunk ds dst i) = ds) by (apply chunk_length; lia).
      destruct (nth_error fbs i) as [b|] eqn:Eb; [|apply nth_error_None in Eb; lia].
      unfold idx. rewrite Eb. cbn [bind].
      rewrite slice_from_ok by nia. cbn [bind].
      rewrite slice_ok by lia. cbn [bind]. rewrite Nat.sub_0_r. cbn [skipn].
      assert (Lf : length (firstn (width into * N) (chunk ds dst i)) = width into * N)
        by (rewrite firstn_length; lia).
      destruct (K i b _ Eb ltac:(lia) Lf) as [-> Lv]. cbn [bind].
      f_equal. unfold splice. rewrite Lv. reflexivity.
    + rewrite seq_length. lia.
Qed.

(** ** pixmap *)
Lemma pixmap_rows {T} (d0 : T) h ds n (val : nat -> nat -> T) dst :
  0 < ds -> n <= ds -> length dst = h * ds ->
  concat (map (fun y => rowmap n (val y) (chunk ds dst y)) (seq 0 h)) = pixmap d0 h ds n val dst.
Proof.
  intros Hd Hn L. apply list_ext. intro i.
  assert (Lc : forall y, y < h -> length (chunk ds dst y) = ds).
  { intros y Hy. apply chunk_length. rewrite L, Nat.div_mul; lia. }
  rewrite (nth_error_concat_uniform ds); [|auto|].
  2:{ apply Forall_forall. intros l Hl. apply in_map_iff in Hl. destruct Hl as (y & <- & Hy).
      apply in_seq in Hy. rewrite rowmap_length; rewrite Lc; lia. }
  unfold pixmap. rewrite !nth_error_map_seq. cbn [Nat.add].
  pose proof (Nat.mod_upper_bound i ds ltac:(lia)) as MB. pose proof (Nat.div_mod i ds ltac:(lia)) as DM.
  destruct (i / ds <? h) eqn:E.
  - replace (i <? length dst) with true by nia. cbn [andb].
    rewrite nth_error_rowmap by (rewrite Lc; lia). destruct (i mod ds <? n) eqn:E2; [reflexivity|].
    rewrite nth_error_chunk. replace (i mod ds <? ds) with true by lia.
    replace (i / ds * ds + i mod ds) with i by lia.
    apply nth_error_nth_lt. nia.
  - replace (i <? length dst) with false by nia. reflexivity.
Qed.

Lemma pixmap_length {T} (d0 : T) h ds n val dst : length (pixmap d0 h ds n val dst) = length dst.
Proof. unfold pixmap. now rewrite map_length, seq_length. Qed.

Lemma nth_error_pixmap {T} (d0 : T) h ds n val dst i :
  nth_error (pixmap d0 h ds n val dst) i =
  if (i <? length dst) then
    Some (if (i / ds <? h) && (i mod ds <? n) then val (i / ds) (i mod ds) else nth i dst d0) else None.
Proof. unfold pixmap. rewrite nth_error_map_seq. reflexivity. Qed.

Lemma pixmap_at {T} (d0 : T) h ds n val dst y j :
  0 < ds -> length dst = h * ds -> y < h -> j < n -> n <= ds ->
  nth_error (pixmap d0 h ds n val dst) (y * ds + j) = Some (val y j).
Proof.
  intros H0 L Hy Hj Hn. rewrite nth_error_pixmap.
  replace (y * ds + j <? length dst) with true by nia.
  replace (y * ds + j) with (j + y * ds) by lia.
  rewrite Nat.div_add, Nat.mod_add by lia. rewrite Nat.div_small, Nat.mod_small by lia. cbn [Nat.add].
  replace ((y <? h) && (j <? n)) with true by lia. reflexivity.
Qed.

Lemma pixmap_pad {T} (d0 : T) h ds n val dst y j :
  0 < ds -> length dst = h * ds -> y < h -> n <= j -> j < ds ->
  nth_error (pixmap d0 h ds n val dst) (y * ds + j) = nth_error dst (y * ds + j).
Proof.
  intros H0 L Hy Hj Hn. rewrite nth_error_pixmap.
  replace (y * ds + j <? length dst) with true by nia.
  rewrite (nth_error_nth_lt dst _ d0) by nia. f_equal.
  replace ((y * ds + j) mod ds) with j.
  2:{ replace (y * ds + j) with (j + y * ds) by lia. rewrite Nat.mod_add by lia. rewrite Nat.mod_small; lia. }
  replace (j <? n) with false by lia. rewrite andb_false_r. reflexivity.
Qed.

Lemma pixmap_ext {T} (d0 : T) h ds n v1 v2 dst :
  0 < ds -> (forall y j, y < h -> j < n -> v1 y j = v2 y j) ->
  pixmap d0 h ds n v1 dst = pixmap d0 h ds n v2 dst.
Proof.
  intros H0 H. unfold pixmap. apply map_seq_ext. intros i Hi.
  destruct ((i / ds <? h) && (i mod ds <? n)) eqn:E; [|reflexivity]. apply H; lia.
Qed.

(** ** weight conversion *)
Lemma numerical_approximation_ok {F} (q : F -> Z) (fw : fweights F) insz outsz :
  wf_fw fw insz outsz ->
  numerical_approximation q 0 fw =
  Done (mkFW (map q (weights fw)) (bounds fw) (aligned_size fw) (aligned_size fw) outsz).
Proof.
  intro W. unfold numerical_approximation. cbn [Nat.eqb].
  rewrite (wf_ker _ _ _ W), (wf_dist _ _ _ W). pose proof (wf_pos _ _ _ W) as Hp.
  set (k := aligned_size fw) in *.
  rewrite !chunks_exact_o_ok by lia. cbn [bind].
  assert (Lo : length (repeat 0%Z (outsz * k)) = outsz * k) by apply repeat_length.
  assert (Lw := wf_wlen _ _ _ W). fold k in Lw.
  rewrite (zip_mut_idx _ (fun x => map q (chunk k (weights fw) x))).
  - cbn [bind]. f_equal. f_equal.
    rewrite chunks_exact_length, Lw, Nat.div_mul by lia. unfold unchunk.
    rewrite skipn_all2 by (rewrite chunks_exact_length, Lo, Nat.div_mul; lia).
    rewrite (chunks_rem_exact k _ outsz) by auto. rewrite !app_nil_r.
    pose proof (chunks_unchunk k (weights fw) Hp) as U. unfold unchunk in U.
    rewrite (chunks_rem_exact k _ outsz) in U by auto. rewrite app_nil_r in U.
    unfold chunks_exact in U. rewrite Lw, Nat.div_mul in U by lia.
    transitivity (map q (concat (map (chunk k (weights fw)) (seq 0 outsz)))); [|now rewrite U].
    rewrite concat_map, map_map. reflexivity.
  - intros x o w Ho Hw. rewrite nth_error_chunks, Lo, Nat.div_mul in Ho by lia.
    rewrite nth_error_chunks, Lw, Nat.div_mul in Hw by lia.
    destruct (x <? outsz) eqn:E; [|discriminate]. injection Ho as <-. injection Hw as <-.
    assert (L1 : length (chunk k (repeat 0%Z (outsz * k)) x) = k).
    { apply chunk_length. rewrite Lo, Nat.div_mul; lia. }
    assert (L2 : length (chunk k (weights fw) x) = k).
    { apply chunk_length. rewrite Lw, Nat.div_mul; lia. }
    assert (L3 := eq_trans L1 (eq_sym L2)). clear L1 L2. revert L3.
    generalize (chunk k (repeat 0%Z (outsz * k)) x) (chunk k (weights fw) x).
    clear. intros o w. revert w. induction o as [|a o IH]; intros [|b w] H1; cbn in *; try lia; auto.
    rewrite (IH w ltac:(lia)). reflexivity.
  - rewrite !chunks_exact_length, Lo, Lw. lia.
Qed.

Definition qfw {F} (q : F -> Z) (fw : fweights F) : fweights Z :=
  mkFW (map q (weights fw)) (bounds fw) (aligned_size fw) (aligned_size fw) (distinct_elements fw).

Lemma qfw_wf {F} (q : F -> Z) (fw : fweights F) i o : wf_fw fw i o -> wf_fw (qfw q fw) i o.
Proof.
  intros [W1 W2 W3 W4 W5 W6]. constructor; cbn; auto. now rewrite map_length.
Qed.

Lemma numerical_approximation_qfw {F} (q : F -> Z) (fw : fweights F) i o :
  wf_fw fw i o -> numerical_approximation q 0 fw = Done (qfw q fw).
Proof. intro W. rewrite (numerical_approximation_ok q fw i o W). unfold qfw. rewrite (wf_dist _ _ _ W). reflexivity. Qed.

(** ** the two portable passes *)

(** An image whose buffer is exactly height rows of [stride] samples, each wide
    enough: what [validate] accepts (up to the usize wrap-around). *)
Record good {T} (N : nat) (im : image T) : Prop := mkGood {
  g_w : 0 < width im; g_h : 0 < height im;
  g_stride : width im * N <= stride im;
  g_len : length (buf im) = height im * stride im
}.

Lemma good_stride_of {T} N (im : image T) : 0 < N -> good N im -> stride_of N im = stride im.
Proof.
  intros HN [H1 H2 H3 H4]. unfold stride_of. replace (stride im =? 0) with false by nia. reflexivity.
Qed.

Lemma good_stride_pos {T} N (im : image T) : 0 < N -> good N im -> 0 < stride im.
Proof. intros HN [H1 H2 H3 H4]. nia. Qed.

Theorem hpass_closed {F} (q : F -> Z) N maxv (fw : fweights F) pool im into :
  cn_ok N -> pool_ok pool -> good N im -> good N into -> height im = height into ->
  wf_fw fw (width im) (width into) ->
  hpass q N maxv fw pool im into =
  Done (set_buf into (pixmap 0%Z (height into) (stride into) (width into * N)
     (fun y j => hval N maxv (qfw q fw) (fun i => nth (y * stride im + i) (buf im) 0%Z) (j / N) (j mod N)) (buf into))).
Proof.
  intros HN HP Gi Go Hh W. unfold hpass.
  assert (N0 : 0 < N) by (unfold cn_ok in HN; lia).
  rewrite (numerical_approximation_qfw q fw _ _ W). cbn [bind].
  assert (W' := qfw_wf q fw _ _ W). assert (W2 := W').
  set (fz := qfw q fw) in *.
  pose proof (g_len _ _ Gi) as Li. pose proof (g_len _ _ Go) as Lo.
  pose proof (g_stride _ _ Gi) as Si. pose proof (g_stride _ _ Go) as So.
  pose proof (good_stride_pos N im N0 Gi). pose proof (good_stride_pos N into N0 Go).
  rewrite (horizontal_dispatch_closed N _ _
     (fun s d => rowmap (width into * N)
        (fun j => hval N maxv fz (fun i => nth i s 0%Z) (j / N) (j mod N)) d)
     pool im into (stride im) (stride into) (height into)); auto using good_stride_of.
  - f_equal. apply set_buf_ext. erewrite <- pixmap_rows by eauto. f_equal. apply map_seq_ext.
    intros y Hy. apply rowmap_ext. intros j Hj. unfold hval. f_equal. f_equal. f_equal.
    apply zsum_ext. intros k Hk. f_equal.
    assert (jx : j / N < width into) by (apply Nat.div_lt_upper_bound; lia).
    pose proof (wf_nth fz _ _ (j / N) W' jx) as B. cbv zeta in B.
    pose proof (Nat.mod_upper_bound j N ltac:(lia)).
    rewrite nth_chunk by nia. reflexivity.
  - rewrite Li. f_equal; auto.
  - intros s d Ls Ld. apply row_handler_closed with (insz := width im); auto; lia.
  - intros s d Ls Ld.
    exact (row_handler_4_closed N maxv fz (width im) (width into) s (stride im) d (stride into)
             HN W' Si So Ls Ld).
Qed.

Theorem vpass_closed {F} (q : F -> Z) N maxv (fw : fweights F) pool im into :
  cn_ok N -> pool_ok pool -> good N im -> good N into -> width im = width into ->
  wf_fw fw (height im) (height into) ->
  vpass q N maxv fw pool im into =
  Done (set_buf into (pixmap 0%Z (height into) (stride into) (width into * N)
     (fun y j => vval maxv (buf im) (stride im) (skipn (y * aligned_size fw) (map q (weights fw)))
                      (nth y (bounds fw) (mkBound 0 0)) j) (buf into))).
Proof.
  intros HN HP Gi Go Hw W. unfold vpass.
  assert (N0 : 0 < N) by (unfold cn_ok in HN; lia).
  rewrite (numerical_approximation_qfw q fw _ _ W). cbn [bind].
  pose proof (g_len _ _ Gi) as Li. pose proof (g_len _ _ Go) as Lo.
  pose proof (g_stride _ _ Gi) as Si. pose proof (g_stride _ _ Go) as So.
  pose proof (good_stride_pos N im N0 Gi). pose proof (good_stride_pos N into N0 Go).
  rewrite (vertical_dispatch_closed N _ (bounds fw) (aligned_size fw) (weights (qfw q fw))
     (fun y => map (vval maxv (buf im) (stride im) (skipn (y * aligned_size fw) (map q (weights fw)))
                      (nth y (bounds fw) (mkBound 0 0))) (seq 0 (width into * N)))
     pool im into (stride into) (height into)); auto using good_stride_of.
  - f_equal. apply set_buf_ext. erewrite <- pixmap_rows by eauto. reflexivity.
  - apply (wf_blen _ _ _ W).
  - cbn. rewrite map_length, (wf_wlen _ _ _ W). lia.
  - intros y b d Hb Hy Ld. pose proof (wf_win _ _ _ W y b Hb) as B.
    assert (Eb : nth y (bounds fw) (mkBound 0 0) = b) by (apply nth_error_nth; exact Hb).
    rewrite Eb. rewrite map_length, seq_length. split; [|reflexivity].
    rewrite (good_stride_of N im N0 Gi). cbn [weights qfw].
    rewrite <- Ld. apply column_handler_closed; try lia.
    + rewrite skipn_length, map_length, (wf_wlen _ _ _ W). nia.
    + intros k Hk. rewrite Ld, Li, <- Hw. nia.
Qed.
