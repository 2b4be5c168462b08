(** The iterations [hrow], [hrow4] of X86Horizontal.v, and the closed forms of the kernels. *)
From Coq Require Import ZifyBool ZifyNat.
From Verif Require Import Base BaseProofs Spec FixedPoint KernelProofs Kernel4Proofs Simd SimdProofs
  X86Vertical X86VerticalProofs X86VerticalLp X86VerticalLpProofs X86Horizontal.
Local Open Scope Z_scope.

(** A one-pixel kernel computes channel c as [val (samples of the row) bound weights c]
    for every window inside the row and every row of bytes. *)
Definition pixel_ok (cn : nat) (pixel : pixel_fn) (val : (nat -> Z) -> fbound -> (nat -> Z) -> nat -> Z) : Prop :=
  forall src b ws, bytes src -> (1 <= bsize b)%nat -> ((bstart b + bsize b) * cn <= length src)%nat ->
    (bsize b <= length ws)%nat -> Forall i16 ws ->
    pixel src b ws = Done (map (val (fun i => nth i src 0) b (fun k => nth k ws 0)) (seq 0 cn)).
(** [val] only looks at the samples below (start + size) * cn and the first size weights. *)
Definition local_val (cn : nat) (val : (nat -> Z) -> fbound -> (nat -> Z) -> nat -> Z) : Prop :=
  forall s s' b w w' c, (1 <= bsize b)%nat -> (c < cn)%nat ->
    (forall i, (i < (bstart b + bsize b) * cn)%nat -> s i = s' i) ->
    (forall k, (k < bsize b)%nat -> w k = w' k) -> val s b w c = val s' b w' c.

Lemma bytes_skipn n l : bytes l -> bytes (skipn n l).
Proof. unfold bytes. rewrite !Forall_forall. intros H x Hx. apply H. rewrite <- (firstn_skipn n l). apply in_or_app; auto. Qed.
Lemma bytes_firstn n l : bytes l -> bytes (firstn n l).
Proof. unfold bytes. rewrite !Forall_forall. intros H x Hx. apply H. rewrite <- (firstn_skipn n l). apply in_or_app; auto. Qed.
Lemma i16_chunk n l i : Forall i16 l -> Forall i16 (chunk n l i).
Proof.
  rewrite !Forall_forall. intros H x Hx. apply H. unfold chunk in Hx.
  rewrite <- (firstn_skipn (i * n) l). apply in_or_app; right.
  rewrite <- (firstn_skipn n (skipn (i * n) l)). apply in_or_app; auto.
Qed.
Lemma store_all d v : length d = length v -> store_bytes d 0 v = Done v.
Proof.
  intros H. rewrite store_bytes_ok by lia. f_equal. unfold splice.
  cbn [firstn app]. rewrite skipn_all2 by lia. apply app_nil_r.
Qed.

Section Rows.
Variables (cn : nat) (pixel : pixel_fn) (val : (nat -> Z) -> fbound -> (nat -> Z) -> nat -> Z).
Hypothesis Hcn : (0 < cn)%nat.
Hypothesis Hpix : pixel_ok cn pixel val.

(** The value at output pixel x, channel c. *)
Definition hpx (fw : fweights Z) (s : nat -> Z) (x c : nat) : Z :=
  val s (nth x (bounds fw) (mkBound 0 0)) (fun k => nth (x * aligned_size fw + k) (weights fw) 0) c.
Definition hrow_of (fw : fweights Z) (outsz : nat) (s d : list Z) : list Z :=
  rowmap (outsz * cn) (fun j => hpx fw (fun i => nth i s 0) (j / cn) (j mod cn)) d.
Hypothesis Hloc : local_val cn val.

Lemma pixel_at fw insz outsz src x :
  wf_fw fw insz outsz -> (x < outsz)%nat -> bytes src -> Forall i16 (weights fw) -> (insz * cn <= length src)%nat ->
  pixel src (nth x (bounds fw) (mkBound 0 0)) (chunk (aligned_size fw) (weights fw) x) =
  Done (map (hpx fw (fun i => nth i src 0) x) (seq 0 cn)).
Proof using Hcn Hpix Hloc.
  intros W Hx Hb Hw L. pose proof (wf_nth fw insz outsz x W Hx) as Wx. cbv zeta in Wx.
  pose proof (chunk_weights_length fw insz outsz x W Hx) as Lc.
  rewrite Hpix; auto; try lia; try (apply i16_chunk; assumption); try nia.
  f_equal. apply map_seq_ext. intros c Hc. unfold hpx. apply Hloc; try lia; auto.
  intros k Hk. rewrite nth_chunk by lia. reflexivity.
Qed.

Theorem hrow_closed fw insz outsz src dst :
  wf_fw fw insz outsz -> bytes src -> Forall i16 (weights fw) ->
  (insz * cn <= length src)%nat -> (outsz * cn <= length dst)%nat ->
  hrow cn pixel src dst fw = Done (hrow_of fw outsz src dst).
Proof using Hcn Hpix Hloc.
  intros W Hb Hw Ls Ld. unfold hrow, hrow_of. rewrite chunks_exact_o_ok by auto. cbn [bind].
  rewrite chunks_exact_o_ok by (apply (wf_pos _ _ _ W)). cbn [bind].
  rewrite (zip_mut_idx _ (fun x => map (hpx fw (fun i => nth i src 0) x) (seq 0 cn))).
  - cbn [bind]. f_equal. rewrite (bw_length fw insz outsz W). unfold unchunk.
    rewrite concat_app, <- app_assoc, concat_app_rem_chunks by auto.
    unfold rowmap. rewrite concat_map_rows by auto. reflexivity.
  - intros x d [b w] Hd Hbw. rewrite (nth_error_bw fw insz outsz x W) in Hbw.
    destruct (x <? outsz)%nat eqn:Ex; [|discriminate]. injection Hbw as <- <-. cbn [fst snd].
    rewrite (pixel_at fw insz outsz) by (auto; lia). cbn [bind]. rewrite nth_error_chunks in Hd.
    destruct (x <? length dst / cn)%nat eqn:Exd; [|discriminate]. injection Hd as <-.
    apply store_all. rewrite map_length, seq_length. apply chunk_length. lia.
  - rewrite (bw_length fw insz outsz W), chunks_exact_length. apply Nat.div_le_lower_bound; lia.
Qed.

Theorem hrow4_closed fw insz outsz src ss dst ds :
  wf_fw fw insz outsz -> bytes src -> Forall i16 (weights fw) ->
  (insz * cn <= ss)%nat -> (outsz * cn <= ds)%nat ->
  length src = (4 * ss)%nat -> length dst = (4 * ds)%nat ->
  let row r := hrow_of fw outsz (chunk ss src r) (chunk ds dst r) in
  hrow4 cn pixel src ss dst ds fw = Done (row 0%nat ++ row 1%nat ++ row 2%nat ++ row 3%nat).
Proof using Hcn Hpix Hloc.
  intros W Hb Hw Ls Ld Lsrc Ldst row. unfold hrow4.
  rewrite split_at_ok by lia. cbn [bind].
  rewrite split_at_ok by (rewrite skipn_length; lia). cbn [bind].
  rewrite split_at_ok by (rewrite !skipn_length; lia). cbn [bind].
  rewrite !skipn_skipn_add.
  assert (R0 : firstn ds dst = chunk ds dst 0) by reflexivity.
  assert (R1 : firstn ds (skipn ds dst) = chunk ds dst 1) by (unfold chunk; now rewrite Nat.mul_1_l).
  assert (R2 : firstn ds (skipn (ds + ds) dst) = chunk ds dst 2) by (unfold chunk; do 2 f_equal; lia).
  assert (R3 : skipn (ds + ds + ds) dst = chunk ds dst 3).
  { unfold chunk. rewrite firstn_all2 by (rewrite skipn_length; lia). f_equal; lia. }
  rewrite R0, R1, R2, R3.
  rewrite !(chunks_exact_o_ok cn) by auto. cbn [bind].
  rewrite chunks_exact_o_ok by (apply (wf_pos _ _ _ W)). cbn [bind].
  assert (Lc : forall r, (r < 4)%nat -> length (chunk ds dst r) = ds).
  { intros r Hr. unfold chunk. rewrite firstn_length, skipn_length. nia. }
  assert (Lq : (outsz <= ds / cn)%nat) by (apply Nat.div_le_lower_bound; lia).
  set (cols := zip4 _ _ _ _).
  assert (Lcols : length cols = (ds / cn)%nat).
  { apply zip4_length; rewrite chunks_exact_length, Lc by lia; reflexivity. }
  unfold slice_from.
  replace (ss <=? length src)%nat with true by lia. cbn [bind].
  replace (ss <=? length (skipn ss src))%nat with true by (rewrite skipn_length; lia). cbn [bind].
  rewrite skipn_skipn_add.
  replace (ss <=? length (skipn (ss + ss) src))%nat with true by (rewrite skipn_length; lia). cbn [bind].
  rewrite skipn_skipn_add.
  rewrite (bw_length fw insz outsz W), Lcols, Nat.min_r by lia.
  set (px r x := map (fun c => hpx fw (fun i => nth i (chunk ss src r) 0) x c) (seq 0 cn)).
  rewrite (zip_mut_idx _ (fun x => (px 0 x, px 1 x, px 2 x, px 3 x)%nat)).
  - cbn [bind]. rewrite (bw_length fw insz outsz W).
    rewrite (skipn_all2 (firstn outsz cols)) by (rewrite firstn_length; lia). rewrite app_nil_r.
    rewrite !map_map. unfold rebuild_row. rewrite !map_length, !seq_length.
    assert (C : forall r, concat (map (px r) (seq 0 outsz)) ++ skipn (outsz * cn) (chunk ds dst r) = row r).
    { intro r. unfold px, row, hrow_of, rowmap. rewrite concat_map_rows by auto. reflexivity. }
    f_equal. rewrite <- !C. reflexivity.
  - intros x [[[d0 d1] d2] d3] [b w] Hd Hbw. rewrite (nth_error_bw fw insz outsz x W) in Hbw.
    destruct (x <? outsz)%nat eqn:Ex; [|discriminate]. injection Hbw as <- <-. cbn [fst snd].
    assert (V : forall r k, (r < 4)%nat -> k = (r * ss)%nat ->
      pixel (skipn k src) (nth x (bounds fw) (mkBound 0 0)) (chunk (aligned_size fw) (weights fw) x) = Done (px r x)).
    { intros r k Hr ->.
      rewrite (pixel_at fw insz outsz) by
        (first [assumption | lia | apply bytes_skipn; assumption | rewrite skipn_length; nia]).
      f_equal. unfold px. apply map_seq_ext. intros c Hc. unfold hpx.
      pose proof (wf_nth fw insz outsz x W ltac:(lia)) as Wx. cbv zeta in Wx.
      apply Hloc; try lia; auto. intros i Hi. rewrite nth_skipn, nth_chunk by nia. reflexivity. }
    change src with (skipn 0 src) at 1.
    rewrite (V 0%nat 0%nat), (V 1%nat ss), (V 2%nat (ss + ss)%nat), (V 3%nat (ss + ss + ss)%nat) by lia. cbn [bind].
    rewrite nth_error_firstn, Ex in Hd. unfold cols in Hd. rewrite nth_error_zip4, !nth_error_chunks in Hd.
    rewrite !Lc in Hd by lia. replace (x <? ds / cn)%nat with true in Hd by lia.
    injection Hd as <- <- <- <-.
    assert (Lx : forall r, (r < 4)%nat -> length (chunk cn (chunk ds dst r) x) = length (px r x)).
    { intros r Hr. unfold px. rewrite map_length, seq_length. apply chunk_length. rewrite Lc by lia. lia. }
    rewrite !store_all by (apply Lx; lia). reflexivity.
  - rewrite (bw_length fw insz outsz W), firstn_length. lia.
Qed.
End Rows.
