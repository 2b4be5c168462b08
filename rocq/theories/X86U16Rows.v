(** Closed forms of the 16-bit horizontal kernels of X86U16.v. *)
From Coq Require Import ZArith List Lia Bool Permutation ZifyBool ZifyNat.
From Verif Require Import Base BaseProofs Spec SpecFloat FixedPoint KernelProofs Kernel4Proofs ColumnProofs F32 Alpha ApiFloat Simd SimdProofs
  X86HorizontalProofs X86Alpha X86Float X86FloatKernels X86FloatCalls X86U16 SpecX86U16 X86U16Proofs.
Import ListNotations.
Local Open Scope nat_scope.

Lemma storew_all d v : length d = length v -> storew d 0 v = Done v.
Proof.
  intros H. rewrite storew_ok by lia. f_equal. unfold splice.
  cbn [firstn app]. rewrite skipn_all2 by lia. apply app_nil_r.
Qed.

Lemma gnth_error_bw {J} (fw : fweights J) i o x :
  wf_fw fw i o ->
  nth_error (combine (bounds fw) (chunks_exact (aligned_size fw) (weights fw))) x =
  if x <? o then Some (nth x (bounds fw) (mkBound 0 0), chunk (aligned_size fw) (weights fw) x) else None.
Proof.
  intro W. rewrite nth_error_combine, nth_error_chunks.
  rewrite (wf_wlen _ _ _ W), Nat.div_mul by (pose proof (wf_pos _ _ _ W); lia).
  destruct (x <? o) eqn:E.
  - rewrite (nth_error_nth_lt _ _ (mkBound 0 0)) by (rewrite (wf_blen _ _ _ W); lia). reflexivity.
  - rewrite nth_error_None_ge by (rewrite (wf_blen _ _ _ W); lia). reflexivity.
Qed.
Lemma gbw_length {J} (fw : fweights J) i o :
  wf_fw fw i o -> length (combine (bounds fw) (chunks_exact (aligned_size fw) (weights fw))) = o.
Proof.
  intro W. rewrite combine_length, chunks_exact_length, (wf_wlen _ _ _ W), (wf_blen _ _ _ W).
  rewrite Nat.div_mul by (pose proof (wf_pos _ _ _ W); lia). lia.
Qed.
Lemma gchunk_weights_length {J} (fw : fweights J) i o x :
  wf_fw fw i o -> x < o -> length (chunk (aligned_size fw) (weights fw) x) = aligned_size fw.
Proof. intros W Hx. apply chunk_length. rewrite (wf_wlen _ _ _ W), Nat.div_mul by (pose proof (wf_pos _ _ _ W); lia). auto. Qed.

Section Rows.
Context {U : Type} (dW : U).
Variables (pixel : upixel U) (val : (nat -> nat -> Z) -> nat -> (nat -> U) -> nat -> Z).
(** Channel c of a pixel, from the samples of the window (tap, channel) and its weights. *)
Definition upixel_ok : Prop := forall src b ws, 1 <= bsize b -> (bstart b + bsize b) * 4 <= length src -> bsize b <= length ws ->
  pixel src b ws = Done (map (val (fun k c => nth ((bstart b + k) * 4 + c) src 0%Z) (bsize b) (fun k => nth k ws dW)) (seq 0 4)).
Definition uval_local : Prop := forall X X' n w w' c, c < 4 -> (forall k, k < n -> X k c = X' k c) -> (forall k, k < n -> w k = w' k) ->
  val X n w c = val X' n w' c.
Hypothesis Hpix : upixel_ok.
Hypothesis Hloc : uval_local.
Definition upx (fw : fweights U) (s : list Z) (x c : nat) : Z :=
  val (fun k c => nth ((bstart (nth x (bounds fw) (mkBound 0 0)) + k) * 4 + c) s 0%Z) (bsize (nth x (bounds fw) (mkBound 0 0)))
      (fun k => nth (x * aligned_size fw + k) (weights fw) dW) c.
Definition urow_of (fw : fweights U) (outsz : nat) (s d : list Z) : list Z :=
  rowmap (outsz * 4) (fun j => upx fw s (j / 4) (j mod 4)) d.

Lemma pixel_at fw insz outsz src x :
  wf_fw fw insz outsz -> x < outsz -> insz * 4 <= length src ->
  pixel src (nth x (bounds fw) (mkBound 0 0)) (chunk (aligned_size fw) (weights fw) x) = Done (map (upx fw src x) (seq 0 4)).
Proof using Hpix Hloc.
  intros Wf Hx L. pose proof (wf_nth fw insz outsz x Wf Hx) as Wx. cbv zeta in Wx.
  pose proof (gchunk_weights_length fw insz outsz x Wf Hx) as Lc.
  rewrite Hpix; auto; try lia; try nia.
  f_equal. apply map_seq_ext. intros c Hc. unfold upx. apply Hloc; try lia; auto.
  intros k Hk. rewrite nth_chunk by lia. reflexivity.
Qed.

Theorem urow_closed fw insz outsz src dst :
  wf_fw fw insz outsz ->
  (insz * 4 <= length src) -> (outsz * 4 <= length dst) ->
  urow pixel src dst fw = Done (urow_of fw outsz src dst).
Proof using Hpix Hloc.
  intros W Ls Ld. unfold urow, urow_of. rewrite chunks_exact_o_ok by auto. cbn [bind].
  rewrite chunks_exact_o_ok by (apply (wf_pos _ _ _ W)). cbn [bind].
  rewrite (zip_mut_idx _ (fun x => map (upx fw src x) (seq 0 4))).
  - cbn [bind]. f_equal. rewrite (gbw_length fw insz outsz W). unfold unchunk.
    rewrite concat_app, <- app_assoc, concat_app_rem_chunks by auto.
    unfold rowmap. rewrite concat_map_rows by auto. reflexivity.
  - intros x d [b w] Hd Hbw. rewrite (gnth_error_bw fw insz outsz x W) in Hbw.
    destruct (x <? outsz) eqn:Ex; [|discriminate]. injection Hbw as <- <-. cbn [fst snd].
    rewrite (pixel_at fw insz outsz) by (auto; lia). cbn [bind]. rewrite nth_error_chunks in Hd.
    destruct (x <? length dst / 4) eqn:Exd; [|discriminate]. injection Hd as <-.
    apply storew_all. rewrite map_length, seq_length. apply chunk_length. lia.
  - rewrite (gbw_length fw insz outsz W), chunks_exact_length. apply Nat.div_le_lower_bound; lia.
Qed.

Theorem urow4_closed fw insz outsz src ss dst ds :
  wf_fw fw insz outsz ->
  (insz * 4 <= ss) -> (outsz * 4 <= ds) ->
  length src = (4 * ss) -> length dst = (4 * ds) ->
  let row r := urow_of fw outsz (chunk ss src r) (chunk ds dst r) in
  urow4 pixel src ss dst ds fw = Done (row 0 ++ row 1 ++ row 2 ++ row 3).
Proof using Hpix Hloc.
  intros W Ls Ld Lsrc Ldst row. unfold urow4.
  rewrite split_at_ok by lia. cbn [bind].
  rewrite split_at_ok by (rewrite skipn_length; lia). cbn [bind].
  rewrite split_at_ok by (rewrite !skipn_length; lia). cbn [bind].
  rewrite !skipn_skipn_add.
  assert (R0 : firstn ds dst = chunk ds dst 0) by reflexivity.
  assert (R1 : firstn ds (skipn ds dst) = chunk ds dst 1) by (unfold chunk; now rewrite Nat.mul_1_l).
  assert (R2 : firstn ds (skipn (ds + ds) dst) = chunk ds dst 2) by (unfold chunk; do 2 f_equal; lia).
  assert (R3 : skipn (ds + ds + ds) dst = chunk ds dst 3).
  { unfold chunk. rewrite firstn_all2 by (rewrite skipn_length; lia). f_equal; lia. }
  rewrite R0, R1, R2, R3.
  rewrite !(chunks_exact_o_ok 4) by auto. cbn [bind].
  rewrite chunks_exact_o_ok by (apply (wf_pos _ _ _ W)). cbn [bind].
  assert (Lc : forall r, (r < 4) -> length (chunk ds dst r) = ds).
  { intros r Hr. unfold chunk. rewrite firstn_length, skipn_length. nia. }
  assert (Lq : (outsz <= ds / 4)) by (apply Nat.div_le_lower_bound; lia).
  set (cols := zip4 _ _ _ _).
  assert (Lcols : length cols = (ds / 4)).
  { apply zip4_length; rewrite chunks_exact_length, Lc by lia; reflexivity. }
  unfold slice_from.
  replace (ss <=? length src) with true by lia. cbn [bind].
  replace (ss <=? length (skipn ss src)) with true by (rewrite skipn_length; lia). cbn [bind].
  rewrite skipn_skipn_add.
  replace (ss <=? length (skipn (ss + ss) src)) with true by (rewrite skipn_length; lia). cbn [bind].
  rewrite skipn_skipn_add.
  rewrite (gbw_length fw insz outsz W), Lcols, Nat.min_r by lia.
  set (px r x := map (fun c => upx fw (chunk ss src r) x c) (seq 0 4)).
  rewrite (zip_mut_idx _ (fun x => (px 0 x, px 1 x, px 2 x, px 3 x))).
  - cbn [bind]. rewrite (gbw_length fw insz outsz W).
    rewrite (skipn_all2 (firstn outsz cols)) by (rewrite firstn_length; lia). rewrite app_nil_r.
    rewrite !map_map. unfold rebuild_row. rewrite !map_length, !seq_length.
    assert (C : forall r, concat (map (px r) (seq 0 outsz)) ++ skipn (outsz * 4) (chunk ds dst r) = row r).
    { intro r. unfold px, row, urow_of, rowmap. rewrite concat_map_rows by auto. reflexivity. }
    f_equal. rewrite <- !C. reflexivity.
  - intros x [[[d0 d1] d2] d3] [b w] Hd Hbw. rewrite (gnth_error_bw fw insz outsz x W) in Hbw.
    destruct (x <? outsz) eqn:Ex; [|discriminate]. injection Hbw as <- <-. cbn [fst snd].
    assert (V : forall r k, (r < 4) -> k = (r * ss) ->
      pixel (skipn k src) (nth x (bounds fw) (mkBound 0 0)) (chunk (aligned_size fw) (weights fw) x) = Done (px r x)).
    { intros r k Hr ->.
      rewrite (pixel_at fw insz outsz) by
        (first [assumption | lia | rewrite skipn_length; nia]).
      f_equal. unfold px. apply map_seq_ext. intros c Hc. unfold upx.
      pose proof (wf_nth fw insz outsz x W ltac:(lia)) as Wx. cbv zeta in Wx.
      apply Hloc; try lia; auto. intros i Hi. rewrite nth_skipn, nth_chunk by nia. reflexivity. }
    change src with (skipn 0 src) at 1.
    rewrite (V 0 0), (V 1 ss), (V 2 (ss + ss)), (V 3 (ss + ss + ss)) by lia. cbn [bind].
    rewrite nth_error_firstn, Ex in Hd. unfold cols in Hd. rewrite nth_error_zip4, !nth_error_chunks in Hd.
    rewrite !Lc in Hd by lia. replace (x <? ds / 4) with true in Hd by lia.
    injection Hd as <- <- <- <-.
    assert (Lx : forall r, (r < 4) -> length (chunk 4 (chunk ds dst r) x) = length (px r x)).
    { intros r Hr. unfold px. rewrite map_length, seq_length. apply chunk_length. rewrite Lc by lia. lia. }
    rewrite !storew_all by (apply Lx; lia). reflexivity.
  - rewrite (gbw_length fw insz outsz W), firstn_length. lia.
Qed.
End Rows.

(** ** Up to 12 bits *)
Definition hsum (X : nat -> nat -> Z) (n : nat) (w : nat -> Z) (c : nat) : Z := (2 ^ 14 + zsum n (fun k => s16 (X k c) * s16 (w k)))%Z.
Definition uval (depth : nat) (X : nat -> nat -> Z) (n : nat) (w : nat -> Z) (c : nat) : Z :=
  min16 (sat 0 65535 (Z.shiftr (wrap32 (hsum X n w c)) 15)) (max_colors depth).
Lemma uval_is_local depth : uval_local (uval depth).
Proof.
  intros X X' n w w' c Hc Hx Hw. unfold uval, hsum. do 5 f_equal.
  apply zsum_ext. intros k Hk. rewrite Hx, Hw by assumption. reflexivity.
Qed.
Definition accq (g : nat -> Z) : list Z := [wrap32 (g 0); wrap32 (g 1); wrap32 (g 2); wrap32 (g 3)].
Lemma accq_ext g h : (forall c, c < 4 -> g c = h c) -> accq g = accq h.
Proof. intro H. unfold accq. now rewrite !H by lia. Qed.
Lemma narrow_accq depth g : narrow_rgba depth (accq g) = map (fun c => min16 (sat 0 65535 (Z.shiftr (wrap32 (g c)) 15)) (max_colors depth)) (seq 0 4).
Proof. reflexivity. Qed.

Section FixedPixel.
Variables (src : list Z) (b : fbound) (ws : list Z).
Hypothesis Hb : 1 <= bsize b.
Hypothesis Hs : (bstart b + bsize b) * 4 <= length src.
Hypothesis Hw : bsize b <= length ws.
Let X (k c : nat) : Z := nth ((bstart b + k) * 4 + c) src 0%Z.
Let w (k : nat) : Z := nth k ws 0%Z.
Definition px1 (f : nat -> nat -> Z) (k : nat) : list Z := [f k 0; f k 1; f k 2; f k 3; 0%Z; 0%Z; 0%Z; 0%Z].
Definition px2 (f : nat -> nat -> Z) (k : nat) : list Z := [f k 0; f k 1; f k 2; f k 3; f (k + 1) 0; f (k + 1) 1; f (k + 1) 2; f (k + 1) 3].
Lemma load_px2 k o : o = (bstart b + k) * 4 -> k + 2 <= bsize b -> loadw 8 src o = Done (px2 X k).
Proof using Hb Hs Hw.
  intros -> H. rewrite loadw_ok by nia. cbn [seq map Nat.sub repeat app]. unfold px2, X. f_equal. cells.
Qed.
Lemma load_px1 k o : o = (bstart b + k) * 4 -> k + 1 <= bsize b -> loadw 4 src o = Done (px1 X k).
Proof using Hb Hs Hw.
  intros -> H. rewrite loadw_ok by nia. cbn [seq map Nat.sub repeat app]. unfold px1, X. f_equal.
Qed.
Lemma acc_lo g k v : dot16 (accq g) (lo_w (px2 X k)) (set1_w v) = accq (fun c => g c + s16 (X k c) * s16 v)%Z.
Proof. unfold accq, px2. rewrite dot_lo, !add32_wrap. reflexivity. Qed.
Lemma acc_lo1 g k v : dot16 (accq g) (lo_w (px1 X k)) (set1_w v) = accq (fun c => g c + s16 (X k c) * s16 v)%Z.
Proof. unfold accq, px1. rewrite dot_lo, !add32_wrap. reflexivity. Qed.
Lemma acc_hi g k v : dot16 (accq g) (hi_w (px2 X k)) (set1_w v) = accq (fun c => g c + s16 (X (k + 1) c) * s16 v)%Z.
Proof. unfold accq, px2. rewrite dot_hi, !add32_wrap. reflexivity. Qed.
Let I (j : nat) (s : list Z) : Prop := j <= bsize b /\ s = accq (hsum X j w).
Ltac idxs := repeat (rewrite (idx_ok ws _ 0%Z) by lia; cbn [bind]).
Ltac norm_sum := apply accq_ext; intros c _; unfold hsum; cbn [zsum]; fold w; 
  repeat match goal with |- context [nth ?i ws 0%Z] => change (nth i ws 0%Z) with (w i) end.

Lemma rgba_sse_u16lb_value depth : rgba_sse_u16lb depth src b ws = Done (map (uval depth X (bsize b) w) (seq 0 4)).
Proof using Hb Hs Hw.
  unfold rgba_sse_u16lb. cbv zeta. unfold ftaps.
  destruct (while_tiles_inv I 8 8 (bsize b) (fun s jx =>
     w0 <- idx ws jx ;; w1 <- idx ws (jx + 1) ;; w2 <- idx ws (jx + 2) ;; w3 <- idx ws (jx + 3) ;;
     w4 <- idx ws (jx + 4) ;; w5 <- idx ws (jx + 5) ;; w6 <- idx ws (jx + 6) ;; w7 <- idx ws (jx + 7) ;;
     p0 <- loadw 8 src ((bstart b + jx) * 4) ;; p1 <- loadw 8 src ((bstart b + jx) * 4 + 8) ;;
     p2 <- loadw 8 src ((bstart b + jx) * 4 + 16) ;; p3 <- loadw 8 src ((bstart b + jx) * 4 + 24) ;;
     Done (dot16 (dot16 (dot16 (dot16 (dot16 (dot16 (dot16 (dot16 s (hi_w p1) (set1_w w3)) (lo_w p1) (set1_w w2)) (hi_w p0) (set1_w w1))
        (lo_w p0) (set1_w w0)) (hi_w p3) (set1_w w7)) (lo_w p3) (set1_w w6)) (hi_w p2) (set1_w w5)) (lo_w p2) (set1_w w4))) ltac:(lia))
    with (fuel := bsize b) (cx := 0) (s := init_d) as ([j s] & E & HI & HT & _).
  { intros j s Hj [Hle ->]. idxs.
    rewrite (load_px2 j), (load_px2 (j + 2)), (load_px2 (j + 4)), (load_px2 (j + 6)) by lia. cbn [bind].
    eexists. split; [reflexivity|]. split; [lia|]. rewrite !acc_hi, !acc_lo, !acc_hi, !acc_lo.
    rewrite !acc_hi, !acc_lo, !acc_hi, !acc_lo. norm_sum.
    replace (j + 8) with (S (S (S (S (S (S (S (S j)))))))) by lia. cbn [zsum]. rewrite !Nat.add_succ_r, !Nat.add_0_r. ring. }
  { lia. }
  { split; [lia|reflexivity]. }
  rewrite E. cbn [bind fst snd] in *. clear E HT.
  destruct (while_tiles_inv I 4 4 (bsize b) (fun s jx =>
     w0 <- idx ws jx ;; w1 <- idx ws (jx + 1) ;; w2 <- idx ws (jx + 2) ;; w3 <- idx ws (jx + 3) ;;
     p0 <- loadw 8 src ((bstart b + jx) * 4) ;; p1 <- loadw 8 src ((bstart b + jx) * 4 + 8) ;;
     Done (dot16 (dot16 (dot16 (dot16 s (hi_w p1) (set1_w w3)) (lo_w p1) (set1_w w2)) (hi_w p0) (set1_w w1)) (lo_w p0) (set1_w w0))) ltac:(lia))
    with (fuel := bsize b) (cx := j) (s := s) as ([j1 s1] & E & HI1 & HT & _).
  { clear j s HI. intros j s Hj [Hle ->]. idxs.
    rewrite (load_px2 j), (load_px2 (j + 2)) by lia. cbn [bind].
    eexists. split; [reflexivity|]. split; [lia|]. rewrite !acc_hi, !acc_lo, !acc_hi, !acc_lo. norm_sum.
    replace (j + 4) with (S (S (S (S j)))) by lia. cbn [zsum]. rewrite !Nat.add_succ_r, !Nat.add_0_r. ring. }
  { lia. }
  { exact HI. }
  rewrite E. cbn [bind fst snd] in *. clear j s HI E HT.
  destruct (while_tiles_inv I 2 2 (bsize b) (fun s jx =>
     w0 <- idx ws jx ;; w1 <- idx ws (jx + 1) ;;
     p0 <- loadw 8 src ((bstart b + jx) * 4) ;;
     Done (dot16 (dot16 s (hi_w p0) (set1_w w1)) (lo_w p0) (set1_w w0))) ltac:(lia))
    with (fuel := bsize b) (cx := j1) (s := s1) as ([j2 s2] & E & HI2 & HT & _).
  { clear j1 s1 HI1. intros j s Hj [Hle ->]. idxs.
    rewrite (load_px2 j) by lia. cbn [bind].
    eexists. split; [reflexivity|]. split; [lia|]. rewrite !acc_hi, !acc_lo. norm_sum.
    replace (j + 2) with (S (S j)) by lia. cbn [zsum]. rewrite !Nat.add_succ_r, !Nat.add_0_r. ring. }
  { lia. }
  { exact HI1. }
  rewrite E. cbn [bind fst snd] in *. clear j1 s1 HI1 E HT.
  destruct (while_tiles_inv I 1 0 (bsize b) (fun s jx =>
     w0 <- idx ws jx ;; p0 <- loadw 4 src ((bstart b + jx) * 4) ;; Done (dot16 s (lo_w p0) (set1_w w0))) ltac:(lia))
    with (fuel := bsize b) (cx := j2) (s := s2) as ([j3 s3] & E & HI3 & HT & _).
  { clear j2 s2 HI2. intros j s Hj [Hle ->]. idxs.
    rewrite (load_px1 j) by lia. cbn [bind].
    eexists. split; [reflexivity|]. split; [lia|]. rewrite !acc_lo1. norm_sum.
    replace (j + 1) with (S j) by lia. cbn [zsum]. ring. }
  { lia. }
  { exact HI2. }
  rewrite E. cbn [bind fst snd] in *. destruct HI3 as [H3 ->]. replace j3 with (bsize b) by lia.
  now rewrite narrow_accq.
Qed.
End FixedPixel.

Section AvxPixel.
Variables (src : list Z) (b : fbound) (ws : list Z).
Hypothesis Hb : 1 <= bsize b.
Hypothesis Hs : (bstart b + bsize b) * 4 <= length src.
Hypothesis Hw : bsize b <= length ws.
Let X (k c : nat) : Z := nth ((bstart b + k) * 4 + c) src 0%Z.
Let w (k : nat) : Z := nth k ws 0%Z.
Lemma load_quads k o : o = (bstart b + k) * 4 -> k + 4 <= bsize b -> load256w src o = Done (px2 X k, px2 X (k + 2)).
Proof using Hb Hs Hw.
  intros -> H. unfold load256w. rewrite (load_px2 src b ws Hb Hs Hw k) by lia. cbn [bind]. rewrite (load_px2 src b ws Hb Hs Hw (k + 2)) by lia. reflexivity.
Qed.
Lemma load_w8 k : k + 8 <= bsize b -> loadw 8 ws k = Done [w k; w (k + 1); w (k + 2); w (k + 3); w (k + 4); w (k + 5); w (k + 6); w (k + 7)].
Proof using Hb Hs Hw. intro H. rewrite loadw_ok by lia. cbn [seq map Nat.sub repeat app]. unfold w. f_equal. cells. Qed.
Lemma load_w4 k : k + 4 <= bsize b -> loadw 4 ws k = Done [w k; w (k + 1); w (k + 2); w (k + 3); 0; 0; 0; 0]%Z.
Proof using Hb Hs Hw. intro H. rewrite loadw_ok by lia. cbn [seq map Nat.sub repeat app]. unfold w. f_equal. cells. Qed.
Lemma acc_pair g k u v : dot16 (accq g) (shuffle_w (px2 X k) pair_table) [u; v; u; v; u; v; u; v] =
  accq (fun c => g c + (s16 (X k c) * s16 u + s16 (X (k + 1) c) * s16 v))%Z.
Proof.
  unfold dot16, madd_w, accq, px2, shuffle_w, pair_table. cbn [map zipw pair_sums nth Z.ltb Z.compare].
  change (Z.to_nat 0) with 0. change (Z.to_nat 1) with 1. change (Z.to_nat 2) with 2. change (Z.to_nat 3) with 3. change (Z.to_nat 4) with 4.
  change (Z.to_nat 5) with 5. change (Z.to_nat 6) with 6. change (Z.to_nat 7) with 7. cbn [nth]. now rewrite !add32_wrap.
Qed.
Lemma acc_single g k u : dot16 (accq g) (shuffle_w (px1 X k) single_table) [u; u; u; u; u; u; u; u] = accq (fun c => g c + s16 (X k c) * s16 u)%Z.
Proof.
  unfold dot16, madd_w, accq, px1, shuffle_w, single_table. cbn [map zipw pair_sums nth Z.ltb Z.compare].
  change (Z.to_nat 0) with 0. change (Z.to_nat 1) with 1. change (Z.to_nat 2) with 2. change (Z.to_nat 3) with 3. cbn [nth]. change (s16 0) with 0%Z.
  rewrite !Z.mul_0_l, !Z.add_0_r. now rewrite !add32_wrap.
Qed.
Definition any_permute (perm : list nat) : Prop := perm = four_row_permute \/ perm = one_row_permute.
Lemma low_weights perm w0 w1 w2 w3 w4 w5 w6 w7 : any_permute perm ->
  avx_weights [w0; w1; w2; w3; w4; w5; w6; w7] perm = ([w0; w1; w0; w1; w0; w1; w0; w1], [w2; w3; w2; w3; w2; w3; w2; w3]).
Proof. intros [->| ->]; reflexivity. Qed.
Lemma high_weights w0 w1 w2 w3 w4 w5 w6 w7 :
  avx_weights [w0; w1; w2; w3; w4; w5; w6; w7] hi_permute = ([w4; w5; w4; w5; w4; w5; w4; w5], [w6; w7; w6; w7; w6; w7; w6; w7]).
Proof. reflexivity. Qed.
Let I (j : nat) (s : list Z) : Prop := j <= bsize b /\ s = accq (hsum X j w).
Let I2 (j : nat) (s : list Z * list Z) : Prop :=
  j <= bsize b /\ exists g h, s = (accq g, accq h) /\ forall c, (g c + h c = hsum X j w c)%Z.
Lemma two_lanes g h : zipw add32 (accq g) (accq h) = accq (fun c => g c + h c)%Z.
Proof. unfold accq. cbn [zipw]. now rewrite !add32_wrap. Qed.
Lemma dot256_pairs g h k u v u' v' :
  dot256 (accq g, accq h) (shuffle_256 (px2 X k, px2 X (k + 2)) pair_table) ([u; v; u; v; u; v; u; v], [u'; v'; u'; v'; u'; v'; u'; v']) =
  (accq (fun c => g c + (s16 (X k c) * s16 u + s16 (X (k + 1) c) * s16 v)),
   accq (fun c => h c + (s16 (X (k + 2) c) * s16 u' + s16 (X (k + 2 + 1) c) * s16 v')))%Z.
Proof. unfold dot256, shuffle_256. cbn [fst snd]. now rewrite !acc_pair. Qed.

Lemma rgba_avx_u16lb_value perm depth : any_permute perm ->
  rgba_avx_u16lb perm depth src b ws = Done (map (uval depth X (bsize b) w) (seq 0 4)).
Proof using Hb Hs Hw.
  intro Hp. unfold rgba_avx_u16lb. cbv zeta. unfold ftaps.
  destruct (while_tiles_inv I2 8 8 (bsize b) (fun s jx =>
     wl <- loadw 8 ws jx ;;
     p0 <- load256w src ((bstart b + jx) * 4) ;; p1 <- load256w src ((bstart b + jx) * 4 + 16) ;;
     Done (dot256 (dot256 s (shuffle_256 p0 pair_table) (avx_weights wl perm)) (shuffle_256 p1 pair_table) (avx_weights wl hi_permute))) ltac:(lia))
    with (fuel := bsize b) (cx := 0) (s := (init_d, repeat 0%Z 4)) as ([j s] & E & HI & HT & _).
  { intros j s Hj [Hle (g & h & -> & Hgh)]. rewrite load_w8 by lia. cbn [bind].
    rewrite (load_quads j), (load_quads (j + 4)) by lia. cbn [bind]. rewrite low_weights, high_weights by exact Hp. rewrite !dot256_pairs.
    eexists. split; [reflexivity|]. split; [lia|]. eexists _, _. split; [reflexivity|]. intro c.
    specialize (Hgh c). unfold hsum in *. replace (j + 8) with (S (S (S (S (S (S (S (S j)))))))) by lia. cbn [zsum].
    rewrite !Nat.add_succ_r, !Nat.add_0_r. lia. }
  { lia. }
  { split; [lia|]. exists (fun _ => 16384%Z), (fun _ => 0%Z). split; reflexivity. }
  rewrite E. cbn [bind fst snd] in *. clear E HT.
  destruct (while_tiles_inv I2 4 4 (bsize b) (fun s jx =>
     wl <- loadw 4 ws jx ;; p0 <- load256w src ((bstart b + jx) * 4) ;;
     Done (dot256 s (shuffle_256 p0 pair_table) (avx_weights wl perm))) ltac:(lia))
    with (fuel := bsize b) (cx := j) (s := s) as ([j1 s1] & E & HI1 & HT & _).
  { clear j s HI. intros j s Hj [Hle (g & h & -> & Hgh)]. rewrite load_w4 by lia. cbn [bind].
    rewrite (load_quads j) by lia. cbn [bind]. rewrite low_weights by exact Hp. rewrite !dot256_pairs.
    eexists. split; [reflexivity|]. split; [lia|]. eexists _, _. split; [reflexivity|]. intro c.
    specialize (Hgh c). unfold hsum in *. replace (j + 4) with (S (S (S (S j)))) by lia. cbn [zsum].
    rewrite !Nat.add_succ_r, !Nat.add_0_r. lia. }
  { lia. }
  { exact HI. }
  rewrite E. cbn [bind fst snd] in *. clear j s HI E HT.
  assert (HIa : I j1 (zipw add32 (fst s1) (snd s1))).
  { destruct HI1 as [Hle (g & h & -> & Hgh)]. split; [exact Hle|]. cbn [fst snd]. rewrite two_lanes. apply accq_ext. auto. }
  destruct (while_tiles_inv I 2 2 (bsize b) (fun s jx =>
     w0 <- idx ws jx ;; w1 <- idx ws (jx + 1) ;;
     p0 <- loadw 8 src ((bstart b + jx) * 4) ;;
     Done (dot16 s (shuffle_w p0 pair_table) (shuffle_w [w0; w1; 0; 0; 0; 0; 0; 0]%Z repeat_table))) ltac:(lia))
    with (fuel := bsize b) (cx := j1) (s := zipw add32 (fst s1) (snd s1)) as ([j2 s2] & E & HI2 & HT & _).
  { clear j1 s1 HI1 HIa. intros j s Hj [Hle ->]. repeat (rewrite (idx_ok ws _ 0%Z) by lia; cbn [bind]).
    rewrite (load_px2 src b ws Hb Hs Hw j) by lia. cbn [bind].
    eexists. split; [reflexivity|]. split; [lia|].
    change (shuffle_w [nth j ws 0; nth (j + 1) ws 0; 0; 0; 0; 0; 0; 0]%Z repeat_table) with [w j; w (j + 1); w j; w (j + 1); w j; w (j + 1); w j; w (j + 1)].
    etransitivity; [apply acc_pair|]. apply accq_ext. intros c _. unfold hsum.
    replace (j + 2) with (S (S j)) by lia. cbn [zsum]. rewrite !Nat.add_succ_r, !Nat.add_0_r. ring. }
  { lia. }
  { exact HIa. }
  rewrite E. cbn [bind fst snd] in *. clear j1 s1 HI1 HIa E HT.
  destruct (while_tiles_inv I 1 0 (bsize b) (fun s jx =>
     w0 <- idx ws jx ;; p0 <- loadw 4 src ((bstart b + jx) * 4) ;; Done (dot16 s (shuffle_w p0 single_table) (shuffle_w (set1_w w0) repeat_table))) ltac:(lia))
    with (fuel := bsize b) (cx := j2) (s := s2) as ([j3 s3] & E & HI3 & HT & _).
  { clear j2 s2 HI2. intros j s Hj [Hle ->]. rewrite (idx_ok ws _ 0%Z) by lia. cbn [bind].
    rewrite (load_px1 src b ws Hb Hs Hw j) by lia. cbn [bind].
    eexists. split; [reflexivity|]. split; [lia|].
    change (shuffle_w (set1_w (nth j ws 0%Z)) repeat_table) with [w j; w j; w j; w j; w j; w j; w j; w j].
    etransitivity; [apply acc_single|]. apply accq_ext. intros c _. unfold hsum.
    replace (j + 1) with (S j) by lia. cbn [zsum]. ring. }
  { lia. }
  { exact HI2. }
  rewrite E. cbn [bind fst snd] in *. destruct HI3 as [H3 ->]. replace j3 with (bsize b) by lia.
  now rewrite narrow_accq.
Qed.
End AvxPixel.

Lemma sse_pixel_ok depth : upixel_ok 0%Z (rgba_sse_u16lb depth) (uval depth).
Proof. intros src b ws Hb Hs Hw. now apply rgba_sse_u16lb_value. Qed.
Lemma avx_pixel_ok perm depth : any_permute perm -> upixel_ok 0%Z (rgba_avx_u16lb perm depth) (uval depth).
Proof. intros Hp src b ws Hb Hs Hw. now apply rgba_avx_u16lb_value. Qed.

(** ** More than 12 bits, one row at a time *)
Definition fuval (fma : bool) (depth : nat) (X : nat -> nat -> Z) (n : nat) (w : nat -> f32) (c : nat) : Z :=
  nearest_u16 depth (not_below_0 (ordered_sum (prefer_fma fma) (tap_order n) (fun k => u16_as_f32 (X (tap_read n k) c)) w)).
Lemma tap_order_below n k : 1 <= n -> In k (tap_order n) -> k < n.
Proof.
  intros Hn H. unfold tap_order, taps4, taps8 in H. rewrite !in_app_iff in H. destruct H as [H|[H|H]].
  - apply in_flat_map in H. destruct H as (g & Hg & H). apply in_seq in Hg. apply in_map_iff in H. destruct H as (o & <- & Ho).
    cbn [In] in Ho. lia.
  - apply in_flat_map in H. destruct H as (g & Hg & H). apply in_seq in Hg. apply in_map_iff in H. destruct H as (o & <- & Ho).
    cbn [In] in Ho. lia.
  - apply in_seq in H. lia.
Qed.
Lemma tap_read_below n k : k < n -> tap_read n k < n.
Proof.
  intro H. unfold tap_read. destruct (_ && _) eqn:E.
  - apply andb_prop in E. destruct E as [E1 E2]. unfold taps4 in E2. pose proof (Nat.mul_div_le (n - taps8 n - 1) 4 ltac:(lia)). lia.
  - clear E. destruct (_ && _); lia.
Qed.
Lemma taps_le n : taps8 n <= taps4 n /\ (1 <= n -> taps4 n < n) /\ (taps8 n < taps4 n -> taps8 n + 4 <= taps4 n).
Proof.
  assert (A : 1 <= n -> taps8 n < n) by (unfold taps8; pose proof (Nat.mul_div_le (n - 1) 8 ltac:(lia)); lia).
  unfold taps4. pose proof (Nat.mul_div_le (n - taps8 n - 1) 4 ltac:(lia)). lia.
Qed.
Ltac trd := match goal with |- (if ?a && ?b then _ else _) = _ => destruct a eqn:?, b eqn:?; cbn [andb]; try lia end.
Ltac tr := unfold tap_read; repeat trd.
Lemma tap_read_8 n k : k < taps8 n -> tap_read n k = k.
Proof. intro H. pose proof (taps_le n). tr. Qed.
Lemma tap_read_4 n o : taps8 n < taps4 n -> 1 <= o <= 3 -> tap_read n (taps8 n + o) = taps8 n + o.
Proof. intros. pose proof (taps_le n). tr. Qed.
Lemma tap_read_40 n : taps8 n < taps4 n -> tap_read n (taps8 n) = taps8 n + 1.
Proof. intros. unfold tap_read. replace (taps8 n =? taps8 n) with true by lia. replace (taps8 n <? taps4 n) with true by lia. reflexivity. Qed.
Lemma tap_read_2 n : taps4 n + 2 < n -> tap_read n (taps4 n + 1) = taps4 n.
Proof. intros. pose proof (taps_le n). tr. Qed.
Lemma tap_read_1 n k : taps4 n <= k -> (k = taps4 n + 1 -> n <= taps4 n + 2) -> tap_read n k = k.
Proof. intros. pose proof (taps_le n). tr. Qed.
Lemma ordered_ext madd l x x' w w' : (forall k, In k l -> x k = x' k /\ w k = w' k) -> ordered_sum madd l x w = ordered_sum madd l x' w'.
Proof.
  unfold ordered_sum. generalize f0. induction l as [|k l IH]; intros a H; [reflexivity|]. cbn [fold_left].
  destruct (H k (or_introl eq_refl)) as [-> ->]. apply IH. intros j Hj. apply H. now right.
Qed.
Lemma fuval_is_local fma depth : uval_local (fuval fma depth).
Proof.
  intros X X' n w w' c Hc Hx Hw. unfold fuval. destruct (Nat.eq_dec n 0) as [->|Hn]; [reflexivity|]. do 2 f_equal. apply ordered_ext. intros k Hk.
  apply tap_order_below in Hk; [|lia]. split; [|apply Hw; exact Hk]. f_equal. apply Hx. now apply tap_read_below.
Qed.

Section DeepPixel.
Variables (fma : bool) (src : list Z) (b : fbound) (ws : list f32).
Hypothesis Hb : 1 <= bsize b.
Hypothesis Hs : (bstart b + bsize b) * 4 <= length src.
Hypothesis Hw : bsize b <= length ws.
Let n := bsize b.
Let X (k c : nat) : Z := nth ((bstart b + k) * 4 + c) src 0%Z.
Let w (k : nat) : f32 := nth k ws f0.
Definition fq (g : nat -> f32) : mf := [g 0; g 1; g 2; g 3].
Lemma dload_px2 k o : o = (bstart b + k) * 4 -> k + 2 <= bsize b -> loadw 8 src o = Done (px2 X k).
Proof using Hb Hs Hw.
  intros -> H. rewrite loadw_ok by nia. cbn [seq map Nat.sub repeat app]. unfold px2, X. f_equal. cells.
Qed.
Lemma dload_px1 k o : o = (bstart b + k) * 4 -> k + 1 <= bsize b -> loadw 4 src o = Done (px1 X k).
Proof using Hb Hs Hw.
  intros -> H. rewrite loadw_ok by nia. cbn [seq map Nat.sub repeat app]. unfold px1, X. f_equal.
Qed.
Let osum (l : list nat) (c : nat) : f32 := ordered_sum (prefer_fma fma) l (fun k => u16_as_f32 (X (tap_read n k) c)) w.
Lemma osum_snoc l k c : osum (l ++ [k]) c = prefer_fma fma (osum l c) (u16_as_f32 (X (tap_read n k) c)) (w k).
Proof. unfold osum, ordered_sum. rewrite fold_left_app. reflexivity. Qed.
(** One tap: pixel [r] is read for tap [k]. *)
Lemma deep_lo l p k r v : (p = px2 X r \/ p = px1 X r) -> tap_read n k = r -> v = w k ->
  vfma fma (fq (osum l)) (cvt (lo_d p)) (set1_ps 4 v) = fq (osum (l ++ [k])).
Proof. intros Hp <- ->. unfold fq. rewrite !osum_snoc. destruct Hp as [->| ->]; reflexivity. Qed.
Lemma deep_hi l k r v : tap_read n k = r + 1 -> v = w k ->
  vfma fma (fq (osum l)) (cvt (hi_d (px2 X r))) (set1_ps 4 v) = fq (osum (l ++ [k])).
Proof. intros Hp ->. unfold fq. rewrite !osum_snoc, Hp. reflexivity. Qed.

Let l8 g := flat_map (fun g => map (fun o => 8 * g + o) [3; 2; 1; 0; 7; 6; 5; 4]) (seq 0 g).
Let l4 g := flat_map (fun g => map (fun o => taps8 n + 4 * g + o) [3; 2; 1; 0]) (seq 0 g).
Let I8 (j : nat) (s : mf) : Prop := exists g, j = 8 * g /\ j <= n /\ (g = 0 \/ j < n) /\ s = fq (osum (l8 g)).
Let I4 (j : nat) (s : mf) : Prop := exists g, j = taps8 n + 4 * g /\ j <= n /\ (g = 0 \/ j < n) /\ s = fq (osum (l8 ((n - 1) / 8) ++ l4 g)).
Let I1 (j : nat) (s : mf) : Prop := taps4 n <= j <= n /\ s = fq (osum (l8 ((n - 1) / 8) ++ l4 ((n - taps8 n - 1) / 4) ++ seq (taps4 n) (j - taps4 n))).
Ltac idxd := repeat (rewrite (idx_ok ws _ f0) by lia; cbn [bind]).
Ltac t8 := apply tap_read_8; unfold taps8; lia.

Lemma rgba_sse_u16_value depth : rgba_sse_u16 fma depth src b ws = Done (map (fuval fma depth X n w) (seq 0 4)).
Proof using Hb Hs Hw.
  unfold rgba_sse_u16. cbv zeta. unfold ftaps. fold n. assert (En : n = bsize b) by reflexivity.
  destruct (while_tiles_inv I8 8 8 n (fun s jx =>
     w0 <- idx ws jx ;; w1 <- idx ws (jx + 1) ;; w2 <- idx ws (jx + 2) ;; w3 <- idx ws (jx + 3) ;;
     w4 <- idx ws (jx + 4) ;; w5 <- idx ws (jx + 5) ;; w6 <- idx ws (jx + 6) ;; w7 <- idx ws (jx + 7) ;;
     p0 <- loadw 8 src ((bstart b + jx) * 4) ;; p1 <- loadw 8 src ((bstart b + jx) * 4 + 8) ;;
     p2 <- loadw 8 src ((bstart b + jx) * 4 + 16) ;; p3 <- loadw 8 src ((bstart b + jx) * 4 + 24) ;;
     Done (vfma fma (vfma fma (vfma fma (vfma fma (vfma fma (vfma fma (vfma fma (vfma fma s (cvt (hi_d p1)) (set1_ps 4 w3)) (cvt (lo_d p1)) (set1_ps 4 w2))
        (cvt (hi_d p0)) (set1_ps 4 w1)) (cvt (lo_d p0)) (set1_ps 4 w0)) (cvt (hi_d p3)) (set1_ps 4 w7)) (cvt (lo_d p3)) (set1_ps 4 w6))
        (cvt (hi_d p2)) (set1_ps 4 w5)) (cvt (lo_d p2)) (set1_ps 4 w4))) ltac:(lia))
    with (fuel := n) (cx := 0) (s := zero_ps 4) as ([j s] & E & HI & HT & _).
  { intros j s Hj (g & Ej & Hle & Hg & ->). idxd.
    rewrite (dload_px2 j), (dload_px2 (j + 2)), (dload_px2 (j + 4)), (dload_px2 (j + 6)) by lia. cbn [bind].
    eexists. split; [reflexivity|]. exists (S g). split; [lia|]. split; [lia|]. split; [lia|].
    assert (T8 : forall o, o < 8 -> tap_read n (j + o) = j + o) by (intros; t8).
    assert (T80 : tap_read n j = j) by t8.
    rewrite (deep_hi _ (j + 3) (j + 2)); [|rewrite T8 by lia; lia|reflexivity]. rewrite (deep_lo _ _ (j + 2) (j + 2)); [|now left|rewrite T8 by lia; lia|reflexivity].
    rewrite (deep_hi _ (j + 1) j); [|rewrite T8 by lia; lia|reflexivity]. rewrite (deep_lo _ _ j j); [|now left|exact T80|reflexivity].
    rewrite (deep_hi _ (j + 7) (j + 6)); [|rewrite T8 by lia; lia|reflexivity]. rewrite (deep_lo _ _ (j + 6) (j + 6)); [|now left|rewrite T8 by lia; lia|reflexivity].
    rewrite (deep_hi _ (j + 5) (j + 4)); [|rewrite T8 by lia; lia|reflexivity]. rewrite (deep_lo _ _ (j + 4) (j + 4)); [|now left|rewrite T8 by lia; lia|reflexivity].
    f_equal. f_equal. unfold l8. rewrite seq_S, flat_map_app. cbn [flat_map map Nat.add app]. rewrite <- !app_assoc. cbn [app].
    rewrite Nat.add_0_r, Ej. reflexivity. }
  { lia. }
  { exists 0. split; [lia|]. split; [lia|]. split; [lia|]. reflexivity. }
  rewrite E. cbn [bind fst snd] in *. clear E.
  assert (HI' : I4 j s).
  { destruct HI as (g & Ej & Hle & Hg & ->). exists 0. assert (g = (n - 1) / 8) by (unfold n in *; lia). subst g. unfold taps8.
    split; [lia|]. split; [lia|]. split; [lia|]. unfold l4. cbn [seq flat_map]. now rewrite app_nil_r. }
  clear HI HT.
  destruct (while_tiles_inv I4 4 4 n (fun s jx =>
     w0 <- idx ws jx ;; w1 <- idx ws (jx + 1) ;; w2 <- idx ws (jx + 2) ;; w3 <- idx ws (jx + 3) ;;
     p0 <- loadw 8 src ((bstart b + jx) * 4) ;; p1 <- loadw 8 src ((bstart b + jx) * 4 + 8) ;;
     Done (vfma fma (vfma fma (vfma fma (vfma fma s (cvt (hi_d p1)) (set1_ps 4 w3)) (cvt (lo_d p1)) (set1_ps 4 w2))
        (cvt (hi_d p0)) (set1_ps 4 w1)) (cvt (hi_d p0)) (set1_ps 4 w0))) ltac:(lia))
    with (fuel := n) (cx := j) (s := s) as ([j1 s1] & E & HI1 & HT & _).
  { clear j s HI'. intros j s Hj (g & Ej & Hle & Hg & ->). assert (g = 0) by (unfold taps8 in Ej; lia). subst g. idxd.
    rewrite (dload_px2 j), (dload_px2 (j + 2)) by lia. cbn [bind].
    eexists. split; [reflexivity|]. exists 1. split; [lia|]. split; [lia|]. split; [lia|].
    assert (Ej' : j = taps8 n) by lia.
    assert (T : taps8 n < taps4 n).
    { unfold taps4. assert (1 <= (n - taps8 n - 1) / 4) by (apply Nat.div_le_lower_bound; lia). lia. }
    rewrite (deep_hi _ (j + 3) (j + 2)); [|rewrite Ej', tap_read_4 by lia; lia|reflexivity].
    rewrite (deep_lo _ _ (j + 2) (j + 2)); [|now left|rewrite Ej', tap_read_4 by lia; lia|reflexivity].
    rewrite (deep_hi _ (j + 1) j); [|rewrite Ej', tap_read_4 by lia; lia|reflexivity].
    rewrite (deep_hi _ j j); [|rewrite Ej', tap_read_40 by lia; lia|reflexivity].
    f_equal. f_equal. unfold l4. cbn [seq flat_map map app]. rewrite <- !app_assoc. cbn [app].
    rewrite Ej', !Nat.mul_0_r, !Nat.add_0_r. reflexivity. }
  { lia. }
  { exact HI'. }
  rewrite E. cbn [bind fst snd] in *. clear j s HI' E.
  assert (HI' : j1 = taps4 n /\ I1 j1 s1).
  { destruct HI1 as (g & Ej & Hle & Hg & ->). assert (g = (n - taps8 n - 1) / 4) by (unfold taps8, n in *; lia). subst g. unfold I1.
    assert (j1 = taps4 n) by (unfold taps4; lia). split; [assumption|].
    split; [lia|]. replace (j1 - taps4 n) with 0 by lia. cbn [seq]. now rewrite app_nil_r. }
  clear HI1 HT. destruct HI' as [Ej1 HI1].
  destruct (while_tiles_inv (fun j s => (j = taps4 n \/ j = taps4 n + 2) /\ I1 j s) 2 2 n (fun s jx =>
     w0 <- idx ws jx ;; w1 <- idx ws (jx + 1) ;;
     p0 <- loadw 8 src ((bstart b + jx) * 4) ;;
     Done (vfma fma (vfma fma s (cvt (lo_d p0)) (set1_ps 4 w0)) (cvt (lo_d p0)) (set1_ps 4 w1))) ltac:(lia))
    with (fuel := n) (cx := j1) (s := s1) as ([j2 s2] & E & HI2 & HT & _).
  { clear j1 s1 HI1 Ej1. intros j s Hj [Hj4 [Hle ->]].
    assert (Ej : j = taps4 n).
    { destruct Hj4 as [|Hj4]; [assumption|]. exfalso. unfold taps4 in Hj4. pose proof (Nat.mod_upper_bound (n - taps8 n - 1) 4 ltac:(lia)) as M.
      rewrite Nat.mod_eq in M by lia. lia. }
    clear Hj4. idxd.
    rewrite (dload_px2 j) by lia. cbn [bind].
    eexists. split; [reflexivity|]. split; [lia|]. split; [lia|].
    rewrite (deep_lo _ _ j j); [|now left|apply tap_read_1; lia|reflexivity].
    rewrite (deep_lo _ _ (j + 1) j); [|now left|rewrite Ej; apply tap_read_2; lia|reflexivity].
    f_equal. f_equal. rewrite <- !app_assoc. do 2 f_equal. replace (j - taps4 n) with 0 by lia. replace (j + 2 - taps4 n) with 2 by lia.
    cbn [seq app]. rewrite <- Ej. do 2 f_equal. f_equal. lia. }
  { lia. }
  { cbv beta. split; [now left|exact HI1]. }
  rewrite E. cbn [bind fst snd] in *. clear j1 s1 HI1 E Ej1. 
  destruct (while_tiles_inv (fun j s => (j <= taps4 n + 1 -> n <= taps4 n + 2) /\ I1 j s) 1 0 n (fun s jx =>
     w0 <- idx ws jx ;; p0 <- loadw 4 src ((bstart b + jx) * 4) ;; Done (vfma fma s (cvt (lo_d p0)) (set1_ps 4 w0))) ltac:(lia))
    with (fuel := n) (cx := j2) (s := s2) as ([j3 s3] & E & HI3 & HT3 & _).
  { clear HI2 HT. intros j s Hj [Hj4 [Hle ->]]. idxd.
    rewrite (dload_px1 j) by lia. cbn [bind].
    eexists. split; [reflexivity|]. split; [lia|]. split; [lia|].
    rewrite (deep_lo _ _ j j); [|now right|apply tap_read_1; lia|reflexivity].
    f_equal. f_equal. rewrite <- !app_assoc. do 2 f_equal. replace (j + 1 - taps4 n) with (S (j - taps4 n)) by lia.
    rewrite seq_S. do 2 f_equal. lia. }
  { lia. }
  { cbv beta. destruct HI2 as [Hj2 HI2]. split; [lia|exact HI2]. }
  rewrite E. cbn [bind fst snd] in *. destruct HI3 as [_ [H3 ->]]. replace j3 with n by lia.
  unfold fq, max_ps, narrow_ps, packus_w. cbn [map app firstn seq]. reflexivity.
Qed.
End DeepPixel.
Lemma deep_pixel_ok fma depth : upixel_ok f0 (rgba_sse_u16 fma depth) (fuval fma depth).
Proof. intros src b ws Hb Hs Hw. now apply rgba_sse_u16_value. Qed.
