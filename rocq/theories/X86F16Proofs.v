(** f16 kernels on x86-64: closed forms of a row, of four rows and of a column pass. *)
From Coq Require Import ZArith List Lia Bool Permutation ZifyBool ZifyNat.
From Flocq Require Import Core.Core IEEE754.BinarySingleNaN.
From Verif Require Import Base BaseProofs ImageStore ColorGroup FixedPoint Dispatch FloatConv Resize SpecFloat F32 Weights Sampler
  KernelProofs ColumnProofs SimdProofs FloatConvProofs X86HorizontalProofs Kernel4Proofs Api X86Dispatch X86Float SpecX86Float X86FloatKernels X86FloatRows
  X86FloatCalls F16 X86F16.
Import ListNotations.
Local Open Scope nat_scope.

Lemma store16_ok dst off v : off + length v <= length dst -> store16 dst off v = Done (splice dst off v).
Proof. intro H. unfold store16. replace (off + length v <=? length dst) with true by lia. reflexivity. Qed.

Section VPart.
Variables (up : f16 -> f32) (down : f32 -> f16) (fma : bool) (src : list f16) (ss : nat) (ws : list f32) (b : fbound) (dst : list f16).
Hypothesis Hws : bsize b <= length ws.
Hypothesis Hsrc : forall k, k < bsize b -> ss * (bstart b + k) + length dst <= length src.

Definition vacc (j p : nat) : f32 :=
  accumulate_from (prefer_fma fma) 0 j (fun k => nth (ss * (bstart b + k) + p) (map up src) f0) (fun k => nth k ws f0) f0.
Let val p := down (vacc (bsize b) p).
Let mlen : length (map up src) = length src := map_length up src.

Lemma vpart_closed lanes m cx : cx + lanes * m <= length dst ->
  vpart16 up down fma src ss ws b lanes m (rowmap cx val dst) cx = Done (rowmap (cx + lanes * m) val dst).
Proof using Hws Hsrc mlen.
  intro Hcx. unfold vpart16.
  set (St := fun j => map (fun i => map (fun l => vacc j (cx + lanes * i + l)) (seq 0 lanes)) (seq 0 m)).
  match goal with |- bind (foldM ?B _ _) _ = _ => set (body := B) end.
  destruct (foldM_seq_inv (fun j s => s = St j) body (bsize b) 0 (repeat (zero_ps lanes) m)) as (r & E & Hr).
  { intros j s Hj ->. unfold body. rewrite idx_f by lia. cbn [bind].
    rewrite (seqM_done _ (fun i => firstn lanes (skipn (ss * (bstart b + j) + cx + lanes * i) (map up src)))).
    - cbn [bind]. eexists. split; [reflexivity|]. unfold St. rewrite combine_maps, map_map.
      apply map_ext_in. intros i Hi. apply in_seq in Hi. cbn [fst snd]. specialize (Hsrc j ltac:(lia)). rewrite <- mlen in Hsrc.
      assert (Hb : ss * (bstart b + j) + cx + lanes * i + lanes <= length (map up src)) by nia.
      apply nth_ext with (d := f0) (d' := f0).
      + unfold vfma. rewrite fzip3_length; rewrite ?loaded_length by lia; unfold set1_ps; rewrite ?repeat_length, !map_length, !seq_length; reflexivity.
      + intros l Hl. unfold vfma in *. rewrite fzip3_length in Hl by (rewrite ?loaded_length by lia; unfold set1_ps; rewrite ?repeat_length, !map_length, !seq_length; reflexivity).
        rewrite map_length, seq_length in Hl.
        rewrite fzip3_nth by (rewrite ?loaded_length by lia; unfold set1_ps; rewrite ?repeat_length, ?map_length, ?seq_length; lia).
        rewrite !map_seq_nth by lia. rewrite loaded_nth by lia. rewrite set1_nth by lia.
        unfold vacc. rewrite Nat.add_1_r, accf_snoc. cbn [Nat.add]. f_equal. f_equal. lia.
    - intros i Hi. apply in_seq in Hi. specialize (Hsrc j ltac:(lia)). rewrite <- mlen in Hsrc. apply loadf_ok. nia. }
  { unfold St. apply nth_ext with (d := []) (d' := []).
    - now rewrite repeat_length, map_length, seq_length.
    - intros i Hi. rewrite repeat_length in Hi. rewrite nth_indep with (d' := zero_ps lanes) by now rewrite repeat_length.
      rewrite nth_repeat. rewrite (nth_indep _ [] (map (fun l => vacc 0 (cx + lanes * 0 + l)) (seq 0 lanes))) by now rewrite map_length, seq_length.
      rewrite (map_nth (fun i => map (fun l => vacc 0 (cx + lanes * i + l)) (seq 0 lanes))).
      unfold vacc, accumulate_from, zero_ps. cbn [seq fold_left]. clear. induction lanes as [|n IH]; [reflexivity|].
      cbn [repeat seq map]. f_equal. rewrite IH. rewrite <- seq_shift, map_map. reflexivity. }
  cbv beta in Hr. subst r.
  match goal with |- bind ?m _ = _ => replace m with (Done (St (bsize b))) by (symmetry; exact E) end.
  cbn [bind]. unfold St. cbn [Nat.add]. rewrite combine_map_r, foldM_map. cbn [fst snd].
  match goal with |- foldM ?B _ _ = _ => set (body2 := B) end.
  destruct (foldM_seq_inv (fun i d => d = rowmap (cx + lanes * i) val dst) body2 m 0 (rowmap cx val dst)) as (r & E2 & Hr).
  { intros i d Hi ->. unfold body2. eexists. split.
    - apply store16_ok. rewrite !map_length, seq_length, rowmap_length by nia. nia.
    - cbv beta. rewrite map_map. change (fun l => down (vacc (bsize b) (cx + lanes * i + l))) with (fun l => val (cx + lanes * i + l)).
      rewrite rowmap_step by nia. f_equal. lia. }
  { f_equal. lia. }
  rewrite E2. cbv beta in Hr. now rewrite Hr.
Qed.


Ltac tile P lanes m step slack a c E B :=
  destruct (while_tiles_ok P step slack (length dst) (fun d x => vpart16 up down fma src ss ws b lanes m d x) ltac:(lia) ltac:(lia)
    ltac:(intros; apply (vpart_closed lanes m); lia) (length dst) a ltac:(lia) ltac:(lia)) as (c & E & B & ?); rewrite E; cbn [bind].

Lemma vertical_sse_f16_closed : vertical_sse_f16 up down fma b src dst ss ws = Done (map val (seq 0 (length dst))).
Proof using Hws Hsrc mlen.
  unfold vertical_sse_f16. cbv zeta. set (P := fun cx => rowmap cx val dst).
  change (while_tiles (length dst) 16 16 (length dst) (fun d cx => vpart16 up down fma src ss ws b 4 4 d cx) 0 dst)
    with (while_tiles (length dst) 16 16 (length dst) (fun d cx => vpart16 up down fma src ss ws b 4 4 d cx) 0 (P 0)).
  tile P 4 4 16 16 0 c2 E2 B2. tile P 4 2 8 8 c2 c3 E3 B3. tile P 4 1 4 4 c3 c4 E4 B4.
  tile P 1 1 1 0 c4 c5 E5 B5.
  replace c5 with (length dst) by lia. f_equal. apply rowmap_all.
Qed.
Lemma vertical_avx_f16_closed : vertical_avx_f16 up down fma b src dst ss ws = Done (map val (seq 0 (length dst))).
Proof using Hws Hsrc mlen.
  unfold vertical_avx_f16. cbv zeta. set (P := fun cx => rowmap cx val dst).
  change (while_tiles (length dst) 32 32 (length dst) (fun d cx => vpart16 up down fma src ss ws b 8 4 d cx) 0 dst)
    with (while_tiles (length dst) 32 32 (length dst) (fun d cx => vpart16 up down fma src ss ws b 8 4 d cx) 0 (P 0)).
  tile P 8 4 32 32 0 c1 E1 B1. tile P 8 2 16 16 c1 c2 E2 B2. tile P 4 1 4 4 c2 c3 E3 B3.
  tile P 1 1 1 0 c3 c5 E5 B5.
  replace c5 with (length dst) by lia. f_equal. apply rowmap_all.
Qed.
End VPart.

Section Rows.
Variables (up : f16 -> f32) (down : f32 -> f16) (cn : nat) (px : fpixel) (P : nat -> (nat -> f32) -> (nat -> f32) -> f32 -> Prop).
Hypothesis Hcn : 0 < cn.
Hypothesis HG : pixel_gives cn px P.
Hypothesis HL : pixel_local cn px.
Hypothesis HR : respects P.
Variables (fw : fweights f32) (insz outsz : nat).
Hypothesis WF : wf_fw fw insz outsz.


Let val (src : list f16) (j : nat) : f16 := down (fxval cn px fw (fun i => nth i (map up src) f0) (j / cn) (j mod cn)).

Lemma val_pixel src x : map down (map (fxval cn px fw (fun i => nth i (map up src) f0) x) (seq 0 cn)) = map (fun i => val src (x * cn + i)) (seq 0 cn).
Proof using Hcn.
  clear - Hcn. rewrite map_map. apply map_ext_in. intros c Hc. apply in_seq in Hc. unfold val.
  replace ((x * cn + c) / cn) with x by (apply Nat.div_unique with (r := c); lia).
  replace ((x * cn + c) mod cn) with c by (apply Nat.mod_unique with (q := x); lia). reflexivity.
Qed.


Theorem hrow16_closed src dst : insz * cn <= length src -> outsz * cn <= length dst ->
  hrow16 up down cn px outsz src dst fw = Done (rowmap (outsz * cn) (val src) dst).
Proof using HG HL HR WF Hcn.
  intros Hs Hd. unfold hrow16.
  destruct (foldM_seq_inv (fun x s => s = rowmap (x * cn) (val src) dst)
    (fun dst x => b <- idx (bounds fw) x ;; w <- slice_from (weights fw) (x * aligned_size fw) ;; v <- px (map up src) b w ;; store16 dst (x * cn) (map down v))
    outsz 0 dst) as (r & E & Hr).
  - intros x s Hx ->. rewrite (bound_at fw insz outsz WF), (weights_at fw insz outsz WF) by lia. cbn [bind]. rewrite (fx_at cn px P Hcn HG HL HR fw insz outsz WF) by (rewrite ?map_length; lia). cbn [bind].
    rewrite val_pixel. eexists. split.
    + apply store16_ok. rewrite map_length, seq_length, rowmap_length by nia. nia.
    + cbv beta. rewrite rowmap_step by nia. f_equal. lia.
  - reflexivity.
  - rewrite E. f_equal. rewrite Hr. reflexivity.
Qed.

Theorem hrow16_4_closed src ss dst ds : insz * cn <= ss -> outsz * cn <= ds ->
  length src = 4 * ss -> length dst = 4 * ds ->
  let row r := rowmap (outsz * cn) (val (chunk ss src r)) (chunk ds dst r) in
  hrow16_4 up down cn px outsz src ss dst ds fw = Done (row 0 ++ row 1 ++ row 2 ++ row 3).
Proof using HG HL HR WF Hcn.
  intros Hs Hd Ls Ld row. unfold hrow16_4.
  assert (Lc : forall r, r < 4 -> length (chunk ds dst r) = ds).
  { intros r Hr. unfold chunk. rewrite firstn_length, skipn_length. nia. }
  set (R := fun x r => rowmap (x * cn) (val (chunk ss src r)) (chunk ds dst r)).
  assert (LR : forall x r, x <= outsz -> r < 4 -> length (R x r) = ds).
  { intros x r Hx Hr. unfold R. rewrite rowmap_length; rewrite Lc; nia. }
  assert (V : forall x r k (g : list f32 -> outcome (list f16)), x < outsz -> r < 4 -> k = r * ss ->
    bind (px (map up (skipn k src)) (nth x (bounds fw) (mkBound 0 0)) (skipn (x * aligned_size fw) (weights fw))) g =
    g (map (fxval cn px fw (fun i => nth i (map up (chunk ss src r)) f0) x) (seq 0 cn))).
  { intros x r k g Hx Hr ->. rewrite (fx_at cn px P Hcn HG HL HR fw insz outsz WF) by (rewrite ?map_length, ?skipn_length; nia). cbn [bind]. f_equal.
    apply map_ext_in. intros c Hc. apply in_seq in Hc. unfold fxval. apply px_val_ext; [|reflexivity]. intros i Hi.
    pose proof (wf_nth fw insz outsz x WF Hx) as Wx. cbv zeta in Wx.
    rewrite <- skipn_map, nth_skipn. unfold chunk. rewrite <- firstn_map, <- skipn_map, nth_firstn by nia. rewrite nth_skipn. reflexivity. }
  destruct (foldM_seq_inv (fun x s => s = R x 0 ++ R x 1 ++ R x 2 ++ R x 3)
    (fun dst x =>
      b <- idx (bounds fw) x ;; w <- slice_from (weights fw) (x * aligned_size fw) ;;
      src1 <- slice_from src ss ;; src2 <- slice_from src (ss * 2) ;; src3 <- slice_from src (ss * 3) ;;
      v0 <- px (map up src) b w ;; v1 <- px (map up src1) b w ;; v2 <- px (map up src2) b w ;; v3 <- px (map up src3) b w ;;
      dst <- store16 dst (x * cn) (map down v0) ;;
      dst <- store16 dst (x * cn + ds) (map down v1) ;;
      dst <- store16 dst (x * cn + ds * 2) (map down v2) ;;
      store16 dst (x * cn + ds * 3) (map down v3))
    outsz 0 dst) as (r & E & Hr).
  - intros x s Hx ->. rewrite (bound_at fw insz outsz WF), (weights_at fw insz outsz WF) by lia. cbn [bind].
    unfold slice_from. replace (ss <=? length src) with true by lia. replace (ss * 2 <=? length src) with true by lia.
    replace (ss * 3 <=? length src) with true by lia. cbn [bind].
    change src with (skipn 0 src) at 1.
    rewrite (V x 0 0) by lia. rewrite (V x 1 ss) by lia. rewrite (V x 2 (ss * 2)) by lia. rewrite (V x 3 (ss * 3)) by lia.
    rewrite !val_pixel.
    set (v := fun r => map (fun i => val (chunk ss src r) (x * cn + i)) (seq 0 cn)).
    change (map (fun i => val (chunk ss src 0) (x * cn + i)) (seq 0 cn)) with (v 0).
    change (map (fun i => val (chunk ss src 1) (x * cn + i)) (seq 0 cn)) with (v 1).
    change (map (fun i => val (chunk ss src 2) (x * cn + i)) (seq 0 cn)) with (v 2).
    change (map (fun i => val (chunk ss src 3) (x * cn + i)) (seq 0 cn)) with (v 3).
    assert (Lv : forall r, length (v r) = cn) by (intro; unfold v; now rewrite map_length, seq_length).
    assert (St : forall r, r < 4 -> splice (R x r) (x * cn) (v r) = R (x + 1) r).
    { intros r Hr. unfold R, v. rewrite rowmap_step by (rewrite Lc; nia). f_equal. lia. }
    assert (Hxc : x * cn + cn <= ds) by nia.
    pose proof (LR x 0 ltac:(lia) ltac:(lia)) as L0. pose proof (LR x 1 ltac:(lia) ltac:(lia)) as L1.
    pose proof (LR x 2 ltac:(lia) ltac:(lia)) as L2. pose proof (LR x 3 ltac:(lia) ltac:(lia)) as L3.
    pose proof (LR (x + 1) 0 ltac:(lia) ltac:(lia)) as L0'. pose proof (LR (x + 1) 1 ltac:(lia) ltac:(lia)) as L1'.
    pose proof (LR (x + 1) 2 ltac:(lia) ltac:(lia)) as L2'.
    rewrite store16_ok by (rewrite !app_length, Lv; lia). cbn [bind].
    rewrite splice_app_l by (rewrite Lv; lia). rewrite St by lia.
    rewrite store16_ok by (rewrite !app_length, Lv; lia). cbn [bind].
    replace (x * cn + ds) with (ds + x * cn) by lia. rewrite splice_app_r by exact L0'.
    rewrite splice_app_l by (rewrite Lv; lia). rewrite St by lia.
    rewrite store16_ok by (rewrite !app_length, Lv; lia). cbn [bind].
    replace (x * cn + ds * 2) with (ds + (ds + x * cn)) by lia. rewrite splice_app_r by exact L0'. rewrite splice_app_r by exact L1'.
    rewrite splice_app_l by (rewrite Lv; lia). rewrite St by lia.
    rewrite store16_ok by (rewrite !app_length, Lv; lia).
    replace (x * cn + ds * 3) with (ds + (ds + (ds + x * cn))) by lia.
    rewrite splice_app_r by exact L0'. rewrite splice_app_r by exact L1'. rewrite splice_app_r by exact L2'.
    rewrite St by lia. eexists. split; reflexivity.
  - unfold R, rowmap. cbn [Nat.mul seq map app skipn]. unfold chunk. cbn [Nat.mul skipn]. rewrite !Nat.add_0_r.
    rewrite (firstn_all2 (skipn (ds + (ds + ds)) dst)) by (rewrite skipn_length; lia).
    replace (ds + (ds + ds)) with (ds + ds + ds) by lia.
    rewrite <- (skipn_skipn_add ds (ds + ds)), (firstn_skipn ds (skipn (ds + ds) dst)).
    rewrite <- (skipn_skipn_add ds ds), (firstn_skipn ds (skipn ds dst)), firstn_skipn. reflexivity.
  - rewrite E. f_equal. rewrite Hr. reflexivity.
Qed.
End Rows.
