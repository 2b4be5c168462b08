(** Closed forms of the f32 alpha code of x86-64. *)
From Coq Require Import ZArith List Lia Bool ZifyBool ZifyNat.
From Verif Require Import Base BaseProofs ImageStore FixedPoint Dispatch Resize Spec SpecApi SpecAlpha F32 FloatConv Weights Sampler Api
  KernelProofs DispatchProofs NoFail PoolProofs Alpha AlphaProofs AlphaScan ApiFloat X86Dispatch X86Float X86AlphaCalls X86FloatCalls X86AlphaF32.
Import ListNotations.
Local Open Scope nat_scope.

(** The block version of un-premultiplication: a division per channel. *)
Definition undiv_px_f32 (r g b a : f32) : list f32 :=
  let ch x := if feqb a f0 then f0 else fdiv x a in [ch r; ch g; ch b; a].
Lemma four_undiv : four undiv_px_f32. Proof. now intros. Qed.

(** ** Blocks *)
Tactic Notation "explode_f" ident(l) integer(n) := do n (let x := fresh "x" in destruct l as [|x l]; [discriminate|]); destruct l; [|discriminate].
Definition block_val (px : f32 -> f32 -> f32 -> f32 -> list f32) (s : list f32) (n : nat) : list f32 :=
  map (fun j => pxval f0 px (fun i => nth i s f0) (j / 4) (j mod 4)) (seq 0 n).
Lemma storef_all d v : length d = length v -> storef d 0 v = Done v.
Proof.
  intro H. unfold storef. cbn [Nat.add]. rewrite H, Nat.leb_refl. f_equal. unfold splice. cbn [firstn app Nat.add].
  rewrite skipn_all2 by lia. apply app_nil_r.
Qed.
Lemma sse_mul_block d s : length d = 16 -> length s = 16 -> sse_block mulf_ps d s = Done (block_val premul_px_f32 s 16).
Proof.
  intros Hd Hs. explode_f s 16. unfold sse_block.
  cbn -[fmul storef f0 block_val Nat.div Nat.modulo]. rewrite storef_all by exact Hd. reflexivity.
Qed.
Lemma sse_div_block d s : length d = 16 -> length s = 16 -> sse_block unpremul_ps d s = Done (block_val undiv_px_f32 s 16).
Proof.
  intros Hd Hs. explode_f s 16. unfold sse_block.
  cbn -[fdiv feqb storef f0 block_val Nat.div Nat.modulo]. rewrite storef_all by exact Hd. reflexivity.
Qed.
Lemma avx_mul_block d s : length d = 32 -> length s = 32 -> avx_block mulf_ps d s = Done (block_val premul_px_f32 s 32).
Proof.
  intros Hd Hs. explode_f s 32. unfold avx_block.
  cbn -[fmul storef f0 block_val Nat.div Nat.modulo]. rewrite storef_all by exact Hd. reflexivity.
Qed.
Lemma avx_div_block d s : length d = 32 -> length s = 32 -> avx_block unpremul_ps d s = Done (block_val undiv_px_f32 s 32).
Proof.
  intros Hd Hs. explode_f s 32. unfold avx_block.
  cbn -[fdiv feqb storef f0 block_val Nat.div Nat.modulo]. rewrite storef_all by exact Hd. reflexivity.
Qed.

(** ** Rows *)
Lemma shift_seq k n : seq k n = map (fun j => k + j) (seq 0 n).
Proof.
  revert k. induction n as [|n IH]; intro k; [reflexivity|]. cbn [seq map]. f_equal; [lia|]. rewrite IH, <- seq_shift, map_map.
  apply map_ext. intro. lia.
Qed.
Section Rows.
Variables (px1 px2 : f32 -> f32 -> f32 -> f32 -> list f32) (k : nat) (bf : list f32 -> list f32 -> outcome (list f32)).
Hypothesis H2 : four px2.
Hypothesis Hk : 0 < k.
Hypothesis Hb : forall d s, length d = k * 4 -> length s = k * 4 -> bf d s = Done (block_val px1 s (k * 4)).
(** Pixel x of a row of w pixels. *)
Definition px_at (w x : nat) : f32 -> f32 -> f32 -> f32 -> list f32 := if x <? k * (w / k) then px1 else px2.
Lemma blocks_row w dst src : length dst = w * 4 -> length src = w * 4 ->
  (ds' <- zip_mut bf (chunks_exact (k * 4) dst) (chunks_exact (k * 4) src) ;;
   rem' <- px_row px2 (chunks_rem (k * 4) dst) (chunks_rem (k * 4) src) ;;
   Done (unchunk ds' rem')) =
  Done (map (fun j => pxval f0 (px_at w (j / 4)) (fun i => nth i src f0) (j / 4) (j mod 4)) (seq 0 (w * 4))).
Proof using H2 Hk Hb.
  intros Ld Ls.
  assert (Q : forall l : list f32, length l = w * 4 -> length l / (k * 4) = w / k) by (intros l ->; apply Nat.div_mul_cancel_r; lia).
  assert (DM := Nat.div_mod w k ltac:(lia)). set (n := w / k) in *.
  rewrite (zip_mut_idx _ (fun i => map (fun j => pxval f0 px1 (fun q => nth (i * (k * 4) + q) src f0) (j / 4) (j mod 4)) (seq 0 (k * 4)))).
  3:{ rewrite !chunks_exact_length. rewrite !Q by assumption. lia. }
  2:{ intros i d s Hd Hs. rewrite nth_error_chunks in Hd, Hs. rewrite Q in Hd, Hs by assumption.
      destruct (Nat.ltb_spec i n) as [Hi|]; [|discriminate]. injection Hd as <-. injection Hs as <-.
      rewrite Hb by (apply chunk_length; rewrite Q; assumption). f_equal. unfold block_val. apply map_seq_ext. intros j Hj.
      assert (j / 4 < k) by (apply Nat.div_lt_upper_bound; lia). unfold pxval. rewrite !nth_chunk by lia. reflexivity. }
  cbn [bind]. rewrite chunks_exact_length, Q by assumption. rewrite skipn_all2 by (rewrite chunks_exact_length, Q by assumption; lia).
  rewrite app_nil_r.
  assert (R : forall l : list f32, length l = w * 4 -> length (chunks_rem (k * 4) l) = (w - n * k) * 4).
  { intros l Hl. unfold chunks_rem. rewrite skipn_length, Q by assumption. lia. }
  rewrite (px_row_closed f0 px2 (w - n * k)) by auto. cbn [bind]. f_equal. unfold unchunk.
  rewrite (concat_map_rows (k * 4) n (fun i j => pxval f0 px1 (fun q => nth (i * (k * 4) + q) src f0) (j / 4) (j mod 4))) by lia.
  replace (w * 4) with (n * (k * 4) + (w - n * k) * 4) by nia.
  rewrite seq_app, map_app. f_equal.
  - apply map_seq_ext. intros j Hj.
    assert (J := Nat.div_mod j (k * 4) ltac:(lia)). assert (J' := Nat.mod_upper_bound j (k * 4) ltac:(lia)).
    set (a := j / (k * 4)) in *. set (b := j mod (k * 4)) in *.
    assert (B := Nat.div_mod b 4 ltac:(lia)). assert (B' := Nat.mod_upper_bound b 4 ltac:(lia)).
    assert (E1 : j / 4 = a * k + b / 4) by (symmetry; apply Nat.div_unique with (r := b mod 4); lia).
    assert (E2 : j mod 4 = b mod 4) by (symmetry; apply Nat.mod_unique with (q := a * k + b / 4); lia).
    rewrite E1, E2.
    assert (An : a < n) by (apply Nat.div_lt_upper_bound; lia). assert (b / 4 < k) by (apply Nat.div_lt_upper_bound; lia).
    unfold px_at. fold n. replace (a * k + b / 4 <? k * n) with true by (symmetry; apply Nat.ltb_lt; nia).
    unfold pxval. f_equal. f_equal; f_equal; lia.
  - cbn [Nat.add]. rewrite (shift_seq (n * (k * 4))), map_map. apply map_seq_ext. intros j Hj.
    assert (B := Nat.div_mod j 4 ltac:(lia)). assert (B' := Nat.mod_upper_bound j 4 ltac:(lia)).
    assert (E1 : (n * (k * 4) + j) / 4 = n * k + j / 4) by (symmetry; apply Nat.div_unique with (r := j mod 4); lia).
    assert (E2 : (n * (k * 4) + j) mod 4 = j mod 4) by (symmetry; apply Nat.mod_unique with (q := n * k + j / 4); lia).
    rewrite E1, E2. unfold px_at. fold n. replace (n * k + j / 4 <? k * n) with false by (symmetry; apply Nat.ltb_ge; nia).
    unfold pxval, chunks_rem. rewrite !nth_skipn. rewrite Q by assumption. f_equal. f_equal; f_equal; lia.
Qed.
Lemma blocks_row_in_place w b : length b = w * 4 ->
  (cs' <- zip_mut (fun d (_ : nat) => bf d d) (chunks_exact (k * 4) b) (seq 0 (length (chunks_exact (k * 4) b))) ;;
   rem' <- px_row_in_place px2 (chunks_rem (k * 4) b) ;;
   Done (unchunk cs' rem')) =
  Done (map (fun j => pxval f0 (px_at w (j / 4)) (fun i => nth i b f0) (j / 4) (j mod 4)) (seq 0 (w * 4))).
Proof using H2 Hk Hb.
  intro L. rewrite <- (blocks_row w b b L L).
  assert (E : zip_mut (fun d (_ : nat) => bf d d) (chunks_exact (k * 4) b) (seq 0 (length (chunks_exact (k * 4) b))) =
              zip_mut bf (chunks_exact (k * 4) b) (chunks_exact (k * 4) b)).
  { assert (G : forall cs s, zip_mut (fun d (_ : nat) => bf d d) cs (seq s (length cs)) = zip_mut bf cs cs); [|apply G].
    intro cs. induction cs as [|c cs IH]; intro s; [reflexivity|]. cbn [length seq zip_mut]. now rewrite IH. }
  rewrite E.
  assert (R : exists w', length (chunks_rem (k * 4) b) = w' * 4).
  { exists (w - w / k * k). unfold chunks_rem. rewrite skipn_length, L, Nat.div_mul_cancel_r by lia. lia. }
  destruct R as (w' & R). rewrite (px_row_in_place_closed f0 px2 w') by auto. rewrite (px_row_closed f0 px2 w') by auto. reflexivity.
Qed.
End Rows.

(** Pixels per block. *)
Definition alpha_block (c : cpu) : nat := if avx2 c then 8 else if sse41 c then 4 else 0.
Definition un_at (c : cpu) (w x : nat) : f32 -> f32 -> f32 -> f32 -> list f32 :=
  if x <? alpha_block c * (w / alpha_block c) then undiv_px_f32 else unpremul_px_f32.
Lemma four_at c w x : four (un_at c w x).
Proof. unfold un_at. destruct (_ <? _); [apply four_undiv|apply four_un_f32]. Qed.

Lemma premul_row_x86 c w dst src : length dst = w * 4 -> length src = w * 4 ->
  (if avx2 c then premul_row_blocks 32 avx_block else if sse41 c then premul_row_blocks 16 sse_block else px_row premul_px_f32) dst src =
  px_row premul_px_f32 dst src.
Proof.
  intros Ld Ls. rewrite (px_row_closed f0 premul_px_f32 w) by auto using four_f32.
  destruct (avx2 c); [|destruct (sse41 c)].
  - etransitivity; [exact (blocks_row premul_px_f32 premul_px_f32 8 (avx_block mulf_ps) four_f32 ltac:(lia) avx_mul_block w dst src Ld Ls)|].
    f_equal. apply map_seq_ext. intros j Hj. unfold px_at. now destruct (_ <? _).
  - etransitivity; [exact (blocks_row premul_px_f32 premul_px_f32 4 (sse_block mulf_ps) four_f32 ltac:(lia) sse_mul_block w dst src Ld Ls)|].
    f_equal. apply map_seq_ext. intros j Hj. unfold px_at. now destruct (_ <? _).
  - apply (px_row_closed f0 premul_px_f32 w); auto using four_f32.
Qed.
Lemma unpremul_row_x86 c w b : length b = w * 4 ->
  (if avx2 c then unpremul_row_blocks 32 avx_block else if sse41 c then unpremul_row_blocks 16 sse_block else px_row_in_place unpremul_px_f32) b =
  Done (map (fun j => pxval f0 (un_at c w (j / 4)) (fun i => nth i b f0) (j / 4) (j mod 4)) (seq 0 (w * 4))).
Proof.
  intro L. unfold un_at, alpha_block. destruct (avx2 c); [|destruct (sse41 c)].
  - exact (blocks_row_in_place undiv_px_f32 unpremul_px_f32 8 (avx_block unpremul_ps) four_un_f32 ltac:(lia) avx_div_block w b L).
  - exact (blocks_row_in_place undiv_px_f32 unpremul_px_f32 4 (sse_block unpremul_ps) four_un_f32 ltac:(lia) sse_div_block w b L).
  - apply (px_row_in_place_closed f0 unpremul_px_f32 w); auto using four_un_f32.
Qed.

(** ** No error values, no dependence on the pool *)
Lemma nf_load256f m o : nofail (load256f m o).
Proof. unfold load256f. nff. Qed.
Lemma nf_sse_block p d s : nofail (sse_block p d s).
Proof. unfold sse_block. nff. Qed.
Lemma nf_avx_block p d s : nofail (avx_block p d s).
Proof. unfold avx_block. repeat first [apply nf_load256f | progress nff]. Qed.
Lemma nf_premul_blocks n blk a b : (forall p d s, nofail (blk p d s)) -> nofail (premul_row_blocks n blk a b).
Proof.
  intro H. unfold premul_row_blocks. apply nofail_bind; [apply nofail_zip; intros; apply H|]. intro.
  apply nofail_bind; [apply nofail_px_row|intros; apply nofail_Done].
Qed.
Lemma nf_unpremul_blocks n blk b : (forall p d s, nofail (blk p d s)) -> nofail (unpremul_row_blocks n blk b).
Proof.
  intro H. unfold unpremul_row_blocks. apply nofail_bind; [apply nofail_zip; intros; apply H|]. intro.
  apply nofail_bind; [apply nofail_px_row_in_place|intros; apply nofail_Done].
Qed.
Section Cpu.
Variable c : cpu.
Let pre_row := if avx2 c then premul_row_blocks 32 avx_block else if sse41 c then premul_row_blocks 16 sse_block else px_row premul_px_f32.
Let un_row := if avx2 c then unpremul_row_blocks 32 avx_block else if sse41 c then unpremul_row_blocks 16 sse_block else px_row_in_place unpremul_px_f32.
Lemma nf_pre_row_f a b : nofail (pre_row a b).
Proof.
  unfold pre_row. destruct (avx2 c); [apply nf_premul_blocks, nf_avx_block|]. destruct (sse41 c); [apply nf_premul_blocks, nf_sse_block|apply nofail_px_row].
Qed.
Lemma nf_un_row_f b : nofail (un_row b).
Proof.
  unfold un_row. destruct (avx2 c); [apply nf_unpremul_blocks, nf_avx_block|]. destruct (sse41 c); [apply nf_unpremul_blocks, nf_sse_block|apply nofail_px_row_in_place].
Qed.
Lemma nf_premul_x86_f pool a b : nofail (premul_f32_x86 c pool a b).
Proof. apply nofail_bind; [apply premul_rows_nofail; intros; apply nf_pre_row_f|intros; apply nofail_Done]. Qed.
Lemma nf_unpremul_x86_f pool a : nofail (unpremul_f32_x86 c pool a).
Proof. apply nofail_bind; [apply unpremul_rows_nofail; intros; apply nf_un_row_f|intros; apply nofail_Done]. Qed.
Lemma premul_x86_pool_f p a b : pool_ok p -> premul_f32_x86 c p a b = premul_f32_x86 c None a b.
Proof. intro H. unfold premul_f32_x86. cbv zeta. rewrite premul_rows_pool by (auto; intros; apply nf_pre_row_f). reflexivity. Qed.
Lemma unpremul_x86_pool_f p a : pool_ok p -> unpremul_f32_x86 c p a = unpremul_f32_x86 c None a.
Proof. intro H. unfold unpremul_f32_x86. cbv zeta. rewrite unpremul_rows_pool by (auto; intros; apply nf_un_row_f). reflexivity. Qed.

(** ** Images *)
Lemma premul_f32_x86_ok pool im into : pool_ok pool -> good 4 im -> good 4 into -> width im = width into -> height im = height into ->
  exists out, premul_f32_x86 c pool im into = Done out /\ repainted premul_px_f32 im into out.
Proof.
  intros HP Gi Go Hw Hh.
  assert (X : premul_rows pre_row (width im * 4) (stride_of 4 into) (stride_of 4 im) pool (buf im) (buf into) =
              premul_rows (px_row premul_px_f32) (width im * 4) (stride_of 4 into) (stride_of 4 im) pool (buf im) (buf into)).
  { rewrite (premul_rows_pool pre_row) by (auto; intros; apply nf_pre_row_f). rewrite (premul_rows_pool (px_row premul_px_f32)) by (auto; intros; apply nofail_px_row).
    unfold premul_rows. unfold chunks_exact_o. destruct (stride_of 4 into =? 0); cbn [bind]; [reflexivity|]. destruct (stride_of 4 im =? 0); cbn [bind]; [reflexivity|].
    unfold for_each. erewrite zip_mut_same; [reflexivity|]. intros d s0 _ Hs. cbv beta.
    destruct (slice d 0 (width im * 4)) as [dv| |] eqn:Ed; cbn [bind]; auto. destruct (slice s0 0 (width im * 4)) as [sv| |] eqn:Es; cbn [bind]; auto.
    unfold pre_row. rewrite (premul_row_x86 c (width im)); [reflexivity| |].
    - apply slice_len in Ed. lia.
    - apply slice_len in Es. lia. }
  unfold premul_f32_x86. cbv zeta. fold pre_row. rewrite X. apply premul_f32_ok; auto.
Qed.

Lemma unpremul_rows_x86 pool im : pool_ok pool -> good 4 im ->
  unpremul_rows un_row (width im * 4) (stride_of 4 im) pool (buf im) =
  Done (pixmap f0 (height im) (stride im) (width im * 4)
    (fun y j => pxval f0 (un_at c (width im) (j / 4)) (fun i => nth (y * stride im + i) (buf im) f0) (j / 4) (j mod 4)) (buf im)).
Proof.
  intros HP Gi. unfold unpremul_rows.
  rewrite !good_stride_of by (assumption || lia).
  pose proof (good_stride_pos 4 im ltac:(lia) Gi) as Pi.
  destruct Gi as [_ _ Si Li].
  rewrite !chunks_exact_o_ok by assumption. cbn [bind].
  assert (Ci : length (chunks_exact (stride im) (buf im)) = height im) by
    (rewrite chunks_exact_length, Li; apply div_mul_exact; lia).
  rewrite (for_each_seq _ _ _ _ _ (map (fun y => rowmap (width im * 4)
     (fun j => pxval f0 (un_at c (width im) (j / 4)) (fun i => nth (y * stride im + i) (buf im) f0) (j / 4) (j mod 4))
     (chunk (stride im) (buf im) y)) (seq 0 (height im)))); auto.
  - cbn [bind]. unfold unchunk. rewrite (chunks_rem_exact _ _ (height im)), app_nil_r by (lia || assumption).
    f_equal. now apply pixmap_rows.
  - erewrite zip_mut_idx; [| |rewrite seq_length; lia].
    + rewrite seq_length, Ci, skipn_all2, app_nil_r by lia. reflexivity.
    + intros i dd s Hd Hs. cbn beta. rewrite nth_error_chunks in Hd.
      rewrite Li, div_mul_exact in Hd by lia.
      destruct (Nat.ltb_spec i (height im)) as [Hi|]; [|discriminate].
      injection Hd as <-.
      assert (Ld : length (chunk (stride im) (buf im) i) = stride im) by
        (apply chunk_length; rewrite Li, div_mul_exact; lia).
      rewrite !slice_ok by lia. cbn [bind skipn]. rewrite !Nat.sub_0_r.
      unfold un_row. rewrite (unpremul_row_x86 c (width im)) by (rewrite firstn_length; lia).
      cbn [bind]. f_equal. rewrite splice_prefix by (rewrite map_length, seq_length; lia).
      rewrite map_length, seq_length. unfold rowmap. f_equal. apply map_seq_ext. intros j Hj.
      assert (j / 4 < width im) by (apply Nat.div_lt_upper_bound; lia).
      unfold pxval. rewrite !nth_firstn, !nth_chunk by lia. reflexivity.
Qed.
Lemma unpremul_f32_x86_ok pool im : pool_ok pool -> good 4 im ->
  exists out, unpremul_f32_x86 c pool im = Done out /\ only_pixels_differ 4 im out /\
    forall x y r g b a, x < width im -> y < height im -> pixel im x y r g b a ->
      forall i, i < 4 -> sample 4 out x y i = nth_error (un_at c (width im) x r g b a) i.
Proof.
  intros HP G. unfold unpremul_f32_x86. cbv zeta. fold un_row. rewrite unpremul_rows_x86 by assumption. cbn [bind].
  eexists. split; [reflexivity|]. split; [apply pixmap_opd; [lia|exact G]|].
  intros x y r g b a Hx Hy P i Hi. rewrite pixmap_sample by (auto; lia).
  replace ((x * 4 + i) / 4) with x by (apply Nat.div_unique with (r := i); lia).
  replace ((x * 4 + i) mod 4) with i by (apply Nat.mod_unique with (q := x); lia).
  destruct (pixel_nth f0 _ _ _ _ _ _ _ P) as (P0 & P1 & P2 & P3). unfold pxval. rewrite P0, P1, P2, P3.
  symmetry. apply nth_error_nth_lt. now rewrite four_at.
Qed.
End Cpu.
