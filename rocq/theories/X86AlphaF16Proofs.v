(** Closed forms of the f16 alpha code of x86-64. *)
From Coq Require Import ZArith List Lia Bool ZifyBool ZifyNat.
From Verif Require Import Base BaseProofs ImageStore FixedPoint Dispatch Resize Spec SpecApi SpecAlpha F32 FloatConv Weights Sampler Api
  KernelProofs DispatchProofs NoFail PoolProofs Alpha AlphaProofs AlphaScan ApiFloat X86Dispatch X86Float X86AlphaCalls X86FloatCalls X86AlphaF32
  X86AlphaF32Proofs X86NoFail F16 F16Arith F16Calls X86F16 X86F16Calls X86F16Sums X86AlphaF16.
Import ListNotations.
Local Open Scope nat_scope.

(** What a block does to one pixel. *)
Definition premul_blk (up : f16 -> f32) (down : f32 -> f16) (r g b a : f16) : list f16 :=
  let ch x := down (fmul (up x) (up a)) in [ch r; ch g; ch b; a].
Definition unmul_blk (up : f16 -> f32) (down : f32 -> f16) (r g b a : f16) : list f16 :=
  let ch x := down (if feqb (up a) f0 then f0 else fmul (up x) (up a)) in [ch r; ch g; ch b; a].
Lemma four_premul_blk up down : four (premul_blk up down). Proof. now intros. Qed.
Lemma four_unmul_blk up down : four (unmul_blk up down). Proof. now intros. Qed.

(** ** Blocks *)
Tactic Notation "explode_h" ident(l) integer(n) := do n (let x := fresh "x" in destruct l as [|x l]; [discriminate|]); destruct l; [|discriminate].
Definition block_valh (px : f16 -> f16 -> f16 -> f16 -> list f16) (s : list f16) (n : nat) : list f16 :=
  map (fun j => pxval h0 px (fun i => nth i s h0) (j / 4) (j mod 4)) (seq 0 n).
Lemma store16_all d v : length d = length v -> store16 d 0 v = Done v.
Proof.
  intro H. unfold store16. cbn [Nat.add]. rewrite H, Nat.leb_refl. f_equal. unfold splice. cbn [firstn app Nat.add].
  rewrite skipn_all2 by lia. apply app_nil_r.
Qed.
Section Blk.
Variables (up : f16 -> f32) (down : f32 -> f16).
Lemma sse_mul_h d s : length d = 32 -> length s = 32 -> sse_block_h up down mul_plane d s = Done (block_valh (premul_blk up down) s 32).
Proof.
  intros Hd Hs. explode_h s 32. unfold sse_block_h.
  cbn -[fmul store16 f0 h0 block_valh Nat.div Nat.modulo]. rewrite store16_all by exact Hd. reflexivity.
Qed.
Lemma sse_unmul_h d s : length d = 32 -> length s = 32 -> sse_block_h up down unmul_plane d s = Done (block_valh (unmul_blk up down) s 32).
Proof.
  intros Hd Hs. explode_h s 32. unfold sse_block_h.
  cbn -[fmul feqb store16 f0 h0 block_valh Nat.div Nat.modulo]. rewrite store16_all by exact Hd. reflexivity.
Qed.
Lemma avx_mul_h d s : length d = 64 -> length s = 64 -> avx_block_h up down mul_plane d s = Done (block_valh (premul_blk up down) s 64).
Proof.
  intros Hd Hs. explode_h s 64. unfold avx_block_h.
  cbn -[fmul store16 f0 h0 block_valh Nat.div Nat.modulo]. rewrite store16_all by exact Hd. reflexivity.
Qed.
Lemma avx_unmul_h d s : length d = 64 -> length s = 64 -> avx_block_h up down unmul_plane d s = Done (block_valh (unmul_blk up down) s 64).
Proof.
  intros Hd Hs. explode_h s 64. unfold avx_block_h.
  cbn -[fmul feqb store16 f0 h0 block_valh Nat.div Nat.modulo]. rewrite store16_all by exact Hd. reflexivity.
Qed.
End Blk.

(** ** Rows *)
Section Rows.
Variables (px1 px2 : f16 -> f16 -> f16 -> f16 -> list f16) (k : nat) (bf : list f16 -> list f16 -> outcome (list f16)).
Hypothesis H2 : four px2.
Hypothesis Hk : 0 < k.
Hypothesis Hb : forall d s, length d = k * 4 -> length s = k * 4 -> bf d s = Done (block_valh px1 s (k * 4)).
(** Pixel x of a row of w pixels. *)
Definition px_at (w x : nat) : f16 -> f16 -> f16 -> f16 -> list f16 := if x <? k * (w / k) then px1 else px2.
Lemma blocks_row w dst src : length dst = w * 4 -> length src = w * 4 ->
  (ds' <- zip_mut bf (chunks_exact (k * 4) dst) (chunks_exact (k * 4) src) ;;
   rem' <- px_row px2 (chunks_rem (k * 4) dst) (chunks_rem (k * 4) src) ;;
   Done (unchunk ds' rem')) =
  Done (map (fun j => pxval h0 (px_at w (j / 4)) (fun i => nth i src h0) (j / 4) (j mod 4)) (seq 0 (w * 4))).
Proof using H2 Hk Hb.
  intros Ld Ls.
  assert (Q : forall l : list f16, length l = w * 4 -> length l / (k * 4) = w / k) by (intros l ->; apply Nat.div_mul_cancel_r; lia).
  assert (DM := Nat.div_mod w k ltac:(lia)). set (n := w / k) in *.
  rewrite (zip_mut_idx _ (fun i => map (fun j => pxval h0 px1 (fun q => nth (i * (k * 4) + q) src h0) (j / 4) (j mod 4)) (seq 0 (k * 4)))).
  3:{ rewrite !chunks_exact_length. rewrite !Q by assumption. lia. }
  2:{ intros i d s Hd Hs. rewrite nth_error_chunks in Hd, Hs. rewrite Q in Hd, Hs by assumption.
      destruct (Nat.ltb_spec i n) as [Hi|]; [|discriminate]. injection Hd as <-. injection Hs as <-.
      rewrite Hb by (apply chunk_length; rewrite Q; assumption). f_equal. unfold block_valh. apply map_seq_ext. intros j Hj.
      assert (j / 4 < k) by (apply Nat.div_lt_upper_bound; lia). unfold pxval. rewrite !nth_chunk by lia. reflexivity. }
  cbn [bind]. rewrite chunks_exact_length, Q by assumption. rewrite skipn_all2 by (rewrite chunks_exact_length, Q by assumption; lia).
  rewrite app_nil_r.
  assert (R : forall l : list f16, length l = w * 4 -> length (chunks_rem (k * 4) l) = (w - n * k) * 4).
  { intros l Hl. unfold chunks_rem. rewrite skipn_length, Q by assumption. lia. }
  rewrite (px_row_closed h0 px2 (w - n * k)) by auto. cbn [bind]. f_equal. unfold unchunk.
  rewrite (concat_map_rows (k * 4) n (fun i j => pxval h0 px1 (fun q => nth (i * (k * 4) + q) src h0) (j / 4) (j mod 4))) by lia.
  replace (w * 4) with (n * (k * 4) + (w - n * k) * 4) by nia.
  rewrite seq_app, map_app. f_equal.
  - apply map_seq_ext. intros j Hj.
    assert (J := Nat.div_mod j (k * 4) ltac:(lia)). assert (J' := Nat.mod_upper_bound j (k * 4) ltac:(lia)).
    set (a := j / (k * 4)) in *. set (b := j mod (k * 4)) in *.
    assert (B := Nat.div_mod b 4 ltac:(lia)). assert (B' := Nat.mod_upper_bound b 4 ltac:(lia)).
    assert (E1 : j / 4 = a * k + b / 4) by (symmetry; apply Nat.div_unique with (r := b mod 4); lia).
    assert (E2 : j mod 4 = b mod 4) by (symmetry; apply Nat.mod_unique with (q := a * k + b / 4); lia).
    rewrite E1, E2.
    assert (An : a < n) by (apply Nat.div_lt_upper_bound; lia). assert (b / 4 < k) by (apply Nat.div_lt_upper_bound; lia).
    unfold px_at. fold n. replace (a * k + b / 4 <? k * n) with true by (symmetry; apply Nat.ltb_lt; nia).
    unfold pxval. f_equal. f_equal; f_equal; lia.
  - cbn [Nat.add]. rewrite (shift_seq (n * (k * 4))), map_map. apply map_seq_ext. intros j Hj.
    assert (B := Nat.div_mod j 4 ltac:(lia)). assert (B' := Nat.mod_upper_bound j 4 ltac:(lia)).
    assert (E1 : (n * (k * 4) + j) / 4 = n * k + j / 4) by (symmetry; apply Nat.div_unique with (r := j mod 4); lia).
    assert (E2 : (n * (k * 4) + j) mod 4 = j mod 4) by (symmetry; apply Nat.mod_unique with (q := n * k + j / 4); lia).
    rewrite E1, E2. unfold px_at. fold n. replace (n * k + j / 4 <? k * n) with false by (symmetry; apply Nat.ltb_ge; nia).
    unfold pxval, chunks_rem. rewrite !nth_skipn. rewrite Q by assumption. f_equal. f_equal; f_equal; lia.
Qed.
Lemma blocks_row_in_place w b : length b = w * 4 ->
  (cs' <- zip_mut (fun d (_ : nat) => bf d d) (chunks_exact (k * 4) b) (seq 0 (length (chunks_exact (k * 4) b))) ;;
   rem' <- px_row_in_place px2 (chunks_rem (k * 4) b) ;;
   Done (unchunk cs' rem')) =
  Done (map (fun j => pxval h0 (px_at w (j / 4)) (fun i => nth i b h0) (j / 4) (j mod 4)) (seq 0 (w * 4))).
Proof using H2 Hk Hb.
  intro L. rewrite <- (blocks_row w b b L L).
  assert (E : zip_mut (fun d (_ : nat) => bf d d) (chunks_exact (k * 4) b) (seq 0 (length (chunks_exact (k * 4) b))) =
              zip_mut bf (chunks_exact (k * 4) b) (chunks_exact (k * 4) b)).
  { assert (G : forall cs s, zip_mut (fun d (_ : nat) => bf d d) cs (seq s (length cs)) = zip_mut bf cs cs); [|apply G].
    intro cs. induction cs as [|c cs IH]; intro s; [reflexivity|]. cbn [length seq zip_mut]. now rewrite IH. }
  rewrite E.
  assert (R : exists w', length (chunks_rem (k * 4) b) = w' * 4).
  { exists (w - w / k * k). unfold chunks_rem. rewrite skipn_length, L, Nat.div_mul_cancel_r by lia. lia. }
  destruct R as (w' & R). rewrite (px_row_in_place_closed h0 px2 w') by auto. rewrite (px_row_closed h0 px2 w') by auto. reflexivity.
Qed.
End Rows.


(** Pixels per block. *)
Definition block_f16 (c : hcpu) : nat := if avx2 (hbase c) && f16c c then 16 else if sse41 (hbase c) then 8 else 0.
Definition un_at16 (c : hcpu) (w x : nat) : f16 -> f16 -> f16 -> f16 -> list f16 :=
  if x <? block_f16 c * (w / block_f16 c) then unmul_blk as_f32 as_f16 else unpremul_px_f16.
Lemma four_at16 c w x : four (un_at16 c w x).
Proof. unfold un_at16. destruct (_ <? _); [apply four_unmul_blk|apply four_un_f16]. Qed.

Lemma premul_blk_exact r g b a : premul_blk as_f32 as_f16 r g b a = premul_px_f16 r g b a.
Proof. unfold premul_blk, premul_px_f16. cbv zeta. now rewrite as_f16_f32. Qed.
Lemma pxval_ext16 px px' src x i : (forall r g b a, px r g b a = px' r g b a) -> pxval h0 px src x i = pxval h0 px' src x i.
Proof. intro H. unfold pxval. now rewrite H. Qed.

Lemma premul_row_h_x86 c w dst src : exact_f16 c -> length dst = w * 4 -> length src = w * 4 ->
  premul_row_f16 c dst src = px_row premul_px_f16 dst src.
Proof.
  intros HC Ld Ls. unfold premul_row_f16. rewrite (px_row_closed h0 premul_px_f16 w) by auto using four_f16.
  destruct (avx2 (hbase c) && f16c c) eqn:EA; [|destruct (sse41 (hbase c)) eqn:ES].
  - etransitivity; [exact (blocks_row (premul_blk as_f32 as_f16) premul_px_f16 16 _ four_f16 ltac:(lia) (avx_mul_h as_f32 as_f16) w dst src Ld Ls)|].
    f_equal. apply map_seq_ext. intros j Hj. apply pxval_ext16. intros. unfold px_at. destruct (_ <? _); [apply premul_blk_exact|reflexivity].
  - destruct HC as [HC|HC]; [|congruence]. rewrite exact_up, exact_down by exact HC.
    etransitivity; [exact (blocks_row (premul_blk as_f32 as_f16) premul_px_f16 8 _ four_f16 ltac:(lia) (sse_mul_h as_f32 as_f16) w dst src Ld Ls)|].
    f_equal. apply map_seq_ext. intros j Hj. apply pxval_ext16. intros. unfold px_at. destruct (_ <? _); [apply premul_blk_exact|reflexivity].
  - apply (px_row_closed h0 premul_px_f16 w); auto using four_f16.
Qed.
Lemma unpremul_row_h_x86 c w b : exact_f16 c -> length b = w * 4 ->
  unpremul_row_f16 c b = Done (map (fun j => pxval h0 (un_at16 c w (j / 4)) (fun i => nth i b h0) (j / 4) (j mod 4)) (seq 0 (w * 4))).
Proof.
  intros HC L. unfold un_at16, block_f16, unpremul_row_f16. destruct (avx2 (hbase c) && f16c c) eqn:EA; [|destruct (sse41 (hbase c)) eqn:ES].
  - exact (blocks_row_in_place (unmul_blk as_f32 as_f16) unpremul_px_f16 16 _ four_un_f16 ltac:(lia) (avx_unmul_h as_f32 as_f16) w b L).
  - destruct HC as [HC|HC]; [|congruence]. rewrite exact_up, exact_down by exact HC.
    exact (blocks_row_in_place (unmul_blk as_f32 as_f16) unpremul_px_f16 8 _ four_un_f16 ltac:(lia) (sse_unmul_h as_f32 as_f16) w b L).
  - apply (px_row_in_place_closed h0 unpremul_px_f16 w); auto using four_un_f16.
Qed.

(** ** No error values, no dependence on the pool *)
Lemma nf_load16 m o : nofail (load16 m o). Proof. unfold load16. destruct (_ <=? _); nfx. Qed.
Lemma nf_load16_256 m o : nofail (load16_256 m o).
Proof. unfold load16_256. repeat first [apply nf_load16 | progress nff]. Qed.
Lemma nf_sse_block_h u d p a b : nofail (sse_block_h u d p a b).
Proof. unfold sse_block_h. repeat first [apply nf_load16 | apply nf_store16 | progress nff]. Qed.
Lemma nf_avx_block_h u d p a b : nofail (avx_block_h u d p a b).
Proof. unfold avx_block_h. repeat first [apply nf_load16_256 | apply nf_store16 | progress nff]. Qed.
Lemma nf_premul_row_h n blk a b : (forall d s, nofail (blk d s)) -> nofail (premul_row_h n blk a b).
Proof.
  intro H. unfold premul_row_h. apply nofail_bind; [apply nofail_zip; intros; apply H|]. intro.
  apply nofail_bind; [apply nofail_px_row|intros; apply nofail_Done].
Qed.
Lemma nf_unpremul_row_h n blk b : (forall d s, nofail (blk d s)) -> nofail (unpremul_row_h n blk b).
Proof.
  intro H. unfold unpremul_row_h. apply nofail_bind; [apply nofail_zip; intros; apply H|]. intro.
  apply nofail_bind; [apply nofail_px_row_in_place|intros; apply nofail_Done].
Qed.
Section Cpu.
Variable c : hcpu.
Lemma nf_pre_row_h a b : nofail (premul_row_f16 c a b).
Proof.
  unfold premul_row_f16. destruct (avx2 (hbase c) && f16c c); [apply nf_premul_row_h, nf_avx_block_h|].
  destruct (sse41 (hbase c)); [apply nf_premul_row_h, nf_sse_block_h|apply nofail_px_row].
Qed.
Lemma nf_un_row_h b : nofail (unpremul_row_f16 c b).
Proof.
  unfold unpremul_row_f16. destruct (avx2 (hbase c) && f16c c); [apply nf_unpremul_row_h, nf_avx_block_h|].
  destruct (sse41 (hbase c)); [apply nf_unpremul_row_h, nf_sse_block_h|apply nofail_px_row_in_place].
Qed.
Lemma nf_premul_x86_h pool a b : nofail (premul_f16_x86 c pool a b).
Proof. apply nofail_bind; [apply premul_rows_nofail; intros; apply nf_pre_row_h|intros; apply nofail_Done]. Qed.
Lemma nf_unpremul_x86_h pool a : nofail (unpremul_f16_x86 c pool a).
Proof. apply nofail_bind; [apply unpremul_rows_nofail; intros; apply nf_un_row_h|intros; apply nofail_Done]. Qed.
Lemma premul_x86_pool_h p a b : pool_ok p -> premul_f16_x86 c p a b = premul_f16_x86 c None a b.
Proof. intro H. unfold premul_f16_x86. rewrite premul_rows_pool by (auto; intros; apply nf_pre_row_h). reflexivity. Qed.
Lemma unpremul_x86_pool_h p a : pool_ok p -> unpremul_f16_x86 c p a = unpremul_f16_x86 c None a.
Proof. intro H. unfold unpremul_f16_x86. rewrite unpremul_rows_pool by (auto; intros; apply nf_un_row_h). reflexivity. Qed.

(** ** Images *)
Lemma premul_f16_x86_ok pool im into : exact_f16 c -> pool_ok pool -> good 4 im -> good 4 into -> width im = width into -> height im = height into ->
  exists out, premul_f16_x86 c pool im into = Done out /\ repainted premul_px_f16 im into out.
Proof.
  intros HC HP Gi Go Hw Hh.
  assert (X : premul_rows (premul_row_f16 c) (width im * 4) (stride_of 4 into) (stride_of 4 im) pool (buf im) (buf into) =
              premul_rows (px_row premul_px_f16) (width im * 4) (stride_of 4 into) (stride_of 4 im) pool (buf im) (buf into)).
  { rewrite (premul_rows_pool (premul_row_f16 c)) by (auto; intros; apply nf_pre_row_h). rewrite (premul_rows_pool (px_row premul_px_f16)) by (auto; intros; apply nofail_px_row).
    unfold premul_rows. unfold chunks_exact_o. destruct (stride_of 4 into =? 0); cbn [bind]; [reflexivity|]. destruct (stride_of 4 im =? 0); cbn [bind]; [reflexivity|].
    unfold for_each. erewrite zip_mut_same; [reflexivity|]. intros d s0 _ Hs. cbv beta.
    destruct (slice d 0 (width im * 4)) as [dv| |] eqn:Ed; cbn [bind]; auto. destruct (slice s0 0 (width im * 4)) as [sv| |] eqn:Es; cbn [bind]; auto.
    rewrite (premul_row_h_x86 c (width im)); [reflexivity|exact HC| |].
    - apply slice_len in Ed. lia.
    - apply slice_len in Es. lia. }
  unfold premul_f16_x86. rewrite X. apply premul_f16_ok; auto.
Qed.

Lemma unpremul_rows_h_x86 pool im : exact_f16 c -> pool_ok pool -> good 4 im ->
  unpremul_rows (unpremul_row_f16 c) (width im * 4) (stride_of 4 im) pool (buf im) =
  Done (pixmap h0 (height im) (stride im) (width im * 4)
    (fun y j => pxval h0 (un_at16 c (width im) (j / 4)) (fun i => nth (y * stride im + i) (buf im) h0) (j / 4) (j mod 4)) (buf im)).
Proof.
  intros HC HP Gi. unfold unpremul_rows.
  rewrite !good_stride_of by (assumption || lia).
  pose proof (good_stride_pos 4 im ltac:(lia) Gi) as Pi.
  destruct Gi as [_ _ Si Li].
  rewrite !chunks_exact_o_ok by assumption. cbn [bind].
  assert (Ci : length (chunks_exact (stride im) (buf im)) = height im) by
    (rewrite chunks_exact_length, Li; apply div_mul_exact; lia).
  rewrite (for_each_seq _ _ _ _ _ (map (fun y => rowmap (width im * 4)
     (fun j => pxval h0 (un_at16 c (width im) (j / 4)) (fun i => nth (y * stride im + i) (buf im) h0) (j / 4) (j mod 4))
     (chunk (stride im) (buf im) y)) (seq 0 (height im)))); auto.
  - cbn [bind]. unfold unchunk. rewrite (chunks_rem_exact _ _ (height im)), app_nil_r by (lia || assumption).
    f_equal. now apply pixmap_rows.
  - erewrite zip_mut_idx; [| |rewrite seq_length; lia].
    + rewrite seq_length, Ci, skipn_all2, app_nil_r by lia. reflexivity.
    + intros i dd s Hd Hs. cbn beta. rewrite nth_error_chunks in Hd.
      rewrite Li, div_mul_exact in Hd by lia.
      destruct (Nat.ltb_spec i (height im)) as [Hi|]; [|discriminate].
      injection Hd as <-.
      assert (Ld : length (chunk (stride im) (buf im) i) = stride im) by
        (apply chunk_length; rewrite Li, div_mul_exact; lia).
      rewrite !slice_ok by lia. cbn [bind skipn]. rewrite !Nat.sub_0_r.
      rewrite (unpremul_row_h_x86 c (width im) _ HC) by (rewrite firstn_length; lia).
      cbn [bind]. f_equal. rewrite splice_prefix by (rewrite map_length, seq_length; lia).
      rewrite map_length, seq_length. unfold rowmap. f_equal. apply map_seq_ext. intros j Hj.
      assert (j / 4 < width im) by (apply Nat.div_lt_upper_bound; lia).
      unfold pxval. rewrite !nth_firstn, !nth_chunk by lia. reflexivity.
Qed.
Lemma unpremul_f16_x86_ok pool im : exact_f16 c -> pool_ok pool -> good 4 im ->
  exists out, unpremul_f16_x86 c pool im = Done out /\ only_pixels_differ 4 im out /\
    forall x y r g b a, x < width im -> y < height im -> pixel im x y r g b a ->
      forall i, i < 4 -> sample 4 out x y i = nth_error (un_at16 c (width im) x r g b a) i.
Proof.
  intros HC HP G. unfold unpremul_f16_x86. rewrite unpremul_rows_h_x86 by assumption. cbn [bind].
  eexists. split; [reflexivity|]. split; [apply pixmap_opd; [lia|exact G]|].
  intros x y r g b a Hx Hy P i Hi. rewrite pixmap_sample by (auto; lia).
  replace ((x * 4 + i) / 4) with x by (apply Nat.div_unique with (r := i); lia).
  replace ((x * 4 + i) mod 4) with i by (apply Nat.mod_unique with (q := x); lia).
  destruct (pixel_nth h0 _ _ _ _ _ _ _ P) as (P0 & P1 & P2 & P3). unfold pxval. rewrite P0, P1, P2, P3.
  symmetry. apply nth_error_nth_lt. now rewrite four_at16.
Qed.
End Cpu.
