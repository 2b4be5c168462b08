(** Closed forms of the portable alpha code. *)
From Coq Require Import ZArith List Lia Bool ZifyBool ZifyNat.
From Verif Require Import Base BaseProofs ImageStore ColorGroup FixedPoint Dispatch Resize Spec F32
  KernelProofs DispatchProofs NoFail PoolProofs Alpha.
Import ListNotations.

(** ** Rows of pixels *)
(** Channel [c] of the pixel function applied to pixel [x] of the samples [s]. *)
Definition pxval {T} (d : T) (px : T -> T -> T -> T -> list T) (s : nat -> T) (x c : nat) : T :=
  nth c (px (s (x * 4)) (s (x * 4 + 1)) (s (x * 4 + 2)) (s (x * 4 + 3))) d.

Definition four {T} (px : T -> T -> T -> T -> list T) : Prop := forall r g b a, length (px r g b a) = 4.

Lemma list4 {T} (d : T) (l : list T) : length l = 4 -> l = [nth 0 l d; nth 1 l d; nth 2 l d; nth 3 l d].
Proof. destruct l as [|a [|b [|c [|e [|]]]]]; try discriminate. reflexivity. Qed.

Lemma map_seq4 {T} (d : T) (l : list T) : length l = 4 -> map (fun c => nth c l d) (seq 0 4) = l.
Proof. destruct l as [|a [|b [|c [|e [|]]]]]; try discriminate. reflexivity. Qed.

Lemma px_chunk {T} (d : T) px (src : list T) w i s : length src = w * 4 ->
  nth_error (chunks_exact 4 src) i = Some s -> 
  i < w /\ s = [nth (i * 4) src d; nth (i * 4 + 1) src d; nth (i * 4 + 2) src d; nth (i * 4 + 3) src d] /\
  (four px -> match s with [r; g; b; a] => Done (px r g b a) | _ => Panic end =
     Done (map (fun c => pxval d px (fun i => nth i src d) i c) (seq 0 4))).
Proof.
  intros L H. rewrite nth_error_chunks, L, div_mul_exact in H by lia.
  destruct (Nat.ltb_spec i w) as [Hi|]; [|discriminate]. injection H as <-.
  assert (E : chunk 4 src i = [nth (i * 4) src d; nth (i * 4 + 1) src d; nth (i * 4 + 2) src d; nth (i * 4 + 3) src d]).
  { rewrite (list4 d (chunk 4 src i)); [|apply chunk_length; rewrite L, div_mul_exact; lia].
    rewrite !nth_chunk by lia. now rewrite Nat.add_0_r. }
  split; [exact Hi|]. split; [exact E|]. intro H4. rewrite E. f_equal. unfold pxval. symmetry. now apply map_seq4.
Qed.

Lemma px_row_closed {T} (d : T) px w (dst src : list T) : four px ->
  length dst = w * 4 -> length src = w * 4 ->
  px_row px dst src = Done (map (fun j => pxval d px (fun i => nth i src d) (j / 4) (j mod 4)) (seq 0 (w * 4))).
Proof.
  intros H4 Ld Ls. unfold px_row.
  rewrite (zip_mut_idx _ (fun i => map (fun c => pxval d px (fun i => nth i src d) i c) (seq 0 4))).
  - cbn [bind]. unfold unchunk.
    assert (Lc : length (chunks_exact 4 src) = w) by (rewrite chunks_exact_length, Ls; apply div_mul_exact; lia).
    rewrite Lc, (chunks_rem_exact 4 dst w) by lia.
    rewrite skipn_all2 by (rewrite chunks_exact_length, Ld, div_mul_exact; lia).
    rewrite !app_nil_r, concat_map_rows by lia. reflexivity.
  - intros i d0 s _ Hs. now apply (px_chunk d px src w i s Ls Hs).
  - rewrite !chunks_exact_length, Ld, Ls. lia.
Qed.

Lemma px_row_in_place_closed {T} (d : T) px w (b : list T) : four px -> length b = w * 4 ->
  px_row_in_place px b = Done (map (fun j => pxval d px (fun i => nth i b d) (j / 4) (j mod 4)) (seq 0 (w * 4))).
Proof.
  intros H4 Lb. unfold px_row_in_place.
  assert (Lc : length (chunks_exact 4 b) = w) by (rewrite chunks_exact_length, Lb; apply div_mul_exact; lia).
  rewrite (zip_mut_idx _ (fun i => map (fun c => pxval d px (fun i => nth i b d) i c) (seq 0 4))).
  - cbn [bind]. unfold unchunk. rewrite seq_length, Lc, (chunks_rem_exact 4 b w) by lia.
    rewrite skipn_all2 by lia. rewrite !app_nil_r, concat_map_rows by lia. reflexivity.
  - intros i s x Hs Hx. now apply (px_chunk d px b w i s Lb Hs).
  - rewrite seq_length. lia.
Qed.

(** ** Images *)
Lemma splice_prefix {T} (r v : list T) : length v <= length r -> splice r 0 v = v ++ skipn (length v) r.
Proof. intro H. unfold splice. cbn [firstn app Nat.add]. reflexivity. Qed.

(** premultiplying writes exactly the visible samples. *)
Lemma premul_rows_closed {T} (d : T) px pool (im into : image T) : four px ->
  pool_ok pool -> good 4 im -> good 4 into -> width im = width into -> height im = height into ->
  premul_rows (px_row px) (width im * 4) (stride_of 4 into) (stride_of 4 im) pool (buf im) (buf into) =
  Done (pixmap d (height into) (stride into) (width into * 4)
    (fun y j => pxval d px (fun i => nth (y * stride im + i) (buf im) d) (j / 4) (j mod 4)) (buf into)).
Proof.
  intros H4 HP Gi Go Hw Hh. unfold premul_rows.
  rewrite !good_stride_of by (assumption || lia).
  pose proof (good_stride_pos 4 im ltac:(lia) Gi) as Pi. pose proof (good_stride_pos 4 into ltac:(lia) Go) as Po.
  destruct Gi as [_ _ Si Li], Go as [_ _ So Lo].
  rewrite !chunks_exact_o_ok by assumption. cbn [bind].
  assert (Ci : length (chunks_exact (stride im) (buf im)) = height into) by
    (rewrite chunks_exact_length, Li, Hh; apply div_mul_exact; lia).
  assert (Co : length (chunks_exact (stride into) (buf into)) = height into) by
    (rewrite chunks_exact_length, Lo; apply div_mul_exact; lia).
  rewrite (for_each_seq _ _ _ _ _ (map (fun y => rowmap (width into * 4)
     (fun j => pxval d px (fun i => nth (y * stride im + i) (buf im) d) (j / 4) (j mod 4))
     (chunk (stride into) (buf into) y)) (seq 0 (height into)))); auto.
  - cbn [bind]. unfold unchunk. rewrite (chunks_rem_exact _ _ (height into)), app_nil_r by (lia || assumption).
    f_equal. now apply pixmap_rows.
  - erewrite zip_mut_idx; [| |lia].
    + rewrite Ci, skipn_all2, app_nil_r by lia. reflexivity.
    + intros i dd s Hd Hs. cbn beta. rewrite nth_error_chunks in Hd, Hs.
      rewrite Lo, div_mul_exact in Hd by lia. rewrite Li, div_mul_exact in Hs by lia.
      destruct (Nat.ltb_spec i (height into)) as [Hi|]; [|discriminate].
      destruct (Nat.ltb_spec i (height im)) as [Hi'|]; [|discriminate].
      injection Hd as <-. injection Hs as <-.
      assert (Ld : length (chunk (stride into) (buf into) i) = stride into) by
        (apply chunk_length; rewrite Lo, div_mul_exact; lia).
      assert (Ls : length (chunk (stride im) (buf im) i) = stride im) by
        (apply chunk_length; rewrite Li, div_mul_exact; lia).
      rewrite !slice_ok by lia. cbn [bind skipn]. rewrite !Nat.sub_0_r.
      rewrite (px_row_closed d px (width im)); [|assumption|rewrite firstn_length; lia|rewrite firstn_length; lia].
      cbn [bind]. f_equal. rewrite splice_prefix by (rewrite map_length, seq_length; lia).
      rewrite map_length, seq_length, Hw. unfold rowmap. f_equal. apply map_seq_ext. intros j Hj.
      assert (j / 4 < width into) by (apply Nat.div_lt_upper_bound; lia).
      unfold pxval. rewrite !nth_firstn, !nth_chunk by lia. reflexivity.
Qed.

Lemma unpremul_rows_closed {T} (d : T) px pool (im : image T) : four px ->
  pool_ok pool -> good 4 im ->
  unpremul_rows (px_row_in_place px) (width im * 4) (stride_of 4 im) pool (buf im) =
  Done (pixmap d (height im) (stride im) (width im * 4)
    (fun y j => pxval d px (fun i => nth (y * stride im + i) (buf im) d) (j / 4) (j mod 4)) (buf im)).
Proof.
  intros H4 HP Gi. unfold unpremul_rows.
  rewrite !good_stride_of by (assumption || lia).
  pose proof (good_stride_pos 4 im ltac:(lia) Gi) as Pi.
  destruct Gi as [_ _ Si Li].
  rewrite !chunks_exact_o_ok by assumption. cbn [bind].
  assert (Ci : length (chunks_exact (stride im) (buf im)) = height im) by
    (rewrite chunks_exact_length, Li; apply div_mul_exact; lia).
  rewrite (for_each_seq _ _ _ _ _ (map (fun y => rowmap (width im * 4)
     (fun j => pxval d px (fun i => nth (y * stride im + i) (buf im) d) (j / 4) (j mod 4))
     (chunk (stride im) (buf im) y)) (seq 0 (height im)))); auto.
  - cbn [bind]. unfold unchunk. rewrite (chunks_rem_exact _ _ (height im)), app_nil_r by (lia || assumption).
    f_equal. now apply pixmap_rows.
  - erewrite zip_mut_idx; [| |rewrite seq_length; lia].
    + rewrite seq_length, Ci, skipn_all2, app_nil_r by lia. reflexivity.
    + intros i dd s Hd Hs. cbn beta. rewrite nth_error_chunks in Hd.
      rewrite Li, div_mul_exact in Hd by lia.
      destruct (Nat.ltb_spec i (height im)) as [Hi|]; [|discriminate].
      injection Hd as <-.
      assert (Ld : length (chunk (stride im) (buf im) i) = stride im) by
        (apply chunk_length; rewrite Li, div_mul_exact; lia).
      rewrite !slice_ok by lia. cbn [bind skipn]. rewrite !Nat.sub_0_r.
      rewrite (px_row_in_place_closed d px (width im)); [|assumption|rewrite firstn_length; lia].
      cbn [bind]. f_equal. rewrite splice_prefix by (rewrite map_length, seq_length; lia).
      rewrite map_length, seq_length. unfold rowmap. f_equal. apply map_seq_ext. intros j Hj.
      assert (j / 4 < width im) by (apply Nat.div_lt_upper_bound; lia).
      unfold pxval. rewrite !nth_firstn, !nth_chunk by lia. reflexivity.
Qed.

(** ** No error values, no dependence on the pool *)
Lemma nofail_px_row {T} px (a b : list T) : nofail (px_row px a b).
Proof.
  unfold px_row. apply nofail_bind; [|intro; apply nofail_Done]. apply nofail_zip. intros _ s.
  destruct s as [|? [|? [|? [|? [|]]]]]; try apply nofail_Panic; apply nofail_Done.
Qed.
Lemma nofail_px_row_in_place {T} px (b : list T) : nofail (px_row_in_place px b).
Proof.
  unfold px_row_in_place. apply nofail_bind; [|intro; apply nofail_Done]. apply nofail_zip. intros s _.
  destruct s as [|? [|? [|? [|? [|]]]]]; try apply nofail_Panic; apply nofail_Done.
Qed.

Lemma premul_rows_nofail {T} (row : list T -> list T -> outcome (list T)) w4 ds ss pool src dst :
  (forall a b, nofail (row a b)) -> nofail (premul_rows row w4 ds ss pool src dst).
Proof.
  intro H. unfold premul_rows. repeat (apply nofail_bind; [apply nofail_chunks|intro]).
  apply nofail_bind; [|intro; apply nofail_Done]. apply nofail_for_each. intros.
  repeat (apply nofail_bind; [apply nofail_slice|intro]). apply nofail_bind; [apply H|intro; apply nofail_Done].
Qed.
Lemma unpremul_rows_nofail {T} (row : list T -> outcome (list T)) w4 st pool b :
  (forall a, nofail (row a)) -> nofail (unpremul_rows row w4 st pool b).
Proof.
  intro H. unfold unpremul_rows. repeat (apply nofail_bind; [apply nofail_chunks|intro]).
  apply nofail_bind; [|intro; apply nofail_Done]. apply nofail_for_each. intros.
  repeat (apply nofail_bind; [apply nofail_slice|intro]). apply nofail_bind; [apply H|intro; apply nofail_Done].
Qed.

Lemma premul_rows_pool {T} (row : list T -> list T -> outcome (list T)) w4 ds ss pool src dst :
  (forall a b, nofail (row a b)) -> pool_ok pool ->
  premul_rows row w4 ds ss pool src dst = premul_rows row w4 ds ss None src dst.
Proof.
  intros H HP. unfold premul_rows. destruct (chunks_exact_o ds dst); cbn [bind]; auto.
  destruct (chunks_exact_o ss src); cbn [bind]; auto. rewrite for_each_any; auto. intros.
  repeat (apply nofail_bind; [apply nofail_slice|intro]). apply nofail_bind; [apply H|intro; apply nofail_Done].
Qed.
Lemma unpremul_rows_pool {T} (row : list T -> outcome (list T)) w4 st pool b :
  (forall a, nofail (row a)) -> pool_ok pool ->
  unpremul_rows row w4 st pool b = unpremul_rows row w4 st None b.
Proof.
  intros H HP. unfold unpremul_rows. destruct (chunks_exact_o st b); cbn [bind]; auto.
  rewrite for_each_any; auto. intros.
  repeat (apply nofail_bind; [apply nofail_slice|intro]). apply nofail_bind; [apply H|intro; apply nofail_Done].
Qed.

Lemma scan_nofail m store w st : nofail (has_non_constant_alpha m store w st).
Proof.
  assert (P : forall ps first sum, nofail (scan_pixels m first sum ps)).
  { induction ps; intros; cbn; [apply nofail_Done|]. apply nofail_bind; [apply nofail_idx|intro; apply IHps]. }
  assert (R : forall rows first sum, nofail (scan_rows m first sum w rows)).
  { induction rows; intros; cbn; [apply nofail_Done|].
    apply nofail_bind; [apply nofail_slice|intro]. apply nofail_bind; [apply P|intro z].
    destruct (negb _); [apply nofail_Done|apply IHrows]. }
  unfold has_non_constant_alpha. destruct store; [apply nofail_Done|].
  apply nofail_bind; [apply nofail_idx|intro]. apply nofail_bind; [apply nofail_chunks|intro]. apply R.
Qed.
