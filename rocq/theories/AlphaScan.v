(** The alpha scan and the image level view of the alpha code. *)
From Coq Require Import ZArith List Lia Bool ZifyBool ZifyNat.
From Verif Require Import Base BaseProofs ImageStore ColorGroup FixedPoint Dispatch Resize Spec SpecApi SpecAlpha F32
  KernelProofs DispatchProofs NoFail PoolProofs Alpha AlphaProofs.
Import ListNotations.
Local Open Scope Z_scope.

(** ** xor *)
Lemma lxor_range k a b : 0 <= k -> 0 <= a < 2 ^ k -> 0 <= b < 2 ^ k -> 0 <= Z.lxor a b < 2 ^ k.
Proof.
  intros Hk Ha Hb. assert (0 <= Z.lxor a b) by (apply Z.lxor_nonneg; tauto). split; [assumption|].
  destruct (Z.eq_dec (Z.lxor a b) 0) as [->|Hne]; [lia|].
  destruct (Z.eq_dec a 0) as [->|Ha0]; [now rewrite Z.lxor_0_l|].
  destruct (Z.eq_dec b 0) as [->|Hb0]; [now rewrite Z.lxor_0_r|].
  apply Z.log2_lt_pow2; [lia|].
  pose proof (Z.log2_lxor a b ltac:(lia) ltac:(lia)).
  assert (Z.log2 a < k) by (apply Z.log2_lt_pow2; lia). assert (Z.log2 b < k) by (apply Z.log2_lt_pow2; lia). lia.
Qed.

Lemma firstn_In {A} n (l : list A) a : In a (firstn n l) -> In a l.
Proof. intro H. rewrite <- (firstn_skipn n l). apply in_or_app. now left. Qed.

(** ** One row *)
Definition diff (first : Z) (p : list Z) : bool := negb (nth 3 p 0 =? first).

Lemma scan_pixels_ok k m first ps : 0 <= k -> 0 <= first < 2 ^ k ->
  Forall (fun p => length p = 4%nat /\ 0 <= nth 3 p 0 < 2 ^ k) ps -> forall sum,
  0 <= sum -> sum + Z.of_nat (length ps) * 2 ^ k <= m ->
  exists s, scan_pixels m first sum ps = Done s /\ sum <= s <= sum + Z.of_nat (length ps) * (2 ^ k - 1) /\
    (s = sum <-> existsb (diff first) ps = false).
Proof.
  intros Hk Hf Hps. assert (P : 0 < 2 ^ k) by (apply Z.pow_pos_nonneg; lia).
  induction Hps as [|p ps [Lp Rp] _ IH]; intros sum Hs Hm.
  - exists sum. cbn [scan_pixels length existsb]. repeat split; auto; lia.
  - cbn [scan_pixels length existsb]. rewrite (idx_ok p 3 0) by lia. cbn [bind].
    pose proof (lxor_range k (nth 3 p 0) first Hk Rp Hf) as X. cbn [length] in Hm.
    rewrite Z.mod_small by nia.
    destruct (IH (sum + Z.lxor (nth 3 p 0) first)) as (s & E & B & I); [lia|nia|].
    exists s. split; [exact E|]. split; [nia|].
    unfold diff at 1. destruct (Z.eqb_spec (nth 3 p 0) first) as [Q|Q]; cbn [negb orb].
    + rewrite Q, Z.lxor_nilpotent, Z.add_0_r in I. exact I.
    + assert (Z.lxor (nth 3 p 0) first <> 0) by (rewrite Z.lxor_eq_0_iff; exact Q).
      split; [intro; lia|discriminate].
Qed.

(** ** The whole image *)
Definition row_pixels (w : nat) (row : list Z) : list (list Z) := chunks_exact 4 (firstn (w * 4) row).

Lemma scan_rows_ok k m first w rows : 0 <= k -> 0 <= first < 2 ^ k -> Z.of_nat w * 2 ^ k <= m ->
  Forall (fun r => (w * 4 <= length r)%nat /\ Forall (fun v => 0 <= v < 2 ^ k) r) rows ->
  scan_rows m first 0 w rows = Done (existsb (fun r => existsb (diff first) (row_pixels w r)) rows).
Proof.
  intros Hk Hf Hm H. assert (P : 0 < 2 ^ k) by (apply Z.pow_pos_nonneg; lia).
  induction H as [|r rows [Lr Rr] _ IH]; [reflexivity|].
  cbn [scan_rows existsb]. rewrite slice_ok by lia. cbn [bind skipn]. rewrite Nat.sub_0_r. fold (row_pixels w r).
  assert (Lp : length (row_pixels w r) = w).
  { unfold row_pixels. rewrite chunks_exact_length, firstn_length, Nat.min_l by lia. apply div_mul_exact. lia. }
  destruct (scan_pixels_ok k m first (row_pixels w r) Hk Hf) with (sum := 0) as (s & E & B & I); try lia.
  { apply Forall_forall. intros p Hp. apply In_nth_error in Hp as [i Hi]. unfold row_pixels in Hi.
    rewrite nth_error_chunks in Hi. destruct (i <? _)%nat eqn:Hl; [|discriminate]. injection Hi as <-.
    assert (LL : length (chunk 4 (firstn (w * 4) r) i) = 4%nat) by (apply chunk_length; lia).
    split; [exact LL|].
    assert (HIn : In (nth 3 (chunk 4 (firstn (w * 4) r) i) 0) r).
    { assert (In (nth 3 (chunk 4 (firstn (w * 4) r) i) 0) (chunk 4 (firstn (w * 4) r) i)) as HI by (apply nth_In; lia).
      unfold chunk in HI. apply firstn_In in HI.
      assert (forall n (l : list Z) a, In a (skipn n l) -> In a l) as SI.
      { intros n l a Ha. rewrite <- (firstn_skipn n l). apply in_or_app. now right. }
      apply SI in HI. now apply firstn_In in HI. }
    rewrite Forall_forall in Rr. now apply Rr. }
  rewrite E. cbn [bind]. destruct (Z.eqb_spec s 0) as [->|Q]; cbn [negb].
  - replace (existsb (diff first) (row_pixels w r)) with false by (symmetry; apply I; reflexivity). exact IH.
  - destruct (existsb (diff first) (row_pixels w r)) eqn:Ex; [reflexivity|]. exfalso. apply Q. now apply I.
Qed.

(** The scan decides whether some visible pixel's alpha differs from that of the first pixel. *)
Lemma scan_ok k m (im : image Z) : 0 <= k -> Z.of_nat (width im) * 2 ^ k <= m -> good 4 im ->
  Forall (fun v => 0 <= v < 2 ^ k) (buf im) ->
  exists res, has_non_constant_alpha m (buf im) (width im) (stride_of 4 im) = Done res /\
    (res = true <-> exists x y, (x < width im)%nat /\ (y < height im)%nat /\ alpha_at im x y <> alpha_at im 0 0).
Proof.
  intros Hk Hm G HR. rewrite good_stride_of by (assumption || lia).
  pose proof (good_stride_pos 4 im ltac:(lia) G) as Ps. destruct G as [Gw Gh Gs Gl].
  assert (4 <= length (buf im))%nat by nia.
  unfold has_non_constant_alpha. destruct (buf im) as [|b0 bs] eqn:EB; [cbn in *; lia|]. rewrite <- EB in *.
  rewrite (idx_ok (buf im) 3 0) by lia. cbn [bind]. rewrite chunks_exact_o_ok by exact Ps. cbn [bind].
  set (first := nth 3 (buf im) 0).
  assert (NR : forall i, (i < length (buf im))%nat -> 0 <= nth i (buf im) 0 < 2 ^ k).
  { intros i Hi. rewrite Forall_forall in HR. apply HR, nth_In, Hi. }
  rewrite (scan_rows_ok k); auto; [|apply NR; lia|].
  - eexists. split; [reflexivity|].
    assert (A : forall x y, (x < width im)%nat -> (y < height im)%nat ->
      alpha_at im x y = Some (nth (y * stride im + x * 4 + 3) (buf im) 0)).
    { intros x y Hx Hy. unfold alpha_at, sample. apply nth_error_nth_lt. nia. }
    rewrite existsb_exists. split.
    + intros (r & Hr & Hp). apply existsb_exists in Hp as (p & Hp & Hd).
      apply In_nth_error in Hr as [y Hy]. rewrite nth_error_chunks in Hy.
      rewrite Gl, div_mul_exact in Hy by lia. destruct (Nat.ltb_spec y (height im)) as [Hy'|]; [|discriminate].
      injection Hy as <-. apply In_nth_error in Hp as [x Hx]. unfold row_pixels in Hx.
      rewrite nth_error_chunks in Hx. rewrite firstn_length, chunk_length, Nat.min_l, div_mul_exact in Hx
        by (try lia; rewrite Gl, div_mul_exact; lia).
      destruct (Nat.ltb_spec x (width im)) as [Hx'|]; [|discriminate]. injection Hx as <-.
      exists x, y. split; [exact Hx'|]. split; [exact Hy'|]. rewrite !A by lia.
      unfold diff in Hd. rewrite nth_chunk, nth_firstn, nth_chunk in Hd by lia.
      apply negb_true_iff, Z.eqb_neq in Hd. intro Q. apply Hd. injection Q as Q. unfold first.
      rewrite Nat.add_assoc. exact Q.
    + intros (x & y & Hx & Hy & Hd). exists (chunk (stride im) (buf im) y). split.
      { eapply nth_error_In. rewrite nth_error_chunks. rewrite Gl, div_mul_exact by lia.
        replace (y <? height im)%nat with true by lia. reflexivity. }
      apply existsb_exists. exists (chunk 4 (firstn (width im * 4) (chunk (stride im) (buf im) y)) x). split.
      { unfold row_pixels. eapply nth_error_In. rewrite nth_error_chunks.
        rewrite firstn_length, chunk_length, Nat.min_l, div_mul_exact by (try lia; rewrite Gl, div_mul_exact; lia).
        replace (x <? width im)%nat with true by lia. reflexivity. }
      unfold diff. rewrite nth_chunk, nth_firstn, nth_chunk by lia. apply negb_true_iff, Z.eqb_neq.
      intro Q. apply Hd. rewrite !A by lia. f_equal. rewrite Nat.add_assoc in Q. exact Q.
  - apply Forall_forall. intros r Hr. apply In_nth_error in Hr as [y Hy]. rewrite nth_error_chunks in Hy.
    destruct (y <? _)%nat eqn:Hl; [|discriminate]. injection Hy as <-.
    rewrite chunk_length by lia. split; [lia|]. apply Forall_forall. intros v Hv. rewrite Forall_forall in HR.
    apply HR. unfold chunk in Hv. apply firstn_In in Hv. rewrite <- (firstn_skipn (y * stride im) (buf im)).
    apply in_or_app. now right.
Qed.

(** ** Wrap-around of the 32-bit row sum: a row of 2^26 + 1 pixels *)
Lemma chunks_concat {T} k (L : list (list T)) : (0 < k)%nat -> Forall (fun c => length c = k) L -> chunks_exact k (concat L) = L.
Proof.
  intros Hk H. apply list_ext. intro i. rewrite nth_error_chunks, (concat_uniform_length k), div_mul_exact by assumption.
  destruct (Nat.ltb_spec i (length L)) as [Hi|Hi]; [|symmetry; now apply nth_error_None].
  destruct (nth_error L i) as [c|] eqn:E; [|apply nth_error_None in E; lia]. f_equal.
  assert (Lc : length c = k) by (rewrite Forall_forall in H; apply H; eapply nth_error_In; eauto).
  apply list_ext. intro j. rewrite nth_error_chunk. destruct (Nat.ltb_spec j k) as [Hj|Hj].
  - rewrite (nth_error_concat_uniform k) by assumption.
    replace ((i * k + j) / k)%nat with i by (apply Nat.div_unique with (r := j); lia).
    replace ((i * k + j) mod k)%nat with j by (apply Nat.mod_unique with (q := i); lia). now rewrite E.
  - symmetry. apply nth_error_None. lia.
Qed.

Lemma scan_repeat m first p n : length p = 4%nat -> 0 < m -> forall sum, 0 <= sum < m ->
  scan_pixels m first sum (repeat p n) = Done ((sum + Z.of_nat n * Z.lxor (nth 3 p 0) first) mod m).
Proof.
  intros Lp Hm. induction n as [|n IH]; intros sum Hs.
  - cbn [repeat scan_pixels]. rewrite Z.add_0_r, Z.mod_small by lia. reflexivity.
  - cbn [repeat scan_pixels]. rewrite (idx_ok p 3 0) by lia. cbn [bind]. rewrite IH by (apply Z.mod_pos_bound; lia).
    f_equal. rewrite Zplus_mod_idemp_l. f_equal. lia.
Qed.

Definition wide_row (n : nat) : list (list Z) := [0; 0; 0; 0] :: repeat [0; 0; 0; 64] n.
Definition wide_image (n : nat) : image Z := mkImage (concat (wide_row n)) 4 (S n) 1 (S n * 4) 0.

Lemma wide_len n : length (concat (wide_row n)) = (S n * 4)%nat.
Proof.
  rewrite (concat_uniform_length 4); [cbn [wide_row length]; now rewrite repeat_length|].
  constructor; [reflexivity|]. apply Forall_forall. intros c Hc. apply repeat_spec in Hc. now subst.
Qed.

Lemma wide_scan n : Z.of_nat n * 64 mod 2 ^ 32 = 0 -> alpha_needed_u8 (wide_image n) = Done false.
Proof.
  intro H. unfold alpha_needed_u8, has_non_constant_alpha, stride_of, wide_image. cbn [buf width stride].
  replace (S n * 4 =? 0)%nat with false by lia.
  pose proof (wide_len n) as L. destruct (concat (wide_row n)) as [|b0 bs] eqn:EB; [cbn in L; lia|]. rewrite <- EB in *.
  rewrite (idx_ok _ 3 0) by lia. cbn [bind]. rewrite chunks_exact_o_ok by lia. cbn [bind].
  assert (F : nth 3 (concat (wide_row n)) 0 = 0) by reflexivity. rewrite F.
  assert (C : chunks_exact (S n * 4) (concat (wide_row n)) = [concat (wide_row n)]).
  { replace (concat (wide_row n)) with (concat [concat (wide_row n)]) at 1 by (cbn [concat]; apply app_nil_r).
    apply chunks_concat; [lia|]. constructor; [exact L|constructor]. }
  rewrite C. cbn [scan_rows]. rewrite slice_ok by lia. cbn [bind skipn]. rewrite Nat.sub_0_r, firstn_all2 by lia.
  rewrite chunks_concat; [|lia|constructor; [reflexivity|apply Forall_forall; intros c Hc; apply repeat_spec in Hc; now subst]].
  unfold wide_row. cbn [scan_pixels]. rewrite (idx_ok _ 3 0) by (cbn; lia). cbn [bind nth].
  change ((0 + Z.lxor 0 0) mod 2 ^ 32) with 0.
  rewrite scan_repeat by (try reflexivity; lia). cbn [bind nth]. rewrite Z.lxor_0_r, Z.add_0_l, H. reflexivity.
Qed.

(** ** Images seen pixel by pixel *)
Lemma pixmap_sample {T} (d : T) N (into : image T) (val : nat -> nat -> T) x y c : (0 < N)%nat -> good N into ->
  (x < width into)%nat -> (y < height into)%nat -> (c < N)%nat ->
  sample N (set_buf into (pixmap d (height into) (stride into) (width into * N) val (buf into))) x y c = Some (val y (x * N + c)%nat).
Proof.
  intros HN G Hx Hy Hc. pose proof (good_stride_pos N into HN G). destruct G as [Gw Gh Gs Gl].
  unfold sample. cbn [buf stride set_buf]. rewrite <- Nat.add_assoc. apply pixmap_at; auto; nia.
Qed.
Lemma pixmap_opd {T} (d : T) N (into : image T) val : (0 < N)%nat -> good N into ->
  only_pixels_differ N into (set_buf into (pixmap d (height into) (stride into) (width into * N) val (buf into))).
Proof.
  intros HN G. pose proof (good_stride_pos N into HN G). destruct G as [Gw Gh Gs Gl].
  constructor; cbn [buf stride width height bit_depth channels set_buf]; auto; [apply pixmap_length|].
  intros i Hi. rewrite nth_error_pixmap. replace (i mod stride into <? width into * N)%nat with false by lia.
  rewrite andb_false_r. destruct (Nat.ltb_spec i (length (buf into))) as [L|L].
  - symmetry. now apply nth_error_nth_lt.
  - symmetry. now apply nth_error_None.
Qed.

Lemma pixel_nth {T} (d : T) (im : image T) x y r g b a : pixel im x y r g b a ->
  nth (y * stride im + x * 4) (buf im) d = r /\ nth (y * stride im + (x * 4 + 1)) (buf im) d = g /\
  nth (y * stride im + (x * 4 + 2)) (buf im) d = b /\ nth (y * stride im + (x * 4 + 3)) (buf im) d = a.
Proof.
  intros (H0 & H1 & H2 & H3). unfold sample in *. rewrite Nat.add_0_r in H0. rewrite <- Nat.add_assoc in H1, H2, H3.
  repeat split; now apply nth_error_nth.
Qed.

(** [out] is [into] repainted with the pixel function [px] of [im]. *)
Definition repainted {T} (px : T -> T -> T -> T -> list T) (im into out : image T) : Prop :=
  only_pixels_differ 4 into out /\
  forall x y r g b a, (x < width into)%nat -> (y < height into)%nat -> pixel im x y r g b a ->
    forall c, (c < 4)%nat -> sample 4 out x y c = nth_error (px r g b a) c.

Lemma repaint {T} (d : T) px (im into : image T) : four px -> good 4 into ->
  repainted px im into (set_buf into (pixmap d (height into) (stride into) (width into * 4)
    (fun y j => pxval d px (fun i => nth (y * stride im + i) (buf im) d) (j / 4) (j mod 4)) (buf into))).
Proof.
  intros H4 G. split; [apply pixmap_opd; [lia|exact G]|].
  intros x y r g b a Hx Hy P c Hc. rewrite pixmap_sample by (auto; lia).
  replace ((x * 4 + c) / 4)%nat with x by (apply Nat.div_unique with (r := c); lia).
  replace ((x * 4 + c) mod 4)%nat with c by (apply Nat.mod_unique with (q := x); lia).
  destruct (pixel_nth d _ _ _ _ _ _ _ P) as (P0 & P1 & P2 & P3). unfold pxval. rewrite P0, P1, P2, P3.
  symmetry. apply nth_error_nth_lt. now rewrite H4.
Qed.

Lemma four_u8 : four premul_px_u8. Proof. now intros. Qed.
Lemma four_un_u8 : four unpremul_px_u8. Proof. now intros. Qed.
Lemma four_u16 m : four (premul_px_u16 m). Proof. now intros. Qed.
Lemma four_un_u16 m : four (unpremul_px_u16 m).
Proof. intros r g b a. unfold unpremul_px_u16. now destruct (a =? 0). Qed.
Lemma four_f32 : four premul_px_f32. Proof. now intros. Qed.
Lemma four_un_f32 : four unpremul_px_f32.
Proof. intros r g b a. unfold unpremul_px_f32. now destruct (feqb a f0). Qed.

Section Stages.
Variable pool : pool_t.
Hypothesis HP : pool_ok pool.
Lemma premul_u8_ok im into : good 4 im -> good 4 into -> width im = width into -> height im = height into ->
  exists out, premul_u8 pool im into = Done out /\ repainted premul_px_u8 im into out.
Proof.
  intros. unfold premul_u8. rewrite (premul_rows_closed 0) by (auto using four_u8). cbn [bind].
  eexists. split; [reflexivity|]. apply repaint; auto using four_u8.
Qed.
Lemma unpremul_u8_ok im : good 4 im -> exists out, unpremul_u8 pool im = Done out /\ repainted unpremul_px_u8 im im out.
Proof.
  intros. unfold unpremul_u8. rewrite (unpremul_rows_closed 0) by (auto using four_un_u8). cbn [bind].
  eexists. split; [reflexivity|]. apply repaint; auto using four_un_u8.
Qed.
Lemma premul_u16_ok im into : good 4 im -> good 4 into -> width im = width into -> height im = height into ->
  exists out, premul_u16 pool im into = Done out /\ repainted (premul_px_u16 (max_colors (bit_depth into))) im into out.
Proof.
  intros. unfold premul_u16. rewrite (premul_rows_closed 0) by (auto using four_u16). cbn [bind].
  eexists. split; [reflexivity|]. apply repaint; auto using four_u16.
Qed.
Lemma unpremul_u16_ok im : good 4 im ->
  exists out, unpremul_u16 pool im = Done out /\ repainted (unpremul_px_u16 (max_colors (bit_depth im))) im im out.
Proof.
  intros. unfold unpremul_u16. rewrite (unpremul_rows_closed 0) by (auto using four_un_u16). cbn [bind].
  eexists. split; [reflexivity|]. apply repaint; auto using four_un_u16.
Qed.
Lemma premul_f32_ok im into : good 4 im -> good 4 into -> width im = width into -> height im = height into ->
  exists out, premul_f32 pool im into = Done out /\ repainted premul_px_f32 im into out.
Proof.
  intros. unfold premul_f32. rewrite (premul_rows_closed f0) by (auto using four_f32). cbn [bind].
  eexists. split; [reflexivity|]. apply repaint; auto using four_f32.
Qed.
Lemma unpremul_f32_ok im : good 4 im -> exists out, unpremul_f32 pool im = Done out /\ repainted unpremul_px_f32 im im out.
Proof.
  intros. unfold unpremul_f32. rewrite (unpremul_rows_closed f0) by (auto using four_un_f32). cbn [bind].
  eexists. split; [reflexivity|]. apply repaint; auto using four_un_f32.
Qed.
End Stages.

Lemma proper_good {T} N (im : image T) : proper N im <-> good N im.
Proof. split; [intros (a & b & c & d); now constructor|intros [a b c d]; now repeat split]. Qed.
