(** Closed forms of the 16-bit x86 alpha code. *)
From Coq Require Import ZArith List Lia Bool ZifyBool ZifyNat.
From Flocq Require Import Core.Core IEEE754.BinarySingleNaN.
From Verif Require Import Base BaseProofs ImageStore FixedPoint Dispatch Resize Spec F32 KernelProofs DispatchProofs NoFail Alpha AlphaProofs
  Simd SimdProofs X86Dispatch X86Alpha X86AlphaProofs X86Float X86U16 X86AlphaU16 SpecX86AlphaU16.
Import ListNotations.
Local Open Scope Z_scope.

(** ** Planes *)
Lemma s16_signed x : 0 <= x <= 65535 -> s16 x = signed16 x.
Proof. intro H. unfold s16, signed16. change (2 ^ 15) with 32768. change (2 ^ 16) with 65536. destruct (Z.ltb_spec x 32768); lia. Qed.
Definition lane_int (n c a : Z) : Z :=
  sat 0 65535 (let v := wrap_u32 (wrap32 (s16 c * s16 a + s16 0 * s16 0) + 2 ^ (n - 1)) in Z.shiftr (wrap_u32 (v + Z.shiftr v n)) n).
Lemma pre_int_ok n x a : length x = 8%nat -> length a = 8%nat -> pre_int n x a = zipw (lane_int n) x a.
Proof. intros Lx La. explode x 8. explode a 8. reflexivity. Qed.
Lemma lane_int_spec n c a : 1 <= n -> 0 <= c <= 65535 -> 0 <= a <= 65535 -> lane_int n c a = signed_associate n c a.
Proof.
  intros Hn Hc Ha. unfold lane_int, signed_associate. rewrite !s16_signed by lia. rewrite Z.mul_0_l, Z.add_0_r.
  set (p := signed16 c * signed16 a). assert (E : wrap_u32 (wrap32 p + 2 ^ (n - 1)) = (p + 2 ^ (n - 1)) mod 2 ^ 32).
  { unfold wrap_u32, wrap32. set (h := 2 ^ (n - 1)). change (2 ^ 31) with 2147483648. change (2 ^ 32) with 4294967296. clearbody p h. lia. }
  rewrite E. set (v := (p + 2 ^ (n - 1)) mod 2 ^ 32). cbv zeta. unfold wrap_u32. rewrite !Z.shiftr_div_pow2 by lia.
  assert (0 <= (v + v / 2 ^ n) mod 2 ^ 32 / 2 ^ n).
  { apply Z.div_pos; [apply Z.mod_pos_bound; reflexivity|apply Z.pow_pos_nonneg; lia]. }
  unfold sat. lia.
Qed.
Lemma pre_any_sse_ok m x a : length x = 8%nat -> length a = 8%nat -> pre_any_sse m x a = zipw (float_associate_sse m) x a.
Proof. intros Lx La. explode x 8. explode a 8. reflexivity. Qed.
Lemma pre_any_avx_ok fma m x a : length x = 8%nat -> length a = 8%nat -> pre_any_avx fma m x a = zipw (float_associate_avx fma m) x a.
Proof. intros Lx La. explode x 8. explode a 8. destruct fma; reflexivity. Qed.
Lemma un_sse_plane_ok rcp d x a : length x = 8%nat -> length a = 8%nat ->
  un_sse_plane rcp (max_colors d) x a = zipw (unassociate_sse rcp d) x a.
Proof. intros Lx La. explode x 8. explode a 8. reflexivity. Qed.
Lemma un_avx_plane_ok fma rcp d x a : length x = 8%nat -> length a = 8%nat ->
  un_avx_plane fma rcp (max_colors d) x a = zipw (unassociate_avx fma rcp d) x a.
Proof. intros Lx La. explode x 8. explode a 8. destruct fma; reflexivity. Qed.

(** ** Blocks *)
Lemma deint_w_flat x0 x1 x2 x3 : length x0 = 8%nat -> length x1 = 8%nat -> length x2 = 8%nat -> length x3 = 8%nat ->
  let l := x0 ++ x1 ++ x2 ++ x3 in
  sse_deint_w x0 x1 x2 x3 = (map (fun i => nth (i * 4) l 0) (seq 0 8), map (fun i => nth (i * 4 + 1) l 0) (seq 0 8),
    map (fun i => nth (i * 4 + 2) l 0) (seq 0 8), map (fun i => nth (i * 4 + 3) l 0) (seq 0 8)).
Proof. intros H0 H1 H2 H3. explode x0 8. explode x1 8. explode x2 8. explode x3 8. reflexivity. Qed.
Lemma int_w_flat r g b a :
  let m f := map f (seq 0 8) in
  let '(o0, o1, o2, o3) := sse_int_w (m r) (m g) (m b) (m a) in
  o0 ++ o1 ++ o2 ++ o3 = flat_map (fun i => [r i; g i; b i; a i]) (seq 0 8).
Proof. reflexivity. Qed.
Lemma loadw_ok l off : (off + 8 <= length l)%nat -> loadw 8 l off = Done (firstn 8 (skipn off l)).
Proof. intro H. unfold loadw. replace (off + 8 <=? length l)%nat with true by lia. cbn [repeat Nat.sub]. now rewrite app_nil_r. Qed.
Lemma load256w_ok l off : (off + 16 <= length l)%nat -> load256w l off = Done (firstn 8 (skipn off l), firstn 8 (skipn (off + 8) l)).
Proof. intro H. unfold load256w. rewrite !loadw_ok by lia. reflexivity. Qed.
Lemma storew_all d v : length d = length v -> storew d 0 v = Done v.
Proof. intro H. unfold storew. replace (0 + length v <=? length d)%nat with true by lia. now rewrite splice_all. Qed.
Lemma quarters_w (l : list Z) : length l = 32%nat ->
  firstn 8 (skipn 0 l) ++ firstn 8 (skipn 8 l) ++ firstn 8 (skipn 16 l) ++ firstn 8 (skipn 24 l) = l.
Proof. intro H. explode l 32. reflexivity. Qed.
Lemma eighths_w (l : list Z) : length l = 64%nat ->
  firstn 8 (skipn 0 l) ++ firstn 8 (skipn (0 + 8) l) ++ firstn 8 (skipn 16 l) ++ firstn 8 (skipn (16 + 8) l) ++
  firstn 8 (skipn 32 l) ++ firstn 8 (skipn (32 + 8) l) ++ firstn 8 (skipn 48 l) ++ firstn 8 (skipn (48 + 8) l) = l.
Proof. intro H. explode l 64. reflexivity. Qed.
Definition split_w (l : list Z) : mw256 := (firstn 8 l, skipn 8 l).
Lemma avx_deint_w_flat x0 x1 x2 x3 y0 y1 y2 y3 :
  length x0 = 8%nat -> length x1 = 8%nat -> length x2 = 8%nat -> length x3 = 8%nat ->
  length y0 = 8%nat -> length y1 = 8%nat -> length y2 = 8%nat -> length y3 = 8%nat ->
  let l := x0 ++ y0 ++ x1 ++ y1 ++ x2 ++ y2 ++ x3 ++ y3 in
  avx_deint_w (x0, y0) (x1, y1) (x2, y2) (x3, y3) =
   (split_w (map (fun i => nth (i * 4) l 0) (seq 0 16)), split_w (map (fun i => nth (i * 4 + 1) l 0) (seq 0 16)),
    split_w (map (fun i => nth (i * 4 + 2) l 0) (seq 0 16)), split_w (map (fun i => nth (i * 4 + 3) l 0) (seq 0 16))).
Proof. intros. explode x0 8. explode x1 8. explode x2 8. explode x3 8. explode y0 8. explode y1 8. explode y2 8. explode y3 8. reflexivity. Qed.
Lemma avx_int_w_flat r g b a :
  let m f := split_w (map f (seq 0 16)) in
  let '(o0, o1, o2, o3) := avx_int_w (m r) (m g) (m b) (m a) in
  words256 o0 ++ words256 o1 ++ words256 o2 ++ words256 o3 = flat_map (fun i => [r i; g i; b i; a i]) (seq 0 16).
Proof. reflexivity. Qed.

Section Blocks.
Variables (ch : Z -> Z -> Z) (plane : mw -> mw -> mw).
Hypothesis Hplane : forall x a, length x = 8%nat -> length a = 8%nat -> plane x a = zipw ch x a.
Lemma sse_block_w_ok dst l : length dst = 32%nat -> length l = 32%nat -> sse_block_w plane dst l = Done (pxflat (colours ch) l).
Proof using Hplane.
  intros Ld L. unfold sse_block_w. rewrite !loadw_ok by lia. cbn [bind].
  rewrite deint_w_flat by (rewrite firstn_length, skipn_length; lia). rewrite quarters_w by exact L.
  rewrite !Hplane by apply map_seq_length. rewrite !zipw_maps.
  match goal with |- context [sse_int_w (map ?r _) (map ?g _) (map ?b _) (map ?a _)] =>
    pose proof (int_w_flat r g b a) as I end. cbv zeta in I.
  destruct (sse_int_w _ _ _ _) as [[[o0 o1] o2] o3]. rewrite I.
  rewrite (pxflat_flat _ 8) by (try exact L; intros r g b a; reflexivity).
  apply storew_all. rewrite Ld. reflexivity.
Qed.
Lemma avx_plane_w p q : halves2 plane (split_w (map p (seq 0 16))) (split_w (map q (seq 0 16))) = split_w (map (fun i => ch (p i) (q i)) (seq 0 16)).
Proof using Hplane.
  unfold halves2, split_w. cbn [fst snd]. rewrite !Hplane by reflexivity. reflexivity.
Qed.
Lemma avx_block_w_ok dst l : length dst = 64%nat -> length l = 64%nat -> avx_block_w plane dst l = Done (pxflat (colours ch) l).
Proof using Hplane.
  intros Ld L. unfold avx_block_w. rewrite !load256w_ok by lia. cbn [bind].
  rewrite avx_deint_w_flat by (rewrite firstn_length, skipn_length; lia). rewrite eighths_w by exact L.
  rewrite !avx_plane_w.
  match goal with |- context [avx_int_w (split_w (map ?r _)) (split_w (map ?g _)) (split_w (map ?b _)) (split_w (map ?a _))] =>
    pose proof (avx_int_w_flat r g b a) as I end. cbv zeta in I.
  destruct (avx_int_w _ _ _ _) as [[[o0 o1] o2] o3]. rewrite I.
  rewrite (pxflat_flat _ 16) by (try exact L; intros ? ? ? ?; reflexivity).
  apply storew_all. rewrite Ld. reflexivity.
Qed.
End Blocks.

(** ** Rows of any samples *)
Section Rows.
Variables (px : Z -> Z -> Z -> Z -> list Z) (k : nat).
Hypothesis H4 : four px.
Hypothesis Hk : (0 < k)%nat.
Let blk := (k * 4)%nat.
Lemma premul_blocks_any chunkf w dst src :
  (forall d s, length d = blk -> length s = blk -> chunkf d s = Done (pxflat px s)) ->
  length dst = (w * 4)%nat -> length src = (w * 4)%nat -> premul_blocks blk chunkf dst src = Done (pxflat px src).
Proof using H4 Hk.
  intros HC Ld Ls. unfold premul_blocks.
  rewrite (zip_mut_flat _ (pxflat px)).
  2:{ rewrite !chunks_exact_length. congruence. }
  2:{ intros i d s Hd Hs. rewrite nth_error_chunks in Hd, Hs.
      destruct (Nat.ltb_spec i (length dst / blk)); [|discriminate]. destruct (Nat.ltb_spec i (length src / blk)); [|discriminate].
      inversion Hd; inversion Hs. apply HC; now apply chunk_length. }
  cbn [bind]. destruct (rem_px k Hk w dst Ld) as (w1 & L1 & _). destruct (rem_px k Hk w src Ls) as (w' & L' & Hw').
  assert (Eq : length (chunks_rem blk src) = length (chunks_rem blk dst)) by (unfold chunks_rem; rewrite !skipn_length; congruence).
  transitivity (Done (unchunk (map (pxflat px) (chunks_exact blk src)) (pxflat px (chunks_rem blk src)))).
  - destruct (Nat.eqb_spec (length (chunks_rem blk dst)) 0) as [E0|E0].
    + cbn [bind]. destruct (chunks_rem blk dst) as [|]; [|discriminate]. destruct (chunks_rem blk src) as [|]; [|discriminate]. reflexivity.
    + rewrite Eq, Nat.eqb_refl. cbn [negb]. destruct (pad_flat px k H4 Hk w' (chunks_rem blk src) L' Hw') as (P1 & P2 & P3).
      rewrite HC by (try exact P1; try apply repeat_length; auto). cbn [bind]. rewrite <- Eq. fold blk in P3. rewrite P3. reflexivity.
  - unfold unchunk. rewrite (concat_pxflat px k) by apply chunks_exact_Forall_len.
    assert (C : exists w2, length (concat (chunks_exact blk src)) = (w2 * 4)%nat).
    { exists (length (chunks_exact blk src) * k)%nat. rewrite (concat_len blk) by apply chunks_exact_Forall_len. subst blk. lia. }
    destruct C as (w2 & C). rewrite <- (pxflat_app px w2) by exact C. f_equal. f_equal.
    apply (chunks_unchunk blk src). subst blk. lia.
Qed.
Lemma unpremul_blocks_any chunkf w b :
  (forall d, length d = blk -> chunkf d = Done (pxflat px d)) ->
  length b = (w * 4)%nat -> unpremul_blocks blk chunkf b = Done (pxflat px b).
Proof using H4 Hk.
  intros HC L. rewrite <- (premul_blocks_any (fun _ s => chunkf s) w b b) by auto.
  unfold unpremul_blocks, premul_blocks.
  assert (E : zip_mut (fun d (_ : nat) => chunkf d) (chunks_exact blk b) (seq 0 (length (chunks_exact blk b))) =
              zip_mut (fun _ s => chunkf s) (chunks_exact blk b) (chunks_exact blk b)).
  { generalize (chunks_exact blk b) 0%nat. intro cs. induction cs as [|c cs IH]; intro s; [reflexivity|]. cbn [length seq zip_mut]. now rewrite IH. }
  rewrite E. rewrite Nat.eqb_refl. reflexivity.
Qed.
End Rows.
Lemma four_colours ch : four (colours ch). Proof. intros r g b a. reflexivity. Qed.

(** The channel functions as the lanes compute them. *)
Definition lane_sse (d : nat) : Z -> Z -> Z :=
  if (d =? 10)%nat then lane_int 10 else if (d =? 12)%nat then lane_int 12 else if (d =? 16)%nat then lane_int 16
  else float_associate_sse (max_colors d).
Definition lane_avx (fma : bool) (d : nat) : Z -> Z -> Z :=
  if (d =? 10)%nat then lane_int 10 else if (d =? 12)%nat then lane_int 12 else if (d =? 16)%nat then lane_int 16
  else float_associate_avx fma (max_colors d).
Lemma sse_pre_plane_ok d x a : length x = 8%nat -> length a = 8%nat -> sse_pre_plane d x a = zipw (lane_sse d) x a.
Proof.
  intros. unfold sse_pre_plane, lane_sse. destruct (_ =? 10)%nat; [now apply pre_int_ok|]. destruct (_ =? 12)%nat; [now apply pre_int_ok|].
  destruct (_ =? 16)%nat; [now apply pre_int_ok|now apply pre_any_sse_ok].
Qed.
Lemma avx_pre_plane_ok fma d x a : length x = 8%nat -> length a = 8%nat -> avx_pre_plane fma d x a = zipw (lane_avx fma d) x a.
Proof.
  intros. unfold avx_pre_plane, lane_avx. destruct (_ =? 10)%nat; [now apply pre_int_ok|]. destruct (_ =? 12)%nat; [now apply pre_int_ok|].
  destruct (_ =? 16)%nat; [now apply pre_int_ok|now apply pre_any_avx_ok].
Qed.
Lemma lane_sse_spec d c a : 0 <= c <= 65535 -> 0 <= a <= 65535 -> lane_sse d c a = associate_sse d c a.
Proof.
  intros. unfold lane_sse, associate_sse. destruct (_ =? 10)%nat; [apply lane_int_spec; lia|]. destruct (_ =? 12)%nat; [apply lane_int_spec; lia|].
  destruct (_ =? 16)%nat; [apply lane_int_spec; lia|reflexivity].
Qed.
Lemma lane_avx_spec fma d c a : 0 <= c <= 65535 -> 0 <= a <= 65535 -> lane_avx fma d c a = associate_avx fma d c a.
Proof.
  intros. unfold lane_avx, associate_avx. destruct (_ =? 10)%nat; [apply lane_int_spec; lia|]. destruct (_ =? 12)%nat; [apply lane_int_spec; lia|].
  destruct (_ =? 16)%nat; [apply lane_int_spec; lia|reflexivity].
Qed.
Lemma sse_pre_row_ok d w dst src : length dst = (w * 4)%nat -> length src = (w * 4)%nat ->
  sse_pre_row_u16 d dst src = px_row (colours (lane_sse d)) dst src.
Proof.
  intros Ld Ls. rewrite (px_row_flat _ w) by auto using four_colours.
  apply (premul_blocks_any _ 8 (four_colours _) ltac:(lia) _ w); auto. intros. apply sse_block_w_ok; auto using sse_pre_plane_ok.
Qed.
Lemma avx_pre_row_ok fma d w dst src : length dst = (w * 4)%nat -> length src = (w * 4)%nat ->
  avx_pre_row_u16 fma d dst src = px_row (colours (lane_avx fma d)) dst src.
Proof.
  intros Ld Ls. rewrite (px_row_flat _ w) by auto using four_colours.
  apply (premul_blocks_any _ 16 (four_colours _) ltac:(lia) _ w); auto. intros. apply avx_block_w_ok; auto using avx_pre_plane_ok.
Qed.
Lemma sse_un_row_ok rcp d w b : length b = (w * 4)%nat -> sse_un_row_u16 rcp d b = px_row_in_place (colours (unassociate_sse rcp d)) b.
Proof.
  intros L. rewrite (px_row_in_place_flat _ w) by auto using four_colours.
  apply (unpremul_blocks_any _ 8 (four_colours _) ltac:(lia) _ w); auto. intros. apply sse_block_w_ok; auto using un_sse_plane_ok.
Qed.
Lemma avx_un_row_ok fma rcp d w b : length b = (w * 4)%nat -> avx_un_row_u16 fma rcp d b = px_row_in_place (colours (unassociate_avx fma rcp d)) b.
Proof.
  intros L. rewrite (px_row_in_place_flat _ w) by auto using four_colours.
  apply (unpremul_blocks_any _ 16 (four_colours _) ltac:(lia) _ w); auto. intros. apply avx_block_w_ok; auto using un_avx_plane_ok.
Qed.
