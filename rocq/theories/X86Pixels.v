(** Closed forms of the one-pixel kernels of X86Horizontal.v with 32-bit accumulators. *)
From Coq Require Import ZifyBool ZifyNat.
From Verif Require Import Base BaseProofs Spec FixedPoint KernelProofs Simd SimdProofs
  X86Vertical X86VerticalProofs X86VerticalLp X86VerticalLpProofs X86Horizontal X86HorizontalProofs.
Local Open Scope Z_scope.

(** The window sum of one channel, from c0, over the first j taps. *)
Definition wsum (t : Z -> Z -> Z) (c0 : Z) (cn : nat) (s : nat -> Z) (b : fbound) (w : nat -> Z) (j c : nat) : Z :=
  c0 + zsum j (fun k => t (s ((bstart b + k) * cn + c)%nat) (w k)).

Lemma wsum_0 t c0 cn s b w c : wsum t c0 cn s b w 0 c = c0.
Proof. unfold wsum. cbn [zsum]. lia. Qed.
Lemma wsum_S t c0 cn s b w j c : wsum t c0 cn s b w (S j) c = wsum t c0 cn s b w j c + t (s ((bstart b + j) * cn + c)%nat) (w j).
Proof. unfold wsum. cbn [zsum]. lia. Qed.

Lemma taps_ok {S} (Inv : nat -> S -> Prop) b step slack (body : S -> nat -> outcome S) jx s :
  (1 <= step)%nat -> (step <= slack + 1)%nat -> (jx <= bsize b)%nat -> Inv jx s ->
  (forall j s, (jx <= j)%nat -> (j + slack < bsize b)%nat -> Inv j s -> yields (body s j) (Inv (j + step)%nat)) ->
  yields (taps b step slack body jx s)
    (fun r => Inv (fst r) (snd r) /\ (jx <= fst r <= bsize b)%nat /\ (bsize b <= fst r + slack)%nat).
Proof.
  intros H1 H2 Hj Hi Hb. unfold taps.
  eapply yields_weaken; [apply (while_tiles_inv (fun c s => Inv c s /\ (jx <= c <= bsize b)%nat) step slack (bsize b) body H1)|].
  - intros c s' Hc (Hi' & Hc'). eapply yields_weaken; [apply Hb; [lia|lia|exact Hi']|].
    intros s'' H. split; [exact H|lia].
  - lia.
  - split; [exact Hi|lia].
  - intros [c s'] ((A & B) & C & D). cbn [fst snd] in *. split; [exact A|]. split; lia.
Qed.

Section Window.
Variables (cn : nat) (src : list Z) (b : fbound) (ws : list Z).
Definition px (k c : nat) : Z := nth ((bstart b + k) * cn + c) src 0.
Definition wt (k : nat) : Z := nth k ws 0.
Definition hs (t : Z -> Z -> Z) (c0 : Z) (j c : nat) : Z :=
  wsum t c0 cn (fun i => nth i src 0) b (fun k => nth k ws 0) j c.

Lemma hs_0 t c0 c : hs t c0 0 c = c0.
Proof. apply wsum_0. Qed.
Lemma hs_1 t c0 j c : hs t c0 (j + 1) c = hs t c0 j c + t (px (j + 0) c) (wt (j + 0)).
Proof. unfold hs. rewrite Nat.add_1_r, wsum_S. rewrite Nat.add_0_r. reflexivity. Qed.
Lemma hs_2 t c0 j c : hs t c0 (j + 2) c = hs t c0 j c + t (px (j + 0) c) (wt (j + 0)) + t (px (j + 1) c) (wt (j + 1)).
Proof. replace (j + 2)%nat with (j + 1 + 1)%nat by lia. rewrite !hs_1, !Nat.add_0_r. reflexivity. Qed.
Lemma hs_4 t c0 j c : hs t c0 (j + 4) c = hs t c0 j c + t (px (j + 0) c) (wt (j + 0)) + t (px (j + 1) c) (wt (j + 1))
  + t (px (j + 2) c) (wt (j + 2)) + t (px (j + 3) c) (wt (j + 3)).
Proof. replace (j + 4)%nat with (j + 2 + 2)%nat by lia. rewrite !hs_2, <- !Nat.add_assoc. reflexivity. Qed.
Lemma hs_8 t c0 j c : hs t c0 (j + 8) c = hs t c0 j c + t (px (j + 0) c) (wt (j + 0)) + t (px (j + 1) c) (wt (j + 1))
  + t (px (j + 2) c) (wt (j + 2)) + t (px (j + 3) c) (wt (j + 3))
  + t (px (j + 4) c) (wt (j + 4)) + t (px (j + 5) c) (wt (j + 5))
  + t (px (j + 6) c) (wt (j + 6)) + t (px (j + 7) c) (wt (j + 7)).
Proof. replace (j + 8)%nat with (j + 4 + 4)%nat by lia. rewrite !hs_4, <- !Nat.add_assoc. reflexivity. Qed.

Lemma load_px m n jx : n = (m * cn)%nat -> (0 < cn)%nat -> ((bstart b + (jx + m)) * cn <= length src)%nat ->
  load n src ((bstart b + jx) * cn) =
  Done (flat_map (fun k => map (px (jx + k)) (seq 0 cn)) (seq 0 m) ++ repeat 0 (16 - n)).
Proof.
  intros -> Hc H. rewrite load_ok by nia. f_equal. f_equal. rewrite flat_map_concat_map.
  etransitivity; [|symmetry; exact (concat_map_rows cn m (fun k => px (jx + k)) Hc)].
  apply map_seq_ext. intros i Hi. unfold px. f_equal.
  pose proof (Nat.div_mod i cn). lia.
Qed.
Lemma load_wt n jx : (jx + n <= length ws)%nat ->
  load_w n ws jx = Done (of_words (map (fun i => wt (jx + i)) (seq 0 n) ++ repeat 0 (8 - n))).
Proof. intros H. rewrite load_w_ok by assumption. reflexivity. Qed.
Lemma idx_wt jx : (jx < length ws)%nat -> idx ws jx = Done (wt (jx + 0)).
Proof. intros H. rewrite (idx_ok ws jx 0) by assumption. rewrite Nat.add_0_r. reflexivity. Qed.
Lemma pair_wt jx : (jx + 2 <= length ws)%nat ->
  read_pair ws jx = Done (wrap32 (wt (jx + 0) mod 65536 + 65536 * (wt (jx + 1) mod 65536))).
Proof. intros H. rewrite read_pair_ok by assumption. rewrite Nat.add_0_r. reflexivity. Qed.
Lemma px_b k c : bytes src -> byte (px k c).
Proof. apply bytes_nth. Qed.
Lemma wt_i16 k : Forall i16 ws -> i16 (wt k).
Proof. apply i16_nth. Qed.
End Window.

(** ** Decoding the weight registers *)
Lemma swords_w l : Forall i16 l -> swords (of_words l) = l.
Proof.
  intros H. rewrite swords_of_words. induction H as [|x l Hx H IH]; [reflexivity|].
  cbn [map]. rewrite IH, s16_small by assumption. reflexivity.
Qed.
Lemma swords_pair a c : i16 a -> i16 c ->
  swords (set1_epi32 (wrap32 (a mod 65536 + 65536 * (c mod 65536)))) = [a; c; a; c; a; c; a; c].
Proof. intros. rewrite swords_set1_32, pair_lo, pair_hi by assumption. reflexivity. Qed.
Lemma swords_single a : i16 a -> exists h, swords (set1_epi32 a) = [a; h; a; h; a; h; a; h].
Proof. intros. exists (s16 (a / 65536)). rewrite swords_set1_32, s16_small by assumption. reflexivity. Qed.
Lemma swords_w01 w0 w1 w2 w3 l : i16 w0 -> i16 w1 -> length l = 4%nat ->
  swords (shuffle_epi32 0 0 0 0 (of_words ([w0; w1; w2; w3] ++ l))) = [w0; w1; w0; w1; w0; w1; w0; w1].
Proof.
  intros. unfold shuffle_epi32, dw, swords. cbn -[Z.modulo Z.div s16 Z.mul Z.add of_words].
  cbn [of_words flat_map word_bytes app firstn skipn words map]. rewrite !s16_bytes, !s16_small by assumption. reflexivity.
Qed.
Lemma swords_w23 w0 w1 w2 w3 l : i16 w2 -> i16 w3 -> length l = 4%nat ->
  swords (shuffle_epi32 1 1 1 1 (of_words ([w0; w1; w2; w3] ++ l))) = [w2; w3; w2; w3; w2; w3; w2; w3].
Proof.
  intros. unfold shuffle_epi32, dw, swords. cbn -[Z.modulo Z.div s16 Z.mul Z.add of_words].
  cbn [of_words flat_map word_bytes app firstn skipn words map]. rewrite !s16_bytes, !s16_small by assumption. reflexivity.
Qed.

(** ** The shuffles *)
Lemma sh_rgba_lo a0 a1 a2 a3 a4 a5 a6 a7 a8 a9 a10 a11 a12 a13 a14 a15 :
  shuffle_epi8 [a0; a1; a2; a3; a4; a5; a6; a7; a8; a9; a10; a11; a12; a13; a14; a15] rgba_lo = [a0; 0; a4; 0; a1; 0; a5; 0; a2; 0; a6; 0; a3; 0; a7; 0].
Proof. reflexivity. Qed.
Lemma sh_rgba_hi a0 a1 a2 a3 a4 a5 a6 a7 c0 c1 c2 c3 c4 c5 c6 c7 :
  shuffle_epi8 [a0; a1; a2; a3; a4; a5; a6; a7; c0; c1; c2; c3; c4; c5; c6; c7] rgba_hi =
  [c0; 0; c4; 0; c1; 0; c5; 0; c2; 0; c6; 0; c3; 0; c7; 0].
Proof. reflexivity. Qed.
Lemma sh_rgb_lo a0 a1 a2 a3 a4 a5 a6 a7 a8 a9 a10 a11 a12 a13 a14 a15 :
  shuffle_epi8 [a0; a1; a2; a3; a4; a5; a6; a7; a8; a9; a10; a11; a12; a13; a14; a15] rgb_lo = [a0; 0; a3; 0; a1; 0; a4; 0; a2; 0; a5; 0; 0; 0; 0; 0].
Proof. reflexivity. Qed.
Lemma sh_rgb_hi a0 a1 a2 a3 a4 a5 a6 a7 a8 a9 a10 a11 a12 a13 a14 a15 :
  shuffle_epi8 [a0; a1; a2; a3; a4; a5; a6; a7; a8; a9; a10; a11; a12; a13; a14; a15] rgb_hi = [a6; 0; a9; 0; a7; 0; a10; 0; a8; 0; a11; 0; 0; 0; 0; 0].
Proof. reflexivity. Qed.

(** ** Narrowing the accumulator *)
Lemma compress_ok s a0 a1 a2 a3 : acc s [a0; a1; a2; a3] ->
  firstn 4 (compress s) = [narrowed a0; narrowed a1; narrowed a2; narrowed a3].
Proof.
  unfold acc. intros H. unfold compress, packus_epi16, packus_epi32.
  rewrite !swords_of_words, !sdwords_srai, H. unfold narrowed.
  cbn [map app firstn]. reflexivity.
Qed.

Lemma compress3 s a0 a1 a2 a3 : acc s [a0; a1; a2; a3] -> firstn 3 (compress s) = [narrowed a0; narrowed a1; narrowed a2].
Proof.
  intros H. replace (firstn 3 (compress s)) with (firstn 3 (firstn 4 (compress s))) by (rewrite firstn_firstn; reflexivity).
  rewrite (compress_ok _ _ _ _ _ H). reflexivity.
Qed.

(** The distribution of 8 (4) RGB pixels over the two lanes. *)
Lemma px_first a0 a1 a2 a3 a4 a5 a6 a7 a8 a9 a10 a11 a12 a13 a14 a15 :
  rgb_px [a0; a1; a2; a3; a4; a5; a6; a7; a8; a9; a10; a11; a12; a13; a14; a15] (alignr_epi8 6 [a0; a1; a2; a3; a4; a5; a6; a7; a8; a9; a10; a11; a12; a13; a14; a15] [a0; a1; a2; a3; a4; a5; a6; a7; a8; a9; a10; a11; a12; a13; a14; a15]) = ([a0; 0; a3; 0; a1; 0; a4; 0; a2; 0; a5; 0; 0; 0; 0; 0], [a6; 0; a9; 0; a7; 0; a10; 0; a8; 0; a11; 0; 0; 0; 0; 0]).
Proof. reflexivity. Qed.
Lemma px_second a0 a1 a2 a3 a4 a5 a6 a7 a8 a9 a10 a11 a12 a13 a14 a15 c0 c1 c2 c3 c4 c5 c6 c7 :
  rgb_px (alignr_epi8 12 [c0; c1; c2; c3; c4; c5; c6; c7; 0; 0; 0; 0; 0; 0; 0; 0] [a0; a1; a2; a3; a4; a5; a6; a7; a8; a9; a10; a11; a12; a13; a14; a15])
         (alignr_epi8 2 [c0; c1; c2; c3; c4; c5; c6; c7; 0; 0; 0; 0; 0; 0; 0; 0] [c0; c1; c2; c3; c4; c5; c6; c7; 0; 0; 0; 0; 0; 0; 0; 0]) = ([a12; 0; a15; 0; a13; 0; c0; 0; a14; 0; c1; 0; 0; 0; 0; 0], [c2; 0; c5; 0; c3; 0; c6; 0; c4; 0; c7; 0; 0; 0; 0; 0]).
Proof. reflexivity. Qed.
Ltac weights_tac := unfold rgb_weights, cast256, permutevar8x32, lane1, bytes256; cbn [fst snd of_words flat_map word_bytes app];
  cbn [nth skipn firstn Nat.mul Nat.add zeros repeat app]; unfold swords;
  cbn [shuffle_epi8 map rgb_ws setr_epi8 words nth];
  change (0 mod 256 <? 128) with true; change (1 mod 256 <? 128) with true; change (2 mod 256 <? 128) with true;
  change (3 mod 256 <? 128) with true; change (-1 mod 256 <? 128) with false;
  change (Z.to_nat ((0 mod 256) mod 16)) with 0%nat; change (Z.to_nat ((1 mod 256) mod 16)) with 1%nat;
  change (Z.to_nat ((2 mod 256) mod 16)) with 2%nat; change (Z.to_nat ((3 mod 256) mod 16)) with 3%nat;
  cbn [nth map words]; rewrite !s16_bytes, !s16_small by assumption; reflexivity.
Lemma rgb_w01 w0 w1 w2 w3 w4 w5 w6 w7 : i16 w0 -> i16 w1 -> i16 w2 -> i16 w3 ->
  let r := rgb_weights (of_words [w0; w1; w2; w3; w4; w5; w6; w7]) [0;0;0;0;1;1;1;1]%nat in
  swords (fst r) = [w0; w1; w0; w1; w0; w1; 0; 0] /\ swords (snd r) = [w2; w3; w2; w3; w2; w3; 0; 0].
Proof. intros. split; unfold r; weights_tac. Qed.
Lemma rgb_w23 w0 w1 w2 w3 w4 w5 w6 w7 : i16 w4 -> i16 w5 -> i16 w6 -> i16 w7 ->
  let r := rgb_weights (of_words [w0; w1; w2; w3; w4; w5; w6; w7]) [2;2;2;2;3;3;3;3]%nat in
  swords (fst r) = [w4; w5; w4; w5; w4; w5; 0; 0] /\ swords (snd r) = [w6; w7; w6; w7; w6; w7; 0; 0].
Proof. intros. split; unfold r; weights_tac. Qed.

Ltac list_eq := repeat (apply f_equal2; [lia|]); reflexivity.

Lemma add_of_dwords l l' : add_epi32 (of_dwords l) (of_dwords l') =
  of_dwords (zipw (fun x y => x mod 4294967296 + y mod 4294967296) l l').
Proof. unfold add_epi32. rewrite !dwords_of_dwords, zipw_map2. reflexivity. Qed.
Lemma wrap32_eq_of (x y : Z) : (exists k, x = y + k * 2 ^ 32) -> wrap32 x = wrap32 y.
Proof. intros [k ->]. apply wrap32_shift. Qed.
Lemma wrap32_diff x y : wrap32 x = wrap32 y -> exists k, x = y + k * 2 ^ 32.
Proof.
  intros H. destruct (wrap32_cong x) as [a Ha]. destruct (wrap32_cong y) as [c Hc]. exists (c - a). lia.
Qed.

(** Registers built from four 32-bit lanes. *)
Definition is_dw (s : m128) : Prop := exists l, s = of_dwords l.
Lemma is_dw_dot s p w : is_dw (dot16 s p w).
Proof. eexists. reflexivity. Qed.

Lemma hsum_reduce_ok s l0 l1 l2 l3 : is_dw s -> acc s [l0; l1; l2; l3] -> hsum_reduce s = narrowed (l0 + l1 + l2 + l3).
Proof.
  intros (l & ->) H. unfold acc in H. rewrite sdwords_of_dwords in H.
  destruct l as [|x0 [|x1 [|x2 [|x3 [|x4 l]]]]]; try discriminate H. injection H as H0 H1 H2 H3.
  unfold hsum_reduce.
  change (shuffle_epi32 1 0 3 2 (of_dwords [x0; x1; x2; x3])) with (of_dwords [x2; x3; x0; x1]).
  rewrite add_of_dwords. cbn [zipw].
  match goal with |- context [shufflelo_epi16 1 0 3 2 (of_dwords [?a; ?c; ?d; ?e])] =>
    change (shufflelo_epi16 1 0 3 2 (of_dwords [a; c; d; e])) with (of_dwords [c; a; d; e]) end.
  rewrite add_of_dwords. cbn [zipw]. unfold packus_epi16, packus_epi32.
  rewrite swords_of_words, sdwords_srai, sdwords_of_dwords. unfold narrowed. cbn [map app nth].
  do 5 f_equal. apply wrap32_eq_of.
  apply wrap32_diff in H0, H1, H2, H3. destruct H0 as [k0 ->], H1 as [k1 ->], H2 as [k2 ->], H3 as [k3 ->].
  change (2 ^ 32) with 4294967296.
  match goal with |- exists k, (?a mod _ + ?c mod _) mod _ + (?d mod _ + ?e mod _) mod _ = _ =>
    pose proof (Z.div_mod a 4294967296 ltac:(lia)); pose proof (Z.div_mod c 4294967296 ltac:(lia));
    pose proof (Z.div_mod d 4294967296 ltac:(lia)); pose proof (Z.div_mod e 4294967296 ltac:(lia));
    pose proof (Z.div_mod (a mod 4294967296 + c mod 4294967296) 4294967296 ltac:(lia));
    pose proof (Z.div_mod (d mod 4294967296 + e mod 4294967296) 4294967296 ltac:(lia));
    exists (k0 + k1 + k2 + k3 - a / 4294967296 - c / 4294967296 - d / 4294967296 - e / 4294967296
      - (a mod 4294967296 + c mod 4294967296) / 4294967296 - (d mod 4294967296 + e mod 4294967296) / 4294967296)
  end. lia.
Qed.

Lemma plane_w_lo w0 w1 w2 w3 w4 w5 w6 w7 : i16 w0 -> i16 w1 -> i16 w2 -> i16 w3 ->
  swords (unpacklo_epi16 (of_words [w0; w1; w2; w3; w4; w5; w6; w7]) zeros) = [w0; 0; w1; 0; w2; 0; w3; 0].
Proof.
  intros. unfold unpacklo_epi16, swords. cbn [of_words flat_map word_bytes app firstn zeros repeat inter2 words map].
  rewrite !s16_bytes, (s16_small w0), (s16_small w1), (s16_small w2), (s16_small w3) by assumption. reflexivity.
Qed.
Lemma plane_w_hi w0 w1 w2 w3 w4 w5 w6 w7 : i16 w4 -> i16 w5 -> i16 w6 -> i16 w7 ->
  swords (unpackhi_epi16 (of_words [w0; w1; w2; w3; w4; w5; w6; w7]) zeros) = [w4; 0; w5; 0; w6; 0; w7; 0].
Proof.
  intros. unfold unpackhi_epi16, swords. cbn [of_words flat_map word_bytes app firstn skipn zeros repeat inter2 words map].
  rewrite !s16_bytes, (s16_small w4), (s16_small w5), (s16_small w6), (s16_small w7) by assumption. reflexivity.
Qed.
Lemma plane_w_4 w0 w1 w2 w3 : i16 w0 -> i16 w1 -> i16 w2 -> i16 w3 ->
  exists h0 h1 h2 h3, swords (cvtepi16_epi32 (of_words [w0; w1; w2; w3; 0; 0; 0; 0])) = [w0; h0; w1; h1; w2; h2; w3; h3].
Proof.
  intros. unfold cvtepi16_epi32. rewrite swords_of_words. cbn [map firstn]. rewrite !s16_small by assumption.
  rewrite swords_of_dwords. cbn [flat_map app]. rewrite !(s16_small w0), !(s16_small w1), !(s16_small w2), !(s16_small w3) by assumption.
  do 4 eexists. reflexivity.
Qed.

Section Quality.
Variables (src : list Z) (b : fbound) (ws : list Z).
Hypothesis Hsrc : bytes src.
Hypothesis Hws : (bsize b <= length ws)%nat.
Hypothesis Hi16 : Forall i16 ws.

Section Rgba.
Hypothesis Hlen : ((bstart b + bsize b) * 4 <= length src)%nat.
Notation h := (hs 4 src b ws Z.mul ROUNDING_CONST).
Notation P := (px 4 src b).
Notation W := (wt ws).
Let Inv (j : nat) (s : m128) : Prop := acc s [h j 0%nat; h j 1%nat; h j 2%nat; h j 3%nat].

Lemma rgba_sse_ok : rgba_sse src b ws =
  Done [narrowed (h (bsize b) 0); narrowed (h (bsize b) 1); narrowed (h (bsize b) 2); narrowed (h (bsize b) 3)].
Proof using Hsrc Hws Hi16 Hlen.
  assert (HP : forall k c, byte (P k c)) by (intros; apply px_b; assumption).
  assert (HW : forall k, i16 (W k)) by (intros; apply wt_i16; assumption).
  unfold rgba_sse.
  match goal with |- bind (taps _ _ _ ?f _ _) _ = _ => set (body4 := f) end.
  destruct (taps_ok Inv b 4 4 body4 0 vld) as ([j1 s1] & E1 & H1 & B1 & _); [lia|lia|lia| | |].
  { unfold Inv. rewrite !hs_0. apply acc_set1. }
  { intros j s Hj Hb HI. unfold body4. rewrite (load_wt ws) by lia. cbn [bind].
    rewrite (load_px 4 src b 4 16 j) by lia. cbn [bind]. eexists; split; [reflexivity|].
    unfold Inv. rewrite !hs_4. cbn [flat_map map seq app repeat Nat.sub Nat.mul Nat.add].
    eapply acc_eq; [eapply acc_dot16; [eapply acc_dot16; [exact HI| |]| |]|].
    - rewrite sh_rgba_lo. apply swords_pairs; apply HP.
    - apply (swords_w01 _ _ _ _ [0;0;0;0]); auto.
    - rewrite sh_rgba_hi. apply swords_pairs; apply HP.
    - apply (swords_w23 _ _ _ _ [0;0;0;0]); auto.
    - cbn [zipw pair_sums]. list_eq. }
  rewrite E1. cbn [bind fst snd] in *. clear E1 body4.
  match goal with |- bind (taps _ _ _ ?f _ _) _ = _ => set (body2 := f) end.
  destruct (taps_ok Inv b 2 2 body2 j1 s1) as ([j2 s2] & E2 & H2 & B2 & _); [lia|lia|lia|exact H1| |].
  { intros j s Hj Hb HI. unfold body2. rewrite (pair_wt ws) by lia. cbn [bind].
    rewrite (load_px 4 src b 2 8 j) by lia. cbn [bind]. eexists; split; [reflexivity|].
    unfold Inv. rewrite !hs_2. cbn [flat_map map seq app repeat Nat.sub Nat.mul Nat.add].
    eapply acc_eq; [eapply acc_dot16; [exact HI| |]|].
    - rewrite sh_rgba_lo. apply swords_pairs; apply HP.
    - apply swords_pair; apply HW.
    - cbn [zipw pair_sums]. list_eq. }
  rewrite E2. cbn [bind fst snd] in *. clear E2 body2.
  match goal with |- bind (taps _ _ _ ?f _ _) _ = _ => set (body1 := f) end.
  destruct (taps_ok Inv b 1 0 body1 j2 s2) as ([j3 s3] & E3 & H3 & B3 & B4); [lia|lia|lia|exact H2| |].
  { intros j s Hj Hb HI. unfold body1. rewrite (idx_wt ws) by lia. cbn [bind].
    rewrite (load_px 4 src b 1 4 j) by lia. cbn [bind]. eexists; split; [reflexivity|].
    unfold Inv. rewrite !hs_1. cbn [flat_map map seq app repeat Nat.sub Nat.mul Nat.add].
    destruct (swords_single (W (j + 0)) ltac:(apply HW)) as [hh Eh].
    eapply acc_eq; [eapply acc_dot16; [exact HI| |exact Eh]|].
    - unfold cvtepi16_epi32. cbn [unpacklo_epi8 zeros repeat firstn inter1]. unfold swords at 2.
      cbn [words map firstn]. rewrite !s16_byte0 by apply HP. rewrite swords_of_dwords. cbn [flat_map app].
      assert (forall k c, s16 (P k c) = P k c) as E by (intros; apply s16_small; specialize (HP k c); unfold byte, i16 in *; lia).
      assert (forall k c, s16 (P k c / 65536) = 0) as E'.
      { intros. rewrite Z.div_small; [reflexivity|]. specialize (HP k c). unfold byte in *. lia. }
      rewrite !E, !E'. reflexivity.
    - cbn [zipw pair_sums]. list_eq. }
  rewrite E3. cbn [bind fst snd] in *. replace j3 with (bsize b) in H3 by lia.
  f_equal. apply compress_ok. exact H3.
Qed.
End Rgba.

Section Rgb.
Hypothesis Hlen : ((bstart b + bsize b) * 3 <= length src)%nat.
Notation h := (hs 3 src b ws Z.mul ROUNDING_CONST).
Notation P := (px 3 src b).
Notation W := (wt ws).
Definition rgb_inv (j : nat) (s : m128) : Prop := exists z, acc s [h j 0%nat; h j 1%nat; h j 2%nat; z].
(** Even positions inside the window. *)
Definition even_in (j : nat) : Prop := (exists i, j = (2 * i)%nat) /\ (j < bsize b)%nat.

Lemma rgb_pairs_ok j1 s1 : (j1 <= bsize b)%nat -> rgb_inv j1 s1 -> even_in j1 ->
  yields (rgb_pairs src b ws j1 s1) (fun r => rgb_inv (fst r) (snd r) /\ even_in (fst r) /\ (bsize b <= fst r + 2)%nat).
Proof using Hsrc Hws Hi16 Hlen.
  assert (HP : forall k c, byte (P k c)) by (intros; apply px_b; assumption).
  assert (HW : forall k, i16 (W k)) by (intros; apply wt_i16; assumption).
  intros Hj1 H1 Ev. unfold rgb_pairs.
  match goal with |- yields (taps _ _ _ ?f _ _) _ => set (body2 := f) end.
  eapply yields_weaken; [apply (taps_ok (fun j s => rgb_inv j s /\ even_in j) b 2 2 body2 j1 s1); [lia|lia|lia|split; assumption|]|].
  2:{ intros [j2 s2] ((A & B) & C & D). cbn [fst snd] in *. auto. }
  intros j s Hj Hb ((z & HI) & (i & Hi) & Hlt). unfold body2. rewrite (pair_wt ws) by lia. cbn [bind].
  rewrite (load_px 3 src b 2 6 j) by lia. cbn [bind]. eexists; split; [reflexivity|].
  split; [|split; [exists (i + 1)%nat; lia|lia]].
  unfold rgb_inv. rewrite !hs_2. cbn [flat_map map seq app repeat Nat.sub Nat.mul Nat.add].
  eexists. eapply acc_eq; [eapply acc_dot16; [exact HI| |]|].
  - rewrite sh_rgb_lo. apply swords_pairs; try apply HP; unfold byte; lia.
  - apply swords_pair; apply HW.
  - cbn [zipw pair_sums]. list_eq.
Qed.

Lemma rgb_sse_ok : (1 <= bsize b)%nat -> rgb_sse src b ws =
  Done [narrowed (h (bsize b) 0); narrowed (h (bsize b) 1); narrowed (h (bsize b) 2)].
Proof using Hsrc Hws Hi16 Hlen.
  assert (HP : forall k c, byte (P k c)) by (intros; apply px_b; assumption).
  assert (HW : forall k, i16 (W k)) by (intros; apply wt_i16; assumption).
  intros Hsz. unfold rgb_sse.
  match goal with |- bind (taps _ _ _ ?f _ _) _ = _ => set (body4 := f) end.
  destruct (taps_ok (fun j s => rgb_inv j s /\ even_in j) b 4 4 body4 0 vld) as ([j1 s1] & E1 & (H1 & Ev1) & B1 & _); [lia|lia|lia| | |].
  { split; [|split; [exists 0%nat; lia|lia]]. unfold rgb_inv. rewrite !hs_0. eexists. apply acc_set1. }
  { intros j s Hj Hb ((z & HI) & (i & Hi) & Hlt). unfold body4. rewrite (load_wt ws) by lia. cbn [bind].
    rewrite (load_px 3 src b 4 12 j) by lia. cbn [bind]. eexists; split; [reflexivity|].
    split; [|split; [exists (i + 2)%nat; lia|lia]].
    unfold rgb_inv. rewrite !hs_4. cbn [flat_map map seq app repeat Nat.sub Nat.mul Nat.add].
    eexists. eapply acc_eq; [eapply acc_dot16; [eapply acc_dot16; [exact HI| |]| |]|].
    - rewrite sh_rgb_lo. apply swords_pairs; try apply HP; unfold byte; lia.
    - apply (swords_w01 _ _ _ _ [0;0;0;0]); auto.
    - rewrite sh_rgb_hi. apply swords_pairs; try apply HP; unfold byte; lia.
    - apply (swords_w23 _ _ _ _ [0;0;0;0]); auto.
    - cbn [zipw pair_sums]. list_eq. }
  rewrite E1. cbn [bind fst snd] in *. clear E1 body4.
  destruct (rgb_pairs_ok j1 s1 ltac:(lia) H1 Ev1) as ([j2 s2] & E2 & H2 & Ev2 & _).
  rewrite E2. cbn [bind fst snd] in *. clear E2. pose proof (proj2 Ev2).
  match goal with |- bind (taps _ _ _ ?f _ _) _ = _ => set (body1 := f) end.
  destruct (taps_ok rgb_inv b 1 0 body1 j2 s2) as ([j3 s3] & E3 & H3 & B3 & B4); [lia|lia|lia|exact H2| |].
  { intros j s Hj Hb (z & HI). unfold body1. rewrite (idx_wt ws) by lia. cbn [bind].
    rewrite (load_px 3 src b 1 3 j) by lia. cbn [bind]. eexists; split; [reflexivity|].
    unfold rgb_inv. rewrite !hs_1. cbn [flat_map map seq app repeat Nat.sub Nat.mul Nat.add].
    destruct (swords_single (W (j + 0)) ltac:(apply HW)) as [hh Eh].
    eexists. eapply acc_eq; [eapply acc_dot16; [exact HI| |exact Eh]|].
    - cbn [unpacklo_epi16 unpacklo_epi8 zeros repeat firstn inter1 inter2].
      apply swords_pairs; try apply HP; unfold byte; lia.
    - cbn [zipw pair_sums]. list_eq. }
  rewrite E3. cbn [bind fst snd] in *. replace j3 with (bsize b) in H3 by lia. destruct H3 as (z & H3).
  f_equal. apply (compress3 _ _ _ _ _ H3).
Qed.

(** ** The AVX2 kernel *)
Definition rgb_inv2 (j : nat) (st : m256) : Prop :=
  exists l0 l1 l2 l3 m0 m1 m2 m3, acc (fst st) [l0; l1; l2; l3] /\ acc (snd st) [m0; m1; m2; m3] /\
    l0 + m0 = h j 0%nat /\ l1 + m1 = h j 1%nat /\ l2 + m2 = h j 2%nat.

Lemma acc_dot256 st p w l l' pl pl' wl wl' : acc (fst st) l -> acc (snd st) l' ->
  swords (fst p) = pl -> swords (snd p) = pl' -> swords (fst w) = wl -> swords (snd w) = wl' ->
  acc (fst (dot256 st p w)) (zipw Z.add l (pair_sums (zipw Z.mul pl wl))) /\
  acc (snd (dot256 st p w)) (zipw Z.add l' (pair_sums (zipw Z.mul pl' wl'))).
Proof using Hlen Hws. intros. unfold dot256, lane2. cbn [fst snd]. split; apply acc_dot16; assumption. Qed.

Lemma load_px24 j : (j + 8 <= bsize b)%nat ->
  load 16 src ((bstart b + j) * 3) = Done [P (j+0) 0; P (j+0) 1; P (j+0) 2; P (j+1) 0; P (j+1) 1; P (j+1) 2;
     P (j+2) 0; P (j+2) 1; P (j+2) 2; P (j+3) 0; P (j+3) 1; P (j+3) 2; P (j+4) 0; P (j+4) 1; P (j+4) 2; P (j+5) 0]%nat /\
  load 8 src ((bstart b + j) * 3 + 16) = Done [P (j+5) 1; P (j+5) 2; P (j+6) 0; P (j+6) 1; P (j+6) 2;
     P (j+7) 0; P (j+7) 1; P (j+7) 2; 0%Z; 0%Z; 0%Z; 0%Z; 0%Z; 0%Z; 0%Z; 0%Z]%nat.
Proof using Hlen Hws.
  intros Hj. split; (rewrite load_ok by lia); f_equal; cbn [map seq app repeat Nat.sub]; unfold px;
    repeat (apply f_equal2; [try reflexivity; f_equal; lia|]); reflexivity.
Qed.

(** Where the kernel reads channel c of tap k: the one or two taps after the last pair
    take red and green from the first pixel of the row. *)
Definition avx_rgb_at (b : fbound) (k c : nat) : nat :=
  if (c <? 2)%nat && (2 * ((bsize b - 1) / 2) <=? k)%nat then c else ((bstart b + k) * 3 + c)%nat.

Definition va (j c : nat) : Z := ROUNDING_CONST + zsum j (fun k => nth (avx_rgb_at b k c) src 0 * nth k ws 0).

Lemma va_h j c : (j <= 2 * ((bsize b - 1) / 2))%nat -> va j c = h j c.
Proof using Hlen Hws.
  intros Hj. unfold va, hs, wsum. f_equal. apply zsum_ext. intros k Hk. unfold avx_rgb_at.
  replace (2 * ((bsize b - 1) / 2) <=? k)%nat with false by lia. rewrite andb_false_r. reflexivity.
Qed.
Lemma va_1 j c : va (j + 1) c = va j c + nth (avx_rgb_at b j c) src 0 * W (j + 0).
Proof using Hlen Hws. unfold va. rewrite Nat.add_1_r, Nat.add_0_r. cbn [zsum]. unfold wt. lia. Qed.

Lemma rgb_avx_ok : (1 <= bsize b)%nat -> rgb_avx src b ws =
  Done [narrowed (va (bsize b) 0); narrowed (va (bsize b) 1); narrowed (va (bsize b) 2)].
Proof using Hsrc Hws Hi16 Hlen.
  assert (HP : forall k c, byte (P k c)) by (intros; apply px_b; assumption).
  assert (HW : forall k, i16 (W k)) by (intros; apply wt_i16; assumption).
  intros Hsz. unfold rgb_avx.
  match goal with |- bind ?e _ = _ => set (wide := e) end.
  assert (yields wide (fun r => rgb_inv (fst r) (snd r) /\ even_in (fst r))) as ([j1 s1] & E1 & H1 & Ev1).
  { unfold wide. destruct (Nat.leb_spec (bsize b) 4) as [Hs|Hs].
    - eexists; split; [reflexivity|]. cbn [fst snd]. split; [|split; [exists 0%nat; lia|lia]].
      unfold rgb_inv. rewrite !hs_0. eexists. apply acc_set1.
    - match goal with |- context [taps b 8 8 ?f _ _] => set (body8 := f) end.
      match goal with |- context [taps b 4 4 ?f _ _] => set (body4 := f) end.
      set (st0 := (setr_epi32 [ROUNDING_CONST; ROUNDING_CONST; ROUNDING_CONST; 0], zeros)).
      eapply yields_bind; [apply (taps_ok (fun j s => rgb_inv2 j s /\ even_in j) b 8 8 body8 0 st0); [lia|lia|lia| |]|].
      + split; [|split; [exists 0%nat; lia|lia]].
        exists ROUNDING_CONST, ROUNDING_CONST, ROUNDING_CONST, 0, 0, 0, 0, 0. rewrite !hs_0. unfold st0. cbn [fst snd].
        split; [|split; [reflexivity|lia]]. unfold acc, setr_epi32. rewrite sdwords_of_dwords. reflexivity.
      + intros j st Hj Hb ((l0 & l1 & l2 & l3 & m0 & m1 & m2 & m3 & Hl & Hm & S0 & S1 & S2) & (i & Hi) & Hlt).
        unfold body8. rewrite (load_wt ws) by lia. cbn [bind].
        destruct (load_px24 j ltac:(lia)) as (L1 & L2). rewrite L1. cbn [bind]. rewrite L2. cbn [bind]. clear L1 L2.
        cbv zeta. rewrite px_first, px_second. eexists; split; [reflexivity|].
        split; [|split; [exists (i + 4)%nat; lia|lia]].
        cbn [map seq app repeat Nat.sub].
        destruct (rgb_w01 (W (j+0)) (W (j+1)) (W (j+2)) (W (j+3)) (W (j+4)) (W (j+5)) (W (j+6)) (W (j+7))) as (W1 & W2); auto.
        destruct (rgb_w23 (W (j+0)) (W (j+1)) (W (j+2)) (W (j+3)) (W (j+4)) (W (j+5)) (W (j+6)) (W (j+7))) as (W3 & W4); auto.
        match goal with |- rgb_inv2 _ (dot256 (dot256 _ ?p1 ?w1) ?p2 ?w2) =>
          edestruct (acc_dot256 st p1 w1) as (A1 & A2);
            [exact Hl|exact Hm|cbn [fst snd]; apply swords_pairs; first [apply HP | unfold byte; lia]
            |cbn [fst snd]; apply swords_pairs; first [apply HP | unfold byte; lia]|exact W1|exact W2|];
          edestruct (acc_dot256 (dot256 st p1 w1) p2 w2) as (A3 & A4);
            [exact A1|exact A2|cbn [fst snd]; apply swords_pairs; first [apply HP | unfold byte; lia]
            |cbn [fst snd]; apply swords_pairs; first [apply HP | unfold byte; lia]|exact W3|exact W4|]
        end.
        cbn [zipw pair_sums] in A3, A4.
        do 8 eexists. split; [exact A3|]. split; [exact A4|]. rewrite !hs_8. lia.
      + intros [j1 st1] ((Hi1 & Ev1) & B1 & _). cbn [fst snd] in *.
        eapply yields_bind; [apply (taps_ok (fun j s => rgb_inv2 j s /\ even_in j) b 4 4 body4 j1 st1); [lia|lia|lia|auto|]|].
        * intros j st Hj Hb ((l0 & l1 & l2 & l3 & m0 & m1 & m2 & m3 & Hl & Hm & S0 & S1 & S2) & (i & Hi) & Hlt).
          unfold body4. rewrite (load_wt ws) by lia. cbn [bind].
          rewrite (load_px 3 src b 4 12 j) by lia. cbn [bind].
          cbn [flat_map map seq app repeat Nat.sub Nat.mul Nat.add]. rewrite px_first. eexists; split; [reflexivity|].
          split; [|split; [exists (i + 2)%nat; lia|lia]].
          destruct (rgb_w01 (W (j+0)) (W (j+1)) (W (j+2)) (W (j+3)) 0 0 0 0) as (W1 & W2); auto.
          match goal with |- rgb_inv2 _ (dot256 _ ?p1 ?w1) =>
            edestruct (acc_dot256 st p1 w1) as (A1 & A2);
            [exact Hl|exact Hm|cbn [fst snd]; apply swords_pairs; first [apply HP | unfold byte; lia]
            |cbn [fst snd]; apply swords_pairs; first [apply HP | unfold byte; lia]|exact W1|exact W2|]
          end.
          cbn [zipw pair_sums] in A1, A2.
          do 8 eexists. split; [exact A1|]. split; [exact A2|]. rewrite !hs_4. lia.
        * intros [j2 st2] ((Hi2 & Ev2) & B2 & _). cbn [fst snd] in *. eexists; split; [reflexivity|]. cbn [fst snd].
          split; [|exact Ev2]. destruct Hi2 as (l0 & l1 & l2 & l3 & m0 & m1 & m2 & m3 & Hl & Hm & S0 & S1 & S2).
          exists (l3 + m3). unfold acc in *. rewrite sdwords_add, Hl, Hm. cbn [map zipw].
          rewrite <- S0, <- S1, <- S2. rewrite !wrap32_add_l, !wrap32_add_r. reflexivity. }
  rewrite E1. cbn [bind fst snd] in *. clear E1 wide.
  destruct (rgb_pairs_ok j1 s1 ltac:(pose proof (proj2 Ev1); lia) H1 Ev1) as ([j2 s2] & E2 & H2 & ((i2 & Ev2) & Hlt2) & B2).
  rewrite E2. cbn [bind fst snd] in *. clear E2.
  assert (J2 : j2 = (2 * ((bsize b - 1) / 2))%nat).
  { subst j2. pose proof (Nat.div_mod (bsize b - 1) 2 ltac:(lia)). pose proof (Nat.mod_upper_bound (bsize b - 1) 2 ltac:(lia)). lia. }
  match goal with |- bind (taps _ _ _ ?f _ _) _ = _ => set (body1 := f) end.
  destruct (taps_ok (fun j s => exists z, acc s [va j 0%nat; va j 1%nat; va j 2%nat; z]) b 1 0 body1 j2 s2)
    as ([j3 s3] & E3 & H3 & B3 & B4); [lia|lia|lia| | |].
  { rewrite !va_h by lia. exact H2. }
  { intros j s Hj Hb (z & HI). unfold body1. rewrite (idx_wt ws) by lia. cbn [bind].
    unfold add_one_weight. rewrite load_ok by lia. cbn [bind]. rewrite (idx_ok src _ 0) by lia. cbn [bind].
    eexists; split; [reflexivity|].
    rewrite !va_1. unfold avx_rgb_at. replace (2 * ((bsize b - 1) / 2) <=? j)%nat with true by lia.
    cbn [map seq app repeat Nat.sub Nat.add firstn skipn Nat.ltb Nat.leb andb].
    destruct (swords_single (W (j + 0)) ltac:(apply HW)) as [hh Eh].
    eexists. eapply acc_eq; [eapply acc_dot16; [exact HI| |exact Eh]|].
    - cbn [unpacklo_epi16 unpacklo_epi8 zeros repeat firstn inter1 inter2].
      apply swords_pairs; first [apply bytes_nth; assumption | unfold byte; lia].
    - cbn [zipw pair_sums]. list_eq. }
  rewrite E3. cbn [bind fst snd] in *. replace j3 with (bsize b) in H3 by lia. destruct H3 as (z & H3).
  f_equal. apply (compress3 _ _ _ _ _ H3).
Qed.
End Rgb.

Section Plane.
Hypothesis Hlen : ((bstart b + bsize b) * 1 <= length src)%nat.
Notation h := (hs 1 src b ws Z.mul ROUNDING_CONST).
Notation P := (px 1 src b).
Notation W := (wt ws).
Let Inv (j : nat) (s : m128) : Prop := is_dw s /\
  exists l0 l1 l2 l3, acc s [l0; l1; l2; l3] /\ l0 + l1 + l2 + l3 = h j 0%nat.

Lemma plane_sse_ok : plane_sse src b ws = Done [narrowed (h (bsize b) 0)].
Proof using Hsrc Hws Hi16 Hlen.
  assert (HP : forall k c, byte (P k c)) by (intros; apply px_b; assumption).
  assert (HW : forall k, i16 (W k)) by (intros; apply wt_i16; assumption).
  unfold plane_sse.
  match goal with |- bind (taps _ _ _ ?f _ _) _ = _ => set (body8 := f) end.
  destruct (taps_ok Inv b 8 8 body8 0 (setr_epi32 [ROUNDING_CONST; 0; 0; 0])) as ([j1 s1] & E1 & H1 & B1 & _); [lia|lia|lia| | |].
  { split; [eexists; reflexivity|]. exists ROUNDING_CONST, 0, 0, 0. rewrite hs_0. split; [|lia].
    unfold acc, setr_epi32. rewrite sdwords_of_dwords. reflexivity. }
  { intros j s Hj Hb (_ & l0 & l1 & l2 & l3 & Hl & Hsum). unfold body8. rewrite (load_wt ws) by lia. cbn [bind].
    replace (bstart b + j)%nat with ((bstart b + j) * 1)%nat by lia.
    rewrite (load_px 1 src b 8 8 j) by lia. cbn [bind]. eexists; split; [reflexivity|].
    split; [apply is_dw_dot|]. rewrite hs_8. cbn [flat_map map seq app repeat Nat.sub Nat.mul Nat.add].
    do 4 eexists. split.
    - eapply acc_eq; [eapply acc_dot16; [eapply acc_dot16; [exact Hl| |]| |]|].
      + cbn [unpacklo_epi16 unpacklo_epi8 zeros repeat firstn inter1 inter2]. apply swords_pairs; first [apply HP | unfold byte; lia].
      + apply plane_w_lo; apply HW.
      + cbn [unpackhi_epi16 unpacklo_epi8 zeros repeat firstn skipn inter1 inter2]. apply swords_pairs; first [apply HP | unfold byte; lia].
      + apply plane_w_hi; apply HW.
      + cbn [zipw pair_sums]; reflexivity.
    - lia. }
  rewrite E1. cbn [bind fst snd] in *. clear E1 body8.
  match goal with |- bind (taps _ _ _ ?f _ _) _ = _ => set (body4 := f) end.
  destruct (taps_ok Inv b 4 4 body4 j1 s1) as ([j2 s2] & E2 & H2 & B2 & _); [lia|lia|lia|exact H1| |].
  { intros j s Hj Hb (_ & l0 & l1 & l2 & l3 & Hl & Hsum). unfold body4. rewrite (load_wt ws) by lia. cbn [bind].
    replace (bstart b + j)%nat with ((bstart b + j) * 1)%nat by lia.
    rewrite (load_px 1 src b 4 4 j) by lia. cbn [bind]. eexists; split; [reflexivity|].
    split; [apply is_dw_dot|]. rewrite hs_4. cbn [flat_map map seq app repeat Nat.sub Nat.mul Nat.add].
    destruct (plane_w_4 (W (j+0)) (W (j+1)) (W (j+2)) (W (j+3))) as (h0 & h1 & h2 & h3 & EW); auto.
    do 4 eexists. split.
    - eapply acc_eq; [eapply acc_dot16; [exact Hl| |exact EW]|].
      + cbn [unpacklo_epi16 unpacklo_epi8 zeros repeat firstn inter1 inter2]. apply swords_pairs; first [apply HP | unfold byte; lia].
      + cbn [zipw pair_sums]; reflexivity.
    - lia. }
  rewrite E2. cbn [bind fst snd] in *. clear E2 body4.
  match goal with |- bind (taps _ _ _ ?f _ _) _ = _ => set (body1 := f) end.
  destruct (taps_ok Inv b 1 0 body1 j2 s2) as ([j3 s3] & E3 & H3 & B3 & B4); [lia|lia|lia|exact H2| |].
  { intros j s Hj Hb (_ & l0 & l1 & l2 & l3 & Hl & Hsum). unfold body1. rewrite (idx_wt ws) by lia. cbn [bind].
    rewrite (idx_ok src _ 0) by lia. cbn [bind]. eexists; split; [reflexivity|].
    split; [apply is_dw_dot|]. rewrite hs_1.
    assert (nth (bstart b + j) src 0 = P (j + 0) 0) as -> by (unfold px; f_equal; lia).
    do 4 eexists. split.
    - eapply acc_eq; [eapply acc_dot16; [exact Hl| |]|].
      + unfold setr_epi32. rewrite swords_of_dwords. cbn [flat_map app]. reflexivity.
      + unfold setr_epi32. rewrite swords_of_dwords. cbn [flat_map app]. reflexivity.
      + cbn [zipw pair_sums]; reflexivity.
    - change (s16 (0 / 65536)) with 0. change (s16 0) with 0.
      rewrite (s16_small (W (j + 0))) by apply HW.
      rewrite (s16_small (P (j + 0) 0)) by (specialize (HP (j+0)%nat 0%nat); unfold byte, i16 in *; lia).
      assert (s16 (P (j + 0) 0 / 65536) = 0) as ->.
      { rewrite Z.div_small; [reflexivity|]. specialize (HP (j+0)%nat 0%nat). unfold byte in *; lia. }
      lia. }
  rewrite E3. cbn [bind fst snd] in *. replace j3 with (bsize b) in H3 by lia.
  destruct H3 as (D & l0 & l1 & l2 & l3 & Hl & Hsum). rewrite (hsum_reduce_ok _ _ _ _ _ D Hl), Hsum. reflexivity.
Qed.
End Plane.
End Quality.
