(** The register helpers and kernels of X86Ar30.v in closed form. *)
From Coq Require Import ZifyBool ZifyNat.
From Verif Require Import Base BaseProofs ImageStore ColorGroup FixedPoint Dispatch Spec KernelProofs Kernel4Proofs Ar30 SpecAr30 Ar30Proofs Ar30Kernels
  Simd SimdProofs X86Vertical X86VerticalProofs X86VerticalLp X86VerticalLpProofs X86Horizontal X86HorizontalProofs X86Ar30 SpecX86Ar30.
Local Open Scope Z_scope.

(** ** Registers *)
Lemma dword_mod w : is_word w -> w mod 4294967296 = w.
Proof. unfold is_word. intro. apply Z.mod_small. lia. Qed.
Lemma div_word w n : is_word w -> 0 <= n -> is_word (w / 2 ^ n).
Proof.
  unfold is_word. intros H Hn. pose proof (Z.pow_pos_nonneg 2 n ltac:(lia) Hn) as P. split; [apply Z.div_pos; lia|].
  apply Z.le_lt_trans with w; [|lia]. apply Z.div_le_upper_bound; nia.
Qed.
Lemma dword_bytes_swap w : is_word w -> dword_bytes (swap_bytes w) = rev (dword_bytes w).
Proof.
  intro H. destruct (split_word w H) as (b0 & b1 & b2 & b3 & B0 & B1 & B2 & B3 & ->).
  rewrite swap_digits by assumption. unfold dword_bytes.
  destruct (digits b0 b1 b2 b3 B0 B1 B2 B3) as (-> & -> & -> & ->).
  destruct (digits b3 b2 b1 b0 B3 B2 B1 B0) as (-> & -> & -> & ->). reflexivity.
Qed.
Lemma bytes_dwords l : bytes l -> (exists k, length l = (4 * k)%nat) -> of_dwords (dwords l) = l.
Proof.
  intros B [k L]. revert l B L. induction k as [|k IH]; intros l B L.
  - destruct l; [reflexivity|discriminate].
  - destruct l as [|b0 [|b1 [|b2 [|b3 l]]]]; cbn [length] in L; try lia.
    unfold bytes in B. inversion B as [|? ? H0 B1]; subst. inversion B1 as [|? ? H1 B2]; subst.
    inversion B2 as [|? ? H2 B3]; subst. inversion B3 as [|? ? H3 B4]; subst.
    cbn [dwords]. unfold of_dwords. cbn [flat_map]. fold (of_dwords (dwords l)). rewrite IH by (auto; lia).
    unfold dword_bytes. destruct (digits b0 b1 b2 b3 H0 H1 H2 H3) as (-> & -> & -> & ->). reflexivity.
Qed.
Lemma dwords_words l : bytes l -> Forall is_word (dwords l).
Proof.
  intro B. remember (length l) as n. revert l B Heqn. induction n as [n IH] using lt_wf_ind. intros l B ->.
  destruct l as [|b0 [|b1 [|b2 [|b3 l]]]]; cbn [dwords]; try constructor.
  - unfold bytes in B. inversion B as [|? ? H0 B1]; subst. inversion B1 as [|? ? H1 B2]; subst.
    inversion B2 as [|? ? H2 B3]; subst. inversion B3 as [|? ? H3 B4]; subst. unfold byte in *. unfold is_word. lia.
  - apply (IH (length l)); [cbn [length]; lia| |reflexivity].
    unfold bytes in *. inversion B as [|? ? H0 B1]; subst. inversion B1 as [|? ? H1 B2]; subst.
    inversion B2 as [|? ? H2 B3]; subst. inversion B3 as [|? ? H3 B4]; subst. exact B4.
Qed.

Section Format.
Variables (t : rgb30) (o : byte_order).

Lemma host_order_dwords d0 d1 d2 d3 : is_word d0 -> is_word d1 -> is_word d2 -> is_word d3 ->
  host_order o (of_dwords [d0; d1; d2; d3]) = of_dwords [ordered o d0; ordered o d1; ordered o d2; ordered o d3].
Proof.
  intros H0 H1 H2 H3. destruct o; cbn [host_order ordered]; [reflexivity|].
  unfold of_dwords. cbn [flat_map]. rewrite !dword_bytes_swap by assumption. reflexivity.
Qed.

(** The three lanes of four pixels. *)
Lemma lanes30_ok d0 d1 d2 d3 : is_word d0 -> is_word d1 -> is_word d2 -> is_word d3 ->
  lanes30 t (of_dwords [d0; d1; d2; d3]) =
  (of_dwords [colour t d0 0; colour t d1 0; colour t d2 0; colour t d3 0],
   of_dwords [colour t d0 1; colour t d1 1; colour t d2 1; colour t d3 1],
   of_dwords [colour t d0 2; colour t d1 2; colour t d2 2; colour t d3 2]).
Proof.
  intros H0 H1 H2 H3.
  assert (M : dwords mask10 = [1023; 1023; 1023; 1023]) by reflexivity.
  assert (S : forall n, 0 <= n -> and_si128 (srli_epi32 n (of_dwords [d0; d1; d2; d3])) mask10 =
      of_dwords [(d0 / 2 ^ n) mod 1024; (d1 / 2 ^ n) mod 1024; (d2 / 2 ^ n) mod 1024; (d3 / 2 ^ n) mod 1024]).
  { intros n Hn. unfold and_si128, srli_epi32. rewrite M, !dwords_of_dwords. cbn [map zipw].
    rewrite !(dword_mod d0), !(dword_mod d1), !(dword_mod d2), !(dword_mod d3) by assumption.
    rewrite !dword_mod by (apply div_word; assumption). rewrite !land1023. reflexivity. }
  destruct t; cbn [lanes30 colour].
  - rewrite !S by lia. f_equal. f_equal. unfold and_si128. rewrite M, !dwords_of_dwords. cbn [map zipw].
    rewrite !dword_mod by assumption. rewrite !land1023. reflexivity.
  - rewrite !S by lia.
    assert (T : forall d, is_word d -> (d / 2 ^ 22) mod 1024 = d / 2 ^ 22).
    { unfold is_word. intros d H. apply Z.mod_small. split; [apply Z.div_pos; lia|apply Z.div_lt_upper_bound; lia]. }
    rewrite !T by assumption. reflexivity.
Qed.
Lemma packus_ten a0 a1 a2 a3 b0 b1 b2 b3 :
  ten a0 -> ten a1 -> ten a2 -> ten a3 -> ten b0 -> ten b1 -> ten b2 -> ten b3 ->
  packus_epi32 (of_dwords [a0; a1; a2; a3]) (of_dwords [b0; b1; b2; b3]) = of_words [a0; a1; a2; a3; b0; b1; b2; b3].
Proof.
  unfold ten. intros. unfold packus_epi32. rewrite !sdwords_of_dwords. cbn [map app].
  rewrite !wrap32_small by lia. unfold sat. do 2 f_equal; try lia. repeat (f_equal; try lia).
Qed.
Lemma colour_ten d c : is_word d -> (c < 3)%nat -> ten (colour t d c).
Proof.
  intros H Hc. unfold ten. destruct t, c as [|[|[|c]]]; try lia; cbn [colour]; try (apply Z.mod_pos_bound; lia).
  unfold is_word in H. split; [apply Z.div_pos; lia|apply Z.div_lt_upper_bound; lia].
Qed.

(** ** Four pixels from memory *)
Definition bytes16_at (s : list Z) (off : nat) : m128 := map (fun i => nth (off + i) s 0) (seq 0 16).
Lemma word_at_off s off : bytes s ->
  is_word (word_of_bytes (nth off s 0) (nth (off + 1) s 0) (nth (off + 2) s 0) (nth (off + 3) s 0)).
Proof. intro B. apply bytes_word; apply (bytes_nth s); exact B. Qed.
Lemma comp_word s off c : bytes s -> (c < 3)%nat ->
  colour t (ordered o (word_of_bytes (nth off s 0) (nth (off + 1) s 0) (nth (off + 2) s 0) (nth (off + 3) s 0))) c = comp t o s off c.
Proof.
  intros B Hc. unfold comp. rewrite unpack_ordered.
  pose proof (ordered_word o _ (word_at_off s off B)) as W. set (w := ordered o _) in *.
  destruct t, c as [|[|[|c]]]; try lia; cbn [unpack lane cr cgr cb colour]; rewrite ?Z.shiftr_div_pow2 by lia; rewrite ?land1023; try reflexivity.
  symmetry. apply Z.mod_small. unfold is_word in W. split; [apply Z.div_pos; lia|apply Z.div_lt_upper_bound; lia].
Qed.
Lemma comp_ten s off c : bytes s -> (c < 3)%nat -> ten (comp t o s off c).
Proof. intros B Hc. rewrite <- comp_word by assumption. apply colour_ten; [apply ordered_word, word_at_off; exact B|exact Hc]. Qed.

Definition lane4 (s : list Z) (off c : nat) : m128 :=
  of_dwords [comp t o s off c; comp t o s (off + 4) c; comp t o s (off + 8) c; comp t o s (off + 12) c].
Lemma lanes_px s off : bytes s ->
  lanes30 t (host_order o (bytes16_at s off)) = (lane4 s off 0, lane4 s off 1, lane4 s off 2).
Proof.
  intro B.
  set (W k := word_of_bytes (nth (off + k) s 0) (nth (off + k + 1) s 0) (nth (off + k + 2) s 0) (nth (off + k + 3) s 0)).
  assert (E : bytes16_at s off = of_dwords [W 0; W 4; W 8; W 12]%nat).
  { assert (Bl : bytes (bytes16_at s off)).
    { unfold bytes, bytes16_at. rewrite Forall_forall. intros x Hx. rewrite in_map_iff in Hx. destruct Hx as (i & <- & _). now apply bytes_nth. }
    rewrite <- (bytes_dwords (bytes16_at s off) Bl) by (exists 4%nat; reflexivity).
    f_equal. unfold bytes16_at. cbn [seq map dwords]. unfold W.
    rewrite !word_sum by (apply (bytes_nth s); exact B). rewrite <- !Nat.add_assoc. cbn [Nat.add]. rewrite ?Nat.add_0_r.
    repeat (f_equal; try ring). }
  rewrite E.
  assert (HW : forall k, is_word (W k)) by (intro k; apply word_at_off; exact B).
  rewrite host_order_dwords by apply HW. rewrite lanes30_ok by (apply ordered_word, HW).
  unfold lane4, W. rewrite !comp_word by (auto; lia). rewrite Nat.add_0_r. reflexivity.
Qed.

Definition oct (f : nat -> Z) : m128 := of_words [f 0%nat; f 1%nat; f 2%nat; f 3%nat; f 4%nat; f 5%nat; f 6%nat; f 7%nat].
Lemma packus_lanes s s' off off' c : bytes s -> bytes s' -> (c < 3)%nat ->
  packus_epi32 (lane4 s off c) (lane4 s' off' c) =
  of_words [comp t o s off c; comp t o s (off + 4) c; comp t o s (off + 8) c; comp t o s (off + 12) c;
            comp t o s' off' c; comp t o s' (off' + 4) c; comp t o s' (off' + 8) c; comp t o s' (off' + 12) c].
Proof. intros B B' Hc. apply packus_ten; apply comp_ten; assumption. Qed.

(** ** The interleaving *)
Section Mix.
Variables r0 r1 r2 r3 r4 r5 r6 r7 g0 g1 g2 g3 g4 g5 g6 g7 b0 b1 b2 b3 b4 b5 b6 b7 : Z.
Let px (r g b : Z) : list Z := [r; g; b; 3].
Lemma interleave4_ok :
  interleave4 (of_words [r0; r1; r2; r3; r4; r5; r6; r7]) (of_words [g0; g1; g2; g3; g4; g5; g6; g7]) (of_words [b0; b1; b2; b3; b4; b5; b6; b7]) =
  (of_words (px r0 g0 b0 ++ px r1 g1 b1), of_words (px r4 g4 b4 ++ px r5 g5 b5),
   of_words (px r2 g2 b2 ++ px r3 g3 b3), of_words (px r6 g6 b6 ++ px r7 g7 b7)).
Proof. reflexivity. Qed.
Lemma shuffle_sh1 : shuffle_epi8 (of_words (px r0 g0 b0 ++ px r1 g1 b1)) sh1 = of_words [r0; r1; g0; g1; b0; b1; 3; 3].
Proof. reflexivity. Qed.
Lemma lo64 r2' g2' b2' : unpacklo_epi64 (of_words (px r0 g0 b0 ++ px r1 g1 b1)) (of_words (px r2 g2 b2 ++ px r2' g2' b2')) =
  of_words (px r0 g0 b0 ++ px r2 g2 b2).
Proof. reflexivity. Qed.
End Mix.
End Format.

(** ** Convolution steps *)
Section Steps.
Variables (t : rgb30) (o : byte_order).
(** The first three 32-bit lanes. *)
Definition acc3 (s : m128) (A : nat -> Z) : Prop := exists a, acc s [A 0%nat; A 1%nat; A 2%nat; a].
Definition pair_of (a b : Z) : Z := wrap32 (a mod 65536 + 65536 * (b mod 65536)).
Lemma swords_pair a b : i16 a -> i16 b -> swords (set1_epi32 (pair_of a b)) = [a; b; a; b; a; b; a; b].
Proof. intros Ha Hb. rewrite swords_set1_32. unfold pair_of. rewrite pair_lo, pair_hi by assumption. reflexivity. Qed.
Lemma swords_px a0 a1 b0 b1 c0 c1 : ten a0 -> ten a1 -> ten b0 -> ten b1 -> ten c0 -> ten c1 ->
  swords (of_words [a0; a1; b0; b1; c0; c1; 3; 3]) = [a0; a1; b0; b1; c0; c1; 3; 3].
Proof. unfold ten. intros. rewrite swords_of_words. cbn [map]. rewrite !s16_small by (unfold i16; lia). reflexivity. Qed.
Lemma acc3_ext s A B : (forall c, (c < 3)%nat -> A c = B c) -> acc3 s A -> acc3 s B.
Proof. intros H [a HA]. exists a. rewrite <- !H by lia. exact HA. Qed.

Lemma step_pair s A (a b : nat -> Z) w0 w1 : acc3 s A -> i16 w0 -> i16 w1 ->
  (forall c, (c < 3)%nat -> ten (a c)) -> (forall c, (c < 3)%nat -> ten (b c)) ->
  acc3 (add_epi32 s (madd_epi16 (of_words [a 0%nat; b 0%nat; a 1%nat; b 1%nat; a 2%nat; b 2%nat; 3; 3]) (set1_epi32 (pair_of w0 w1))))
       (fun c => A c + (a c * w0 + b c * w1)).
Proof.
  intros [x Hs] H0 H1 Ha Hb. eexists.
  change (add_epi32 s (madd_epi16 ?p ?w)) with (dot16 s p w).
  eapply acc_eq; [eapply acc_dot16; [exact Hs|apply swords_px; auto|apply swords_pair; assumption]|].
  cbn [zipw pair_sums]. reflexivity.
Qed.

Lemma load16 s off : (off + 16 <= length s)%nat -> load 16 s off = Done (bytes16_at s off).
Proof. intro L. rewrite load_ok by exact L. cbn [Nat.sub repeat]. rewrite app_nil_r. reflexivity. Qed.

Lemma conv8_ok x src w0 w1 w2 w3 w4 w5 w6 w7 s A : bytes src -> (x * 4 + 32 <= length src)%nat ->
  i16 w0 -> i16 w1 -> i16 w2 -> i16 w3 -> i16 w4 -> i16 w5 -> i16 w6 -> i16 w7 -> acc3 s A ->
  let p k c := comp t o src ((x + k) * 4) c in
  yields (conv8 t o x src (set1_epi32 (pair_of w0 w1)) (set1_epi32 (pair_of w2 w3)) (set1_epi32 (pair_of w4 w5)) (set1_epi32 (pair_of w6 w7)) s)
    (fun s' => acc3 s' (fun c => A c + (p 0%nat c * w0 + p 1%nat c * w1) + (p 4%nat c * w2 + p 5%nat c * w3)
                              + (p 2%nat c * w4 + p 3%nat c * w5) + (p 6%nat c * w6 + p 7%nat c * w7))).
Proof.
  intros B L H0 H1 H2 H3 H4 H5 H6 H7 Hs p. unfold conv8. rewrite !load16 by lia. cbn [bind].
  unfold unzip_4_separate, unzip_3. rewrite !lanes_px by exact B. rewrite !packus_lanes by (auto; lia).
  rewrite interleave4_ok, !shuffle_sh1. eexists. split; [reflexivity|].
  assert (P : forall k c, (c < 3)%nat -> ten (p k c)) by (intros; apply comp_ten; assumption).
  assert (E : forall k off c, off = ((x + k) * 4)%nat -> comp t o src off c = p k c) by (intros k off c ->; reflexivity).
  rewrite !(E 0%nat (x * 4)%nat), !(E 1%nat (x * 4 + 4)%nat), !(E 2%nat (x * 4 + 8)%nat), !(E 3%nat (x * 4 + 12)%nat),
    !(E 4%nat (x * 4 + 16)%nat), !(E 5%nat (x * 4 + 16 + 4)%nat), !(E 6%nat (x * 4 + 16 + 8)%nat), !(E 7%nat (x * 4 + 16 + 12)%nat) by lia.
  apply step_pair; auto. apply step_pair; auto. apply step_pair; auto. apply step_pair; auto.
Qed.

Lemma conv4_ok x src w0 w1 w2 w3 s A : bytes src -> (x * 4 + 16 <= length src)%nat ->
  i16 w0 -> i16 w1 -> i16 w2 -> i16 w3 -> acc3 s A ->
  let p k c := comp t o src ((x + k) * 4) c in
  yields (conv4 t o x src (set1_epi32 (pair_of w0 w1)) (set1_epi32 (pair_of w2 w3)) s)
    (fun s' => acc3 s' (fun c => A c + (p 0%nat c * w0 + p 0%nat c * w1) + (p 2%nat c * w2 + p 2%nat c * w3))).
Proof.
  intros B L H0 H1 H2 H3 Hs p. unfold conv4. rewrite !load16 by lia. cbn [bind].
  unfold unzips_4_separate, unzips_3. rewrite !lanes_px by exact B. rewrite !packus_lanes by (auto; lia).
  rewrite interleave4_ok, !lo64, !shuffle_sh1. eexists. split; [reflexivity|].
  assert (P : forall k c, (c < 3)%nat -> ten (p k c)) by (intros; apply comp_ten; assumption).
  assert (E : forall k off c, off = ((x + k) * 4)%nat -> comp t o src off c = p k c) by (intros k off c ->; reflexivity).
  rewrite !(E 0%nat (x * 4)%nat), !(E 2%nat (x * 4 + 8)%nat) by lia.
  apply step_pair; auto. apply step_pair; auto.
Qed.

Lemma conv1_ok x src w s A : bytes src -> (x * 4 + 4 <= length src)%nat -> i16 w -> acc3 s A ->
  yields (conv1 t o x src (set1_epi16 w) s) (fun s' => acc3 s' (fun c => A c + comp t o src (x * 4) c * w)).
Proof.
  intros B L Hw Hs. unfold conv1, ld1. rewrite !(idx_ok src _ 0) by lia. cbn [bind].
  eexists. split; [reflexivity|].
  pose proof (comp_ten t o src (x * 4) 0 B ltac:(lia)) as T0. pose proof (comp_ten t o src (x * 4) 1 B ltac:(lia)) as T1.
  pose proof (comp_ten t o src (x * 4) 2 B ltac:(lia)) as T2. unfold comp in *. cbn [lane] in *.
  set (u := unpack t o _) in *. unfold ten in *.
  assert (U : unpacklo_epi16 (of_words [cr u; cgr u; cb u; 1023; 0; 0; 0; 0]) zeros = of_words [cr u; 0; cgr u; 0; cb u; 0; 1023; 0]) by reflexivity.
  rewrite U. destruct Hs as [a Hs]. eexists.
  change (add_epi32 s (madd_epi16 ?p ?w)) with (dot16 s p w).
  eapply acc_eq; [eapply acc_dot16; [exact Hs| |apply swords_set1_16]|].
  - rewrite swords_of_words. cbn [map]. rewrite !s16_small by (unfold i16; lia). reflexivity.
  - cbn [repeat zipw pair_sums]. rewrite s16_small by assumption. unfold lane. rewrite !Z.mul_0_l, !Z.add_0_r. reflexivity.
Qed.
End Steps.

(** ** One destination pixel *)
Lemma tap30_8 n m i : (8 * m + 8 < n)%nat -> (i < 8)%nat ->
  tap30 n (8 * m + i) = (8 * m + nth i [0; 1; 4; 5; 2; 3; 6; 7] 0)%nat.
Proof.
  intros Hn Hi. unfold tap30.
  assert (E : (m + 1 <= (n - 1) / 8)%nat) by (apply Nat.div_le_lower_bound; lia).
  replace (8 * m + i <? 8 * ((n - 1) / 8))%nat with true by lia.
  replace (8 * m + i)%nat with (i + m * 8)%nat by lia.
  rewrite Nat.div_add, Nat.mod_add by lia. rewrite (Nat.div_small i 8), (Nat.mod_small i 8) by lia. reflexivity.
Qed.
Lemma tap30_end n m : (8 * m < n)%nat -> (n <= 8 * m + 8)%nat -> (8 * ((n - 1) / 8) = 8 * m)%nat.
Proof. intros H1 H2. f_equal. symmetry. apply Nat.div_unique with (n - 1 - 8 * m)%nat; lia. Qed.
Lemma tap30_le n k : (k < n)%nat -> (tap30 n k < n)%nat.
Proof.
  intro Hk. unfold tap30. pose proof (Nat.div_mod (n - 1) 8 ltac:(lia)). set (q := ((n - 1) / 8)%nat) in *.
  destruct (k <? 8 * q)%nat eqn:E.
  - pose proof (Nat.div_mod k 8 ltac:(lia)). pose proof (Nat.mod_upper_bound k 8 ltac:(lia)).
    set (j := (k mod 8)%nat) in *. set (r := (k / 8)%nat) in *.
    destruct j as [|[|[|[|[|[|[|[|j]]]]]]]]; cbn [nth]; lia.
  - destruct ((k <? 8 * q + 4) && (8 * q + 4 <? n))%nat eqn:E2; [|exact Hk].
    destruct (k - 8 * q)%nat as [|[|[|[|j]]]] eqn:Ej; cbn [nth]; lia.
Qed.
Lemma zsum_add_n n m f : zsum (n + m) f = zsum n f + zsum m (fun k => f (n + k)%nat).
Proof.
  induction m as [|m IH]; [rewrite Nat.add_0_r; cbn [zsum]; ring|]. rewrite Nat.add_succ_r. cbn [zsum]. rewrite IH. ring.
Qed.

Section Pixel.
Variables (t : rgb30) (o : byte_order).
Variables (src : list Z) (b : fbound) (ws : list Z).
Hypothesis Hb : bytes src.
Hypothesis Hs : ((bstart b + bsize b) * 4 <= length src)%nat.
Hypothesis Hw : (bsize b <= length ws)%nat.
Hypothesis Hi : Forall i16 ws.
Let n := bsize b.
(** The sum of the first j products. *)
Definition part (rnd : Z) (j c : nat) : Z :=
  rnd + zsum j (fun k => comp t o src ((bstart b + tap30 (bsize b) k) * 4) c * nth k ws 0).

Lemma sum30 rnd : (1 <= n)%nat ->
  yields ('(jx, s) <- taps b 8 8 (fun s jx =>
     w0 <- read_pair ws jx ;; w1 <- read_pair ws (jx + 2) ;;
     w2 <- read_pair ws (jx + 4) ;; w3 <- read_pair ws (jx + 6) ;;
     conv8 t o (bstart b + jx) src (set1_epi32 w0) (set1_epi32 w1) (set1_epi32 w2) (set1_epi32 w3) s) 0%nat (set1_epi32 rnd) ;;
  '(jx, s) <- taps b 4 4 (fun s jx =>
     w0 <- read_pair ws jx ;; w1 <- read_pair ws (jx + 2) ;;
     conv4 t o (bstart b + jx) src (set1_epi32 w0) (set1_epi32 w1) s) jx s ;;
  taps b 1 0 (fun s jx =>
     w <- idx ws jx ;;
     conv1 t o (bstart b + jx) src (set1_epi16 w) s) jx s)
  (fun r => acc3 (snd r) (part rnd n)).
Proof.
  intro N1. unfold taps. fold n.
  assert (W : forall j, i16 (nth j ws 0)) by (intro; apply i16_nth; exact Hi).
  eapply yields_bind.
  { apply (while_tiles_inv (fun jx s => (exists m, jx = 8 * m)%nat /\ (jx < n)%nat /\ acc3 s (part rnd jx))); [lia| |lia|].
    - intros jx s L ([m ->] & _ & HA). rewrite !read_pair_ok by (fold n in Hw; lia). cbn [bind].
      eapply yields_weaken; [apply (conv8_ok t o (bstart b + 8 * m) src _ _ _ _ _ _ _ _ s _ Hb ltac:(fold n in Hs; lia)
         (W (8 * m)%nat) (W (8 * m + 1)%nat) (W (8 * m + 2)%nat) (W (8 * m + 2 + 1)%nat) (W (8 * m + 4)%nat) (W (8 * m + 4 + 1)%nat)
         (W (8 * m + 6)%nat) (W (8 * m + 6 + 1)%nat) HA)|].
      intros s' HA'. split; [exists (m + 1)%nat; lia|]. split; [lia|]. revert HA'. apply acc3_ext. intros c Hc.
      unfold part. rewrite zsum_add_n. cbn [zsum]. fold n. rewrite !tap30_8 by lia. cbn [nth].
      rewrite !Nat.add_0_r, <- !Nat.add_assoc. cbn [Nat.add]. ring.
    - split; [exists 0%nat; lia|]. split; [lia|]. exists rnd. eapply acc_eq; [apply acc_set1|].
      unfold part. cbn [zsum]. rewrite !Z.add_0_r. reflexivity. }
  intros [e s] ([[m Em] [Le HA]] & Lx & _ & _). cbn [fst snd] in *. subst e.
  pose proof (tap30_end n m Le Lx) as EE.
  eapply yields_bind.
  { apply (while_tiles_inv (fun jx s => (jx = 8 * m \/ (jx = 8 * m + 4 /\ 8 * m + 4 < n))%nat /\ acc3 s (part rnd jx))); [lia| |lia|].
    - intros jx s' L ([->|[-> _]] & HB); [|lia]. rewrite !read_pair_ok by (fold n in Hw; lia). cbn [bind].
      eapply yields_weaken; [apply (conv4_ok t o (bstart b + 8 * m) src _ _ _ _ s' _ Hb ltac:(fold n in Hs; lia)
         (W (8 * m)%nat) (W (8 * m + 1)%nat) (W (8 * m + 2)%nat) (W (8 * m + 2 + 1)%nat) HB)|].
      intros s'' HC. split; [right; lia|]. revert HC. apply acc3_ext. intros c Hc.
      unfold part. rewrite zsum_add_n. cbn [zsum]. fold n.
      assert (T : forall i, (i < 4)%nat -> tap30 n (8 * m + i) = (8 * m + nth i [0; 0; 2; 2] 0)%nat).
      { intros i Hi4. unfold tap30. rewrite EE. replace (8 * m + i <? 8 * m)%nat with false by lia.
        replace ((8 * m + i <? 8 * m + 4) && (8 * m + 4 <? n))%nat with true by lia.
        replace (8 * m + i - 8 * m)%nat with i by lia. reflexivity. }
      rewrite !T by lia. cbn [nth]. rewrite !Nat.add_0_r, <- !Nat.add_assoc. cbn [Nat.add]. ring.
    - split; [left; reflexivity|exact HA]. }
  intros [e s'] ([Pe HB] & Ly & _ & _). cbn [fst snd] in *.
  eapply yields_weaken; [apply (while_tiles_inv (fun jx s => (e <= jx <= n)%nat /\ acc3 s (part rnd jx)));
    [lia| |lia|split; [lia|exact HB]]|].
  - intros jx s2 L ((J1 & J1') & J2). rewrite (idx_ok ws _ 0) by (fold n in Hw; lia). cbn [bind].
    eapply yields_weaken; [apply (conv1_ok t o (bstart b + jx) src _ s2 _ Hb ltac:(fold n in Hs; lia) (W jx) J2)|].
    intros s3 J4. split; [lia|]. revert J4. apply acc3_ext. intros c Hc. unfold part.
    rewrite zsum_add_n. cbn [zsum]. fold n. rewrite Nat.add_0_r.
    replace (tap30 n jx) with jx; [ring|]. unfold tap30. rewrite EE.
    replace (jx <? 8 * m)%nat with false by lia.
    destruct ((jx <? 8 * m + 4) && (8 * m + 4 <? n))%nat eqn:E3; [exfalso; lia|reflexivity].
  - intros [j s2] ((J1 & J2) & J3 & _). cbn [fst snd] in *. replace n with j by lia. exact J2.
Qed.
End Pixel.

(** ** Packing *)
Section Pack.
Variables (t : rgb30) (o : byte_order).

(** The 32-bit word all the packing code builds, with the order of its or's. *)
Definition or30 (r g b : Z) : Z :=
  match t with
  | Ar30 => Z.lor (Z.lor (Z.lor (Z.shiftl 3 30) (b * 2 ^ 20)) (g * 2 ^ 10)) r
  | Ra30 => Z.lor (Z.lor (Z.lor 3 (b * 2 ^ 2)) (g * 2 ^ 12)) (r * 2 ^ 22)
  end.
Lemma ten_u32 v n : ten v -> 0 <= n <= 22 -> u32 (Z.shiftl (u32 v) n) = v * 2 ^ n /\ is_word (v * 2 ^ n).
Proof.
  unfold ten. intros H Hn.
  assert (W : is_word (v * 2 ^ n)).
  { unfold is_word. assert (1 <= 2 ^ n <= 2 ^ 22) by (split; [apply Z.lt_pred_le, Z.pow_pos_nonneg; lia|apply Z.pow_le_mono_r; lia]).
    change (2 ^ 22) with 4194304 in *. nia. }
  split; [|exact W]. rewrite (u32_small v) by (unfold is_word; lia). rewrite Z.shiftl_mul_pow2 by lia. now apply u32_small.
Qed.
Lemma or30_pack r g b : ten r -> ten g -> ten b -> or30 r g b = pack_w_a t HostOrder r g b /\ is_word (or30 r g b).
Proof.
  intros Hr Hg Hb. assert (E : or30 r g b = pack_w_a t HostOrder r g b).
  { unfold or30, pack_w_a. destruct t.
    - rewrite (proj1 (ten_u32 b 20 Hb ltac:(lia))), (proj1 (ten_u32 g 10 Hg ltac:(lia))).
      rewrite (u32_small r) by (unfold is_word, ten in *; lia). rewrite <- !Z.lor_assoc. reflexivity.
    - rewrite (proj1 (ten_u32 r 22 Hr ltac:(lia))), (proj1 (ten_u32 g 12 Hg ltac:(lia))), (proj1 (ten_u32 b 2 Hb ltac:(lia))).
      rewrite (Z.lor_comm 3 (b * 2 ^ 2)). rewrite (Z.lor_comm _ (r * 2 ^ 22)). rewrite (Z.lor_comm _ (g * 2 ^ 12)).
      rewrite Z.lor_assoc. reflexivity. }
  split; [exact E|]. rewrite E. apply pack_is_word; assumption.
Qed.

(** Every other 32-bit lane zero. *)
Definition half4 (x y : Z) : m128 := of_dwords [x; 0; y; 0].
Lemma dwords_half4 x y : is_word x -> is_word y -> dwords (half4 x y) = [x; 0; y; 0].
Proof. intros Hx Hy. unfold half4. rewrite dwords_of_dwords. cbn [map]. rewrite (dword_mod x), (dword_mod y) by assumption. reflexivity. Qed.
Lemma mask64 x d0 d1 d2 d3 : dwords x = [d0; d1; d2; d3] -> and_si128 x (set1_epi64x 1023) = half4 (d0 mod 1024) (d2 mod 1024).
Proof.
  intro H. unfold and_si128. rewrite H. change (dwords (set1_epi64x 1023)) with [1023; 0; 1023; 0]. cbn [zipw].
  rewrite !land1023, !Z.land_0_r. reflexivity.
Qed.
Lemma or_half4 a b c d : is_word a -> is_word b -> is_word c -> is_word d -> or_si128 (half4 a b) (half4 c d) = half4 (Z.lor a c) (Z.lor b d).
Proof. intros. unfold or_si128. rewrite !dwords_half4 by assumption. reflexivity. Qed.
Lemma slli_half4 n x y : ten x -> ten y -> 0 <= n <= 22 -> slli_epi64 n (half4 x y) = half4 (x * 2 ^ n) (y * 2 ^ n).
Proof.
  intros Hx Hy Hn. destruct (ten_u32 x n Hx Hn) as [_ Wx]. destruct (ten_u32 y n Hy Hn) as [_ Wy].
  unfold slli_epi64, qwords, of_qwords. rewrite dwords_half4 by (unfold is_word, ten in *; lia).
  cbn [pair_up map flat_map app]. rewrite Z.mul_0_r, !Z.add_0_r. unfold is_word in *.
  rewrite !(Z.div_small _ (2 ^ 32)) by lia. reflexivity.
Qed.
Lemma lor_word a b : is_word a -> is_word b -> is_word (Z.lor a b).
Proof.
  unfold is_word. intros Ha Hb. split; [apply Z.lor_nonneg; lia|].
  destruct (Z.eq_dec (Z.lor a b) 0) as [->|N]; [lia|].
  change 4294967296 with (2 ^ 32). apply Z.log2_lt_pow2; [pose proof (proj2 (Z.lor_nonneg a b)); lia|].
  rewrite Z.log2_lor by lia.
  assert (G : forall x, 0 <= x < 4294967296 -> Z.log2 x < 32).
  { intros x Hx. destruct (Z.eq_dec x 0) as [->|]; [cbn; lia|]. apply Z.log2_lt_pow2; lia. }
  apply Z.max_lub_lt; apply G; assumption.
Qed.
Lemma mod1024 a k : (a + 1024 * k) mod 1024 = a mod 1024.
Proof. rewrite Z.mul_comm. apply Z_mod_plus_full. Qed.
Lemma mod32_1024 a : (a mod 4294967296) mod 1024 = a mod 1024.
Proof. rewrite (Z.mod_eq a 4294967296) by lia. replace (a - 4294967296 * (a / 4294967296)) with (a + 1024 * (- 4194304 * (a / 4294967296))) by ring. apply mod1024. Qed.
Lemma mod16_1024 a : (a mod 65536) mod 1024 = a mod 1024.
Proof. rewrite (Z.mod_eq a 65536) by lia. replace (a - 65536 * (a / 65536)) with (a + 1024 * (- 64 * (a / 65536))) by ring. apply mod1024. Qed.

Lemma extract_ok r g b a r' g' b' a' :
  firstn 4 (extract t o (of_words [r; g; b; a; r'; g'; b'; a'])) =
  bytes_of_word (pack_w_a t o (r mod 1024) (g mod 1024) (b mod 1024)).
Proof.
  set (v := of_words _).
  assert (D : dwords v = [r mod 65536 + 65536 * (g mod 65536); b mod 65536 + 65536 * (a mod 65536);
                          r' mod 65536 + 65536 * (g' mod 65536); b' mod 65536 + 65536 * (a' mod 65536)]).
  { unfold v, of_words, word_bytes. cbn [flat_map app dwords]. rewrite <- !bytes16. repeat (f_equal; try ring). }
  pose proof (Z.mod_pos_bound r 65536 ltac:(lia)) as R1. pose proof (Z.mod_pos_bound g 65536 ltac:(lia)) as G1.
  pose proof (Z.mod_pos_bound r' 65536 ltac:(lia)) as R2. pose proof (Z.mod_pos_bound g' 65536 ltac:(lia)) as G2.
  assert (ER : forall x y, ((x mod 65536) + 65536 * y) mod 1024 = x mod 1024).
  { intros x y. replace (65536 * y) with (1024 * (64 * y)) by ring. rewrite mod1024. apply mod16_1024. }
  unfold extract.
  rewrite (mask64 v _ _ _ _ D), !ER.
  assert (Q : qwords v = [r mod 65536 + 65536 * (g mod 65536) + 2 ^ 32 * (b mod 65536 + 65536 * (a mod 65536));
                          r' mod 65536 + 65536 * (g' mod 65536) + 2 ^ 32 * (b' mod 65536 + 65536 * (a' mod 65536))]).
  { unfold qwords. rewrite D. reflexivity. }
  assert (S1 : forall x y z, 0 <= x < 65536 -> (x + 65536 * y + 2 ^ 32 * z) / 2 ^ 16 = y + 65536 * z).
  { intros x y z Hx. symmetry. apply Z.div_unique with x; [lia|]. change (2 ^ 32) with (2 ^ 16 * 65536). change (2 ^ 16) with 65536. ring. }
  assert (S2 : forall x y z, 0 <= x < 65536 -> 0 <= y < 65536 -> (x + 65536 * y + 2 ^ 32 * z) / 2 ^ 32 = z).
  { intros x y z Hx Hy. symmetry. apply Z.div_unique with (x + 65536 * y); [change (2 ^ 32) with (65536 * 65536); lia|ring]. }
  assert (DG : exists d1 d3, dwords (srli_epi64 16 v) = [(g mod 65536 + 65536 * (b mod 65536 + 65536 * (a mod 65536))) mod 4294967296; d1;
                                         (g' mod 65536 + 65536 * (b' mod 65536 + 65536 * (a' mod 65536))) mod 4294967296; d3]).
  { unfold srli_epi64, of_qwords. rewrite Q. cbn [map flat_map app]. rewrite !S1 by assumption. rewrite dwords_of_dwords. cbn [map].
    do 2 eexists. reflexivity. }
  assert (DB : exists d1 d3, dwords (srli_epi64 32 v) = [(b mod 65536 + 65536 * (a mod 65536)) mod 4294967296; d1;
                                         (b' mod 65536 + 65536 * (a' mod 65536)) mod 4294967296; d3]).
  { unfold srli_epi64, of_qwords. rewrite Q. cbn [map flat_map app]. rewrite !S2 by assumption. rewrite dwords_of_dwords. cbn [map].
    do 2 eexists. reflexivity. }
  destruct DG as (d1 & d3 & DG). destruct DB as (d1' & d3' & DB).
  rewrite (mask64 _ _ _ _ _ DG), (mask64 _ _ _ _ _ DB), !mod32_1024, !ER.
  assert (T : forall x, ten (x mod 1024)) by (intro x; unfold ten; apply Z.mod_pos_bound; lia).
  assert (TW : forall x, is_word (x mod 1024)) by (intro x; specialize (T x); unfold is_word, ten in *; lia).
  assert (TS : forall x n, 0 <= n <= 22 -> is_word ((x mod 1024) * 2 ^ n)) by (intros x n Hn; apply ten_u32; auto).
  pose proof (or30_pack _ _ _ (T r) (T g) (T b)) as [P W].
  pose proof (or30_pack _ _ _ (T r') (T g') (T b')) as [_ W'].
  rewrite pack_ordered, <- P.
  assert (E : forall w w', is_word w -> is_word w' -> firstn 4 (host_order o (half4 w w')) = bytes_of_word (ordered o w)).
  { intros w w' Hw Hw'. unfold half4. rewrite host_order_dwords by (auto; unfold is_word; lia).
    rewrite bytes_sum. reflexivity. }
  unfold or30 in *. destruct t.
  - rewrite !slli_half4 by (auto; lia). change (set1_epi64x (Z.shiftl 3 30)) with (half4 (Z.shiftl 3 30) (Z.shiftl 3 30)).
    assert (A3 : is_word (Z.shiftl 3 30)) by (unfold is_word; cbn; lia).
    rewrite !or_half4 by (repeat apply lor_word; auto; apply TS; lia). apply E; assumption.
  - rewrite !slli_half4 by (auto; lia). change (set1_epi64x 3) with (half4 3 3).
    assert (A3 : is_word 3) by (unfold is_word; lia).
    rewrite !or_half4 by (repeat apply lor_word; auto; apply TS; lia). apply E; assumption.
Qed.
End Pack.

(** ** The row kernels *)
Section RowKernels.
Variables (t : rgb30) (o : byte_order).
Definition compf (s : nat -> Z) (off c : nat) : Z :=
  lane c (unpack t o (word_of_bytes (s off) (s (off + 1)%nat) (s (off + 2)%nat) (s (off + 3)%nat))).
Definition acc30 (prec : Z) (s : nat -> Z) (b : fbound) (w : nat -> Z) (c : nat) : Z :=
  2 ^ (prec - 1) - 1 + zsum (bsize b) (fun k => compf s ((bstart b + tap30 (bsize b) k) * 4) c * w k).
(** What the packing keeps of an accumulator. *)
Definition out30 (prec cut v : Z) : Z := Z.min (s16 (sat 0 65535 (wrap32 v / 2 ^ prec))) cut mod 1024.
Definition val30 (prec : Z) (c0 c1 c2 : Z) (s : nat -> Z) (b : fbound) (w : nat -> Z) (c : nat) : Z :=
  nth c (bytes_of_word (pack_w_a t o (out30 prec c0 (acc30 prec s b w 0)) (out30 prec c1 (acc30 prec s b w 1)) (out30 prec c2 (acc30 prec s b w 2)))) 0.

Lemma wrap32_div v n : 0 <= n -> wrap32 (wrap32 v / 2 ^ n) = wrap32 v / 2 ^ n.
Proof.
  intro Hn. pose proof (wrap32_range v) as R. pose proof (Z.pow_pos_nonneg 2 n ltac:(lia) Hn) as P.
  apply wrap32_small. change (2 ^ 31) with 2147483648 in *. split.
  - apply Z.div_le_lower_bound; [lia|]. nia.
  - apply Z.div_lt_upper_bound; [lia|]. nia.
Qed.
Lemma finish30 prec s A cut c0 c1 c2 c3 c4 c5 c6 c7 : 0 <= prec -> acc3 s A -> swords cut = [c0; c1; c2; c3; c4; c5; c6; c7] ->
  firstn 4 (extract t o (min_epi16 (packus_epi32 (srai_epi32 prec s) (srai_epi32 prec s)) cut)) =
  bytes_of_word (pack_w_a t o (out30 prec c0 (A 0%nat)) (out30 prec c1 (A 1%nat)) (out30 prec c2 (A 2%nat))).
Proof.
  intros Hp [a Hs] Hc. unfold min_epi16. rewrite Hc. unfold packus_epi32.
  rewrite swords_of_words, sdwords_srai. unfold acc in Hs. rewrite Hs. cbn [map app zipw].
  rewrite extract_ok. unfold out30. rewrite !wrap32_div by exact Hp. reflexivity.
Qed.

Lemma pixel30_ok prec cut c0 c1 c2 c3 c4 c5 c6 c7 : 0 <= prec -> swords cut = [c0; c1; c2; c3; c4; c5; c6; c7] ->
  pixel_ok 4 (pixel30 t o prec cut) (val30 prec c0 c1 c2).
Proof.
  intros Hp Hc src b ws Hb H1 Hs Hw Hi. unfold pixel30.
  destruct (sum30 t o src b ws Hb Hs Hw Hi (2 ^ (prec - 1) - 1) H1) as ([jx s] & E & HA).
  cbn [snd] in HA.
  assert (F : forall (m1 : outcome (nat * m128)) (m2 m3 : nat * m128 -> outcome (nat * m128)) r (k : m128 -> list Z),
     ('(jx, s) <- m1 ;; '(jx, s) <- m2 (jx, s) ;; m3 (jx, s)) = Done (jx, r) ->
     ('(jx, s) <- m1 ;; '(jx, s) <- m2 (jx, s) ;; '(_, s) <- m3 (jx, s) ;; Done (k s)) = Done (k r)).
  { intros m1 m2 m3 r k. destruct m1 as [[j1 s1]| |]; cbn [bind]; try discriminate.
    destruct (m2 (j1, s1)) as [[j2 s2]| |]; cbn [bind]; try discriminate. intros ->. reflexivity. }
  refine (eq_trans (F _ (fun p => taps b 4 4 _ (fst p) (snd p)) (fun p => taps b 1 0 _ (fst p) (snd p)) s (fun s => _) E) _).
  cbv beta zeta. f_equal. rewrite (finish30 prec s _ cut c0 c1 c2 c3 c4 c5 c6 c7 Hp HA Hc). reflexivity.
Qed.
Lemma val30_local prec c0 c1 c2 : local_val 4 (val30 prec c0 c1 c2).
Proof.
  intros s s' b w w' c Hb Hc Es Ew. unfold val30.
  assert (E : forall c, acc30 prec s b w c = acc30 prec s' b w' c).
  { intro c'. unfold acc30. f_equal. apply zsum_ext. intros k Hk. pose proof (tap30_le (bsize b) k Hk).
    unfold compf. rewrite !Es by lia. rewrite Ew by lia. reflexivity. }
  rewrite !E. reflexivity.
Qed.

(** In the packed form of Ar30Kernels.v. *)
Lemma out30_ten prec cut v : ten (out30 prec cut v).
Proof. unfold ten, out30. apply Z.mod_pos_bound. lia. Qed.
Lemma packed_out (f : nat -> Z) : (forall c, ten (f c)) ->
  bytes_of_word (pack_w_a t o (f 0%nat) (f 1%nat) (f 2%nat)) = packed t o (fun c => f c * 2 ^ 15).
Proof.
  intro H. unfold packed. assert (C : forall v, ten v -> clamp10 (wrap32 (v * 2 ^ 15)) = v).
  { unfold ten. intros v Hv. rewrite wrap32_small by lia. unfold clamp10, PRECISION. rewrite Z.shiftr_div_pow2 by lia.
    rewrite Z.div_mul by lia. lia. }
  rewrite !C by apply H. reflexivity.
Qed.
Lemma floor_out v : ten v -> floor_q15 1023 (wrap32 (v * 2 ^ 15)) = v.
Proof. unfold ten. intro H. rewrite wrap32_small by lia. unfold floor_q15, clampZ. rewrite Z.div_mul by lia. lia. Qed.
Lemma out30_safe v : - 2 ^ 31 <= v < 2 ^ 30 -> out30 15 1023 v = clampZ 0 1023 (v / 2 ^ 15).
Proof.
  intro H. unfold out30. rewrite wrap32_small by lia.
  assert (v / 2 ^ 15 < 32768) by (apply Z.div_lt_upper_bound; lia). set (q := v / 2 ^ 15) in *.
  unfold sat, clampZ. rewrite s16_small by (unfold i16; lia). rewrite Z.mod_small by lia. lia.
Qed.
Lemma out30_half v : - 2 ^ 31 <= v < 2 ^ 31 -> out30 16 1023 v = clampZ 0 1023 (v / 2 ^ 16).
Proof.
  intro H. unfold out30. rewrite wrap32_small by lia.
  assert (v / 2 ^ 16 < 32768) by (apply Z.div_lt_upper_bound; lia). set (q := v / 2 ^ 16) in *.
  unfold sat, clampZ. rewrite s16_small by (unfold i16; lia). rewrite Z.mod_small by lia. lia.
Qed.
Lemma out30_zero v : out30 16 0 v = 0.
Proof.
  unfold out30. pose proof (wrap32_range v) as R. change (2 ^ 31) with 2147483648 in R.
  assert (wrap32 v / 2 ^ 16 < 32768) by (apply Z.div_lt_upper_bound; lia). set (q := wrap32 v / 2 ^ 16) in *.
  unfold sat. rewrite s16_small by (unfold i16; lia). rewrite Z.min_r by lia. reflexivity.
Qed.
End RowKernels.
