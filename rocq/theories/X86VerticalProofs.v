(** Closed forms of the x86 vertical kernels of X86Vertical.v. *)
From Coq Require Import ZifyBool ZifyNat.
From Verif Require Import Base BaseProofs Spec FixedPoint KernelProofs ColumnProofs Simd SimdProofs X86Vertical.
Local Open Scope Z_scope.

(** A register whose 32-bit lanes hold [l] modulo 2^32. *)
Definition acc (r : m128) (l : list Z) : Prop := sdwords r = map wrap32 l.

Lemma acc_dot16 s p w l ps wl : acc s l -> swords p = ps -> swords w = wl ->
  acc (dot16 s p w) (zipw Z.add l (pair_sums (zipw Z.mul ps wl))).
Proof.
  intros Hs <- <-. unfold acc, dot16. rewrite sdwords_add, Hs, sdwords_madd, zipw_map2, map_zipw.
  apply zipw_ext. intros. rewrite wrap32_add_l, wrap32_add_r. reflexivity.
Qed.
Lemma acc_eq r l l' : acc r l -> l = l' -> acc r l'.
Proof. intros ? <-. assumption. Qed.
Lemma acc_set1 x : acc (set1_epi32 x) [x; x; x; x].
Proof. unfold acc. rewrite sdwords_set1. reflexivity. Qed.

Definition qacc (q : quad) (A : nat -> Z) : Prop :=
  let '(s0, s1, s2, s3) := q in
  acc s0 (map A (seq 0 4)) /\ acc s1 (map A (seq 4 4)) /\ acc s2 (map A (seq 8 4)) /\ acc s3 (map A (seq 12 4)).

Lemma qacc_ext q A B : (forall i, (i < 16)%nat -> A i = B i) -> qacc q A -> qacc q B.
Proof.
  intros H. destruct q as [[[s0 s1] s2] s3]. unfold qacc.
  assert (forall k, (k + 4 <= 16)%nat -> map A (seq k 4) = map B (seq k 4)) as E.
  { intros k Hk. apply map_ext_in. intros i Hi. rewrite in_seq in Hi. apply H. lia. }
  rewrite !E by lia. auto.
Qed.
Lemma qacc_vld : qacc quad_vld (fun _ => ROUNDING_CONST).
Proof. unfold qacc, quad_vld. split; [|split; [|split]]; apply acc_set1. Qed.

Lemma swords_pairs a a' b b' c c' d d' : byte a -> byte a' -> byte b -> byte b' -> byte c -> byte c' -> byte d -> byte d' ->
  swords [a; 0; a'; 0; b; 0; b'; 0; c; 0; c'; 0; d; 0; d'; 0] = [a; a'; b; b'; c; c'; d; d'].
Proof. intros. unfold swords. cbn [words map]. rewrite !s16_byte0 by assumption. reflexivity. Qed.

Lemma dot_quad_ok q A f g w w0 w1 : qacc q A -> (forall i, byte (f i)) -> (forall i, byte (g i)) ->
  swords w = [w0; w1; w0; w1; w0; w1; w0; w1] ->
  qacc (dot_quad q (map f (seq 0 16)) (map g (seq 0 16)) w) (fun i => A i + (f i * w0 + g i * w1)).
Proof.
  intros Hq Hf Hg Hw. destruct q as [[[s0 s1] s2] s3]. unfold qacc in *. destruct Hq as (H0 & H1 & H2 & H3).
  unfold dot_quad. cbn [map seq unpacklo_epi8 unpackhi_epi8 firstn skipn inter1 zeros repeat].
  split; [|split; [|split]];
    (eapply acc_eq; [eapply acc_dot16; [eassumption|apply swords_pairs; auto|exact Hw]|reflexivity]).
Qed.

Lemma acc_length r l : acc r l -> length (sdwords r) = length l.
Proof. unfold acc. intros ->. apply map_length. Qed.

(** ** Narrowing *)
Definition clamp8 (v : Z) : Z := sat 0 255 v.
Lemma sat_packs v : sat 0 255 (s16 (sat (-32768) 32767 v)) = sat 0 255 v.
Proof. unfold sat. rewrite s16_small by (unfold i16; lia). lia. Qed.
Lemma sat_packus v : v < 32768 -> sat 0 255 (s16 (sat 0 65535 v)) = sat 0 255 v.
Proof. intros H. unfold sat. rewrite s16_small by (unfold i16; lia). lia. Qed.
Lemma narrow_sat v : sat 0 255 (wrap32 (wrap32 v / 2 ^ PRECISION)) = saturate_narrow 255 (wrap32 v).
Proof.
  unfold saturate_narrow, sat. rewrite Z.shiftr_div_pow2 by (unfold PRECISION; lia).
  change (2 ^ PRECISION) with 32768. pose proof (wrap32_range v). change (2 ^ 31) with 2147483648 in *.
  assert (- 65536 <= wrap32 v / 32768 <= 65535).
  { split; [apply Z.div_le_lower_bound; lia|]. apply Z.lt_succ_r. apply Z.div_lt_upper_bound; lia. }
  rewrite wrap32_small by (change (2 ^ 31) with 2147483648; lia). lia.
Qed.

Lemma pack_quad_ok q A : qacc q A -> pack_quad q = map (fun i => sat 0 255 (wrap32 (A i))) (seq 0 16).
Proof.
  destruct q as [[[s0 s1] s2] s3]. unfold qacc, acc, pack_quad, packus_epi16, packs_epi32.
  intros (H0 & H1 & H2 & H3). rewrite !swords_of_words, H0, H1, H2, H3.
  cbn [map seq app]. rewrite !sat_packs. reflexivity.
Qed.
Lemma srai_quad_ok q A : qacc q A -> qacc (srai_quad q) (fun i => wrap32 (A i) / 2 ^ PRECISION).
Proof.
  destruct q as [[[s0 s1] s2] s3]. unfold qacc, acc, srai_quad. intros (H0 & H1 & H2 & H3).
  rewrite !sdwords_srai, H0, H1, H2, H3, !map_map. auto.
Qed.

(** The two-store and one-store parts narrow with packus_epi32, which is exact for
    accumulators below 2^30. *)
Definition narrowed (v : Z) : Z := sat 0 255 (s16 (sat 0 65535 (wrap32 (wrap32 v / 2 ^ PRECISION)))).
Lemma narrowed_ok v : wrap32 v < 2 ^ 30 -> narrowed v = saturate_narrow 255 (wrap32 v).
Proof.
  intros H. unfold narrowed. rewrite sat_packus, narrow_sat; [reflexivity|].
  pose proof (wrap32_range v). change (2 ^ 31) with 2147483648 in *. change (2 ^ 30) with 1073741824 in *. change (2 ^ PRECISION) with 32768.
  assert (- 65536 <= wrap32 v / 32768 < 32768).
  { split; [apply Z.div_le_lower_bound; lia|]. apply Z.div_lt_upper_bound; lia. }
  rewrite wrap32_small by (change (2 ^ 31) with 2147483648; lia). lia.
Qed.

(** ** One tile *)
Section Tile.
Variables (src : list Z) (ss : nat) (ws : list Z) (b : fbound) (L : nat).
Hypothesis Hbytes : bytes src.
Hypothesis Hws : (bsize b <= length ws)%nat.
Hypothesis Hi16 : Forall i16 ws.
Hypothesis Hsrc : forall k, (k < bsize b)%nat -> (ss * (bstart b + k) + L <= length src)%nat.

(** The sum over the first j rows of the window. *)
Definition psum (j x : nat) : Z := ROUNDING_CONST + zsum j (fun k => nth (ss * (bstart b + k) + x) src 0 * nth k ws 0).
Definition px_at (j x : nat) : Z := nth (ss * (bstart b + j) + x) src 0.

Lemma px_byte j x : byte (px_at j x).
Proof. apply bytes_nth, Hbytes. Qed.
Lemma w_i16 j : i16 (nth j ws 0).
Proof using Hi16. exact (i16_nth ws j Hi16). Qed.
Lemma psum_S j x : psum (S j) x = psum j x + px_at j x * nth j ws 0.
Proof. unfold psum, px_at. cbn [zsum]. lia. Qed.
Lemma psum_all x : psum (bsize b) x = ROUNDING_CONST + vsum src ss ws b x.
Proof. reflexivity. Qed.

Lemma load_row n j x : (j < bsize b)%nat -> (x + n <= L)%nat ->
  load n src (ss * (bstart b + j) + x) = Done (map (fun i => px_at j (x + i)) (seq 0 n) ++ repeat 0 (16 - n)).
Proof.
  intros Hj Hx. rewrite load_ok by (specialize (Hsrc j Hj); lia). f_equal. f_equal. apply map_ext.
  intro i. unfold px_at. f_equal. lia.
Qed.
Lemma load16_row j x : (j < bsize b)%nat -> (x + 16 <= L)%nat ->
  load 16 src (ss * (bstart b + j) + x) = Done (map (fun i => px_at j (x + i)) (seq 0 16)).
Proof. intros. rewrite load_row by assumption. reflexivity. Qed.

Lemma set1_32_w j : swords (set1_epi32 (nth j ws 0)) =
  let w0 := nth j ws 0 in let w1 := s16 (nth j ws 0 / 65536) in [w0; w1; w0; w1; w0; w1; w0; w1].
Proof. rewrite swords_set1_32, s16_small by apply w_i16. reflexivity. Qed.
Lemma set1_16_w j : swords (set1_epi16 (nth j ws 0)) =
  let w0 := nth j ws 0 in [w0; w0; w0; w0; w0; w0; w0; w0].
Proof. rewrite swords_set1_16, s16_small by apply w_i16. reflexivity. Qed.

(** One row added to a group of four stores; two rows at once. *)
Lemma quad_single q x j w w1 : swords w = [nth j ws 0; w1; nth j ws 0; w1; nth j ws 0; w1; nth j ws 0; w1] ->
  qacc q (fun i => psum j (x + i)) ->
  qacc (dot_quad q (map (fun i => px_at j (x + i)) (seq 0 16)) zeros w) (fun i => psum (j + 1) (x + i)).
Proof.
  intros Hw Hq. change zeros with (map (fun _ : nat => 0) (seq 0 16)).
  eapply qacc_ext; [|eapply dot_quad_ok; [exact Hq|intro; apply px_byte|intro; unfold byte; lia|exact Hw]].
  intros i _. cbv beta. rewrite Nat.add_1_r, psum_S. lia.
Qed.
Lemma quad_double q x j : (j + 2 <= bsize b)%nat ->
  qacc q (fun i => psum j (x + i)) ->
  qacc (dot_quad q (map (fun i => px_at j (x + i)) (seq 0 16)) (map (fun i => px_at (j + 1) (x + i)) (seq 0 16))
         (set1_epi32 (wrap32 (nth j ws 0 mod 65536 + 65536 * (nth (j + 1) ws 0 mod 65536)))))
       (fun i => psum (j + 2) (x + i)).
Proof.
  intros Hj Hq.
  eapply qacc_ext; [|eapply dot_quad_ok; [exact Hq|intro; apply px_byte|intro; apply px_byte|]].
  2:{ rewrite swords_set1_32, pair_lo, pair_hi by apply w_i16. reflexivity. }
  intros i _. cbv beta. replace (j + 2)%nat with (S (S j)) by lia. rewrite !psum_S, !Nat.add_1_r. lia.
Qed.

Lemma two_rows j x : (ss * (bstart b + j) + x + ss = ss * (bstart b + (j + 1)) + x)%nat.
Proof. lia. Qed.

Definition round8 (x : nat) : Z := saturate_narrow 255 (wrap32 (ROUNDING_CONST + vsum src ss ws b x)).
(** What the 32 byte part of the SSE kernel stores. *)
Definition unshifted8 (x : nat) : Z := sat 0 255 (wrap32 (ROUNDING_CONST + vsum src ss ws b x)).

Lemma quad_result q x : qacc q (fun i => psum (bsize b) (x + i)) ->
  pack_quad (srai_quad q) = map (fun i => round8 (x + i)) (seq 0 16).
Proof.
  intros H. apply srai_quad_ok in H. rewrite (pack_quad_ok _ _ H). apply map_ext. intro i. rewrite narrow_sat. reflexivity.
Qed.
Lemma quad_unshifted q x : qacc q (fun i => psum (bsize b) (x + i)) ->
  pack_quad q = map (fun i => unshifted8 (x + i)) (seq 0 16).
Proof. intros H. rewrite (pack_quad_ok _ _ H). reflexivity. Qed.

Lemma quad_start x : qacc quad_vld (fun i => psum 0 (x + i)).
Proof. eapply qacc_ext; [|apply qacc_vld]. intros. unfold psum. cbn [zsum]. lia. Qed.

Lemma part_sse_16_ok dst x : (x + 16 <= L)%nat -> (x + 16 <= length dst)%nat ->
  part_sse_16 src ss ws b dst x = Done (splice dst x (map (fun i => round8 (x + i)) (seq 0 16))).
Proof.
  intros Hx Hd.
  destruct (foldM_seq_inv (fun j q => qacc q (fun i => psum j (x + i)))
    (fun q j => w <- idx ws j ;; a <- load 16 src (ss * (bstart b + j) + x) ;; Done (dot_quad q a zeros (set1_epi32 w)))
    (bsize b) 0 quad_vld) as (q & E & Hq).
  - intros j q Hj Hq. rewrite (idx_ok ws j 0) by lia. cbn [bind]. rewrite load16_row by lia. cbn [bind].
    eexists; split; [reflexivity|]. eapply quad_single; [|exact Hq]. rewrite set1_32_w. reflexivity.
  - apply quad_start.
  - unfold part_sse_16. rewrite E. cbn [bind]. rewrite (quad_result q x Hq), store_bytes_ok; [reflexivity|]. rewrite map_length, seq_length. lia.
Qed.

Lemma part_sse_32_ok dst x : (x + 32 <= L)%nat -> (x + 32 <= length dst)%nat ->
  part_sse_32 src ss ws b dst x =
  Done (splice (splice dst x (map (fun i => unshifted8 (x + i)) (seq 0 16))) (x + 16)
         (map (fun i => unshifted8 (x + 16 + i)) (seq 0 16))).
Proof.
  intros Hx Hd. unfold part_sse_32.
  set (Inv := fun j (st : quad * quad) => (j <= bsize b)%nat /\ qacc (fst st) (fun i => psum j (x + i)) /\ qacc (snd st) (fun i => psum j (x + 16 + i))).
  match goal with |- context [while_tiles _ 2 0 _ ?f 0 _] => set (body1 := f) end.
  match goal with |- context [foldM ?f (seq _ _) _] => set (body2 := f) end.
  destruct (while_tiles_inv Inv 2 0 (bsize b - 2) body1 ltac:(lia)) with (fuel := bsize b) (cx := 0%nat) (s := (quad_vld, quad_vld))
    as ([jj st] & E & (HI & _)).
  - intros j [q0 q1] Hj (Hb & Hq0 & Hq1). cbn [fst snd] in *. unfold body1. cbv zeta.
    rewrite read_pair_ok by lia. cbn [bind]. rewrite two_rows.
    rewrite <- !(Nat.add_assoc (ss * _) x 16).
    rewrite !load16_row by lia. cbn [bind].
    eexists; split; [reflexivity|]. split; [lia|]. cbn [fst snd].
    split; [apply quad_double; [lia|exact Hq0]|].
    apply (quad_double q1 (x + 16) j); [lia|exact Hq1].
  - lia.
  - split; [lia|]. split; apply quad_start.
  - cbn [fst snd] in HI. rewrite E. cbn [bind]. clear E. destruct HI as (Hjj & HI).
    destruct (foldM_seq_inv (fun j st => qacc (fst st) (fun i => psum j (x + i)) /\ qacc (snd st) (fun i => psum j (x + 16 + i)))
      body2 (bsize b - jj) jj st) as ([q0 q1] & E & Hq0 & Hq1).
    + intros j [q0 q1] Hj (Hq0 & Hq1). cbn [fst snd] in *. unfold body2. cbv zeta.
      rewrite (idx_ok ws j 0) by lia. cbn [bind]. rewrite <- !(Nat.add_assoc (ss * _) x 16).
      rewrite !load16_row by lia. cbn [bind]. eexists; split; [reflexivity|]. cbn [fst snd].
      split; [eapply quad_single; [|exact Hq0]|eapply (quad_single q1 (x + 16)); [|exact Hq1]]; rewrite set1_32_w; reflexivity.
    + exact HI.
    + rewrite E. cbn [bind]. cbn [fst snd] in *. replace (jj + (bsize b - jj))%nat with (bsize b) in * by lia.
      rewrite (quad_unshifted q0 x Hq0), (quad_unshifted q1 (x + 16) Hq1).
      rewrite store_bytes_ok by (rewrite map_length, seq_length; lia). cbn [bind].
      rewrite store_bytes_ok; [reflexivity|]. rewrite splice_length; rewrite ?map_length, ?seq_length; lia.
Qed.

Lemma narrow_8 s0 s1 A : acc s0 (map A (seq 0 4)) -> acc s1 (map A (seq 4 4)) ->
  let low := packus_epi32 (srai_epi32 PRECISION s0) (srai_epi32 PRECISION s1) in
  firstn 8 (packus_epi16 low low) = map (fun i => narrowed (A i)) (seq 0 8).
Proof.
  unfold acc. intros H0 H1. cbv zeta. unfold packus_epi16, packus_epi32.
  rewrite swords_of_words, !sdwords_srai, H0, H1. unfold narrowed. cbn [map app seq firstn]. reflexivity.
Qed.

Lemma byte_0 : byte 0. Proof. unfold byte; lia. Qed.

Lemma step_8 s0 s1 A f w w0 w1 : acc s0 (map A (seq 0 4)) -> acc s1 (map A (seq 4 4)) -> (forall i, byte (f i)) ->
  swords w = [w0; w1; w0; w1; w0; w1; w0; w1] ->
  let low := unpacklo_epi8 (map f (seq 0 8) ++ repeat 0 8) zeros in
  acc (dot16 s0 (unpacklo_epi16 low zeros) w) (map (fun i => A i + f i * w0) (seq 0 4)) /\
  acc (dot16 s1 (unpackhi_epi16 low zeros) w) (map (fun i => A i + f i * w0) (seq 4 4)).
Proof.
  intros H0 H1 Hf Hw. cbv zeta. cbn [map seq app repeat unpacklo_epi8 unpacklo_epi16 unpackhi_epi16 firstn skipn inter1 inter2 zeros].
  split; (eapply acc_eq; [eapply acc_dot16; [eassumption|apply swords_pairs; auto using byte_0|exact Hw]|]);
    cbn [map seq zipw pair_sums]; rewrite !Z.mul_0_l, !Z.add_0_r; reflexivity.
Qed.

Lemma acc_map_ext r A B k n : (forall i, A i = B i) -> acc r (map A (seq k n)) -> acc r (map B (seq k n)).
Proof. intros H. rewrite (map_ext _ _ H). auto. Qed.

Lemma part_sse_8_ok dst x : (x + 8 <= L)%nat -> (x + 8 <= length dst)%nat ->
  part_sse_8 src ss ws b dst x = Done (splice dst x (map (fun i => narrowed (ROUNDING_CONST + vsum src ss ws b (x + i))) (seq 0 8))).
Proof.
  intros Hx Hd. unfold part_sse_8.
  match goal with |- context [foldM ?f (seq _ _) _] => set (body := f) end.
  destruct (foldM_seq_inv (fun j (s : m128 * m128) => acc (fst s) (map (fun i => psum j (x + i)) (seq 0 4)) /\
                             acc (snd s) (map (fun i => psum j (x + i)) (seq 4 4)))
    body (bsize b) 0 (vld, vld)) as ([s0 s1] & E & Hq).
  - intros j [s0 s1] Hj (H0 & H1). cbn [fst snd] in *. unfold body. rewrite (idx_ok ws j 0) by lia. cbn [bind].
    rewrite load_row by lia. cbn [bind]. eexists; split; [reflexivity|]. cbn [fst snd].
    assert (forall i, psum j (x + i) + px_at j (x + i) * nth j ws 0 = psum (j + 1) (x + i)) as Ei
      by (intro i; rewrite Nat.add_1_r, psum_S; lia).
    destruct (step_8 s0 s1 _ (fun i => px_at j (x + i)) (set1_epi16 (nth j ws 0)) (nth j ws 0) (nth j ws 0) H0 H1) as (A0 & A1).
    + intro; apply px_byte.
    + rewrite set1_16_w. reflexivity.
    + split; [eapply acc_map_ext, A0|eapply acc_map_ext, A1]; exact Ei.
  - cbn [fst snd]. split; apply acc_eq with (repeat ROUNDING_CONST 4); try apply acc_set1;
      unfold psum; cbn [zsum map seq repeat]; rewrite Z.add_0_r; reflexivity.
  - rewrite E. cbn [bind fst snd] in *. destruct Hq as (H0 & H1).
    rewrite (narrow_8 _ _ _ H0 H1), store_bytes_ok; [reflexivity|]. rewrite map_length, seq_length. lia.
Qed.

Lemma acc_nth0 r a l : acc r (a :: l) -> exists t, sdwords r = wrap32 a :: t.
Proof. unfold acc. cbn. eauto. Qed.

(** Lane 0 only. *)
Definition acc0 (r : m128) (a : Z) : Prop := exists l, length l = 3%nat /\ acc r (a :: l).
Lemma step_1 s a f w w0 w1 : acc0 s a -> byte f -> swords w = [w0; w1; w0; w1; w0; w1; w0; w1] ->
  acc0 (dot16 s (f :: repeat 0 15) w) (a + f * w0).
Proof.
  intros (l & Hl & Ha) Hf Hw.
  destruct l as [|l1 [|l2 [|l3 [|]]]]; try discriminate Hl.
  eapply acc_dot16 in Ha; [|apply (swords_pairs f 0 0 0 0 0 0 0); auto using byte_0|exact Hw].
  cbn [zipw pair_sums] in Ha. eexists [_; _; _]. split; [reflexivity|].
  rewrite Z.mul_0_l, Z.add_0_r in Ha. exact Ha.
Qed.
Lemma narrow_1 s a s1 : acc0 s a ->
  let low := packus_epi32 (srai_epi32 PRECISION s) s1 in
  firstn 1 (packus_epi16 low low) = [narrowed a].
Proof.
  intros (l & Hl & Ha). cbv zeta. unfold packus_epi16, packus_epi32. rewrite swords_of_words, sdwords_srai, Ha. unfold narrowed. cbn [map app firstn]. reflexivity.
Qed.

Lemma part_sse_1_ok dst x : (x + 1 <= L)%nat -> (x + 1 <= length dst)%nat ->
  part_sse_1 src ss ws b dst x = Done (splice dst x (map (fun i => narrowed (ROUNDING_CONST + vsum src ss ws b (x + i))) (seq 0 1))).
Proof.
  intros Hx Hd. unfold part_sse_1. cbv zeta.
  match goal with |- context [foldM ?f (seq _ _) _] => set (body := f) end.
  destruct (foldM_seq_inv (fun j s => acc0 s (psum j x)) body (bsize b) 0 vld) as (s & E & Hq).
  - intros j s Hj H0. unfold body. rewrite (idx_ok ws j 0) by lia. cbn [bind].
    rewrite load_row by lia. cbn [bind]. eexists; split; [reflexivity|].
    rewrite Nat.add_1_r, psum_S.
    change (map (fun i => px_at j (x + i)) (seq 0 1) ++ repeat 0 (16 - 1)) with (px_at j (x + 0) :: repeat 0 15).
    rewrite Nat.add_0_r.
    destruct ((2 <=? bsize b)%nat && (bsize b <=? 4)%nat).
    + eapply step_1; [exact H0|apply px_byte|rewrite set1_16_w; reflexivity].
    + eapply step_1; [exact H0|apply px_byte|rewrite set1_32_w; reflexivity].
  - exists [ROUNDING_CONST; ROUNDING_CONST; ROUNDING_CONST]. split; [reflexivity|].
    unfold psum. cbn [zsum]. rewrite Z.add_0_r. apply acc_set1.
  - rewrite E. cbn [bind]. rewrite (narrow_1 _ _ _ Hq), store_bytes_ok by (cbn [length]; lia).
    cbn [map seq]. rewrite Nat.add_0_r. reflexivity.
Qed.

(** *** AVX2: a 256-bit register is two 128-bit ones side by side *)
Definition qpair (q0 q1 : quad) : quad256 :=
  let '(a0, a1, a2, a3) := q0 in let '(b0, b1, b2, b3) := q1 in ((a0, b0), (a1, b1), (a2, b2), (a3, b3)).
Lemma dot_quad256_pair q0 q1 a0 a1 c0 c1 w :
  dot_quad256 (qpair q0 q1) (a0, a1) (c0, c1) (both w) = qpair (dot_quad q0 a0 c0 w) (dot_quad q1 a1 c1 w).
Proof. destruct q0 as [[[]]], q1 as [[[]]]. reflexivity. Qed.
Lemma pack_quad256_pair q0 q1 :
  pack_quad256 (qpair q0 q1) = (pack_quad (srai_quad q0), pack_quad (srai_quad q1)).
Proof. destruct q0 as [[[]]], q1 as [[[]]]. reflexivity. Qed.

(** Two quads for the 32 bytes from x. *)
Definition qacc256 (q : quad256) (A : nat -> Z) : Prop :=
  exists q0 q1, q = qpair q0 q1 /\ qacc q0 A /\ qacc q1 (fun i => A (16 + i)%nat).
Lemma load256_row j x : (j < bsize b)%nat -> (x + 32 <= L)%nat ->
  load256 src (ss * (bstart b + j) + x) =
  Done (map (fun i => px_at j (x + i)) (seq 0 16), map (fun i => px_at j (x + 16 + i)) (seq 0 16)).
Proof.
  intros. unfold load256. rewrite load16_row by lia. cbn [bind]. rewrite <- Nat.add_assoc, load16_row by lia. reflexivity.
Qed.
Lemma start256 x : qacc256 quad256_vld (fun i => psum 0 (x + i)).
Proof.
  exists quad_vld, quad_vld. split; [reflexivity|]. split; [apply quad_start|].
  eapply qacc_ext; [|apply (quad_start (x + 16))]. intros. cbv beta. f_equal. lia.
Qed.
Lemma single256 q x j : qacc256 q (fun i => psum j (x + i)) ->
  qacc256 (dot_quad256 q (map (fun i => px_at j (x + i)) (seq 0 16), map (fun i => px_at j (x + 16 + i)) (seq 0 16))
     (both zeros) (both (set1_epi16 (nth j ws 0)))) (fun i => psum (j + 1) (x + i)).
Proof.
  intros (q0 & q1 & -> & H0 & H1). unfold both at 1. rewrite dot_quad256_pair.
  exists (dot_quad q0 (map (fun i => px_at j (x + i)) (seq 0 16)) zeros (set1_epi16 (nth j ws 0))),
         (dot_quad q1 (map (fun i => px_at j (x + 16 + i)) (seq 0 16)) zeros (set1_epi16 (nth j ws 0))).
  split; [reflexivity|]. split.
  - eapply quad_single; [rewrite set1_16_w; reflexivity|exact H0].
  - eapply qacc_ext; [|eapply (quad_single q1 (x + 16)); [rewrite set1_16_w; reflexivity|]].
    + intros. cbv beta. f_equal. lia.
    + eapply qacc_ext; [|exact H1]. intros. cbv beta. f_equal. lia.
Qed.
Lemma double256 q x j : (j + 2 <= bsize b)%nat -> qacc256 q (fun i => psum j (x + i)) ->
  qacc256 (dot_quad256 q (map (fun i => px_at j (x + i)) (seq 0 16), map (fun i => px_at j (x + 16 + i)) (seq 0 16))
     (map (fun i => px_at (j + 1) (x + i)) (seq 0 16), map (fun i => px_at (j + 1) (x + 16 + i)) (seq 0 16))
     (both (set1_epi32 (wrap32 (nth j ws 0 mod 65536 + 65536 * (nth (j + 1) ws 0 mod 65536))))))
    (fun i => psum (j + 2) (x + i)).
Proof.
  intros Hj (q0 & q1 & -> & H0 & H1). rewrite dot_quad256_pair.
  eexists _, _. split; [reflexivity|]. split.
  - apply quad_double; [lia|exact H0].
  - eapply qacc_ext; [|apply (quad_double q1 (x + 16) j); [lia|]].
    + intros. cbv beta. f_equal. lia.
    + eapply qacc_ext; [|exact H1]. intros. cbv beta. f_equal. lia.
Qed.
Lemma result256 q x : qacc256 q (fun i => psum (bsize b) (x + i)) ->
  bytes256 (pack_quad256 q) = map (fun i => round8 (x + i)) (seq 0 32).
Proof.
  intros (q0 & q1 & -> & H0 & H1). rewrite pack_quad256_pair. unfold bytes256. cbn [fst snd].
  rewrite (quad_result q0 x H0), (quad_result q1 (x + 16)).
  - change 32%nat with (16 + 16)%nat. rewrite (seq_app 16 16 0), map_app. f_equal. cbn [map seq Nat.add].
    rewrite <- !Nat.add_assoc. reflexivity.
  - eapply qacc_ext; [|exact H1]. intros. cbv beta. f_equal. lia.
Qed.

Lemma part_avx_32_ok dst x : (x + 32 <= L)%nat -> (x + 32 <= length dst)%nat ->
  part_avx_32 src ss ws b dst x = Done (splice dst x (map (fun i => round8 (x + i)) (seq 0 32))).
Proof.
  intros Hx Hd. unfold part_avx_32.
  match goal with |- context [foldM ?f (seq _ _) _] => set (body := f) end.
  destruct (foldM_seq_inv (fun j q => qacc256 q (fun i => psum j (x + i))) body (bsize b) 0 quad256_vld) as (q & E & Hq).
  - intros j q Hj Hq. unfold body. rewrite (idx_ok ws j 0) by lia. cbn [bind]. rewrite load256_row by lia. cbn [bind].
    eexists; split; [reflexivity|]. apply single256. exact Hq.
  - apply start256.
  - rewrite E. cbn [bind]. rewrite (result256 q x Hq), store_bytes_ok; [reflexivity|]. rewrite map_length, seq_length. lia.
Qed.

Lemma part_avx_64_ok dst x : (x + 64 <= L)%nat -> (x + 64 <= length dst)%nat ->
  part_avx_64 src ss ws b dst x =
  Done (splice (splice dst x (map (fun i => round8 (x + i)) (seq 0 32))) (x + 32)
         (map (fun i => round8 (x + 32 + i)) (seq 0 32))).
Proof.
  intros Hx Hd. unfold part_avx_64.
  set (Inv := fun j (st : quad256 * quad256) => (j <= bsize b)%nat /\ qacc256 (fst st) (fun i => psum j (x + i)) /\ qacc256 (snd st) (fun i => psum j (x + 32 + i))).
  match goal with |- context [while_tiles _ 2 0 _ ?f 0 _] => set (body1 := f) end.
  match goal with |- context [foldM ?f (seq _ _) _] => set (body2 := f) end.
  destruct (while_tiles_inv Inv 2 0 (bsize b - 2) body1 ltac:(lia)) with (fuel := bsize b) (cx := 0%nat) (s := (quad256_vld, quad256_vld))
    as ([jj st] & E & (HI & _)).
  - intros j [q0 q1] Hj (Hb & Hq0 & Hq1). cbn [fst snd] in *. unfold body1. cbv zeta.
    rewrite read_pair_ok by lia. cbn [bind]. rewrite two_rows.
    rewrite <- !(Nat.add_assoc (ss * _) x 32).
    rewrite !load256_row by lia. cbn [bind].
    eexists; split; [reflexivity|]. split; [lia|]. cbn [fst snd].
    split; [apply double256; [lia|exact Hq0]|].
    apply (double256 q1 (x + 32) j); [lia|exact Hq1].
  - lia.
  - split; [lia|]. split; apply start256.
  - cbn [fst snd] in HI. rewrite E. cbn [bind]. clear E. destruct HI as (Hjj & HI).
    destruct (foldM_seq_inv (fun j st => qacc256 (fst st) (fun i => psum j (x + i)) /\ qacc256 (snd st) (fun i => psum j (x + 32 + i)))
      body2 (bsize b - jj) jj st) as ([q0 q1] & E & Hq0 & Hq1).
    + intros j [q0 q1] Hj (Hq0 & Hq1). cbn [fst snd] in *. unfold body2. cbv zeta.
      rewrite (idx_ok ws j 0) by lia. cbn [bind]. rewrite <- !(Nat.add_assoc (ss * _) x 32).
      rewrite !load256_row by lia. cbn [bind]. eexists; split; [reflexivity|]. cbn [fst snd].
      split; [apply single256; exact Hq0|apply (single256 q1 (x + 32)); exact Hq1].
    + exact HI.
    + rewrite E. cbn [bind]. cbn [fst snd] in *. replace (jj + (bsize b - jj))%nat with (bsize b) in * by lia.
      rewrite (result256 q0 x Hq0), (result256 q1 (x + 32) Hq1).
      rewrite store_bytes_ok by (rewrite map_length, seq_length; lia). cbn [bind].
      rewrite store_bytes_ok; [reflexivity|]. rewrite splice_length; rewrite ?map_length, ?seq_length; lia.
Qed.

Lemma dot256_pair s0 s1 p w : dot256 (s0, s1) p (both w) = (dot16 s0 (fst p) w, dot16 s1 (snd p) w).
Proof. reflexivity. Qed.
Lemma cvt_bytes f : (forall i, byte (f i)) ->
  cvtepu16_epi32 (unpacklo_epi8 (map f (seq 0 8) ++ repeat 0 8) zeros) =
  (let low := unpacklo_epi8 (map f (seq 0 8) ++ repeat 0 8) zeros in (unpacklo_epi16 low zeros, unpackhi_epi16 low zeros)).
Proof.
  intros Hf. cbv zeta. unfold cvtepu16_epi32. cbn [map seq app repeat unpacklo_epi8 unpacklo_epi16 unpackhi_epi16 firstn skipn inter1 inter2 zeros words].
  rewrite !Z.mul_0_r, !Z.add_0_r. unfold of_dwords. cbn [flat_map dword_bytes app].
  assert (forall i, f i mod 256 = f i) as E0 by (intro i; apply Z.mod_small, Hf).
  assert (forall i k, 256 <= k -> f i / k mod 256 = 0) as E1.
  { intros i k Hk. rewrite Z.div_small; [reflexivity|]. specialize (Hf i). unfold byte in Hf. lia. }
  rewrite !E0, !E1 by lia. reflexivity.
Qed.

Lemma narrow_8_avx s0 s1 A : acc s0 (map A (seq 0 4)) -> acc s1 (map A (seq 4 4)) ->
  let low_16 := permute4x64 3 1 2 0 (lane2 packus_epi32 (lane1 (srai_epi32 PRECISION) (s0, s1)) (both zeros)) in
  let item := permute4x64 3 1 2 0 (lane2 packus_epi16 low_16 low_16) in
  firstn 8 (fst item) = map (fun i => narrowed (A i)) (seq 0 8).
Proof.
  unfold acc, narrowed. intros H0 H1. cbv zeta. unfold lane1, lane2, both. cbn [fst snd].
  unfold packus_epi32. rewrite !sdwords_srai, H0, H1.
  change (sdwords zeros) with [0; 0; 0; 0]. cbn [map app seq].
  set (g := fun a => sat 0 65535 (wrap32 (wrap32 a / 2 ^ PRECISION))).
  change (sat 0 65535 0) with 0.
  repeat match goal with |- context [sat 0 65535 (wrap32 (wrap32 (A ?i) / 2 ^ PRECISION))] => change (sat 0 65535 (wrap32 (wrap32 (A i) / 2 ^ PRECISION))) with (g (A i)) end.
  assert (permute4x64 3 1 2 0 (of_words [g (A 0%nat); g (A 1%nat); g (A 2%nat); g (A 3%nat); 0; 0; 0; 0],
                          of_words [g (A 4%nat); g (A 5%nat); g (A 6%nat); g (A 7%nat); 0; 0; 0; 0]) =
          (of_words [g (A 0%nat); g (A 1%nat); g (A 2%nat); g (A 3%nat); g (A 4%nat); g (A 5%nat); g (A 6%nat); g (A 7%nat)],
           of_words [0; 0; 0; 0; 0; 0; 0; 0])) as -> by reflexivity.
  unfold packus_epi16. cbn [fst snd]. rewrite !swords_of_words. cbn [map app].
  unfold permute4x64, qw, bytes256. cbn [fst snd Nat.mul Nat.add skipn firstn app]. reflexivity.
Qed.

Lemma part_avx_8_ok dst x : (x + 8 <= L)%nat -> (x + 8 <= length dst)%nat ->
  part_avx_8 src ss ws b dst x = Done (splice dst x (map (fun i => narrowed (ROUNDING_CONST + vsum src ss ws b (x + i))) (seq 0 8))).
Proof.
  intros Hx Hd. unfold part_avx_8.
  match goal with |- context [foldM ?f (seq _ _) _] => set (body := f) end.
  destruct (foldM_seq_inv (fun j (s : m256) => acc (fst s) (map (fun i => psum j (x + i)) (seq 0 4)) /\
                             acc (snd s) (map (fun i => psum j (x + i)) (seq 4 4)))
    body (bsize b) 0 (both vld)) as ([s0 s1] & E & Hq).
  - intros j [s0 s1] Hj (H0 & H1). cbn [fst snd] in *. unfold body. rewrite (idx_ok ws j 0) by lia. cbn [bind].
    rewrite load_row by lia. cbn [bind]. eexists; split; [reflexivity|].
    change (repeat 0 (16 - 8)) with (repeat 0 8). rewrite cvt_bytes by (intro; apply px_byte).
    cbv zeta. rewrite dot256_pair. cbn [fst snd].
    assert (forall i, psum j (x + i) + px_at j (x + i) * nth j ws 0 = psum (j + 1) (x + i)) as Ei
      by (intro i; rewrite Nat.add_1_r, psum_S; lia).
    destruct (step_8 s0 s1 _ (fun i => px_at j (x + i)) (set1_epi16 (nth j ws 0)) (nth j ws 0) (nth j ws 0) H0 H1) as (A0 & A1).
    + intro; apply px_byte.
    + rewrite set1_16_w. reflexivity.
    + split; [eapply acc_map_ext, A0|eapply acc_map_ext, A1]; exact Ei.
  - cbn [fst snd both]. split; apply acc_eq with (repeat ROUNDING_CONST 4); try apply acc_set1;
      unfold psum; cbn [zsum map seq repeat]; rewrite Z.add_0_r; reflexivity.
  - rewrite E. cbn [bind fst snd] in *. destruct Hq as (H0 & H1).
    pose proof (narrow_8_avx _ _ _ H0 H1) as EN. cbv zeta in EN. rewrite EN. rewrite store_bytes_ok; [reflexivity|]. rewrite map_length, seq_length. lia.
Qed.

Lemma part_avx_1_ok dst x : (x + 1 <= L)%nat -> (x + 1 <= length dst)%nat ->
  part_avx_1 src ss ws b dst x = Done (splice dst x (map (fun i => narrowed (ROUNDING_CONST + vsum src ss ws b (x + i))) (seq 0 1))).
Proof.
  intros Hx Hd. unfold part_avx_1.
  match goal with |- context [foldM ?f (seq _ _) _] => set (body := f) end.
  destruct (foldM_seq_inv (fun j (s : m256) => acc0 (fst s) (psum j x)) body (bsize b) 0 (both vld)) as ([s0 s1] & E & Hq).
  - intros j [s0 s1] Hj H0. cbn [fst] in *. unfold body. rewrite (idx_ok ws j 0) by lia. cbn [bind].
    rewrite load_row by lia. cbn [bind]. eexists; split; [reflexivity|].
    rewrite Nat.add_1_r, psum_S, dot256_pair. cbn [fst].
    change (map (fun i => px_at j (x + i)) (seq 0 1) ++ repeat 0 (16 - 1)) with (px_at j (x + 0) :: repeat 0 15).
    rewrite Nat.add_0_r. eapply step_1; [exact H0|apply px_byte|rewrite set1_16_w; reflexivity].
  - exists [ROUNDING_CONST; ROUNDING_CONST; ROUNDING_CONST]. split; [reflexivity|].
    unfold psum. cbn [zsum]. rewrite Z.add_0_r. apply acc_set1.
  - rewrite E. cbn [bind]. cbv zeta. unfold lane1, lane2, both. cbn [fst snd] in *.
    rewrite (narrow_1 _ _ _ Hq), store_bytes_ok by (cbn [length]; lia).
    cbn [map seq]. rewrite Nat.add_0_r. reflexivity.
Qed.
End Tile.

(** ** Whole rows *)
Section Row.
Variables (src : list Z) (ss : nat) (ws : list Z) (b : fbound) (dst : list Z).
Hypothesis Hbytes : bytes src.
Hypothesis Hws : (bsize b <= length ws)%nat.
Hypothesis Hi16 : Forall i16 ws.
Hypothesis Hsrc : forall k, (k < bsize b)%nat -> (ss * (bstart b + k) + length dst <= length src)%nat.
Hypothesis Hsmall : forall j, (j < length dst)%nat -> wrap32 (ROUNDING_CONST + vsum src ss ws b j) < 2 ^ 30.

Lemma narrowed_row x n : (x + n <= length dst)%nat ->
  map (fun i => narrowed (ROUNDING_CONST + vsum src ss ws b (x + i))) (seq 0 n) =
  map (fun i => round8 src ss ws b (x + i)) (seq 0 n).
Proof.
  intros H. apply map_ext_in. intros i Hi. rewrite in_seq in Hi. apply narrowed_ok, Hsmall. lia.
Qed.

Theorem vertical_avx_row_closed :
  vertical_avx_row b src dst ss ws = Done (map (round8 src ss ws b) (seq 0 (length dst))).
Proof.
  unfold vertical_avx_row. cbv zeta.
  set (P := fun cx => rowmap cx (round8 src ss ws b) dst).
  assert (forall cx, (cx <= length dst)%nat -> length (P cx) = length dst) as HL by (intros; apply rowmap_length; assumption).
  destruct (stage P 64 64 (length dst) 0 (part_avx_64 src ss ws b)) with (fuel := length dst) (cx := 0%nat) as (c1 & E1 & H1 & _); try lia.
  { intros cx _ Hcx. rewrite part_avx_64_ok with (L := length dst); auto; try lia; [|rewrite HL; lia].
    f_equal. unfold P. rewrite rowmap_step by lia. rewrite rowmap_step by lia. f_equal. lia. }
  change (P 0%nat) with dst in E1. rewrite E1. cbn [bind].
  destruct (stage P 32 32 (length dst) 0 (part_avx_32 src ss ws b)) with (fuel := length dst) (cx := c1) as (c2 & E2 & H2 & _); try lia.
  { intros cx _ Hcx. rewrite part_avx_32_ok with (L := length dst); auto; try lia; [|rewrite HL; lia].
    f_equal. unfold P. rewrite rowmap_step by lia. reflexivity. }
  rewrite E2. cbn [bind].
  destruct (stage P 8 8 (length dst) 0 (part_avx_8 src ss ws b)) with (fuel := length dst) (cx := c2) as (c3 & E3 & H3 & _); try lia.
  { intros cx _ Hcx. rewrite part_avx_8_ok with (L := length dst); auto; try lia; [|rewrite HL; lia].
    rewrite narrowed_row by lia. f_equal. unfold P. rewrite rowmap_step by lia. reflexivity. }
  rewrite E3. cbn [bind].
  destruct (stage P 1 0 (length dst) 0 (part_avx_1 src ss ws b)) with (fuel := length dst) (cx := c3) as (c4 & E4 & H4 & H5); try lia.
  { intros cx _ Hcx. rewrite part_avx_1_ok with (L := length dst); auto; try lia; [|rewrite HL; lia].
    rewrite narrowed_row by lia. f_equal. unfold P. rewrite rowmap_step by lia. reflexivity. }
  rewrite E4. cbn [bind]. f_equal. unfold P. replace c4 with (length dst) by lia.
  unfold rowmap. rewrite skipn_all, app_nil_r. reflexivity.
Qed.

(** The bytes written by the 32-wide part: all of them up to the last multiple of 32
    strictly below the row length. *)
Definition blocks32 (n : nat) : nat := (32 * ((n - 1) / 32))%nat.
Definition sse_sample (j : nat) : Z :=
  if (j <? blocks32 (length dst))%nat then unshifted8 src ss ws b j else round8 src ss ws b j.

Theorem vertical_sse_row_closed :
  vertical_sse_row b src dst ss ws = Done (map sse_sample (seq 0 (length dst))).
Proof.
  unfold vertical_sse_row. cbv zeta.
  set (P := fun cx => rowmap cx sse_sample dst).
  assert (forall cx, (cx <= length dst)%nat -> length (P cx) = length dst) as HL by (intros; apply rowmap_length; assumption).
  assert (forall x n, (x + n <= blocks32 (length dst))%nat -> map (fun i => unshifted8 src ss ws b (x + i)) (seq 0 n) = map (fun i => sse_sample (x + i)) (seq 0 n)) as EU.
  { intros x n H. apply map_ext_in. intros i Hi. rewrite in_seq in Hi. unfold sse_sample. destruct (Nat.ltb_spec (x + i) (blocks32 (length dst))); [reflexivity|lia]. }
  assert (forall x n, (blocks32 (length dst) <= x)%nat -> map (fun i => round8 src ss ws b (x + i)) (seq 0 n) = map (fun i => sse_sample (x + i)) (seq 0 n)) as ER.
  { intros x n H. apply map_ext_in. intros i Hi. rewrite in_seq in Hi. unfold sse_sample. destruct (Nat.ltb_spec (x + i) (blocks32 (length dst))); [lia|reflexivity]. }
  assert (blocks32 (length dst) <= length dst)%nat as HB.
  { unfold blocks32. pose proof (Nat.mul_div_le (length dst - 1) 32 ltac:(lia)). lia. }
  destruct (while_tiles_inv (fun cx d => d = P cx /\ (exists q, cx = 32 * q)%nat /\ (cx <= blocks32 (length dst))%nat) 32 32 (length dst) (part_sse_32 src ss ws b) ltac:(lia))
     with (fuel := length dst) (cx := 0%nat) (s := P 0%nat) as ([c1 d1] & E1 & (HP & HQ & HC) & Hend & _).
  { intros cx d Hcx (-> & (q & Hq) & HC).
    assert (cx + 32 <= blocks32 (length dst))%nat as Hb.
    { subst cx. unfold blocks32. assert (q + 1 <= (length dst - 1) / 32)%nat by (apply Nat.div_le_lower_bound; lia). lia. }
    rewrite part_sse_32_ok with (L := length dst); auto; try lia; [|rewrite HL; lia].
    eexists; split; [reflexivity|]. split; [|split; [exists (q + 1)%nat; lia|exact Hb]].
    unfold P. rewrite !EU by lia. rewrite rowmap_step by lia. rewrite rowmap_step by lia. f_equal. lia. }
  { lia. }
  { split; [reflexivity|]. split; [exists 0%nat; reflexivity|lia]. }
  cbn [fst snd] in *. change (P 0%nat) with dst in E1. rewrite E1. cbn [bind]. subst d1.
  assert (c1 = blocks32 (length dst)) as HC1.
  { destruct HQ as (q & ->). unfold blocks32 in *. pose proof (Nat.div_mod_eq (length dst - 1) 32) as Hdm.
    pose proof (Nat.mod_upper_bound (length dst - 1) 32 ltac:(lia)).
    assert ((length dst - 1) / 32 < q + 1)%nat by (apply Nat.div_lt_upper_bound; lia). lia. }
  destruct (stage P 16 16 (length dst) c1 (part_sse_16 src ss ws b)) with (fuel := length dst) (cx := c1) as (c2 & E2 & H2 & _); try lia.
  { intros cx Hle Hcx. rewrite part_sse_16_ok with (L := length dst); auto; try lia; [|rewrite HL; lia].
    f_equal. unfold P. rewrite ER by lia. rewrite rowmap_step by lia. reflexivity. }
  rewrite E2. cbn [bind].
  destruct (stage P 8 8 (length dst) c1 (part_sse_8 src ss ws b)) with (fuel := length dst) (cx := c2) as (c3 & E3 & H3 & _); try lia.
  { intros cx Hle Hcx. rewrite part_sse_8_ok with (L := length dst); auto; try lia; [|rewrite HL; lia].
    rewrite narrowed_row by lia. f_equal. unfold P. rewrite ER by lia. rewrite rowmap_step by lia. reflexivity. }
  rewrite E3. cbn [bind].
  destruct (stage P 1 0 (length dst) c1 (part_sse_1 src ss ws b)) with (fuel := length dst) (cx := c3) as (c4 & E4 & H4 & H5); try lia.
  { intros cx Hle Hcx. rewrite part_sse_1_ok with (L := length dst); auto; try lia; [|rewrite HL; lia].
    rewrite narrowed_row by lia. f_equal. unfold P. rewrite ER by lia. rewrite rowmap_step by lia. reflexivity. }
  rewrite E4. cbn [bind]. f_equal. unfold P. replace c4 with (length dst) by lia.
  unfold rowmap. rewrite skipn_all, app_nil_r. reflexivity.
Qed.
End Row.
