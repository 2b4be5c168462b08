(** The column kernel of X86Ar30.v in closed form. *)
From Coq Require Import ZifyBool ZifyNat.
From Verif Require Import Base BaseProofs ImageStore ColorGroup FixedPoint Dispatch Spec KernelProofs Kernel4Proofs ColumnProofs Ar30 SpecAr30 Ar30Proofs Ar30Kernels
  Simd SimdProofs X86Vertical X86VerticalProofs X86VerticalLp X86VerticalLpProofs X86Horizontal X86HorizontalProofs X86Ar30 SpecX86Ar30 X86Ar30Proofs.
Local Open Scope Z_scope.

Definition acc8 (v : reg2) (A : nat -> Z) : Prop := acc (fst v) (map A (seq 0 4)) /\ acc (snd v) (map A (seq 4 4)).
Lemma acc8_ext v A B : (forall i, (i < 8)%nat -> A i = B i) -> acc8 v A -> acc8 v B.
Proof.
  intros H [H0 H1]. split; (eapply acc_eq; [eassumption|]); apply map_ext_in; intros i Hi; rewrite in_seq in Hi; apply H; lia.
Qed.
Lemma acc2_ok v A (f : nat -> Z) w : acc8 v A -> i16 w -> (forall i, (i < 8)%nat -> ten (f i)) ->
  acc8 (acc2 (set1_epi16 w) v (of_words (map f (seq 0 8)))) (fun i => A i + f i * w).
Proof.
  intros [H0 H1] Hw Hf. unfold acc2, acc8. cbn [fst snd].
  assert (F : forall i, (i < 8)%nat -> s16 (f i) = f i).
  { intros i Hi. apply s16_small. specialize (Hf i Hi). unfold ten in Hf. unfold i16. lia. }
  assert (U0 : unpacklo_epi16 (of_words (map f (seq 0 8))) zeros = of_words [f 0%nat; 0; f 1%nat; 0; f 2%nat; 0; f 3%nat; 0]) by reflexivity.
  assert (U1 : unpackhi_epi16 (of_words (map f (seq 0 8))) zeros = of_words [f 4%nat; 0; f 5%nat; 0; f 6%nat; 0; f 7%nat; 0]) by reflexivity.
  rewrite U0, U1. split; change (add_epi32 ?s (madd_epi16 ?p ?w)) with (dot16 s p w);
    (eapply acc_eq; [eapply acc_dot16; [eassumption|rewrite swords_of_words; reflexivity|apply swords_set1_16]|]);
    cbn [seq map repeat zipw pair_sums]; change (s16 0) with 0; rewrite !F by lia; rewrite s16_small by exact Hw;
    rewrite !Z.mul_0_l, !Z.add_0_r; reflexivity.
Qed.

Section Columns.
Variables (t : rgb30) (o : byte_order).

(** ** Packing four lanes *)
Lemma widen_raw e0 e1 e2 e3 :
  of_words [e0; 0; e1; 0; e2; 0; e3; 0] = of_dwords [e0 mod 65536; e1 mod 65536; e2 mod 65536; e3 mod 65536].
Proof.
  assert (E : forall e, dword_bytes (e mod 65536) = word_bytes e ++ [0; 0]).
  { intro e. pose proof (Z.mod_pos_bound e 65536 ltac:(lia)) as B. unfold dword_bytes, word_bytes. cbn [app].
    rewrite (Z.div_small (e mod 65536) 65536) by lia. rewrite (Z.div_small (e mod 65536) 16777216) by lia.
    replace ((e mod 65536) mod 256) with (e mod 256).
    - replace ((e mod 65536 / 256) mod 256) with ((e / 256) mod 256); [reflexivity|].
      pose proof (bytes16 e) as Q. rewrite <- Q.
      rewrite (Z.mul_comm 256), Z.div_add by lia. rewrite (Z.div_small (e mod 256)) by (apply Z.mod_pos_bound; lia).
      cbn [Z.add]. rewrite Z.mod_mod by lia. reflexivity.
    - rewrite <- bytes16, (Z.mul_comm 256), Z.mod_add by lia. now rewrite Z.mod_mod by lia. }
  unfold of_dwords. cbn [flat_map]. rewrite !E. reflexivity.
Qed.
Definition lor32 (a b : Z) : Z := Z.lor (a mod 4294967296) (b mod 4294967296).
Lemma mod_word a : is_word (a mod 4294967296). Proof. unfold is_word. apply Z.mod_pos_bound. lia. Qed.
Lemma lor32_word a b : is_word (lor32 a b). Proof. apply lor_word; apply mod_word. Qed.
Lemma or_raw a0 a1 a2 a3 b0 b1 b2 b3 :
  or_si128 (of_dwords [a0; a1; a2; a3]) (of_dwords [b0; b1; b2; b3]) = of_dwords [lor32 a0 b0; lor32 a1 b1; lor32 a2 b2; lor32 a3 b3].
Proof. intros. unfold or_si128. rewrite !dwords_of_dwords. reflexivity. Qed.
Lemma slli_raw n e0 e1 e2 e3 :
  slli_epi32 n (of_dwords [e0 mod 65536; e1 mod 65536; e2 mod 65536; e3 mod 65536]) =
  of_dwords [e0 mod 65536 * 2 ^ n; e1 mod 65536 * 2 ^ n; e2 mod 65536 * 2 ^ n; e3 mod 65536 * 2 ^ n].
Proof.
  unfold slli_epi32. rewrite dwords_of_dwords. cbn [map].
  assert (W : forall e, is_word (e mod 65536)) by (intro e; pose proof (Z.mod_pos_bound e 65536 ltac:(lia)); unfold is_word; lia).
  rewrite !dword_mod by apply W. reflexivity.
Qed.
Lemma ten_word v : ten v -> is_word v. Proof. unfold ten, is_word. lia. Qed.
Lemma ten_shift v n : ten v -> 0 <= n <= 22 -> is_word (v * 2 ^ n).
Proof. intros H Hn. apply (ten_u32 v n H Hn). Qed.

(** The 32-bit lane made from three 16-bit lanes, whatever they hold. *)
Definition or30_raw (r g b : Z) : Z :=
  match t with
  | Ar30 => lor32 (lor32 (lor32 (Z.shiftl 3 30) (b mod 65536 * 2 ^ 20)) (g mod 65536 * 2 ^ 10)) (r mod 65536)
  | Ra30 => lor32 (lor32 (lor32 3 (r mod 65536 * 2 ^ 22)) (g mod 65536 * 2 ^ 12)) (b mod 65536 * 2 ^ 2)
  end.
Definition px30_raw (r g b : Z) : list Z := dword_bytes (ordered o (or30_raw r g b)).
Lemma or30_raw_word r g b : is_word (or30_raw r g b).
Proof. unfold or30_raw. destruct t; apply lor32_word. Qed.
Lemma zip_raw unpack16 rr gg bb r0 r1 r2 r3 g0 g1 g2 g3 b0 b1 b2 b3 :
  unpack16 rr zeros = of_words [r0; 0; r1; 0; r2; 0; r3; 0] ->
  unpack16 gg zeros = of_words [g0; 0; g1; 0; g2; 0; g3; 0] ->
  unpack16 bb zeros = of_words [b0; 0; b1; 0; b2; 0; b3; 0] ->
  zip_half t o unpack16 rr gg bb = px30_raw r0 g0 b0 ++ px30_raw r1 g1 b1 ++ px30_raw r2 g2 b2 ++ px30_raw r3 g3 b3.
Proof.
  intros ER EG EB. unfold zip_half. rewrite ER, EG, EB, !widen_raw.
  change (px30_raw r0 g0 b0 ++ px30_raw r1 g1 b1 ++ px30_raw r2 g2 b2 ++ px30_raw r3 g3 b3)
    with (of_dwords [ordered o (or30_raw r0 g0 b0); ordered o (or30_raw r1 g1 b1); ordered o (or30_raw r2 g2 b2); ordered o (or30_raw r3 g3 b3)]).
  rewrite <- host_order_dwords by apply or30_raw_word. f_equal.
  unfold or30_raw. destruct t.
  - rewrite !slli_raw.
    change (set1_epi32 (Z.shiftl 3 30)) with (of_dwords [Z.shiftl 3 30; Z.shiftl 3 30; Z.shiftl 3 30; Z.shiftl 3 30]).
    rewrite !or_raw. reflexivity.
  - rewrite !slli_raw. change (set1_epi32 3) with (of_dwords [3; 3; 3; 3]). rewrite !or_raw. reflexivity.
Qed.

Definition px30 (r g b : Z) : list Z := bytes_of_word (pack_w_a t o r g b).
Lemma px30_raw_ok r g b : ten r -> ten g -> ten b -> px30_raw r g b = px30 r g b.
Proof.
  intros Hr Hg Hb. destruct (or30_pack t r g b Hr Hg Hb) as [P _].
  unfold px30_raw, px30. rewrite pack_ordered, <- P, bytes_sum.
  assert (E : or30_raw r g b = or30 t r g b); [|rewrite E; reflexivity].
  assert (TW := ten_word). assert (TS := ten_shift).
  assert (A3 : is_word (Z.shiftl 3 30)) by (unfold is_word; cbn; lia).
  assert (A1 : is_word 3) by (unfold is_word; lia).
  assert (L : forall a b, is_word a -> is_word b -> lor32 a b = Z.lor a b).
  { intros a d Ha Hd. unfold lor32. rewrite !dword_mod by assumption. reflexivity. }
  unfold or30_raw, or30. assert (Tr := Hr). assert (Tg := Hg). assert (Tb := Hb).
  unfold ten in Hr, Hg, Hb. rewrite !(Z.mod_small _ 65536) by lia. destruct t.
  - rewrite !L by (try apply lor32_word; repeat apply lor_word; first [exact A3|exact A1|apply TS; [assumption|lia]|apply TW; assumption]). reflexivity.
  - rewrite !L by (try apply lor32_word; repeat apply lor_word; first [exact A3|exact A1|apply TS; [assumption|lia]|apply TW; assumption]).
    rewrite <- !Z.lor_assoc. f_equal.
    rewrite (Z.lor_comm (r * 2 ^ 22)), <- Z.lor_assoc, (Z.lor_assoc (g * 2 ^ 12)), (Z.lor_comm (g * 2 ^ 12)), <- Z.lor_assoc. reflexivity.
Qed.

(** ** Eight pixels *)
Lemma bytes16_first p : length p = 32%nat -> firstn 16 p = bytes16_at p 0 /\ skipn 16 p = bytes16_at p 16.
Proof.
  intro L. do 33 (destruct p as [|? p]; [try discriminate L|]); try discriminate L. cbn. auto.
Qed.
Lemma unzip_3_ok p : bytes p ->
  unzip_3 t o (bytes16_at p 0) (bytes16_at p 16) =
  (of_words (map (fun i => comp t o p (4 * i) 0) (seq 0 8)), of_words (map (fun i => comp t o p (4 * i) 1) (seq 0 8)),
   of_words (map (fun i => comp t o p (4 * i) 2) (seq 0 8))).
Proof.
  intro B. unfold unzip_3. rewrite !lanes_px by exact B. rewrite !packus_lanes by (auto; lia). reflexivity.
Qed.
Definition px_buf (n : nat) (src : list Z) (off : nat) : list Z := firstn (n * 4) (skipn off src) ++ repeat 0 (32 - n * 4).
Lemma load_px_ok n src off : bytes src -> (n <= 8)%nat -> (off + n * 4 <= length src)%nat ->
  load_px n src off = Done (bytes16_at (px_buf n src off) 0, bytes16_at (px_buf n src off) 16) /\ bytes (px_buf n src off).
Proof.
  intros B Hn L. assert (LB : length (px_buf n src off) = 32%nat).
  { unfold px_buf. rewrite app_length, firstn_length, skipn_length, repeat_length. lia. }
  split.
  - unfold load_px. replace (off + n * 4 <=? length src)%nat with true by lia. cbv zeta. fold (px_buf n src off).
    destruct (bytes16_first _ LB) as [-> ->]. reflexivity.
  - unfold px_buf, bytes in *. apply Forall_app. split.
    + rewrite Forall_forall in *. intros x Hx. apply B. apply In_nth with (d := 0) in Hx. destruct Hx as (i & Hi & <-).
      rewrite firstn_length, skipn_length in Hi. rewrite nth_firstn by lia. rewrite nth_skipn. apply nth_In. lia.
    + rewrite Forall_forall. intros x Hx. apply repeat_spec in Hx. subst x. unfold byte. lia.
Qed.
Lemma buf_comp n src off i c : (n <= 8)%nat -> (off + n * 4 <= length src)%nat -> (i < n)%nat ->
  comp t o (px_buf n src off) (4 * i) c = comp t o src (off + i * 4) c.
Proof.
  intros Hn L Hi. apply comp_ext. intros k Hk. unfold px_buf.
  rewrite app_nth1 by (rewrite firstn_length, skipn_length; lia). rewrite nth_firstn by lia. rewrite nth_skipn. f_equal. lia.
Qed.
(** ** The sums of a column *)
Section Column.
Variables (src : list Z) (ss : nat) (ws : list Z) (b : fbound) (dst : list Z) (total : nat).
Hypothesis Hbytes : bytes src.
Hypothesis Hi16 : Forall i16 ws.
Hypothesis Hlen : length dst = (total * 4)%nat.
Hypothesis Hws : (bsize b <= length ws)%nat.
Hypothesis Hsrc : forall k, (k < bsize b)%nat -> (ss * (bstart b + k) + total * 4 <= length src)%nat.

Definition vaccx (x c : nat) : Z := 2 ^ 14 - 1 + zsum (bsize b) (fun k => comp t o src (ss * (bstart b + k) + x * 4) c * nth k ws 0).

Let bufk n x k := px_buf n src (ss * (bstart b + k) + x * 4).
Let part n x c j i := 2 ^ 14 - 1 + zsum j (fun k => comp t o (bufk n x k) (4 * i) c * nth k ws 0).

Lemma foldM_combine {S} (Inv : nat -> S -> Prop) (f : S -> nat * Z -> outcome S) : forall l a s,
  (forall j s, (a <= j < a + length l)%nat -> Inv j s -> yields (f s (j, nth (j - a) l 0)) (Inv (Datatypes.S j))) ->
  Inv a s -> yields (foldM f (combine (seq a (length l)) l) s) (Inv (a + length l)%nat).
Proof.
  induction l as [|w l IH]; intros a s H Ha.
  - cbn. rewrite Nat.add_0_r. eexists; split; [reflexivity|exact Ha].
  - cbn [length seq combine foldM].
    eapply yields_bind; [specialize (H a s ltac:(cbn [length]; lia) Ha); rewrite Nat.sub_diag in H; exact H|].
    intros s' Hs'. cbv beta in Hs'. replace (a + Datatypes.S (length l))%nat with (Datatypes.S a + length l)%nat by lia. apply IH; [|exact Hs'].
    intros j s2 Hj Hi. specialize (H j s2 ltac:(cbn [length]; lia) Hi). replace (j - a)%nat with (Datatypes.S (j - Datatypes.S a)) in H by lia. exact H.
Qed.

Lemma col_taps_ok n x : (n <= 8)%nat -> (x + n <= total)%nat ->
  yields (col_taps t o n src ss ws b x)
    (fun st => acc8 (fst (fst st)) (part n x 0 (bsize b)) /\ acc8 (snd (fst st)) (part n x 1 (bsize b)) /\ acc8 (snd st) (part n x 2 (bsize b))).
Proof.
  intros Hn Hx. unfold col_taps. cbv zeta.
  set (l := firstn (bsize b) ws). assert (Ll : length l = bsize b) by (unfold l; rewrite firstn_length; lia).
  assert (Nl : forall j, (j < bsize b)%nat -> nth j l 0 = nth j ws 0) by (intros j Hj; unfold l; now rewrite nth_firstn).
  eapply yields_weaken; [apply (foldM_combine (fun j st => acc8 (fst (fst st)) (part n x 0 j) /\ acc8 (snd (fst st)) (part n x 1 j) /\ acc8 (snd st) (part n x 2 j)))|cbn [Nat.add]; rewrite Ll; auto].
  - intros j [[r g] bl] Hj (A0 & A1 & A2). cbn [fst snd] in *. rewrite Nat.sub_0_r, Nl by lia.
    assert (S : (ss * (bstart b + j) + x * 4 + n * 4 <= length src)%nat) by (specialize (Hsrc j ltac:(lia)); lia).
    destruct (load_px_ok n src _ Hbytes Hn S) as [-> B]. cbn [bind]. rewrite unzip_3_ok by exact B.
    eexists. split; [reflexivity|]. cbn [fst snd].
    assert (T : forall c, (c < 3)%nat -> forall i, (i < 8)%nat -> ten (comp t o (px_buf n src (ss * (bstart b + j) + x * 4)) (4 * i) c)).
    { intros c Hc i _. apply comp_ten; [exact B|exact Hc]. }
    assert (W : i16 (nth j ws 0)) by (apply i16_nth; exact Hi16).
    refine (conj _ (conj _ _)).
    + eapply acc8_ext; [|exact (acc2_ok r _ _ _ A0 W (T 0%nat ltac:(lia)))]. intros i Hi. unfold part. cbn [zsum]. unfold bufk. ring.
    + eapply acc8_ext; [|exact (acc2_ok g _ _ _ A1 W (T 1%nat ltac:(lia)))]. intros i Hi. unfold part. cbn [zsum]. unfold bufk. ring.
    + eapply acc8_ext; [|exact (acc2_ok bl _ _ _ A2 W (T 2%nat ltac:(lia)))]. intros i Hi. unfold part. cbn [zsum]. unfold bufk. ring.
  - cbn [fst snd].
    assert (I : forall c, acc8 (set1_epi32 (2 ^ (15 - 1) - 1), set1_epi32 (2 ^ (15 - 1) - 1)) (part n x c 0)).
    { intro c. split; cbn [fst snd]; (eapply acc_eq; [apply acc_set1|]); unfold part; cbn [zsum seq map]; rewrite !Z.add_0_r; reflexivity. }
    auto.
Qed.

Lemma part_in n x c i : (n <= 8)%nat -> (x + n <= total)%nat -> (i < n)%nat -> part n x c (bsize b) i = vaccx (x + i) c.
Proof.
  intros Hn Hx Hi. unfold part, vaccx. f_equal. apply zsum_ext. intros k Hk. unfold bufk.
  specialize (Hsrc k Hk). rewrite buf_comp by lia. do 2 f_equal. lia.
Qed.
(** What a column leaves in a lane. *)
Definition low30 (v : Z) : Z := Z.min (s16 (sat 0 65535 (wrap32 v / 2 ^ 15))) 1023.
Lemma low30_small v : wrap32 v < 2 ^ 30 -> low30 v = out30 15 1023 v /\ ten (low30 v).
Proof.
  intro H. pose proof (wrap32_range v) as R. unfold out30. fold (low30 v).
  assert (T : ten (low30 v)).
  { unfold low30, ten. assert (wrap32 v / 2 ^ 15 < 32768) by (apply Z.div_lt_upper_bound; lia). set (q := wrap32 v / 2 ^ 15) in *.
    unfold sat. rewrite s16_small by (unfold i16; lia). lia. }
  split; [|exact T]. symmetry. apply Z.mod_small. unfold ten in T. lia.
Qed.
Lemma col_out_ok v A : acc8 v A -> col_out v = of_words (map (fun i => low30 (A i)) (seq 0 8)).
Proof.
  intros [H0 H1]. unfold col_out, min_epi16, packus_epi32. rewrite !sdwords_srai. unfold acc in H0, H1. rewrite H0, H1.
  rewrite swords_of_words. change (swords (set1_epi16 1023)) with [1023; 1023; 1023; 1023; 1023; 1023; 1023; 1023].
  cbn [seq map app zipw]. unfold low30. rewrite !wrap32_div by lia. reflexivity.
Qed.

Definition vraw (x : nat) : list Z := px30_raw (low30 (vaccx x 0)) (low30 (vaccx x 1)) (low30 (vaccx x 2)).
Definition vbyteraw (j : nat) : Z := nth (j mod 4) (vraw (j / 4)) 0.

Lemma first_pixels (f : nat -> list Z) n : (forall i, length (f i) = 4%nat) -> (n <= 8)%nat ->
  firstn (n * 4) ((f 0%nat ++ f 1%nat ++ f 2%nat ++ f 3%nat) ++ f 4%nat ++ f 5%nat ++ f 6%nat ++ f 7%nat) =
  map (fun j => nth (j mod 4) (f (j / 4)%nat) 0) (seq 0 (n * 4)).
Proof.
  intros L Hn. assert (E : forall i, f i = [nth 0 (f i) 0; nth 1 (f i) 0; nth 2 (f i) 0; nth 3 (f i) 0]).
  { intro i. specialize (L i). destruct (f i) as [|a [|a1 [|a2 [|a3 [|]]]]]; try discriminate. reflexivity. }
  rewrite (E 0%nat), (E 1%nat), (E 2%nat), (E 3%nat), (E 4%nat), (E 5%nat), (E 6%nat), (E 7%nat).
  do 9 (destruct n as [|n]; [cbn; rewrite <- ?E; reflexivity|]). lia.
Qed.

Let P cx := rowmap (cx * 4) vbyteraw dst.
Lemma col_block_ok n cx : (n <= 8)%nat -> (cx + n <= total)%nat ->
  col_block t o n src ss (P cx) ws b cx = Done (P (cx + n)%nat).
Proof.
  intros Hn Hx. unfold col_block.
  destruct (col_taps_ok n cx Hn Hx) as ([[r g] bl] & -> & A0 & A1 & A2). cbn [bind fst snd] in *.
  rewrite (col_out_ok r _ A0), (col_out_ok g _ A1), (col_out_ok bl _ A2).
  set (e c i := low30 (part n cx c (bsize b) i)).
  change (map (fun i => low30 (part n cx 0 (bsize b) i)) (seq 0 8)) with (map (e 0%nat) (seq 0 8)).
  change (map (fun i => low30 (part n cx 1 (bsize b) i)) (seq 0 8)) with (map (e 1%nat) (seq 0 8)).
  change (map (fun i => low30 (part n cx 2 (bsize b) i)) (seq 0 8)) with (map (e 2%nat) (seq 0 8)).
  rewrite (zip_raw unpacklo_epi16 _ _ _ (e 0 0) (e 0 1) (e 0 2) (e 0 3) (e 1 0) (e 1 1) (e 1 2) (e 1 3) (e 2 0) (e 2 1) (e 2 2) (e 2 3))%nat;
    try reflexivity.
  rewrite (zip_raw unpackhi_epi16 _ _ _ (e 0 4) (e 0 5) (e 0 6) (e 0 7) (e 1 4) (e 1 5) (e 1 6) (e 1 7) (e 2 4) (e 2 5) (e 2 6) (e 2 7))%nat;
    try reflexivity.
  cbv zeta. rewrite (first_pixels (fun i => px30_raw (e 0 i) (e 1 i) (e 2 i))%nat n (fun _ => eq_refl) Hn).
  set (v := map _ (seq 0 (n * 4))). assert (Lv : length v = (n * 4)%nat) by (unfold v; now rewrite map_length, seq_length).
  assert (LP : length (P cx) = (total * 4)%nat) by (unfold P; rewrite rowmap_length; lia).
  rewrite store_bytes_ok by lia. f_equal.
  assert (V : v = map (fun j => vbyteraw (cx * 4 + j)) (seq 0 (n * 4))).
  { unfold v. apply map_ext_in. intros j Hj. rewrite in_seq in Hj. unfold vbyteraw.
    replace (cx * 4 + j)%nat with (j + cx * 4)%nat by lia. rewrite Nat.mod_add, Nat.div_add by lia. f_equal.
    assert (J : (j / 4 < n)%nat) by (apply Nat.div_lt_upper_bound; lia).
    unfold vraw, e. rewrite !part_in by lia. rewrite (Nat.add_comm (j / 4)%nat cx). reflexivity. }
  rewrite V. unfold P. rewrite rowmap_step by lia. f_equal. lia.
Qed.

Theorem ar_column_sse_raw : ar_column_sse t o b src dst ss ws = Done (map vbyteraw (seq 0 (length dst))).
Proof.
  unfold ar_column_sse. cbv zeta. replace (length dst / 4)%nat with total by (rewrite Hlen, Nat.div_mul; lia).
  assert (P0 : dst = P 0%nat) by reflexivity.
  destruct (stage P 8 8 total 0 (fun d cx => col_block t o 8 src ss d ws b cx)) with (fuel := total) (cx := 0%nat) as (c1 & E1 & H1 & H2); try lia.
  { intros cx _ Hcx. apply col_block_ok; lia. }
  rewrite <- P0 in E1. rewrite E1. cbn [bind].
  assert (F : P total = map vbyteraw (seq 0 (length dst))).
  { unfold P, rowmap. rewrite <- Hlen, skipn_all. apply app_nil_r. }
  destruct (c1 <? total)%nat eqn:E.
  - rewrite col_block_ok by lia. rewrite <- F. do 2 f_equal. lia.
  - replace c1 with total by lia. now rewrite F.
Qed.

(** When the sums stay below 2^30. *)
Definition vpx (x : nat) : list Z := px30 (out30 15 1023 (vaccx x 0)) (out30 15 1023 (vaccx x 1)) (out30 15 1023 (vaccx x 2)).
Definition vbytex (j : nat) : Z := nth (j mod 4) (vpx (j / 4)) 0.
Theorem ar_column_sse_closed : (forall x c, (x < total)%nat -> (c < 3)%nat -> wrap32 (vaccx x c) < 2 ^ 30) ->
  ar_column_sse t o b src dst ss ws = Done (map vbytex (seq 0 (length dst))).
Proof.
  intro Hsmall. rewrite ar_column_sse_raw. f_equal. apply map_ext_in. intros j Hj. rewrite in_seq in Hj. unfold vbyteraw, vbytex. f_equal.
  assert (J : (j / 4 < total)%nat) by (apply Nat.div_lt_upper_bound; lia).
  unfold vraw, vpx.
  assert (S : forall c, (c < 3)%nat -> low30 (vaccx (j / 4) c) = out30 15 1023 (vaccx (j / 4) c) /\ ten (low30 (vaccx (j / 4) c))).
  { intros c Hc. apply low30_small. apply Hsmall; assumption. }
  destruct (S 0%nat ltac:(lia)) as [E0 T0]. destruct (S 1%nat ltac:(lia)) as [E1 T1]. destruct (S 2%nat ltac:(lia)) as [E2 T2].
  rewrite px30_raw_ok by assumption. rewrite E0, E1, E2. reflexivity.
Qed.
End Column.
End Columns.
