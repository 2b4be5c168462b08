(** Facts about the register model of Simd.v. *)
From Coq Require Import ZifyBool ZifyNat.
From Verif Require Import Base BaseProofs KernelProofs FixedPoint Simd.
Local Open Scope Z_scope.

Definition byte (x : Z) : Prop := 0 <= x < 256.
Definition bytes (l : list Z) : Prop := Forall byte l.
Definition i16 (x : Z) : Prop := -32768 <= x <= 32767.

(** ** Two's complement *)
Lemma s16_range z : i16 (s16 z).
Proof. unfold s16, i16. change (2^15) with 32768. change (2^16) with 65536. pose proof (Z.mod_pos_bound (z + 32768) 65536). lia. Qed.
Lemma s16_small z : i16 z -> s16 z = z.
Proof. unfold s16, i16. change (2^15) with 32768. change (2^16) with 65536. intros. rewrite Z.mod_small; lia. Qed.
Lemma s16_shift a k : s16 (a + k * 65536) = s16 a.
Proof.
  unfold s16. change (2^16) with 65536. replace (a + k * 65536 + 2^15) with (a + 2^15 + k * 65536) by lia.
  now rewrite Z.mod_add by lia.
Qed.
Lemma s16_cong a : exists k, s16 a = a + k * 65536.
Proof.
  exists (- ((a + 2^15) / 65536)). unfold s16. change (2^16) with 65536.
  pose proof (Z.div_mod (a + 2^15) 65536 ltac:(lia)). lia.
Qed.
Lemma s16_eq a b k : a = b + k * 65536 -> s16 a = s16 b.
Proof. intros ->. apply s16_shift. Qed.
Lemma s16_idem a : s16 (s16 a) = s16 a.
Proof. apply s16_small, s16_range. Qed.
Lemma s16_add_l a b : s16 (s16 a + b) = s16 (a + b).
Proof. destruct (s16_cong a) as [k H]. apply s16_eq with k. lia. Qed.
Lemma s16_add_r a b : s16 (a + s16 b) = s16 (a + b).
Proof. rewrite Z.add_comm, s16_add_l, Z.add_comm. reflexivity. Qed.
Lemma s16_mod a : s16 (a mod 65536) = s16 a.
Proof. symmetry. apply s16_eq with (a / 65536). pose proof (Z.div_mod a 65536). lia. Qed.

Lemma bytes16 w : w mod 256 + 256 * (w / 256 mod 256) = w mod 65536.
Proof. change 65536 with (256 * 256). rewrite Z.rem_mul_r by lia. lia. Qed.
Lemma bytes32 w : w mod 256 + 256 * (w / 256 mod 256) + 65536 * (w / 65536 mod 256) + 16777216 * (w / 16777216 mod 256) = w mod 4294967296.
Proof.
  rewrite bytes16.
  replace (w / 16777216) with (w / 65536 / 256) by (rewrite Z.div_div by lia; reflexivity).
  replace (65536 * (w / 65536 mod 256) + 16777216 * (w / 65536 / 256 mod 256)) with (65536 * (w / 65536 mod 256 + 256 * (w / 65536 / 256 mod 256))) by lia.
  rewrite <- Z.add_assoc. replace (65536 * (w / 65536 mod 256) + 16777216 * (w / 65536 / 256 mod 256)) with (65536 * (w / 65536 mod 256 + 256 * (w / 65536 / 256 mod 256))) by lia.
  rewrite bytes16. change 4294967296 with (65536 * 65536). rewrite (Z.rem_mul_r w 65536 65536) by lia. reflexivity.
Qed.
Lemma s16_bytes w : s16 (w mod 256 + 256 * (w / 256 mod 256)) = s16 w.
Proof. rewrite bytes16. apply s16_mod. Qed.
(** The two words of a dword. *)
Lemma s16_hi w : s16 (w / 65536 mod 256 + 256 * (w / 16777216 mod 256)) = s16 (w / 65536).
Proof.
  replace (w / 16777216) with (w / 65536 / 256) by (rewrite Z.div_div by lia; reflexivity). apply s16_bytes.
Qed.
Lemma wrap32_mod w : wrap32 (w mod 4294967296) = wrap32 w.
Proof. replace (w mod 4294967296) with (w + (- (w / 4294967296)) * 2 ^ 32). apply wrap32_shift. pose proof (Z.div_mod w 4294967296). lia. Qed.
Lemma wrap32_bytes w : wrap32 (w mod 256 + 256 * (w / 256 mod 256) + 65536 * (w / 65536 mod 256) + 16777216 * (w / 16777216 mod 256)) = wrap32 w.
Proof. rewrite bytes32. apply wrap32_mod. Qed.
Lemma s16_byte0 x : byte x -> s16 (x + 256 * 0) = x.
Proof. unfold byte. intros. rewrite Z.mul_0_r, Z.add_0_r. apply s16_small. unfold i16. lia. Qed.

(** ** Encoding and decoding *)
Lemma words_of_words l : words (of_words l) = map (fun w => w mod 65536) l.
Proof. induction l as [|w l IH]; [reflexivity|]. cbn [of_words flat_map word_bytes app words map]. fold (of_words l). rewrite IH, bytes16. reflexivity. Qed.
Lemma swords_of_words l : swords (of_words l) = map s16 l.
Proof. unfold swords. rewrite words_of_words, map_map. apply map_ext. intro. apply s16_mod. Qed.
Lemma dwords_of_dwords l : dwords (of_dwords l) = map (fun w => w mod 4294967296) l.
Proof. induction l as [|w l IH]; [reflexivity|]. cbn [of_dwords flat_map dword_bytes app dwords map]. fold (of_dwords l). rewrite IH, bytes32. reflexivity. Qed.
Lemma sdwords_of_dwords l : sdwords (of_dwords l) = map wrap32 l.
Proof. unfold sdwords. rewrite dwords_of_dwords, map_map. apply map_ext. intro. apply wrap32_mod. Qed.
Lemma swords_of_dwords l : swords (of_dwords l) = flat_map (fun w => [s16 w; s16 (w / 65536)]) l.
Proof.
  induction l as [|w l IH]; [reflexivity|].
  unfold swords in *. cbn [of_dwords flat_map dword_bytes app words map]. fold (of_dwords l).
  rewrite s16_bytes, s16_hi, IH. reflexivity.
Qed.
Lemma of_words_length l : length (of_words l) = (2 * length l)%nat.
Proof. induction l; [reflexivity|]. cbn [of_words flat_map word_bytes app length]. fold (of_words l). rewrite IHl. lia. Qed.
Lemma of_dwords_length l : length (of_dwords l) = (4 * length l)%nat.
Proof. induction l; [reflexivity|]. cbn [of_dwords flat_map dword_bytes app length]. fold (of_dwords l). rewrite IHl. lia. Qed.
Lemma byte_mod x : byte (x mod 256).
Proof. unfold byte. apply Z.mod_pos_bound. lia. Qed.
Lemma of_words_bytes l : bytes (of_words l).
Proof. induction l; [constructor|]. cbn [of_words flat_map word_bytes app]. fold (of_words l). repeat (apply Forall_cons; [apply byte_mod|]). exact IHl. Qed.
Lemma of_dwords_bytes l : bytes (of_dwords l).
Proof. induction l; [constructor|]. cbn [of_dwords flat_map dword_bytes app]. fold (of_dwords l). repeat (apply Forall_cons; [apply byte_mod|]). exact IHl. Qed.

Lemma zipw_map2 f a b (l1 l2 : list Z) : zipw f (map a l1) (map b l2) = zipw (fun p q => f (a p) (b q)) l1 l2.
Proof. revert l2; induction l1 as [|p l1 IH]; intros [|q l2]; cbn; f_equal; auto. Qed.
Lemma map_zipw g f (l1 l2 : list Z) : map g (zipw f l1 l2) = zipw (fun p q => g (f p q)) l1 l2.
Proof. revert l2; induction l1 as [|p l1 IH]; intros [|q l2]; cbn; f_equal; auto. Qed.
Lemma zipw_ext f g (l1 l2 : list Z) : (forall a b, f a b = g a b) -> zipw f l1 l2 = zipw g l1 l2.
Proof. intros H. revert l2; induction l1 as [|p l1 IH]; intros [|q l2]; cbn; f_equal; auto. Qed.

(** ** Operations through the views *)
Lemma sdwords_add a b : sdwords (add_epi32 a b) = zipw (fun x y => wrap32 (x + y)) (sdwords a) (sdwords b).
Proof.
  unfold add_epi32. rewrite sdwords_of_dwords, map_zipw. unfold sdwords. rewrite zipw_map2. apply zipw_ext.
  intros. rewrite wrap32_add_l, wrap32_add_r. reflexivity.
Qed.
Lemma swords_add a b : swords (add_epi16 a b) = zipw (fun x y => s16 (x + y)) (swords a) (swords b).
Proof.
  unfold add_epi16. rewrite swords_of_words, map_zipw. unfold swords. rewrite zipw_map2. apply zipw_ext.
  intros. rewrite s16_add_l, s16_add_r. reflexivity.
Qed.
Lemma sdwords_madd a b : sdwords (madd_epi16 a b) = map wrap32 (pair_sums (zipw Z.mul (swords a) (swords b))).
Proof. apply sdwords_of_dwords. Qed.
Lemma swords_mulhrs a b : swords (mulhrs_epi16 a b) = map s16 (zipw mulhrs (swords a) (swords b)).
Proof. apply swords_of_words. Qed.
Lemma sdwords_srai n a : sdwords (srai_epi32 n a) = map (fun x => wrap32 (x / 2 ^ n)) (sdwords a).
Proof. unfold srai_epi32. rewrite sdwords_of_dwords, map_map. reflexivity. Qed.
Lemma swords_srai n a : swords (srai_epi16 n a) = map (fun x => s16 (x / 2 ^ n)) (swords a).
Proof. unfold srai_epi16. rewrite swords_of_words, map_map. reflexivity. Qed.
Lemma swords_srli n a : swords (srli_epi16 n a) = map (fun x => s16 (x / 2 ^ n)) (words a).
Proof. unfold srli_epi16. rewrite swords_of_words, map_map. reflexivity. Qed.
Lemma swords_hadd a b : swords (hadd_epi16 a b) = map s16 (pair_sums (words a) ++ pair_sums (words b)).
Proof. apply swords_of_words. Qed.

Lemma sdwords_set1 x : sdwords (set1_epi32 x) = repeat (wrap32 x) 4.
Proof. unfold set1_epi32. rewrite sdwords_of_dwords. reflexivity. Qed.
Lemma swords_set1_16 x : swords (set1_epi16 x) = repeat (s16 x) 8.
Proof. unfold set1_epi16. rewrite swords_of_words. reflexivity. Qed.
Lemma swords_set1_32 x : swords (set1_epi32 x) =
  [s16 x; s16 (x / 65536); s16 x; s16 (x / 65536); s16 x; s16 (x / 65536); s16 x; s16 (x / 65536)].
Proof. unfold set1_epi32. rewrite swords_of_dwords. reflexivity. Qed.

(** A pair of weights read as one i32. *)
Lemma pair_lo a b : i16 a -> s16 (wrap32 (a mod 65536 + 65536 * (b mod 65536))) = a.
Proof.
  intros H. destruct (wrap32_cong (a mod 65536 + 65536 * (b mod 65536))) as [k ->].
  transitivity (s16 a); [|apply s16_small; exact H].
  apply s16_eq with (b mod 65536 + k * 65536 - a / 65536). change (2 ^ 32) with 4294967296.
  pose proof (Z.div_mod a 65536). lia.
Qed.
Lemma pair_hi a b : i16 b -> s16 (wrap32 (a mod 65536 + 65536 * (b mod 65536)) / 65536) = b.
Proof.
  intros H. destruct (wrap32_cong (a mod 65536 + 65536 * (b mod 65536))) as [k ->].
  pose proof (Z.mod_pos_bound a 65536 ltac:(lia)).
  replace (a mod 65536 + 65536 * (b mod 65536) + k * 2 ^ 32) with (a mod 65536 + (b mod 65536 + k * 65536) * 65536) by lia.
  rewrite Z.div_add, (Z.div_small (a mod 65536)) by lia. rewrite Z.add_0_l, s16_shift, s16_mod. apply s16_small. exact H.
Qed.

(** ** Loads *)
Lemma load_ok n mem off : (off + n <= length mem)%nat ->
  load n mem off = Done (map (fun i => nth (off + i) mem 0) (seq 0 n) ++ repeat 0 (16 - n)).
Proof.
  intros H. unfold load. replace (off + n <=? length mem)%nat with true by lia. f_equal. f_equal.
  apply list_ext. intro i. rewrite nth_error_firstn, nth_error_skipn, nth_error_map_seq.
  destruct (Nat.ltb_spec i n); [|reflexivity]. rewrite (nth_error_nth_lt mem (off + i) 0) by lia. reflexivity.
Qed.
Lemma load_w_ok n mem off : (off + n <= length mem)%nat ->
  load_w n mem off = Done (of_words (map (fun i => nth (off + i) mem 0) (seq 0 n) ++ repeat 0 (8 - n))).
Proof.
  intros H. unfold load_w. replace (off + n <=? length mem)%nat with true by lia. f_equal. f_equal. f_equal.
  apply list_ext. intro i. rewrite nth_error_firstn, nth_error_skipn, nth_error_map_seq.
  destruct (Nat.ltb_spec i n); [|reflexivity]. rewrite (nth_error_nth_lt mem (off + i) 0) by lia. reflexivity.
Qed.
Lemma read_pair_ok mem off : (off + 2 <= length mem)%nat ->
  read_pair mem off = Done (wrap32 (nth off mem 0 mod 65536 + 65536 * (nth (off + 1) mem 0 mod 65536))).
Proof. intros H. unfold read_pair. rewrite (idx_ok mem off 0), (idx_ok mem (off + 1) 0) by lia. reflexivity. Qed.

Lemma bytes_nth l i : bytes l -> byte (nth i l 0).
Proof.
  intros H. destruct (Nat.lt_ge_cases i (length l)).
  - unfold bytes in H. rewrite Forall_forall in H. apply H, nth_In. assumption.
  - rewrite nth_overflow by assumption. unfold byte; lia.
Qed.

Lemma i16_nth ws j : Forall i16 ws -> i16 (nth j ws 0).
Proof.
  intros H. destruct (Nat.lt_ge_cases j (length ws)).
  - rewrite Forall_forall in H. apply H, nth_In. assumption.
  - rewrite nth_overflow by assumption. unfold i16; lia.
Qed.

(** ** Loops *)
Lemma while_tiles_inv {S} (Inv : nat -> S -> Prop) step slack total (body : S -> nat -> outcome S) :
  (1 <= step)%nat ->
  (forall cx s, (cx + slack < total)%nat -> Inv cx s -> yields (body s cx) (Inv (cx + step)%nat)) ->
  forall fuel cx s, (total <= cx + fuel)%nat -> Inv cx s ->
  yields (while_tiles fuel step slack total body cx s)
    (fun r => Inv (fst r) (snd r) /\ (total <= fst r + slack)%nat /\ (cx <= fst r)%nat /\
              (fst r = cx \/ fst r + slack < total + step)%nat).
Proof.
  intros Hs Hb. induction fuel as [|fuel IH]; intros cx s Hf Hi; cbn [while_tiles].
  - replace (cx + slack <? total)%nat with false by lia. eexists; split; [reflexivity|]. cbn. repeat split; auto; lia.
  - destruct (Nat.ltb_spec (cx + slack) total) as [Hlt|Hge].
    + eapply yields_bind; [apply Hb; eassumption|]. intros s' Hi'. cbv beta in Hi'.
      eapply yields_weaken; [apply IH; [lia|exact Hi']|]. intros [cx' s''] (A & B & C & D). cbn in *.
      repeat split; auto; lia.
    + eexists; split; [reflexivity|]. cbn. repeat split; auto; lia.
Qed.

Lemma foldM_seq_inv {S} (Inv : nat -> S -> Prop) (body : S -> nat -> outcome S) n : forall a s,
  (forall j s, (a <= j < a + n)%nat -> Inv j s -> yields (body s j) (Inv (j + 1)%nat)) ->
  Inv a s -> yields (foldM body (seq a n) s) (Inv (a + n)%nat).
Proof.
  induction n as [|n IH]; intros a s Hb Hi; cbn [seq foldM].
  - eexists; split; [reflexivity|]. now rewrite Nat.add_0_r.
  - eapply yields_bind; [apply Hb; [lia|exact Hi]|]. intros s' Hi'. cbv beta in Hi'.
    replace (a + Datatypes.S n)%nat with (Datatypes.S a + n)%nat by lia. apply IH.
    + intros j s0 Hj. apply Hb. lia.
    + replace (Datatypes.S a) with (a + 1)%nat by lia. exact Hi'.
Qed.

Lemma store_bytes_ok dst off v : (off + length v <= length dst)%nat -> store_bytes dst off v = Done (splice dst off v).
Proof. intros H. unfold store_bytes. replace (off + length v <=? length dst)%nat with true by lia. reflexivity. Qed.

(** The same when the state is a function of the position, from [lo] on. *)
Lemma stage {S} (P : nat -> S) step slack total lo (body : S -> nat -> outcome S) :
  (1 <= step)%nat -> (step <= slack + 1)%nat ->
  (forall cx, (lo <= cx)%nat -> (cx + slack < total)%nat -> body (P cx) cx = Done (P (cx + step)%nat)) ->
  forall fuel cx, (lo <= cx <= total)%nat -> (total <= cx + fuel)%nat ->
  exists cx', while_tiles fuel step slack total body cx (P cx) = Done (cx', P cx') /\
              (cx <= cx' <= total)%nat /\ (total <= cx' + slack)%nat.
Proof.
  intros H1 H2 Hb fuel cx Hcx Hf.
  destruct (while_tiles_inv (fun c s => s = P c /\ (lo <= c <= total)%nat) step slack total body H1) with (fuel := fuel) (cx := cx) (s := P cx)
    as ([c s] & E & (Es & Hc) & A & B & _); [|lia|split; [reflexivity|lia]|].
  - intros c s Hc (-> & Hl). rewrite Hb by lia. eexists; split; [reflexivity|]. split; [reflexivity|lia].
  - cbn [fst snd] in *. subst s. exists c. split; [exact E|]. lia.
Qed.
