(** Bit level facts about the packed 30-bit formats. *)
From Coq Require Import ZArith List Bool Lia.
From Verif Require Import Base ColorGroup Ar30.
Import ListNotations.
Local Open Scope Z_scope.

Lemma lor_shift a b n : 0 <= n -> 0 <= a < 2 ^ n -> Z.lor a (Z.shiftl b n) = a + b * 2 ^ n.
Proof.
  intros Hn Ha. rewrite <- Z.shiftl_mul_pow2 by lia.
  assert (Z.land a (Z.shiftl b n) = 0) as Z0.
  { apply Z.bits_inj'. intros i Hi. rewrite Z.land_spec, Z.bits_0, Z.shiftl_spec by lia.
    destruct (Z.lt_ge_cases i n).
    - rewrite (Z.testbit_neg_r b) by lia. apply andb_false_r.
    - replace (Z.testbit a i) with false; [reflexivity|]. symmetry.
      destruct (Z.eq_dec a 0) as [->|N0]; [apply Z.bits_0|].
      apply Z.bits_above_log2; [lia|]. apply Z.log2_lt_pow2; [lia|].
      apply Z.lt_le_trans with (2 ^ n); [lia|]. apply Z.pow_le_mono_r; lia. }
  rewrite <- Z.lxor_lor, Z.add_nocarry_lxor by exact Z0. reflexivity.
Qed.
Lemma land_mod w n : 0 <= n -> Z.land w (2 ^ n - 1) = w mod 2 ^ n.
Proof. intro H. rewrite <- Z.land_ones by lia. f_equal. now rewrite Z.ones_equiv, Z.sub_1_r. Qed.

Lemma land255 w : Z.land w 255 = w mod 256. Proof. exact (land_mod w 8 ltac:(lia)). Qed.
Lemma land1023 w : Z.land w 1023 = w mod 1024. Proof. exact (land_mod w 10 ltac:(lia)). Qed.
Lemma u32_mod w : u32 w = w mod 4294967296. Proof. exact (land_mod w 32 ltac:(lia)). Qed.

Lemma word_sum b0 b1 b2 b3 : 0 <= b0 < 256 -> 0 <= b1 < 256 -> 0 <= b2 < 256 ->
  word_of_bytes b0 b1 b2 b3 = b0 + 256 * b1 + 65536 * b2 + 16777216 * b3.
Proof.
  intros H0 H1 H2. unfold word_of_bytes.
  replace (Z.lor (Z.shiftl b2 16) (Z.shiftl b3 24)) with (Z.shiftl (Z.lor b2 (Z.shiftl b3 8)) 16).
  2:{ rewrite Z.shiftl_lor, Z.shiftl_shiftl by lia. reflexivity. }
  replace (Z.lor (Z.shiftl b1 8) (Z.shiftl (Z.lor b2 (Z.shiftl b3 8)) 16))
    with (Z.shiftl (Z.lor b1 (Z.shiftl (Z.lor b2 (Z.shiftl b3 8)) 8)) 8).
  2:{ rewrite Z.shiftl_lor, Z.shiftl_shiftl by lia. reflexivity. }
  rewrite !lor_shift by lia. change (2 ^ 8) with 256. lia.
Qed.
Lemma bytes_sum w : bytes_of_word w = [w mod 256; (w / 256) mod 256; (w / 65536) mod 256; (w / 16777216) mod 256].
Proof. unfold bytes_of_word. rewrite !land255, !Z.shiftr_div_pow2 by lia. reflexivity. Qed.
Lemma swap_sum w : 0 <= w < 4294967296 ->
  swap_bytes w = (w / 16777216) mod 256 + 256 * ((w / 65536) mod 256) + 65536 * ((w / 256) mod 256) + 16777216 * (w mod 256).
Proof.
  intro H. unfold swap_bytes. rewrite !land255, !Z.shiftr_div_pow2 by lia.
  rewrite word_sum by (apply Z.mod_pos_bound; lia). reflexivity.
Qed.

Definition is_word (w : Z) : Prop := 0 <= w < 4294967296.
Definition is_byte (b : Z) : Prop := 0 <= b < 256.

Lemma split_word w : is_word w -> exists b0 b1 b2 b3, is_byte b0 /\ is_byte b1 /\ is_byte b2 /\ is_byte b3 /\
  w = b0 + 256 * b1 + 65536 * b2 + 16777216 * b3.
Proof.
  intro H. exists (w mod 256), ((w / 256) mod 256), ((w / 65536) mod 256), (w / 16777216).
  unfold is_word, is_byte in *. repeat split; try (apply Z.mod_pos_bound; lia); try (apply Z.div_pos; lia).
  - apply Z.div_lt_upper_bound; lia.
  - replace 65536 with (256 * 256) by lia. replace 16777216 with (256 * 256 * 256) by lia.
    rewrite <- !Z.div_div by lia.
    pose proof (Z.div_mod w 256 ltac:(lia)). pose proof (Z.div_mod (w / 256) 256 ltac:(lia)).
    pose proof (Z.div_mod (w / 256 / 256) 256 ltac:(lia)). lia.
Qed.
Lemma digits b0 b1 b2 b3 : is_byte b0 -> is_byte b1 -> is_byte b2 -> is_byte b3 ->
  let w := b0 + 256 * b1 + 65536 * b2 + 16777216 * b3 in
  w mod 256 = b0 /\ (w / 256) mod 256 = b1 /\ (w / 65536) mod 256 = b2 /\ (w / 16777216) mod 256 = b3.
Proof.
  intros H0 H1 H2 H3 w. unfold is_byte in *.
  assert (E0 : w mod 256 = b0) by (symmetry; apply Z.mod_unique with (b1 + 256 * b2 + 65536 * b3); unfold w; lia).
  assert (E1 : w / 256 = b1 + 256 * b2 + 65536 * b3) by (symmetry; apply Z.div_unique with b0; unfold w; lia).
  assert (E2 : w / 65536 = b2 + 256 * b3) by (symmetry; apply Z.div_unique with (b0 + 256 * b1); unfold w; lia).
  assert (E3 : w / 16777216 = b3) by (symmetry; apply Z.div_unique with (b0 + 256 * b1 + 65536 * b2); unfold w; lia).
  rewrite E0, E1, E2, E3. repeat split; symmetry.
  - apply Z.mod_unique with (b2 + 256 * b3); lia.
  - apply Z.mod_unique with b3; lia.
  - apply Z.mod_unique with 0; lia.
Qed.
Lemma swap_digits b0 b1 b2 b3 : is_byte b0 -> is_byte b1 -> is_byte b2 -> is_byte b3 ->
  swap_bytes (b0 + 256 * b1 + 65536 * b2 + 16777216 * b3) = b3 + 256 * b2 + 65536 * b1 + 16777216 * b0.
Proof.
  intros H0 H1 H2 H3. destruct (digits b0 b1 b2 b3 H0 H1 H2 H3) as (E0 & E1 & E2 & E3).
  unfold is_byte in *. rewrite swap_sum by lia. now rewrite E0, E1, E2, E3.
Qed.
Lemma swap_word w : is_word w -> is_word (swap_bytes w).
Proof.
  intro H. destruct (split_word w H) as (b0 & b1 & b2 & b3 & H0 & H1 & H2 & H3 & ->).
  rewrite swap_digits by auto. unfold is_word, is_byte in *. lia.
Qed.
Lemma swap_swap w : is_word w -> swap_bytes (swap_bytes w) = w.
Proof.
  intro H. destruct (split_word w H) as (b0 & b1 & b2 & b3 & H0 & H1 & H2 & H3 & ->).
  rewrite !swap_digits by auto. reflexivity.
Qed.
(** Storing a word as four bytes and reading it back. *)
Lemma word_bytes w : is_word w -> match bytes_of_word w with
  | [b0; b1; b2; b3] => is_byte b0 /\ is_byte b1 /\ is_byte b2 /\ is_byte b3 /\ word_of_bytes b0 b1 b2 b3 = w
  | _ => False end.
Proof.
  intro H. destruct (split_word w H) as (b0 & b1 & b2 & b3 & H0 & H1 & H2 & H3 & ->).
  rewrite bytes_sum. destruct (digits b0 b1 b2 b3 H0 H1 H2 H3) as (-> & -> & -> & ->).
  repeat split; try apply H0; try apply H1; try apply H2; try apply H3.
  apply word_sum; assumption.
Qed.
Lemma bytes_word b0 b1 b2 b3 : is_byte b0 -> is_byte b1 -> is_byte b2 -> is_byte b3 ->
  is_word (word_of_bytes b0 b1 b2 b3) /\ bytes_of_word (word_of_bytes b0 b1 b2 b3) = [b0; b1; b2; b3].
Proof.
  intros H0 H1 H2 H3. rewrite word_sum by assumption. split; [unfold is_word, is_byte in *; lia|].
  rewrite bytes_sum. destruct (digits b0 b1 b2 b3 H0 H1 H2 H3) as (-> & -> & -> & ->). reflexivity.
Qed.

(** The packed word in arithmetic, host order. *)
Definition word30 (t : rgb30) (r g b a : Z) : Z :=
  match t with
  | Ar30 => r + 1024 * g + 1048576 * b + 1073741824 * a
  | Ra30 => a + 4 * b + 4096 * g + 4194304 * r
  end.
Definition ten (v : Z) : Prop := 0 <= v < 1024.
Lemma word30_word t r g b a : ten r -> ten g -> ten b -> 0 <= a < 4 -> is_word (word30 t r g b a).
Proof. unfold ten, is_word, word30. destruct t; lia. Qed.
Lemma u32_small z : is_word z -> u32 z = z.
Proof. intro H. rewrite u32_mod. apply Z.mod_small. exact H. Qed.
Lemma pack_word t r g b : ten r -> ten g -> ten b -> pack_w_a t HostOrder r g b = word30 t r g b 3.
Proof.
  unfold ten, pack_w_a. intros Hr Hg Hb. rewrite (u32_small r), (u32_small g), (u32_small b) by (unfold is_word; lia).
  destruct t.
  - rewrite (u32_small (Z.shiftl b 20)) by (unfold is_word; rewrite Z.shiftl_mul_pow2 by lia; lia).
    rewrite (u32_small (Z.shiftl g 10)) by (unfold is_word; rewrite Z.shiftl_mul_pow2 by lia; lia).
    rewrite (Z.lor_comm (Z.shiftl g 10) r), (Z.lor_comm (Z.shiftl 3 30)), <- (Z.lor_comm (Z.lor r _)).
    rewrite lor_shift by lia.
    replace (Z.lor (Z.shiftl b 20) (Z.shiftl 3 30)) with (Z.shiftl (Z.lor b (Z.shiftl 3 10)) 20).
    2:{ rewrite Z.shiftl_lor, Z.shiftl_shiftl by lia. reflexivity. }
    rewrite !lor_shift by lia. unfold word30. change (2 ^ 10) with 1024. change (2 ^ 20) with 1048576. change (2 ^ 2) with 4. change (2 ^ 12) with 4096. lia.
  - rewrite (u32_small (Z.shiftl r 22)) by (unfold is_word; rewrite Z.shiftl_mul_pow2 by lia; lia).
    rewrite (u32_small (Z.shiftl g 12)) by (unfold is_word; rewrite Z.shiftl_mul_pow2 by lia; lia).
    rewrite (u32_small (Z.shiftl b 2)) by (unfold is_word; rewrite Z.shiftl_mul_pow2 by lia; lia).
    rewrite (Z.lor_comm (Z.shiftl b 2) 3), (Z.lor_comm (Z.shiftl r 22)), <- (Z.lor_comm (Z.lor 3 _)).
    rewrite lor_shift by lia.
    replace (Z.lor (Z.shiftl g 12) (Z.shiftl r 22)) with (Z.shiftl (Z.lor g (Z.shiftl r 10)) 12).
    2:{ rewrite Z.shiftl_lor, Z.shiftl_shiftl by lia. reflexivity. }
    rewrite !lor_shift by lia. unfold word30. change (2 ^ 10) with 1024. change (2 ^ 20) with 1048576. change (2 ^ 2) with 4. change (2 ^ 12) with 4096. lia.
Qed.
Lemma unpack_word t r g b a : ten r -> ten g -> ten b -> 0 <= a < 4 -> unpack t HostOrder (word30 t r g b a) = mkCG r g b 3.
Proof.
  unfold ten, unpack. intros Hr Hg Hb Ha. rewrite !land1023, !Z.shiftr_div_pow2 by lia.
  destruct t; rewrite ?land1023, ?Z.shiftr_div_pow2 by lia; unfold word30; f_equal.
  - symmetry. apply Z.mod_unique with (g + 1024 * b + 1048576 * a); lia.
  - change (2 ^ 10) with 1024. rewrite <- (Z.div_unique (r + 1024 * g + 1048576 * b + 1073741824 * a) 1024 (g + 1024 * b + 1048576 * a) r) by lia.
    symmetry. apply Z.mod_unique with (b + 1024 * a); lia.
  - change (2 ^ 20) with 1048576. rewrite <- (Z.div_unique (r + 1024 * g + 1048576 * b + 1073741824 * a) 1048576 (b + 1024 * a) (r + 1024 * g)) by lia.
    symmetry. apply Z.mod_unique with a; lia.
  - change (2 ^ 22) with 4194304. rewrite <- (Z.div_unique (a + 4 * b + 4096 * g + 4194304 * r) 4194304 r (a + 4 * b + 4096 * g)) by lia.
    symmetry. apply Z.mod_unique with 0; lia.
  - change (2 ^ 12) with 4096. rewrite <- (Z.div_unique (a + 4 * b + 4096 * g + 4194304 * r) 4096 (g + 1024 * r) (a + 4 * b)) by lia.
    symmetry. apply Z.mod_unique with r; lia.
  - change (2 ^ 2) with 4. rewrite <- (Z.div_unique (a + 4 * b + 4096 * g + 4194304 * r) 4 (b + 1024 * g + 1048576 * r) a) by lia.
    symmetry. apply Z.mod_unique with (g + 1024 * r); lia.
Qed.
Lemma split30 t w : is_word w -> exists r g b a, ten r /\ ten g /\ ten b /\ 0 <= a < 4 /\ w = word30 t r g b a.
Proof.
  unfold is_word, ten. intro H. destruct t; cbn [word30].
  - exists (w mod 1024), ((w / 1024) mod 1024), ((w / 1024 / 1024) mod 1024), (w / 1024 / 1024 / 1024).
    pose proof (Z.div_mod w 1024 ltac:(lia)). pose proof (Z.div_mod (w / 1024) 1024 ltac:(lia)).
    pose proof (Z.div_mod (w / 1024 / 1024) 1024 ltac:(lia)).
    pose proof (Z.mod_pos_bound w 1024 ltac:(lia)). pose proof (Z.mod_pos_bound (w / 1024) 1024 ltac:(lia)).
    pose proof (Z.mod_pos_bound (w / 1024 / 1024) 1024 ltac:(lia)). lia.
  - exists (w / 4 / 1024 / 1024), ((w / 4 / 1024) mod 1024), ((w / 4) mod 1024), (w mod 4).
    pose proof (Z.div_mod w 4 ltac:(lia)). pose proof (Z.div_mod (w / 4) 1024 ltac:(lia)).
    pose proof (Z.div_mod (w / 4 / 1024) 1024 ltac:(lia)).
    pose proof (Z.mod_pos_bound w 4 ltac:(lia)). pose proof (Z.mod_pos_bound (w / 4) 1024 ltac:(lia)).
    pose proof (Z.mod_pos_bound (w / 4 / 1024) 1024 ltac:(lia)). lia.
Qed.

(** Both orders. *)
Definition ordered (o : byte_order) (w : Z) : Z := match o with HostOrder => w | NetworkOrder => swap_bytes w end.
Lemma pack_ordered t o r g b : pack_w_a t o r g b = ordered o (pack_w_a t HostOrder r g b).
Proof. destruct o; reflexivity. Qed.
Lemma unpack_ordered t o w : unpack t o w = unpack t HostOrder (ordered o w).
Proof. destruct o; reflexivity. Qed.
Lemma ordered_word o w : is_word w -> is_word (ordered o w).
Proof. destruct o; auto using swap_word. Qed.
Lemma ordered_ordered o w : is_word w -> ordered o (ordered o w) = w.
Proof. destruct o; auto using swap_swap. Qed.

Lemma pack_is_word t o r g b : ten r -> ten g -> ten b -> is_word (pack_w_a t o r g b).
Proof. intros. rewrite pack_ordered, pack_word by auto. apply ordered_word, word30_word; auto; lia. Qed.
Lemma unpack_pack t o r g b : ten r -> ten g -> ten b -> unpack t o (pack_w_a t o r g b) = mkCG r g b 3.
Proof.
  intros. rewrite pack_ordered, unpack_ordered, ordered_ordered, pack_word by (auto using pack_is_word).
  apply unpack_word; auto; lia.
Qed.
Lemma unpack_range t o w : is_word w -> ten (cr (unpack t o w)) /\ ten (cgr (unpack t o w)) /\ ten (cb (unpack t o w)) /\ ca (unpack t o w) = 3.
Proof.
  intro H. rewrite unpack_ordered. destruct (split30 t (ordered o w) (ordered_word o w H)) as (r & g & b & a & Hr & Hg & Hb & Ha & ->).
  rewrite unpack_word by auto. cbn. auto.
Qed.
Lemma pack_unpack t o w : is_word w ->
  (match t with Ar30 => ordered o w / 1073741824 | Ra30 => ordered o w mod 4 end) = 3 ->
  pack_w_a t o (cr (unpack t o w)) (cgr (unpack t o w)) (cb (unpack t o w)) = w.
Proof.
  intros H A. rewrite pack_ordered, unpack_ordered.
  destruct (split30 t (ordered o w) (ordered_word o w H)) as (r & g & b & a & Hr & Hg & Hb & Ha & E).
  rewrite E, unpack_word by auto. cbn [cr cgr cb]. rewrite pack_word by auto.
  replace 3 with a; [rewrite <- E; now apply ordered_ordered|].
  rewrite E in A. rewrite <- A. unfold ten in *. destruct t; cbn [word30].
  - apply Z.div_unique with (r + 1024 * g + 1048576 * b); lia.
  - apply Z.mod_unique with (b + 1024 * g + 1048576 * r); lia.
Qed.
