(** Closed form of the packed 30-bit resize calls. *)
From Coq Require Import ZArith List Bool Lia ZifyBool ZifyNat ZifyN.
From Verif Require Import Base BaseProofs ImageStore ColorGroup FixedPoint Dispatch Resize F32 Weights Sampler Api Spec SpecApi
  KernelProofs Kernel4Proofs ColumnProofs DispatchProofs ResizeProofs WeightsProofs SamplerProofs QuantProofs QuantSums PortableProofs ApiProofs NoFail PoolProofs ImageProofs
  Ar30 SpecAr30 Ar30Proofs Ar30Kernels.
Import ListNotations.
Local Open Scope nat_scope.

(** horizontal_dispatch when the four-row and the one-row kernel may differ. *)
Theorem horizontal_dispatch_split {T} N k4 k1 (row4 row1 : list T -> list T -> list T)
  pool (im into : image T) ss ds h :
  pool_ok pool ->
  stride_of N im = ss -> stride_of N into = ds -> 0 < ss -> 0 < ds ->
  length (buf im) = h * ss -> length (buf into) = h * ds ->
  (forall s d, length s = ss -> length d = ds -> k1 s d = Done (row1 s d)) ->
  (forall s d, length s = 4 * ss -> length d = 4 * ds ->
     k4 s ss d ds = Done (row4 (chunk ss s 0) (chunk ds d 0) ++ row4 (chunk ss s 1) (chunk ds d 1) ++
                          row4 (chunk ss s 2) (chunk ds d 2) ++ row4 (chunk ss s 3) (chunk ds d 3))) ->
  horizontal_dispatch N k4 k1 pool im into =
  Done (set_buf into (concat (map (fun y =>
     (if y <? 4 * (h / 4) then row4 else row1) (chunk ss (buf im) y) (chunk ds (buf into) y)) (seq 0 h)))).
Proof.
  intros HP Ess Eds Hss Hds Lsrc Ldst K1 K4. unfold horizontal_dispatch. rewrite Ess, Eds.
  set (src := buf im) in *. set (dst := buf into) in *.
  assert (Qs : length src / (ss * 4) = h / 4) by (rewrite Lsrc; apply div_div_4; auto).
  assert (Qd : length dst / (ds * 4) = h / 4) by (rewrite Ldst; apply div_div_4; auto).
  pose proof (Nat.div_mod h 4 ltac:(lia)) as DM. pose proof (Nat.mod_upper_bound h 4 ltac:(lia)) as MB.
  set (q := h / 4) in *. set (r := h mod 4) in *.
  rewrite !chunks_exact_o_ok by lia. cbn [bind].
  set (f y := (if y <? 4 * q then row4 else row1) (chunk ss src y) (chunk ds dst y)).
  rewrite (for_each_seq pool lbl_rows4 _ _ _
      (map (fun i => f (4 * i) ++ f (4 * i + 1) ++ f (4 * i + 2) ++ f (4 * i + 3)) (seq 0 q))); [| auto |].
  2:{ rewrite (zip_mut_idx _ (fun i => f (4 * i) ++ f (4 * i + 1) ++ f (4 * i + 2) ++ f (4 * i + 3))).
      - rewrite chunks_exact_length, Qs. f_equal. rewrite skipn_all2; [apply app_nil_r|].
        rewrite chunks_exact_length, Qd. lia.
      - intros i d s Hd Hs. rewrite nth_error_chunks, Qd in Hd. rewrite nth_error_chunks, Qs in Hs.
        destruct (i <? q) eqn:E; [|discriminate]. injection Hd as <-. injection Hs as <-.
        rewrite K4.
        + rewrite !chunk_chunk by lia. rewrite Nat.add_0_r. unfold f.
          replace (4 * i <? 4 * q) with true by lia. replace (4 * i + 1 <? 4 * q) with true by lia.
          replace (4 * i + 2 <? 4 * q) with true by lia. replace (4 * i + 3 <? 4 * q) with true by lia. reflexivity.
        + rewrite chunk_length; lia.
        + rewrite chunk_length; lia.
      - rewrite !chunks_exact_length, Qs, Qd. lia. }
  cbn [bind].
  assert (Rs : length (chunks_rem (ss * 4) src) = r * ss).
  { unfold chunks_rem. rewrite skipn_length, Qs. nia. }
  assert (Rd : length (chunks_rem (ds * 4) dst) = r * ds).
  { unfold chunks_rem. rewrite skipn_length, Qd. nia. }
  rewrite (for_each_seq pool lbl_rows1 _ _ _ (map (fun i => f (4 * q + i)) (seq 0 r))); [| auto |].
  2:{ rewrite (zip_mut_idx _ (fun i => f (4 * q + i))).
      - rewrite chunks_exact_length, Rs, Nat.div_mul by lia. f_equal.
        rewrite skipn_all2; [apply app_nil_r|].
        rewrite chunks_exact_length, Rd, Nat.div_mul by lia. lia.
      - intros i d s Hd Hs. rewrite nth_error_chunks, Rd, Nat.div_mul in Hd by lia.
        rewrite nth_error_chunks, Rs, Nat.div_mul in Hs by lia.
        destruct (i <? r) eqn:E; [|discriminate]. injection Hd as <-. injection Hs as <-.
        rewrite K1.
        + rewrite !chunk_rem, Qs, Qd. unfold f. replace (4 * q + i <? 4 * q) with false by lia. reflexivity.
        + apply chunk_length. rewrite Rs, Nat.div_mul by lia. lia.
        + apply chunk_length. rewrite Rd, Nat.div_mul by lia. lia.
      - rewrite !chunks_exact_length, Rs, Rd, !Nat.div_mul by lia. lia. }
  cbn [bind]. f_equal. apply set_buf_ext. unfold unchunk.
  rewrite (chunks_rem_exact ds (chunks_rem (ds * 4) dst) r) by auto. rewrite app_nil_r.
  change (fun y => (if y <? 4 * q then row4 else row1) (chunk ss src y) (chunk ds dst y)) with f.
  rewrite DM at 1. rewrite concat_split4. reflexivity.
Qed.

Section Passes.
Variables (t : rgb30) (o : byte_order).

(** Taps used in row y of h rows. *)
Definition taps_in (h y : nat) : nat -> nat := if y <? 4 * (h / 4) then (fun n => n) else short_taps.

Lemma ar_hpass_closed {F} (q : F -> Z) (fw : fweights F) pool src ss dst ds h insz outsz :
  pool_ok pool -> wf_fw fw insz outsz -> 0 < insz -> 0 < outsz -> insz * 4 <= ss -> outsz * 4 <= ds ->
  length src = h * ss -> length dst = h * ds ->
  ar_hpass t o q fw pool src ss dst ds =
  Done (pixmap 0%Z h ds (outsz * 4) (fun y j => nth (j mod 4) (packed t o (hacc t o (taps_in h y) (qfw q fw) (chunk ss src y) (j / 4))) 0%Z) dst).
Proof.
  intros HP W Hi Ho Ls Ld Es Ed. unfold ar_hpass. rewrite (numerical_approximation_qfw q fw _ _ W). cbn [bind].
  pose proof (qfw_wf q fw _ _ W) as W'.
  assert (S1 : stride_of 4 (byte_image src 0 0 ss) = ss) by (unfold stride_of, byte_image; cbn; destruct ss; [lia|reflexivity]).
  assert (S2 : stride_of 4 (byte_image dst 0 0 ds) = ds) by (unfold stride_of, byte_image; cbn; destruct ds; [lia|reflexivity]).
  rewrite (horizontal_dispatch_split 4 _ _ (hrow t o (fun n => n) (qfw q fw) outsz) (hrow t o short_taps (qfw q fw) outsz)
     pool _ _ ss ds h HP S1 S2 ltac:(lia) ltac:(lia) Es Ed).
  - cbn [bind buf set_buf byte_image]. f_equal. rewrite <- (pixmap_rows 0%Z h ds) by (auto; lia). f_equal.
    apply map_seq_ext. intros y Hy. unfold taps_in. destruct (y <? 4 * (h / 4)); reflexivity.
  - intros s d L1 L2. apply ar_row_handler_closed with (insz := insz); [exact W'|lia|lia].
  - intros s d L1 L2. apply ar_row_handler_4_closed with (insz := insz); [exact W'|lia|lia|lia|lia].
Qed.

Lemma ar_vpass_closed {F} (q : F -> Z) (fw : fweights F) pool src ss dst ds w insz outsz :
  pool_ok pool -> wf_fw fw insz outsz -> 0 < w -> w * 4 <= ss -> w * 4 <= ds ->
  length src = insz * ss -> length dst = outsz * ds ->
  ar_vpass t o q fw pool src ss dst ds w =
  Done (pixmap 0%Z outsz ds (w * 4) (fun y j =>
    vbyte t o src ss (skipn (y * aligned_size fw) (map q (weights fw))) (nth y (bounds fw) (mkBound 0 0)) j) dst).
Proof.
  intros HP W Hw Ls Ld Es Ed. unfold ar_vpass. rewrite (numerical_approximation_qfw q fw _ _ W). cbn [bind].
  pose proof (qfw_wf q fw _ _ W) as W'.
  assert (S1 : stride_of 4 (byte_image src 0 0 ss) = ss) by (unfold stride_of, byte_image; cbn; destruct ss; [lia|reflexivity]).
  assert (S2 : stride_of 4 (byte_image dst w 0 ds) = ds) by (unfold stride_of, byte_image; cbn [stride width]; destruct ds; [lia|reflexivity]).
  cbn [qfw bounds aligned_size weights].
  set (val y := map (vbyte t o src ss (skipn (y * aligned_size fw) (map q (weights fw))) (nth y (bounds fw) (mkBound 0 0))) (seq 0 (w * 4))).
  rewrite (vertical_dispatch_closed 4 _ _ _ _ val pool _ _ ds outsz HP S2 ltac:(lia)).
  - cbn [bind buf set_buf byte_image width]. f_equal. rewrite <- (pixmap_rows 0%Z outsz ds) by (auto; lia). reflexivity.
  - cbn [width byte_image]. lia.
  - exact Ed.
  - apply (wf_blen _ _ _ W).
  - rewrite map_length, (wf_wlen _ _ _ W). lia.
  - intros y b d Hb Hy Hd. cbn [width byte_image buf] in *. rewrite S1.
    destruct (wf_win _ _ _ W y b Hb) as (B1 & B2 & B3).
    assert (Eb : nth y (bounds fw) (mkBound 0 0) = b) by (apply nth_error_nth; exact Hb).
    split.
    + rewrite (ar_column_handler_closed t o src ss _ b d w Hd B1).
      * f_equal. unfold val. rewrite Eb, Hd. reflexivity.
      * rewrite skipn_length, map_length, (wf_wlen _ _ _ W). nia.
      * intros k Hk. rewrite Es. nia.
    + unfold val. rewrite map_length, seq_length. reflexivity.
Qed.

(** ** Reading packed pixels *)
Local Open Scope Z_scope.

Lemma clamp10_ten v : ten (clamp10 v). Proof. unfold ten, clamp10. lia. Qed.
Lemma clamp10_spec v : clamp10 v = floor_q15 1023 v.
Proof. unfold clamp10, floor_q15, clampZ, PRECISION. rewrite Z.shiftr_div_pow2 by lia. lia. Qed.

Lemma colour_word30 r g b a c : ten r -> ten g -> ten b -> 0 <= a < 4 ->
  alpha_bits t (word30 t r g b a) = a /\
  colour t (word30 t r g b a) c = match c with O => r | 1%nat => g | _ => b end.
Proof.
  unfold ten. intros Hr Hg Hb Ha. destruct t; cbn [word30 alpha_bits colour].
  - split; [symmetry; apply Z.div_unique with (r + 1024 * g + 1048576 * b); lia|].
    assert (E1 : (r + 1024 * g + 1048576 * b + 1073741824 * a) / 2 ^ 10 = g + 1024 * b + 1048576 * a).
    { symmetry. apply Z.div_unique with r; lia. }
    assert (E2 : (r + 1024 * g + 1048576 * b + 1073741824 * a) / 2 ^ 20 = b + 1024 * a).
    { symmetry. apply Z.div_unique with (r + 1024 * g); lia. }
    destruct c as [|[|c]].
    + symmetry. apply Z.mod_unique with (g + 1024 * b + 1048576 * a); lia.
    + rewrite E1. symmetry. apply Z.mod_unique with (b + 1024 * a); lia.
    + rewrite E2. symmetry. apply Z.mod_unique with a; lia.
  - split; [symmetry; apply Z.mod_unique with (b + 1024 * g + 1048576 * r); lia|].
    assert (E0 : (a + 4 * b + 4096 * g + 4194304 * r) / 2 ^ 22 = r).
    { symmetry. apply Z.div_unique with (a + 4 * b + 4096 * g); lia. }
    assert (E1 : (a + 4 * b + 4096 * g + 4194304 * r) / 2 ^ 12 = g + 1024 * r).
    { symmetry. apply Z.div_unique with (a + 4 * b); lia. }
    assert (E2 : (a + 4 * b + 4096 * g + 4194304 * r) / 2 ^ 2 = b + 1024 * g + 1048576 * r).
    { symmetry. apply Z.div_unique with a; lia. }
    destruct c as [|[|c]].
    + exact E0.
    + rewrite E1. symmetry. apply Z.mod_unique with r; lia.
    + rewrite E2. symmetry. apply Z.mod_unique with (g + 1024 * r); lia.
Qed.

(** [word_at] is the word in host order after undoing the byte order. *)
Lemma word_at_ordered (s : list Z) i : is_byte (nth i s 0) -> is_byte (nth (i + 1) s 0) -> is_byte (nth (i + 2) s 0) -> is_byte (nth (i + 3) s 0) ->
  word_at o s i = ordered o (word_of_bytes (nth i s 0) (nth (i + 1) s 0) (nth (i + 2) s 0) (nth (i + 3) s 0)) /\ is_word (word_at o s i).
Proof.
  intros B0 B1 B2 B3. rewrite word_sum by assumption. unfold word_at. rewrite Nat.add_0_r.
  unfold is_byte, is_word in *. destruct o; cbn [ordered].
  - split; lia.
  - rewrite swap_digits by assumption. split; lia.
Qed.

(** The component a kernel reads is the colour of the pixel. *)
Lemma comp_colour s i c : (c < 3)%nat -> is_byte (nth i s 0) -> is_byte (nth (i + 1) s 0) -> is_byte (nth (i + 2) s 0) -> is_byte (nth (i + 3) s 0) ->
  comp t o s i c = colour t (word_at o s i) c.
Proof.
  intros Hc B0 B1 B2 B3. destruct (word_at_ordered s i B0 B1 B2 B3) as [E W].
  unfold comp. rewrite unpack_ordered, <- E.
  destruct (split30 t _ W) as (r & g & b & a & Hr & Hg & Hb & Ha & ->). rewrite unpack_word by auto.
  rewrite (proj2 (colour_word30 r g b a c Hr Hg Hb Ha)). destruct c as [|[|[|c]]]; try lia; reflexivity.
Qed.

Lemma colour_range s i c : (c < 3)%nat -> is_byte (nth i s 0) -> is_byte (nth (i + 1) s 0) -> is_byte (nth (i + 2) s 0) -> is_byte (nth (i + 3) s 0) ->
  0 <= colour t (word_at o s i) c <= 1023.
Proof.
  intros Hc B0 B1 B2 B3. destruct (word_at_ordered s i B0 B1 B2 B3) as [E W].
  destruct (split30 t _ W) as (r & g & b & a & Hr & Hg & Hb & Ha & ->).
  rewrite (proj2 (colour_word30 r g b a c Hr Hg Hb Ha)). unfold ten in *. destruct c as [|[|[|c]]]; lia.
Qed.

(** A stored pixel reads back as the clamped accumulators. *)
Lemma stored_colour s i A : (forall k, (k < 4)%nat -> nth (i + k) s 0 = nth k (packed t o A) 0) ->
  alpha_bits t (word_at o s i) = 3 /\ forall c, (c < 3)%nat -> colour t (word_at o s i) c = floor_q15 1023 (wrap32 (A c)).
Proof.
  intro H.
  assert (E : word_at o s i = word30 t (clamp10 (wrap32 (A 0%nat))) (clamp10 (wrap32 (A 1%nat))) (clamp10 (wrap32 (A 2%nat))) 3).
  { set (r := clamp10 (wrap32 (A 0%nat))). set (g := clamp10 (wrap32 (A 1%nat))). set (b := clamp10 (wrap32 (A 2%nat))).
    assert (Wd : is_word (pack_w_a t o r g b)) by (apply pack_is_word; apply clamp10_ten).
    pose proof (word_bytes _ Wd) as WB.
    assert (P : packed t o A = bytes_of_word (pack_w_a t o r g b)) by reflexivity. rewrite P in H.
    destruct (bytes_of_word (pack_w_a t o r g b)) as [|b0 [|b1 [|b2 [|b3 [|]]]]]; try contradiction.
    destruct WB as (B0 & B1 & B2 & B3 & E).
    pose proof (H 0%nat ltac:(lia)) as H0. rewrite Nat.add_0_r in H0. pose proof (H 1%nat ltac:(lia)) as H1.
    pose proof (H 2%nat ltac:(lia)) as H2. pose proof (H 3%nat ltac:(lia)) as H3. cbn [nth] in H0, H1, H2, H3.
    destruct (word_at_ordered s i) as [Ew _]; try (rewrite ?H0, ?H1, ?H2, ?H3; assumption).
    rewrite Ew, H0, H1, H2, H3, E. rewrite pack_ordered.
    rewrite ordered_ordered by (apply pack_is_word; apply clamp10_ten).
    apply pack_word; apply clamp10_ten. }
  rewrite E. split.
  - apply (colour_word30 _ _ _ 3 0%nat); try apply clamp10_ten; lia.
  - intros c Hc. rewrite (proj2 (colour_word30 _ _ _ 3 c (clamp10_ten _) (clamp10_ten _) (clamp10_ten _) ltac:(lia))).
    rewrite <- clamp10_spec. destruct c as [|[|[|c]]]; try lia; reflexivity.
Qed.

Lemma packed_bytes A : Forall is_byte (packed t o A).
Proof.
  unfold packed. rewrite bytes_sum. repeat constructor; unfold is_byte; apply Z.mod_pos_bound; lia.
Qed.
Lemma packed_nth_byte A k : is_byte (nth k (packed t o A) 0).
Proof.
  destruct (Nat.lt_ge_cases k 4).
  - pose proof (packed_bytes A) as H0. rewrite Forall_forall in H0. apply H0. apply nth_In. rewrite packed_length. assumption.
  - rewrite nth_overflow by (rewrite packed_length; assumption). unfold is_byte; lia.
Qed.

Local Open Scope nat_scope.
(** Bytes of pixel (x, y). *)
Definition visible_bytes (b : list Z) (stride w h : nat) : Prop :=
  forall x y k, x < w -> y < h -> k < 4 -> is_byte (nth (y * stride + x * 4 + k) b 0%Z).

Lemma bytes_visible b stride w h : bytes_in b -> visible_bytes b stride w h.
Proof.
  intros B x y k _ _ _. set (i := y * stride + x * 4 + k). destruct (Nat.lt_ge_cases i (length b)) as [L|L].
  - unfold bytes_in in B. rewrite Forall_forall in B. apply B. now apply nth_In.
  - rewrite nth_overflow by exact L. unfold is_byte; lia.
Qed.

Lemma visible_comp b stride w h x y c : visible_bytes b stride w h -> x < w -> y < h -> c < 3 ->
  comp t o b (y * stride + x * 4) c = picture30 t o b stride y x c /\ (0 <= picture30 t o b stride y x c <= 1023)%Z.
Proof.
  intros B Hx Hy Hc. pose proof (B x y 0 Hx Hy ltac:(lia)) as B0. rewrite Nat.add_0_r in B0.
  pose proof (B x y 1 Hx Hy ltac:(lia)) as B1. pose proof (B x y 2 Hx Hy ltac:(lia)) as B2. pose proof (B x y 3 Hx Hy ltac:(lia)) as B3.
  unfold picture30. split; [apply comp_colour|apply colour_range]; assumption.
Qed.

(** What a rewritten buffer shows when every pixel of it was packed from accumulators. *)
Lemma pixmap_packed h ds w (A : nat -> nat -> nat -> Z) (val : nat -> nat -> Z) dst :
  0 < ds -> w * 4 <= ds -> length dst = h * ds ->
  (forall y j, val y j = nth (j mod 4) (packed t o (A y (j / 4))) 0%Z) ->
  let out := pixmap 0%Z h ds (w * 4) val dst in
  only_visible_differ ds w dst out /\ visible_bytes out ds w h /\
  forall x y, x < w -> y < h -> alpha_bits t (word_at o out (y * ds + x * 4)) = 3%Z /\
    forall c, c < 3 -> picture30 t o out ds y x c = floor_q15 1023 (wrap32 (A y x c)).
Proof.
  intros Hd Hw L Hv out.
  assert (At : forall x y k, x < w -> y < h -> k < 4 -> nth (y * ds + x * 4 + k) out 0%Z = nth k (packed t o (A y x)) 0%Z).
  { intros x y k Hx Hy Hk. unfold out.
    pose proof (pixmap_at 0%Z h ds (w * 4) val dst y (x * 4 + k) Hd L Hy ltac:(lia) Hw) as P.
    rewrite Nat.add_assoc in P. apply nth_error_nth with (d := 0%Z) in P. rewrite P, Hv.
    replace (x * 4 + k) with (k + x * 4) by lia. rewrite Nat.div_add, Nat.mod_add, Nat.div_small, Nat.mod_small by lia. reflexivity. }
  split; [split|split; [|intros x y Hx Hy; split]].
  - unfold out. apply pixmap_length.
  - intros i Hi. unfold out. rewrite nth_error_pixmap. destruct (i <? length dst) eqn:E.
    + replace (i mod ds <? w * 4) with false by lia. rewrite andb_false_r. symmetry. apply nth_error_nth_lt. lia.
    + symmetry. apply nth_error_None. lia.
  - intros x y k Hx Hy Hk. rewrite At by assumption. apply packed_nth_byte.
  - apply (stored_colour out _ (A y x)). intros k Hk. now apply At.
  - intros c Hc. unfold picture30. apply (stored_colour out _ (A y x)); [|exact Hc]. intros k Hk. now apply At.
Qed.

Lemma round_floor maxv v : floor_q15 maxv (ROUNDING_CONST + v) = round_q15 maxv v.
Proof. unfold floor_q15, round_q15. change ROUNDING_CONST with (2 ^ 14)%Z. rewrite Z.add_comm. reflexivity. Qed.

Section Pass.
Variables (fl : rfilter) (insz outsz : nat).
Let fw := generate_weights fl insz outsz.
Let W := filter_windows fl insz outsz.
Hypothesis WF : wf_fw fw insz outsz.
Hypothesis Hsafe : accumulator_safe 1023 W outsz.

Lemma win_row q : q < outsz ->
  nth q (bounds fw) (mkBound 0 0) = mkBound (wstart W q) (wsize W q) /\ wstart W q + wsize W q <= insz /\
  forall k, nth k (skipn (q * aligned_size fw) (map quant_i16 (weights fw))) 0%Z = wcoef W q k.
Proof.
  intro Hq. pose proof (wf_nth fw insz outsz q WF Hq) as (A & B & C). repeat split.
  - unfold W, filter_windows, windows_of. fold fw. cbn [wstart wsize]. destruct (nth q (bounds fw) (mkBound 0 0)); reflexivity.
  - unfold W, filter_windows, windows_of. fold fw. cbn [wstart wsize]. assumption || lia.
  - intro k. rewrite nth_skipn. unfold W, filter_windows, windows_of. fold fw. reflexivity.
Qed.

Lemma safe_sum (p : nat -> Z) q n : q < outsz -> n <= wsize W q -> (forall k, k < wsize W q -> (0 <= p k <= 1023)%Z) ->
  floor_q15 1023 (wrap32 (ROUNDING_CONST + zsum n (fun k => p k * wcoef W q k)%Z)) = round_q15 1023 (zsum n (fun k => wcoef W q k * p k)%Z).
Proof.
  intros Hq Hn Hp. pose proof (safe_prefix 1023 W outsz q p n ltac:(lia) Hsafe Hq Hn Hp) as B.
  replace (zsum n (fun k => p k * wcoef W q k)%Z) with (zsum n (fun k => wcoef W q k * p k)%Z) by (apply zsum_ext; intros; ring).
  rewrite wrap32_small by (change ROUNDING_CONST with (2 ^ 14)%Z; lia). apply round_floor.
Qed.

Lemma ar_vpass_shows pool src ss dst ds w :
  pool_ok pool -> 0 < w -> w * 4 <= ss -> w * 4 <= ds -> length src = insz * ss -> length dst = outsz * ds ->
  visible_bytes src ss w insz ->
  exists out, ar_vpass t o quant_i16 fw pool src ss dst ds w = Done out /\
    only_visible_differ ds w dst out /\ visible_bytes out ds w outsz /\
    shows30 t o out ds w outsz (fun y x c => round_q15 1023 (zsum (wsize W y) (fun k => wcoef W y k * picture30 t o src ss (wstart W y + k)%nat x c))%Z).
Proof.
  intros HP Hw Ls Ld Es Ed B. rewrite (ar_vpass_closed quant_i16 fw pool src ss dst ds w insz outsz HP WF Hw Ls Ld Es Ed).
  eexists; split; [reflexivity|].
  set (A y x c := vacc t o src ss (skipn (y * aligned_size fw) (map quant_i16 (weights fw))) (nth y (bounds fw) (mkBound 0 0)) x c).
  destruct (pixmap_packed outsz ds w A _ dst ltac:(lia) Ld Ed (fun y j => eq_refl)) as (O1 & O2 & O3).
  split; [exact O1|]. split; [exact O2|]. intros x y Hx Hy. destruct (O3 x y Hx Hy) as [P Q]. split; [exact P|].
  intros c Hc. etransitivity; [exact (Q c Hc)|]. unfold A, vacc. destruct (win_row y Hy) as (E1 & E2 & E3). rewrite E1. cbn [bstart bsize].
  rewrite <- safe_sum; [| exact Hy | lia |].
  - f_equal. f_equal. f_equal. apply zsum_ext. intros k Hk. rewrite E3. f_equal. rewrite (Nat.mul_comm ss).
    apply (visible_comp src ss w insz); auto; lia.
  - intros k Hk. apply (visible_comp src ss w insz); auto; lia.
Qed.

Lemma taps30_le h y n : taps30 h y n <= n.
Proof. unfold taps30. destruct (y <? 4 * (h / 4)); [lia|]. assert (n / 4 <= n) by (apply Nat.div_le_upper_bound; lia). destruct n as [|[|[|[|[|[|[|n]]]]]]]; lia. Qed.

Lemma ar_hpass_shows pool src ss dst ds h :
  pool_ok pool -> 0 < insz -> 0 < outsz -> insz * 4 <= ss -> outsz * 4 <= ds -> length src = h * ss -> length dst = h * ds ->
  visible_bytes src ss insz h ->
  exists out, ar_hpass t o quant_i16 fw pool src ss dst ds = Done out /\
    only_visible_differ ds outsz dst out /\
    shows30 t o out ds outsz h (fun y x c => round_q15 1023 (zsum (taps30 h y (wsize W x)) (fun k => wcoef W x k * picture30 t o src ss y (wstart W x + k)%nat c))%Z).
Proof.
  intros HP Hi Ho Ls Ld Es Ed B. rewrite (ar_hpass_closed quant_i16 fw pool src ss dst ds h insz outsz HP WF Hi Ho Ls Ld Es Ed).
  eexists; split; [reflexivity|].
  set (A y x c := hacc t o (taps_in h y) (qfw quant_i16 fw) (chunk ss src y) x c).
  destruct (pixmap_packed h ds outsz A _ dst ltac:(lia) Ld Ed (fun y j => eq_refl)) as (O1 & _ & O3).
  split; [exact O1|]. intros x y Hx Hy. destruct (O3 x y Hx Hy) as [P Q]. split; [exact P|].
  intros c Hc. etransitivity; [exact (Q c Hc)|]. unfold A, hacc. destruct (win_row x Hx) as (E1 & E2 & E3).
  change (bounds (qfw quant_i16 fw)) with (bounds fw). change (aligned_size (qfw quant_i16 fw)) with (aligned_size fw).
  change (weights (qfw quant_i16 fw)) with (map quant_i16 (weights fw)). rewrite E1. cbn [bstart bsize].
  replace (taps_in h y (wsize W x)) with (taps30 h y (wsize W x)) by (unfold taps30, taps_in; destruct (y <? 4 * (h / 4)); [reflexivity|]; unfold short_taps; destruct (wsize W x) as [|[|[|[|[|[|[|n]]]]]]]; reflexivity).
  pose proof (taps30_le h y (wsize W x)) as Tn.
  rewrite <- safe_sum; [| exact Hx | exact Tn |].
  - f_equal. f_equal. f_equal. unfold comps. apply zsum_ext. intros k Hk. rewrite E3. f_equal.
    rewrite (comp_ext t o (chunk ss src y) src _ (y * ss + (wstart W x + k) * 4)).
    + apply (visible_comp src ss insz h); auto; lia.
    + intros i Hk4. rewrite nth_chunk by nia. f_equal. lia.
  - intros k Hk. apply (visible_comp src ss insz h); auto; lia.
Qed.
End Pass.

(** ** The whole call *)
Lemma wmul_id a b : fits_usize (a * b) -> wmul a b = a * b.
Proof. unfold fits_usize. intro H. apply wmul_small. lia. Qed.

Lemma size_fits w h n : fits_usize n -> w * h * 4 <= n -> 0 < w -> 0 < h ->
  check_image_size_overflow w h 4 = false /\ wmul w 4 = w * 4.
Proof.
  unfold fits_usize. intros F L Hw Hh. assert (w * 4 <= n) by nia.
  assert (E : wmul w 4 = w * 4) by (apply wmul_small; lia). split; [|exact E].
  unfold check_image_size_overflow, mul_overflows. rewrite E.
  replace (usize_mod <=? N.of_nat w * N.of_nat 4)%N with false by lia.
  apply N.leb_gt. assert (h * (w * 4) <= n) by nia. lia.
Qed.

Lemma valid30_checks f src ss sw sh dst ds dw dh : valid30 f src ss sw sh dst ds dw dh ->
  ar_checks src ss sw sh dst ds dw dh = Done tt /\ wmul sw 4 = sw * 4 /\ wmul dw 4 = dw * 4 /\
  wmul (wmul sw dh) 4 = sw * dh * 4.
Proof.
  intros [(S1 & S2 & S3 & S4) (D1 & D2 & D3 & D4) (F1 & F2 & F3) _ _ _].
  destruct (size_fits sw sh (length src) F1 ltac:(nia) S1 S2) as [C1 E1].
  destruct (size_fits dw dh (length dst) F2 ltac:(nia) D1 D2) as [C2 E2].
  assert (E3 : wmul sw dh = sw * dh) by (apply wmul_id; unfold fits_usize in *; lia).
  repeat split; try assumption.
  - unfold ar_checks. replace ((sw =? 0) || (sh =? 0) || (dw =? 0) || (dh =? 0)) with false by lia.
    rewrite C1, C2, E1, E2.
    rewrite (wmul_id ss sh) by (unfold fits_usize in *; lia). rewrite (wmul_id ds dh) by (unfold fits_usize in *; lia).
    replace (length src =? ss * sh) with true by lia. replace (length dst =? ds * dh) with true by lia.
    replace (ss <? sw * 4) with false by lia. replace (ds <? dw * 4) with false by lia. reflexivity.
  - rewrite E3. now apply wmul_id.
Qed.

Lemma valid30_sides f src ss sw sh dst ds dw dh : valid30 f src ss sw sh dst ds dw dh ->
  sides_ok f sh dh /\ sides_ok f sw dw.
Proof.
  intros [(S1 & S2 & S3 & S4) (D1 & D2 & D3 & D4) (F1 & F2 & F3) (Z1 & Z2) A _].
  unfold fits_usize, usize_mod in *. assert (dh <= length dst) by nia. assert (dw <= length dst) by nia.
  unfold sides_ok. split; (split; [lia|split; [lia|]]); intro E; apply A; exact E.
Qed.

Lemma wants_nearest_false f : f <> Nearest -> wants_nearest f = false.
Proof. destruct f; intro H; try reflexivity. contradiction. Qed.

Theorem ar30_call L f pool src ss sw sh dst ds dw dh :
  valid30 f src ss sw sh dst ds dw dh -> f <> Nearest -> (sw <> dw \/ sh <> dh) -> pool_ok pool ->
  (sw = dw -> ss = ds) ->
  (sh <> dh -> accumulator_safe 1023 (filter_windows (resampling_filter L f) sh dh) dh) ->
  (sw <> dw -> accumulator_safe 1023 (filter_windows (resampling_filter L f) sw dw) dw) ->
  exists out, resize_ar30_impl t o L f pool src ss sw sh dst ds dw dh = BytesReturned Ok out /\
    only_visible_differ ds dw dst out /\
    shows30 t o out ds dw dh (resample30_taps (taps30 dh) (negb (sh =? dh)) (negb (sw =? dw))
      (filter_windows (resampling_filter L f) sh dh) (filter_windows (resampling_filter L f) sw dw) (picture30 t o src ss)).
Proof.
  intros V Hf Hc HP Hs SV SH. destruct (valid30_checks _ _ _ _ _ _ _ _ _ V) as (CK & E1 & E2 & E3).
  destruct (valid30_sides _ _ _ _ _ _ _ _ _ V) as [Sv Sh].
  pose proof (sides_wf L f sh dh Sv) as WV. pose proof (sides_wf L f sw dw Sh) as WH.
  destruct V as [(S1 & S2 & S3 & S4) (D1 & D2 & D3 & D4) (F1 & F2 & F3) _ _ B].
  unfold resize_ar30_impl. rewrite CK. cbn [btry].
  replace ((sw =? dw) && (sh =? dh)) with false by lia. rewrite (wants_nearest_false f Hf). cbv zeta. rewrite E3, !E1.
  destruct (sw =? dw) eqn:Ew; destruct (sh =? dh) eqn:Eh; try lia; cbn [negb andb].
  - (* vertical only *)
    assert (sw = dw) as X by lia. rewrite <- (Hs X) in *. subst dw.
    destruct (ar_vpass_shows (resampling_filter L f) sh dh WV (SV ltac:(lia)) pool src ss dst ss sw HP S1 S3 S3 S4 D4
      (bytes_visible _ _ _ _ B)) as (out & R & O1 & _ & O3).
    rewrite R. cbn [btry]. exists out. split; [reflexivity|]. split; [exact O1|]. exact O3.
  - (* horizontal only *)
    assert (sh = dh) by lia. subst dh.
    destruct (ar_hpass_shows (resampling_filter L f) sw dw WH (SH ltac:(lia)) pool src ss dst ds sh HP S1 D1 S3 D3 S4 D4
      (bytes_visible _ _ _ _ B)) as (out & R & O1 & O3).
    rewrite R. cbn [btry]. exists out. split; [reflexivity|]. split; [exact O1|]. exact O3.
  - (* both *)
    destruct (ar_vpass_shows (resampling_filter L f) sh dh WV (SV ltac:(lia)) pool src ss (repeat 0%Z (sw * dh * 4)) (sw * 4) sw HP S1 S3
      (le_n _) S4 ltac:(rewrite repeat_length; lia) (bytes_visible _ _ _ _ B)) as (mid & R & O1 & O2 & O3).
    rewrite R. cbn [btry].
    assert (Lm : length mid = dh * (sw * 4)) by (rewrite (proj1 O1), repeat_length; lia).
    destruct (ar_hpass_shows (resampling_filter L f) sw dw WH (SH ltac:(lia)) pool mid (sw * 4) dst ds dh HP S1 D1 (le_n _) D3 Lm D4
      O2) as (out & R' & P1 & P3).
    rewrite R'. cbn [btry]. exists out. split; [reflexivity|]. split; [exact P1|].
    intros x y Hx Hy. destruct (P3 x y Hx Hy) as [Q1 Q2]. split; [exact Q1|]. intros c Hc0. rewrite (Q2 c Hc0).
    unfold resample30_taps. cbn [negb]. f_equal. apply zsum_ext. intros k Hk. f_equal.
    destruct (win_row (resampling_filter L f) sw dw WH x Hx) as (_ & G & _).
    pose proof (taps30_le dh y (wsize (filter_windows (resampling_filter L f) sw dw) x)).
    apply O3; [lia|exact Hy|exact Hc0].
Qed.
End Passes.

(** ** No error values, any schedule *)
Section Outcomes.
Variables (t : rgb30) (o : byte_order).
Lemma nf_load30 s k : nofail (load_ar30 t o s k). Proof. unfold load_ar30. nf. Qed.
Lemma nf_store30 g d : nofail (store_ar30 t o g d). Proof. unfold store_ar30. nf. Qed.
Ltac nf30 := repeat first [ apply nf_load30 | apply nf_store30 | apply nf_mul | apply nf_lanes2 | progress nf ].
Lemma nf_ar_unrolled p ws : forall i acc, nofail (ar_unrolled t o p i acc ws).
Proof. induction ws as [|w ws IH]; intros i acc; cbn [ar_unrolled]; nf30. apply IH. Qed.
Lemma nf_ar_fixed n src px ws s : nofail (ar_taps_fixed t o n src px ws s).
Proof. unfold ar_taps_fixed. repeat first [apply nf_ar_unrolled | progress nf30]. Qed.
Lemma nf_ar_general src px n ws s : nofail (ar_taps_general t o src px n ws s).
Proof. unfold ar_taps_general, ar_tap_step. nf30. Qed.
Lemma nf_ar_pixel src b ws : nofail (ar_row_pixel t o src b ws).
Proof.
  unfold ar_row_pixel. cbv zeta. destruct (bsize b) as [|[|[|[|[|[|[|n]]]]]]];
    first [apply nf_ar_fixed | apply nf_ar_general].
Qed.
Lemma nf_ar_row src dst fw : nofail (ar_row_handler t o src dst fw).
Proof. unfold ar_row_handler. repeat first [apply nf_ar_pixel | progress nf30]. Qed.
Lemma nf_ar_fixed_4 n src ss px ws s : nofail (ar_taps_fixed_4 t o n src ss px ws s).
Proof. unfold ar_taps_fixed_4. repeat first [apply nf_ar_fixed | progress nf30]. Qed.
Lemma nf_ar_general_4 src ss px n ws s : nofail (ar_taps_general_4 t o src ss px n ws s).
Proof. unfold ar_taps_general_4, ar_tap_step_4. nf30. Qed.
Lemma nf_ar_pixel_4 src ss b ws : nofail (ar_row_pixel_4 t o src ss b ws).
Proof.
  unfold ar_row_pixel_4. cbv zeta. destruct (bsize b) as [|[|[|[|[|[|[|n]]]]]]];
    first [apply nf_ar_fixed_4 | apply nf_ar_general_4].
Qed.
Lemma nf_ar_row_4 src ss dst ds fw : nofail (ar_row_handler_4 t o src ss dst ds fw).
Proof. unfold ar_row_handler_4. repeat first [apply nf_split | apply nf_ar_pixel_4 | progress nf30]. Qed.
Lemma nf_ar_block n src ss f b x : nofail (ar_column_block t o n src ss f b x).
Proof. unfold ar_column_block, ar_accumulate. nf30. Qed.
Lemma nf_ar_store d x st : nofail (ar_store_block t o d x st).
Proof. unfold ar_store_block. nf30. Qed.
Lemma nf_ar_column b src dst ss w : nofail (ar_column_handler t o b src dst ss w).
Proof.
  unfold ar_column_handler, ar_column_four, ar_column_double, ar_column_direct.
  repeat first [apply nf_ar_block | apply nf_ar_store | progress nf].
Qed.
Lemma nf_ar_hpass {F} (q : F -> Z) fw pool src ss dst ds : nofail (ar_hpass t o q fw pool src ss dst ds).
Proof.
  unfold ar_hpass, horizontal_dispatch.
  repeat first [apply nf_numapprox | apply nf_ar_row_4 | apply nf_ar_row | progress nf].
Qed.
Lemma nf_ar_vpass {F} (q : F -> Z) fw pool src ss dst ds w : nofail (ar_vpass t o q fw pool src ss dst ds w).
Proof.
  unfold ar_vpass, vertical_dispatch.
  repeat first [apply nf_numapprox | apply nf_ar_column | progress nf].
Qed.

Lemma ar_hpass_pool {F} (q : F -> Z) fw p src ss dst ds : pool_ok p ->
  ar_hpass t o q fw p src ss dst ds = ar_hpass t o q fw None src ss dst ds.
Proof.
  intro HP. unfold ar_hpass. destruct (numerical_approximation q 0 fw) as [a| |]; cbn [bind]; auto.
  unfold horizontal_dispatch. set (im := byte_image src 0 0 ss). set (into := byte_image dst 0 0 ds).
  destruct (chunks_exact_o (stride_of 4 into * 4) (buf into)) as [d4| |]; cbn [bind]; auto.
  destruct (chunks_exact_o (stride_of 4 im * 4) (buf im)) as [s4| |]; cbn [bind]; auto.
  rewrite (for_each_any p) by (auto; intros; apply nf_ar_row_4).
  destruct (for_each None _ _ _ _) as [d4'| |]; cbn [bind]; auto.
  destruct (chunks_exact_o (stride_of 4 into) _) as [d1| |]; cbn [bind]; auto.
  destruct (chunks_exact_o (stride_of 4 im) _) as [s1| |]; cbn [bind]; auto.
  rewrite (for_each_any p) by (auto; intros; apply nf_ar_row). reflexivity.
Qed.
Lemma ar_vpass_pool {F} (q : F -> Z) fw p src ss dst ds w : pool_ok p ->
  ar_vpass t o q fw p src ss dst ds w = ar_vpass t o q fw None src ss dst ds w.
Proof.
  intro HP. unfold ar_vpass. destruct (numerical_approximation q 0 fw) as [a| |]; cbn [bind]; auto.
  unfold vertical_dispatch.
  destruct (chunks_exact_o _ _) as [rows| |]; cbn [bind]; auto.
  rewrite (for_each_any p); auto. intros d s.
  repeat first [apply nf_ar_column | progress nf].
Qed.

Lemma btry_ext2 {A} (m1 m2 : outcome A) d k1 k2 : m1 = m2 -> (forall a, k1 a = k2 a) -> btry m1 d k1 = btry m2 d k2.
Proof. intros -> H. destruct m2; cbn; auto. Qed.

Theorem ar30_pool L f p src ss sw sh dst ds dw dh : pool_ok p ->
  resize_ar30_impl t o L f p src ss sw sh dst ds dw dh = resize_ar30_impl t o L f None src ss sw sh dst ds dw dh.
Proof.
  intro HP. unfold resize_ar30_impl. apply btry_ext2; [reflexivity|]. intros _.
  destruct (_ && _); [reflexivity|]. destruct (wants_nearest f).
  { rewrite nearest_pool by assumption. reflexivity. }
  cbv zeta. repeat match goal with
  | |- (if ?b then _ else _) = _ => destruct b
  | |- btry _ _ _ = btry _ _ _ => apply btry_ext2; [first [apply ar_vpass_pool | apply ar_hpass_pool]; assumption|intro]
  end; reflexivity.
Qed.

Lemma ar_checks_table src ss sw sh dst ds dw dh :
  ar_checks src ss sw sh dst ds dw dh =
  match first_error (refusal_table30 src ss sw sh dst ds dw dh) with Some e => Fail e | None => Done tt end.
Proof.
  unfold ar_checks, first_error, refusal_table30. change mulmod with wmul.
  cbn [find fst].
  destruct ((sw =? 0) || (sh =? 0) || (dw =? 0) || (dh =? 0)) eqn:E; [reflexivity|]. cbn [find fst].
  rewrite !overflow_too_large by lia.
  repeat match goal with |- context[if ?b then Fail _ else _] => destruct b; cbn [find fst]; [reflexivity|] end. reflexivity.
Qed.

Theorem ar30_cases L f p src ss sw sh dst ds dw dh :
  match first_error (refusal_table30 src ss sw sh dst ds dw dh) with
  | Some e => resize_ar30_impl t o L f p src ss sw sh dst ds dw dh = BytesReturned (Err e) dst
  | None => resize_ar30_impl t o L f p src ss sw sh dst ds dw dh = BytesPanicked \/
            exists out, resize_ar30_impl t o L f p src ss sw sh dst ds dw dh = BytesReturned Ok out
  end.
Proof.
  unfold resize_ar30_impl. rewrite ar_checks_table.
  destruct (first_error _) as [e|]; [reflexivity|]. cbn [btry].
  destruct (_ && _); [right; eexists; reflexivity|].
  assert (G : forall (m : outcome (list Z)) (k : list Z -> bytes_res), nofail m ->
     (forall a, k a = BytesPanicked \/ exists out, k a = BytesReturned Ok out) ->
     btry m dst k = BytesPanicked \/ exists out, btry m dst k = BytesReturned Ok out).
  { intros m k NF K. destruct m as [a|e|]; cbn [btry]; [apply K|now destruct (NF e)|now left]. }
  assert (O : forall d, BytesReturned Ok d = BytesPanicked \/ exists out, BytesReturned Ok d = BytesReturned Ok out)
    by (intro d; right; eexists; reflexivity).
  destruct (wants_nearest f); [apply G; [apply nf_nearest|exact O]|]. cbv zeta.
  destruct (_ && _); [apply G; [apply nf_ar_vpass|exact O]|].
  destruct (_ && _); [apply G; [apply nf_ar_vpass|intro mid; apply G; [apply nf_ar_hpass|exact O]]|].
  apply G; [apply nf_ar_hpass|exact O].
Qed.
End Outcomes.
