(** Closed forms of the x86 alpha code. *)
From Coq Require Import ZArith List Lia Bool ZifyBool ZifyNat.
From Verif Require Import Base BaseProofs ImageStore FixedPoint Dispatch Resize Spec F32 KernelProofs DispatchProofs NoFail Alpha AlphaProofs
  Simd SimdProofs X86Dispatch X86Alpha.
Import ListNotations.
Local Open Scope Z_scope.

(** ** Pixel functions *)
Definition simd_div (v : Z) : Z := (v + 127 + v / 256) / 256.
Definition scaled_quotient (rcp : f32 -> f32) (c a : Z) : Z := cvtps (fmul (fmul (fZ c 0) (fZ 255 0)) (rcp (fZ a 0))).
Definition un_sse (rcp : f32 -> f32) (c a : Z) : Z := if a =? 0 then 0 else clampZ 0 255 (scaled_quotient rcp c a).
Definition un_avx (rcp : f32 -> f32) (c a : Z) : Z :=
  if a =? 0 then 0 else if 32768 <=? scaled_quotient rcp c a then 0 else clampZ 0 255 (scaled_quotient rcp c a).
Definition px_sse (r g b a : Z) : list Z := [simd_div (r * a); simd_div (g * a); simd_div (b * a); a].
Definition px_avx (r g b a : Z) : list Z := [simd_div (r * a); simd_div (g * a); simd_div (b * a); simd_div (a * a)].
Definition px_un_sse rcp (r g b a : Z) : list Z := [un_sse rcp r a; un_sse rcp g a; un_sse rcp b a; a].
Definition px_un_avx rcp (r g b a : Z) : list Z := [un_avx rcp r a; un_avx rcp g a; un_avx rcp b a; a].

(** ** Words *)
Lemma of_words_ext l l' : map (fun w => w mod 65536) l = map (fun w => w mod 65536) l' -> of_words l = of_words l'.
Proof.
  revert l'. induction l as [|w l IH]; intros [|w' l'] H; try discriminate; [reflexivity|].
  cbn [map] in H. injection H as H1 H2. unfold of_words in *. cbn [flat_map]. rewrite (IH l' H2). f_equal.
  unfold word_bytes. f_equal; [|f_equal]; lia.
Qed.
Lemma mul_byte c a : byte c -> byte a -> 0 <= c * a <= 65025.
Proof. unfold byte. nia. Qed.
Lemma simd_word p : 0 <= p <= 65025 ->
  (((p mod 65536 + 127) mod 65536 + (p mod 65536 / 256) mod 65536) mod 65536 / 256) mod 65536 = simd_div p mod 65536.
Proof.
  intro H. rewrite (Z.mod_small p) by lia. rewrite (Z.mod_small (p + 127)) by lia. rewrite (Z.mod_small (p / 256)) by lia.
  rewrite (Z.mod_small (p + 127 + p / 256)) by lia. reflexivity.
Qed.
Lemma div255_words p0 p1 p2 p3 p4 p5 p6 p7 :
  Forall (fun p => 0 <= p <= 65025) [p0;p1;p2;p3;p4;p5;p6;p7] ->
  div_by_255_epi16 (of_words [p0;p1;p2;p3;p4;p5;p6;p7]) = of_words (map simd_div [p0;p1;p2;p3;p4;p5;p6;p7]).
Proof.
  intro H. rewrite !Forall_cons_iff in H.
  unfold div_by_255_epi16, add_epi16, srli_epi16, set1_epi16.
  repeat (rewrite !words_of_words; cbn [map repeat zipw]).
  change (2 ^ 8) with 256. change (127 mod 65536) with 127.
  apply of_words_ext. cbn [map]. rewrite !simd_word by tauto. reflexivity.
Qed.
Lemma swords_wide x0 x1 x2 x3 x4 x5 x6 x7 : Forall byte [x0;x1;x2;x3;x4;x5;x6;x7] ->
  swords [x0;0;x1;0;x2;0;x3;0;x4;0;x5;0;x6;0;x7;0] = [x0;x1;x2;x3;x4;x5;x6;x7].
Proof.
  intro H. rewrite !Forall_cons_iff in H. unfold swords. cbn [words map]. rewrite !s16_byte0 by tauto. reflexivity.
Qed.
Lemma packus_small l0 l1 : Forall byte (l0 ++ l1) -> packus_epi16 (of_words l0) (of_words l1) = l0 ++ l1.
Proof.
  intro H. unfold packus_epi16. rewrite !swords_of_words, <- map_app.
  induction H as [|v l Hv H IH]; [reflexivity|]. cbn [map]. rewrite IH. f_equal.
  rewrite s16_small by (unfold byte in Hv; split; lia). unfold sat, byte in *. lia.
Qed.
Lemma simd_div_byte p : 0 <= p <= 65025 -> byte (simd_div p).
Proof. unfold simd_div, byte. lia. Qed.

Tactic Notation "explode" ident(l) integer(n) := do n (destruct l as [|? l]; [discriminate|]); destruct l; [|discriminate].

Lemma premul_half x a : length x = 8%nat -> length a = 8%nat -> bytes x -> bytes a ->
  div_by_255_epi16 (mullo_epi16 (inter1 x (repeat 0 8)) (inter1 a (repeat 0 8))) = of_words (zipw (fun c a => simd_div (c * a)) x a) /\
  Forall byte (zipw (fun c a => simd_div (c * a)) x a).
Proof.
  intros Lx La Bx Ba. explode x 8. explode a 8.
  unfold mullo_epi16. cbn [inter1 repeat]. rewrite !swords_wide by assumption. cbn [zipw].
  unfold bytes in *. rewrite !Forall_cons_iff in Bx, Ba. split.
  - rewrite div255_words; [reflexivity|]. rewrite !Forall_cons_iff. repeat split; try apply Forall_nil; try (apply mul_byte; tauto).
  - rewrite !Forall_cons_iff. repeat split; try apply Forall_nil; try (apply simd_div_byte; apply mul_byte; tauto).
Qed.
Lemma zipw_split f (x a : list Z) n : length x = length a -> zipw f (firstn n x) (firstn n a) ++ zipw f (skipn n x) (skipn n a) = zipw f x a.
Proof.
  revert x a. induction n as [|n IH]; intros x a H; [reflexivity|].
  destruct x as [|x0 x], a as [|a0 a]; try discriminate; [reflexivity|]. cbn [firstn skipn zipw app]. f_equal. apply IH. cbn in H. lia.
Qed.
Lemma bytes_firstn n l : bytes l -> bytes (firstn n l).
Proof. intro H. unfold bytes in *. rewrite <- (firstn_skipn n l) in H. now apply Forall_app in H. Qed.
Lemma bytes_skipn n l : bytes l -> bytes (skipn n l).
Proof. intro H. unfold bytes in *. rewrite <- (firstn_skipn n l) in H. now apply Forall_app in H. Qed.
Lemma premul_plane_ok x a : length x = 16%nat -> length a = 16%nat -> bytes x -> bytes a ->
  sse_premul_plane x a = zipw (fun c a => simd_div (c * a)) x a.
Proof.
  intros Lx La Bx Ba. unfold sse_premul_plane, unpacklo_epi8, unpackhi_epi8, zeros.
  change (firstn 8 (repeat 0 16)) with (repeat 0 8). change (skipn 8 (repeat 0 16)) with (repeat 0 8).
  destruct (premul_half (firstn 8 x) (firstn 8 a)) as (E1 & B1); [rewrite firstn_length; lia..|now apply bytes_firstn|now apply bytes_firstn|].
  destruct (premul_half (skipn 8 x) (skipn 8 a)) as (E2 & B2); [rewrite skipn_length; lia..|now apply bytes_skipn|now apply bytes_skipn|].
  rewrite E1, E2, packus_small by (apply Forall_app; now split). apply zipw_split. lia.
Qed.

(** ** Un-premultiplying a plane *)
Lemma cvtps_range x : - 2 ^ 31 <= cvtps x < 2 ^ 31.
Proof. unfold cvtps. destruct x; try lia; cbv zeta; destruct (_ && _) eqn:E; lia. Qed.
Lemma wide4 x0 x1 x2 x3 : Forall byte [x0;x1;x2;x3] ->
  sdwords [x0;0;0;0;x1;0;0;0;x2;0;0;0;x3;0;0;0] = [x0;x1;x2;x3].
Proof.
  intro H. rewrite !Forall_cons_iff in H. unfold sdwords. cbn [dwords map]. unfold byte in H.
  rewrite !wrap32_small by lia.
  rewrite !Z.mul_0_r, !Z.add_0_r. reflexivity.
Qed.
Section Un.
Variables (rcp : f32 -> f32) (sat32 : Z -> Z).
Hypothesis Hsat : forall z, -32768 <= sat32 z <= 65535.
Definition pack_by (a b : m128) : m128 := of_words (map sat32 (sdwords a ++ sdwords b)).
Definition lane_un (c a : Z) : Z := if a =? 0 then 0 else sat 0 255 (s16 (sat32 (scaled_quotient rcp c a))).
Lemma wrap_cvt x : wrap32 (cvtps x) = cvtps x.
Proof. apply wrap32_small. pose proof (cvtps_range x). lia. Qed.
Lemma lane_un_eq c a :
  (if (if a =? 0 then 255 else 0) <? 128 then sat 0 255 (s16 (sat32 (cvtps (fmul (fmul (fZ c 0) (fZ 255 0)) (rcp (fZ a 0)))))) else 0) = lane_un c a.
Proof. unfold lane_un, scaled_quotient. now destruct (a =? 0). Qed.
Lemma unpremul_plane_ok x a : length x = 16%nat -> length a = 16%nat -> bytes x -> bytes a ->
  unpremul_plane rcp pack_by x a = zipw lane_un x a.
Proof.
  intros Lx La Bx Ba. explode x 16. explode a 16.
  unfold bytes in *. rewrite !Forall_cons_iff in Bx, Ba.
  unfold unpremul_plane, zeros. unfold unpacklo_epi8, unpackhi_epi8, unpacklo_epi16, unpackhi_epi16, cvtepi32_ps.
  cbn [firstn skipn repeat inter1 inter2].
  rewrite !wide4 by (rewrite !Forall_cons_iff; intuition auto).
  unfold rcp_ps. cbn [map mul_ps]. unfold cvtps_epi32, pack_by. rewrite !sdwords_of_dwords. cbn [map app].
  rewrite !wrap_cvt. unfold packus_epi16. rewrite !swords_of_words. cbn [map app cmpeq_epi8 zipw blendv_epi8].
  rewrite !lane_un_eq.
  reflexivity.
Qed.
End Un.
Lemma un_sse_ok rcp x a : length x = 16%nat -> length a = 16%nat -> bytes x -> bytes a ->
  unpremul_plane rcp packs_epi32 x a = zipw (un_sse rcp) x a.
Proof.
  intros. change packs_epi32 with (pack_by (sat (-32768) 32767)).
  rewrite unpremul_plane_ok by assumption. apply zipw_ext. intros c b. unfold lane_un, un_sse. destruct (b =? 0); [reflexivity|].
  rewrite s16_small by (unfold sat; split; lia). unfold sat, clampZ. lia.
Qed.
Lemma un_avx_ok rcp x a : length x = 16%nat -> length a = 16%nat -> bytes x -> bytes a ->
  unpremul_plane rcp packus_epi32 x a = zipw (un_avx rcp) x a.
Proof.
  intros. change packus_epi32 with (pack_by (sat 0 65535)).
  rewrite unpremul_plane_ok by assumption. apply zipw_ext. intros c b. unfold lane_un, un_avx. destruct (b =? 0); [reflexivity|].
  set (v := scaled_quotient rcp c b). unfold s16, sat, clampZ. change (2 ^ 15) with 32768. change (2 ^ 16) with 65536.
  destruct (Z.leb_spec 32768 v); lia.
Qed.

(** ** Rows as flat lists of pixels *)
Fixpoint pxflat (px : Z -> Z -> Z -> Z -> list Z) (l : list Z) : list Z :=
  match l with
  | r :: g :: b :: a :: t => px r g b a ++ pxflat px t
  | _ => []
  end.
Lemma pxflat_app px w l t : length l = (w * 4)%nat -> pxflat px (l ++ t) = pxflat px l ++ pxflat px t.
Proof.
  revert l. induction w as [|w IH]; intros l H; [destruct l; [reflexivity|discriminate]|].
  do 4 (destruct l as [|? l]; [cbn in H; lia|]). cbn [app pxflat]. rewrite IH by (cbn in H; lia). now rewrite app_assoc.
Qed.
Lemma pxflat_length px w l : four px -> length l = (w * 4)%nat -> length (pxflat px l) = (w * 4)%nat.
Proof.
  intro H4. revert l. induction w as [|w IH]; intros l H; [destruct l; [reflexivity|discriminate]|].
  do 4 (destruct l as [|? l]; [cbn in H; lia|]). cbn [pxflat]. rewrite app_length, H4, IH by (cbn in H; lia). lia.
Qed.
Lemma seq_shift_n k a n : seq (k + a) n = map (fun j => (k + j)%nat) (seq a n).
Proof. revert a. induction n as [|n IH]; intro a; cbn [seq map]; [reflexivity|]. f_equal. now rewrite <- IH, Nat.add_succ_r. Qed.
Lemma pxflat_closed px w l : four px -> length l = (w * 4)%nat ->
  pxflat px l = map (fun j => pxval 0 px (fun i => nth i l 0) (j / 4)%nat (j mod 4)%nat) (seq 0 (w * 4)).
Proof.
  intro H4. revert l. induction w as [|w IH]; intros l H; [destruct l; [reflexivity|discriminate]|].
  do 4 (destruct l as [|? l]; [cbn in H; lia|]). cbn [pxflat]. rewrite IH by (cbn in H; lia).
  replace (S w * 4)%nat with (4 + w * 4)%nat by lia. rewrite seq_app, map_app. f_equal.
  - cbn [seq map]. unfold pxval. change (0 / 4)%nat with 0%nat. change (1 / 4)%nat with 0%nat. change (2 / 4)%nat with 0%nat. change (3 / 4)%nat with 0%nat.
    cbn [Nat.mul Nat.add nth]. symmetry. apply (map_seq4 0). apply H4.
  - cbn [Nat.add]. change (seq 4 (w * 4)) with (seq (4 + 0) (w * 4)).
    rewrite (seq_shift_n 4), map_map. apply map_ext. intro j.
    replace ((4 + j) / 4)%nat with (S (j / 4)) by lia. replace ((4 + j) mod 4)%nat with (j mod 4)%nat by lia.
    unfold pxval. reflexivity.
Qed.

Lemma px_row_flat px w dst src : four px -> length dst = (w * 4)%nat -> length src = (w * 4)%nat -> px_row px dst src = Done (pxflat px src).
Proof. intros H4 Ld Ls. rewrite (px_row_closed 0 px w) by assumption. now rewrite (pxflat_closed px w). Qed.
Lemma px_row_in_place_flat px w b : four px -> length b = (w * 4)%nat -> px_row_in_place px b = Done (pxflat px b).
Proof. intros H4 L. rewrite (px_row_in_place_closed 0 px w) by assumption. now rewrite (pxflat_closed px w). Qed.

(** ** Chunks *)
Lemma splice_all {T} (d v : list T) : length d = length v -> splice d 0 v = v.
Proof. intro H. unfold splice. cbn [firstn app Nat.add]. rewrite skipn_all2 by lia. apply app_nil_r. Qed.

Lemma deinterleave_flat x0 x1 x2 x3 : length x0 = 16%nat -> length x1 = 16%nat -> length x2 = 16%nat -> length x3 = 16%nat ->
  let l := x0 ++ x1 ++ x2 ++ x3 in
  sse_deinterleave x0 x1 x2 x3 = (map (fun i => nth (i * 4) l 0) (seq 0 16), map (fun i => nth (i * 4 + 1) l 0) (seq 0 16),
    map (fun i => nth (i * 4 + 2) l 0) (seq 0 16), map (fun i => nth (i * 4 + 3) l 0) (seq 0 16)).
Proof. intros H0 H1 H2 H3. explode x0 16. explode x1 16. explode x2 16. explode x3 16. reflexivity. Qed.

Lemma interleave_flat r g b a : 
  let m f := map f (seq 0 16) in
  let '(o0, o1, o2, o3) := sse_interleave (m r) (m g) (m b) (m a) in
  o0 ++ o1 ++ o2 ++ o3 = flat_map (fun i => [r i; g i; b i; a i]) (seq 0 16).
Proof. reflexivity. Qed.
Lemma zipw_maps f p q n : forall s, zipw f (map p (seq s n)) (map q (seq s n)) = map (fun i : nat => f (p i) (q i)) (seq s n).
Proof. induction n as [|n IH]; intro s; cbn [seq map zipw]; [reflexivity|]. now rewrite IH. Qed.
Lemma pxflat_flat px w l : four px -> length l = (w * 4)%nat ->
  pxflat px l = flat_map (fun i => px (nth (i * 4) l 0) (nth (i * 4 + 1) l 0) (nth (i * 4 + 2) l 0) (nth (i * 4 + 3) l 0)) (seq 0 w).
Proof.
  intro H4. revert l. induction w as [|w IH]; intros l H; [destruct l; [reflexivity|discriminate]|].
  do 4 (destruct l as [|? l]; [cbn in H; lia|]). cbn [pxflat seq flat_map]. f_equal. rewrite IH by (cbn in H; lia).
  rewrite <- seq_shift, !flat_map_concat_map, map_map. reflexivity.
Qed.
Lemma flat_map_seq_ext {B} (f g : nat -> list B) s n : (forall i, f i = g i) -> flat_map f (seq s n) = flat_map g (seq s n).
Proof. intro H. rewrite !flat_map_concat_map. f_equal. now apply map_ext. Qed.
Lemma quarters (l : list Z) : length l = 64%nat ->
  firstn 16 (skipn 0 l) ++ firstn 16 (skipn 16 l) ++ firstn 16 (skipn 32 l) ++ firstn 16 (skipn 48 l) = l.
Proof. intro H. explode l 64. reflexivity. Qed.
Lemma load_quarter l off : length l = 64%nat -> (off <= 48)%nat -> load 16 l off = Done (firstn 16 (skipn off l)).
Proof. intros H Ho. unfold load. replace (off + 16 <=? length l)%nat with true by lia. cbn [repeat Nat.sub]. now rewrite app_nil_r. Qed.
Lemma quarter_length (l : list Z) off : length l = 64%nat -> (off <= 48)%nat -> length (firstn 16 (skipn off l)) = 16%nat.
Proof. intros. rewrite firstn_length, skipn_length. lia. Qed.
Lemma map_seq_length {A} (f : nat -> A) s n : length (map f (seq s n)) = n.
Proof. now rewrite map_length, seq_length. Qed.
Lemma map_nth_bytes (l : list Z) (f : nat -> nat) n : bytes l -> bytes (map (fun i => nth (f i) l 0) (seq 0 n)).
Proof. intro H. unfold bytes. apply Forall_map, Forall_forall. intros. now apply bytes_nth. Qed.
Lemma store_all d v : length d = length v -> store_bytes d 0 v = Done v.
Proof. intro H. rewrite store_bytes_ok by lia. now rewrite splice_all. Qed.
Section Sse64.
Variables (ch : Z -> Z -> Z) (plane : m128 -> m128 -> m128).
Hypothesis Hplane : forall x a, length x = 16%nat -> length a = 16%nat -> bytes x -> bytes a -> plane x a = zipw ch x a.
Lemma sse64_ok dst l : length dst = 64%nat -> length l = 64%nat -> bytes l ->
  (rgba0 <- load 16 l 0 ;; rgba1 <- load 16 l 16 ;; rgba2 <- load 16 l 32 ;; rgba3 <- load 16 l 48 ;;
   let '(rrr, ggg, bbb, aaa) := sse_deinterleave rgba0 rgba1 rgba2 rgba3 in
   let '(o0, o1, o2, o3) := sse_interleave (plane rrr aaa) (plane ggg aaa) (plane bbb aaa) aaa in
   store_bytes dst 0 (o0 ++ o1 ++ o2 ++ o3)) = Done (pxflat (fun r g b a => [ch r a; ch g a; ch b a; a]) l).
Proof using Hplane.
  intros Ld L B. rewrite !load_quarter by lia. cbn [bind].
  rewrite deinterleave_flat by (apply quarter_length; lia). rewrite quarters by exact L.
  rewrite !Hplane by (apply map_seq_length || (apply map_nth_bytes; exact B)). rewrite !zipw_maps.
  match goal with |- context [sse_interleave (map ?r _) (map ?g _) (map ?b _) (map ?a _)] =>
    pose proof (interleave_flat r g b a) as I end. cbv zeta in I.
  destruct (sse_interleave _ _ _ _) as [[[o0 o1] o2] o3]. rewrite I.
  rewrite (pxflat_flat _ 16) by (try exact L; intros r g b a; reflexivity).
  apply store_all. rewrite Ld. reflexivity.
Qed.
End Sse64.
Lemma sse_premul_chunk_ok dst src : length dst = 64%nat -> length src = 64%nat -> bytes src -> sse_premul_chunk dst src = Done (pxflat px_sse src).
Proof. intros. apply (sse64_ok (fun c a => simd_div (c * a)) sse_premul_plane); auto using premul_plane_ok. Qed.
Lemma sse_unpremul_chunk_ok rcp b : length b = 64%nat -> bytes b -> sse_unpremul_chunk rcp b = Done (pxflat (px_un_sse rcp) b).
Proof. intros. apply (sse64_ok (un_sse rcp) (unpremul_plane rcp packs_epi32)); auto using un_sse_ok. Qed.

(** ** AVX2 *)
Lemma avx_lane_ok x : length x = 16%nat -> bytes x -> avx_premul_lane x = pxflat px_avx x.
Proof.
  intros L B. unfold avx_premul_lane.
  assert (E : shuffle_epi8 x alpha_shuffle = flat_map (fun i => repeat (nth (i * 4 + 3) x 0) 4) (seq 0 4)) by (explode x 16; reflexivity).
  rewrite E. set (a := flat_map _ _).
  assert (La : length a = 16%nat) by reflexivity.
  assert (Ba : bytes a).
  { unfold a, bytes. cbn [seq flat_map repeat app]. repeat apply Forall_cons; try apply Forall_nil; apply bytes_nth, B. }
  change (packus_epi16 _ _) with (sse_premul_plane x a). rewrite premul_plane_ok by assumption. subst a. clear - L. explode x 16. reflexivity.
Qed.
Lemma load256_ok l off : (off + 32 <= length l)%nat -> load256 l off = Done (firstn 16 (skipn off l), firstn 16 (skipn (off + 16) l)).
Proof.
  intro H. unfold load256, load. replace (off + 16 <=? length l)%nat with true by lia. replace (off + 16 + 16 <=? length l)%nat with true by lia.
  cbn [bind repeat Nat.sub]. now rewrite !app_nil_r.
Qed.
Lemma halves (l : list Z) : length l = 32%nat -> firstn 16 (skipn 0 l) ++ firstn 16 (skipn (0 + 16) l) = l.
Proof. intro H. explode l 32. reflexivity. Qed.
Lemma avx_premul_chunk_ok dst src : length dst = 32%nat -> length src = 32%nat -> bytes src -> avx_premul_chunk dst src = Done (pxflat px_avx src).
Proof.
  intros Ld L B. unfold avx_premul_chunk. rewrite load256_ok by lia. cbn [bind]. unfold lane1, bytes256. cbn [fst snd].
  rewrite !avx_lane_ok; try (apply bytes_firstn, bytes_skipn, B); try (rewrite firstn_length, skipn_length; lia).
  rewrite <- (pxflat_app px_avx 4) by (rewrite firstn_length, skipn_length; lia). rewrite halves by exact L.
  apply store_all. rewrite Ld, (pxflat_length px_avx 8); auto. intros r g b a. reflexivity.
Qed.
Definition split256 (l : list Z) : m256 := (firstn 16 l, skipn 16 l).
Lemma avx_deinterleave_flat x0 x1 x2 x3 y0 y1 y2 y3 : 
  length x0 = 16%nat -> length x1 = 16%nat -> length x2 = 16%nat -> length x3 = 16%nat ->
  length y0 = 16%nat -> length y1 = 16%nat -> length y2 = 16%nat -> length y3 = 16%nat ->
  let l := x0 ++ y0 ++ x1 ++ y1 ++ x2 ++ y2 ++ x3 ++ y3 in
  avx_deinterleave (x0, y0) (x1, y1) (x2, y2) (x3, y3) =
   (split256 (map (fun i => nth (i * 4) l 0) (seq 0 32)), split256 (map (fun i => nth (i * 4 + 1) l 0) (seq 0 32)),
    split256 (map (fun i => nth (i * 4 + 2) l 0) (seq 0 32)), split256 (map (fun i => nth (i * 4 + 3) l 0) (seq 0 32))).
Proof. intros. explode x0 16. explode x1 16. explode x2 16. explode x3 16. explode y0 16. explode y1 16. explode y2 16. explode y3 16. reflexivity. Qed.

Lemma avx_interleave_flat r g b a : 
  let m f := split256 (map f (seq 0 32)) in
  let '(o0, o1, o2, o3) := avx_interleave (m r) (m g) (m b) (m a) in
  bytes256 o0 ++ bytes256 o1 ++ bytes256 o2 ++ bytes256 o3 = flat_map (fun i => [r i; g i; b i; a i]) (seq 0 32).
Proof. reflexivity. Qed.
Lemma eighths (l : list Z) : length l = 128%nat ->
  firstn 16 (skipn 0 l) ++ firstn 16 (skipn (0 + 16) l) ++ firstn 16 (skipn 32 l) ++ firstn 16 (skipn (32 + 16) l) ++
  firstn 16 (skipn 64 l) ++ firstn 16 (skipn (64 + 16) l) ++ firstn 16 (skipn 96 l) ++ firstn 16 (skipn (96 + 16) l) = l.
Proof.
  intro H. explode l 128. reflexivity.
Qed.
Lemma avx_plane_maps rcp p q : bytes (map p (seq 0 32)) -> bytes (map q (seq 0 32)) ->
  lane2 (unpremul_plane rcp packus_epi32) (split256 (map p (seq 0 32))) (split256 (map q (seq 0 32))) =
  split256 (map (fun i => un_avx rcp (p i) (q i)) (seq 0 32)).
Proof.
  intros Bp Bq. unfold lane2, split256. cbn [fst snd].
  rewrite !un_avx_ok by (reflexivity || (apply bytes_firstn; assumption) || (apply bytes_skipn; assumption)). reflexivity.
Qed.
Lemma avx_unpremul_chunk_ok rcp b : length b = 128%nat -> bytes b -> avx_unpremul_chunk rcp b = Done (pxflat (px_un_avx rcp) b).
Proof.
  intros L B. unfold avx_unpremul_chunk. rewrite !load256_ok by lia. cbn [bind].
  rewrite avx_deinterleave_flat by (rewrite firstn_length, skipn_length; lia). rewrite eighths by exact L.
  rewrite !avx_plane_maps by (apply map_nth_bytes; exact B).
  match goal with |- context [avx_interleave (split256 (map ?r _)) (split256 (map ?g _)) (split256 (map ?b _)) (split256 (map ?a _))] =>
    pose proof (avx_interleave_flat r g b a) as I end. cbv zeta in I.
  destruct (avx_interleave _ _ _ _) as [[[o0 o1] o2] o3]. rewrite I.
  rewrite (pxflat_flat _ 32) by (try exact L; intros ? ? ? ?; reflexivity).
  apply store_all. rewrite L. reflexivity.
Qed.

(** ** Rows *)
Lemma zip_mut_flat (f : list Z -> list Z -> outcome (list Z)) (h : list Z -> list Z) ds ss :
  length ds = length ss -> (forall i d s, nth_error ds i = Some d -> nth_error ss i = Some s -> f d s = Done (h s)) ->
  zip_mut f ds ss = Done (map h ss).
Proof.
  intros L H. rewrite (zip_mut_spec f (fun _ s => h s) ds ss) by exact H. rewrite skipn_all2 by lia. rewrite app_nil_r. f_equal.
  clear H. revert ss L. induction ds as [|d ds IH]; intros [|s ss] L; try discriminate; [reflexivity|]. cbn [combine map]. f_equal. apply IH. cbn in L. lia.
Qed.
Lemma concat_pxflat px k cs : Forall (fun c => length c = (k * 4)%nat) cs -> concat (map (pxflat px) cs) = pxflat px (concat cs).
Proof.
  induction 1 as [|c cs Hc _ IH]; [reflexivity|]. cbn [map concat]. now rewrite (pxflat_app px k), IH.
Qed.
Lemma concat_len {T} b (cs : list (list T)) : Forall (fun c => length c = b) cs -> length (concat cs) = (length cs * b)%nat.
Proof. induction 1 as [|c cs H _ IH]; [reflexivity|]. cbn [concat length]. rewrite app_length, H, IH. lia. Qed.
Lemma bytes_chunk k l i : bytes l -> bytes (chunk k l i).
Proof. intro H. unfold chunk. apply bytes_firstn, bytes_skipn, H. Qed.
Section Blocks.
Variables (px : Z -> Z -> Z -> Z -> list Z) (k : nat).
Hypothesis H4 : four px.
Hypothesis Hk : (0 < k)%nat.
Let blk := (k * 4)%nat.
Lemma rem_px w (l : list Z) : length l = (w * 4)%nat -> exists w', length (chunks_rem blk l) = (w' * 4)%nat /\ (w' < k)%nat.
Proof using Hk.
  intro H. exists (w mod k)%nat. unfold chunks_rem. rewrite skipn_length, H. subst blk.
  rewrite Nat.div_mul_cancel_r by lia. split; [|apply Nat.mod_upper_bound; lia].
  pose proof (Nat.div_mod w k ltac:(lia)). nia.
Qed.
Lemma pad_flat w' (r : list Z) : length r = (w' * 4)%nat -> (w' < k)%nat ->
  length (splice (repeat 0 blk) 0 r) = blk /\ (bytes r -> bytes (splice (repeat 0 blk) 0 r)) /\
  firstn (length r) (pxflat px (splice (repeat 0 blk) 0 r)) = pxflat px r.
Proof using H4 Hk.
  intros H Hw. unfold splice. cbn [firstn app Nat.add]. split; [|split].
  - rewrite app_length, skipn_length, repeat_length. subst blk. nia.
  - intro B. unfold bytes. apply Forall_app. split; [exact B|]. apply Forall_forall. intros x Hx.
    assert (E : x = 0) by (apply (repeat_spec blk); rewrite <- (firstn_skipn (length r) (repeat 0 blk)); apply in_or_app; now right).
    rewrite E. unfold byte. lia.
  - rewrite (pxflat_app px w') by exact H. rewrite firstn_app.
    rewrite (pxflat_length px w') by assumption. replace (length r - w' * 4)%nat with 0%nat by lia. cbn [firstn]. rewrite app_nil_r.
    apply firstn_all2. rewrite (pxflat_length px w'); auto. lia.
Qed.
Lemma premul_blocks_ok chunkf w dst src :
  (forall d s, length d = blk -> length s = blk -> bytes s -> chunkf d s = Done (pxflat px s)) ->
  length dst = (w * 4)%nat -> length src = (w * 4)%nat -> bytes src -> premul_blocks blk chunkf dst src = Done (pxflat px src).
Proof using H4 Hk.
  intros HC Ld Ls B. unfold premul_blocks.
  rewrite (zip_mut_flat _ (pxflat px)).
  2:{ rewrite !chunks_exact_length. congruence. }
  2:{ intros i d s Hd Hs. rewrite nth_error_chunks in Hd, Hs.
      destruct (Nat.ltb_spec i (length dst / blk)); [|discriminate]. destruct (Nat.ltb_spec i (length src / blk)); [|discriminate].
      inversion Hd; inversion Hs. apply HC; [now apply chunk_length|now apply chunk_length|now apply bytes_chunk]. }
  cbn [bind]. destruct (rem_px w dst Ld) as (w1 & L1 & _). destruct (rem_px w src Ls) as (w' & L' & Hw').
  assert (Eq : length (chunks_rem blk src) = length (chunks_rem blk dst)) by (unfold chunks_rem; rewrite !skipn_length; congruence).
  assert (Bs : bytes (chunks_rem blk src)) by (unfold chunks_rem; now apply bytes_skipn).
  transitivity (Done (unchunk (map (pxflat px) (chunks_exact blk src)) (pxflat px (chunks_rem blk src)))).
  - destruct (Nat.eqb_spec (length (chunks_rem blk dst)) 0) as [E0|E0].
    + cbn [bind]. destruct (chunks_rem blk dst) as [|]; [|discriminate]. destruct (chunks_rem blk src) as [|]; [|discriminate]. reflexivity.
    + rewrite Eq, Nat.eqb_refl. cbn [negb]. destruct (pad_flat w' (chunks_rem blk src) L' Hw') as (P1 & P2 & P3).
      rewrite HC by (try exact P1; try apply repeat_length; auto). cbn [bind]. rewrite <- Eq, P3. reflexivity.
  - unfold unchunk. rewrite (concat_pxflat px k) by apply chunks_exact_Forall_len.
    assert (C : exists w2, length (concat (chunks_exact blk src)) = (w2 * 4)%nat).
    { exists (length (chunks_exact blk src) * k)%nat. rewrite (concat_len blk) by apply chunks_exact_Forall_len. subst blk. lia. }
    destruct C as (w2 & C). rewrite <- (pxflat_app px w2) by exact C. f_equal. f_equal.
    apply (chunks_unchunk blk src). subst blk. lia.
Qed.
Lemma unpremul_blocks_ok chunkf w b :
  (forall d, length d = blk -> bytes d -> chunkf d = Done (pxflat px d)) ->
  length b = (w * 4)%nat -> bytes b -> unpremul_blocks blk chunkf b = Done (pxflat px b).
Proof using H4 Hk.
  intros HC L B. rewrite <- (premul_blocks_ok (fun _ s => chunkf s) w b b) by auto.
  unfold unpremul_blocks, premul_blocks.
  assert (E : zip_mut (fun d (_ : nat) => chunkf d) (chunks_exact blk b) (seq 0 (length (chunks_exact blk b))) =
              zip_mut (fun _ s => chunkf s) (chunks_exact blk b) (chunks_exact blk b)).
  { generalize (chunks_exact blk b) 0%nat. intro cs. induction cs as [|c cs IH]; intro s; [reflexivity|]. cbn [length seq zip_mut]. now rewrite IH. }
  rewrite E. rewrite Nat.eqb_refl. reflexivity.
Qed.
End Blocks.
Lemma four_sse : four px_sse. Proof. intros r g b a. reflexivity. Qed.
Lemma four_avx : four px_avx. Proof. intros r g b a. reflexivity. Qed.
Lemma four_un_sse rcp : four (px_un_sse rcp). Proof. intros r g b a. reflexivity. Qed.
Lemma four_un_avx rcp : four (px_un_avx rcp). Proof. intros r g b a. reflexivity. Qed.
Lemma sse_premul_row_ok w dst src : length dst = (w * 4)%nat -> length src = (w * 4)%nat -> bytes src -> sse_premul_row dst src = px_row px_sse dst src.
Proof.
  intros Ld Ls B. rewrite (px_row_flat px_sse w) by auto using four_sse.
  apply (premul_blocks_ok px_sse 16 four_sse ltac:(lia) _ w); auto. intros; apply sse_premul_chunk_ok; auto.
Qed.
Lemma avx_premul_row_ok w dst src : length dst = (w * 4)%nat -> length src = (w * 4)%nat -> bytes src -> avx_premul_row dst src = px_row px_avx dst src.
Proof.
  intros Ld Ls B. rewrite (px_row_flat px_avx w) by auto using four_avx.
  apply (premul_blocks_ok px_avx 8 four_avx ltac:(lia) _ w); auto. intros; apply avx_premul_chunk_ok; auto.
Qed.
Lemma sse_unpremul_row_ok rcp w b : length b = (w * 4)%nat -> bytes b -> sse_unpremul_row rcp b = px_row_in_place (px_un_sse rcp) b.
Proof.
  intros L B. rewrite (px_row_in_place_flat _ w) by auto using four_un_sse.
  apply (unpremul_blocks_ok _ 16 (four_un_sse rcp) ltac:(lia) _ w); auto. intros; apply sse_unpremul_chunk_ok; auto.
Qed.
Lemma avx_unpremul_row_ok rcp w b : length b = (w * 4)%nat -> bytes b -> avx_unpremul_row rcp b = px_row_in_place (px_un_avx rcp) b.
Proof.
  intros L B. rewrite (px_row_in_place_flat _ w) by auto using four_un_avx.
  apply (unpremul_blocks_ok _ 32 (four_un_avx rcp) ltac:(lia) _ w); auto. intros; apply avx_unpremul_chunk_ok; auto.
Qed.
