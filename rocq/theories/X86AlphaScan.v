(** The vector alpha scan agrees with the portable one. *)
From Coq Require Import ZArith List Lia Bool ZifyBool ZifyNat.
From Verif Require Import Base BaseProofs ImageStore FixedPoint Dispatch Resize Spec F32 KernelProofs DispatchProofs NoFail Alpha AlphaProofs AlphaScan
  Simd SimdProofs X86Dispatch X86Alpha X86AlphaProofs.
Import ListNotations.
Local Open Scope Z_scope.

(** The sum of the differences from [first] over the pixels of a flat list. *)
Fixpoint asum (first : Z) (l : list Z) : Z :=
  match l with r :: g :: b :: a :: t => Z.lxor a first + asum first t | _ => 0 end.
Lemma asum_app f w l t : length l = (w * 4)%nat -> asum f (l ++ t) = asum f l + asum f t.
Proof.
  revert l. induction w as [|w IH]; intros l H; [destruct l; [reflexivity|discriminate]|].
  do 4 (destruct l as [|? l]; [cbn in H; lia|]). cbn [app asum]. rewrite IH by (cbn in H; lia). lia.
Qed.
Lemma asum_concat f k cs : Forall (fun c => length c = (k * 4)%nat) cs -> asum f (concat cs) = fold_right Z.add 0 (map (asum f) cs).
Proof. induction 1 as [|c cs H _ IH]; [reflexivity|]. cbn [concat map fold_right]. now rewrite (asum_app f k), IH. Qed.

(** Congruence modulo 2^32. *)
Definition cong (a b : Z) : Prop := a mod 4294967296 = b mod 4294967296.
Lemma cong_wrap a : cong (wrap32 a) a.
Proof. unfold cong, wrap32. change (2 ^ 31) with 2147483648. change (2 ^ 32) with 4294967296. lia. Qed.
Definition rsum (s : m128) : Z := fold_right Z.add 0 (dwords s).
Lemma rsum_of_dwords a b c d : cong (rsum (of_dwords [a;b;c;d])) (a + b + c + d).
Proof. unfold rsum. rewrite dwords_of_dwords. cbn [map fold_right]. unfold cong. lia. Qed.
Lemma dwords4 s : length s = 16%nat -> exists a b c d, dwords s = [a;b;c;d].
Proof. intro L. explode s 16. cbn [dwords]. eauto. Qed.
Lemma rsum_add s t : length s = 16%nat -> length t = 16%nat -> length (add_epi32 s t) = 16%nat /\ cong (rsum (add_epi32 s t)) (rsum s + rsum t).
Proof.
  intros Ls Lt. unfold add_epi32, rsum at 2 3. destruct (dwords4 s Ls) as (a & b & c & d & ->). destruct (dwords4 t Lt) as (a' & b' & c' & d' & ->).
  cbn [zipw fold_right]. split; [reflexivity|]. pose proof (rsum_of_dwords (a + a') (b + b') (c + c') (d + d')) as H.
  unfold cong in *. rewrite H. f_equal. lia.
Qed.
Lemma rsum_reg first r : length r = 16%nat -> bytes r -> byte first ->
  length (xor_si128 (shuffle_epi8 r pick_alpha) (set1_epi32 first)) = 16%nat /\
  rsum (xor_si128 (shuffle_epi8 r pick_alpha) (set1_epi32 first)) = asum first r.
Proof.
  intros L B F. unfold set1_epi32, of_dwords. cbn [repeat flat_map]. unfold dword_bytes. unfold byte in F.
  rewrite (Z.mod_small first 256) by lia. rewrite (Z.div_small first 256), (Z.div_small first 65536), (Z.div_small first 16777216) by lia.
  rewrite Z.mod_0_l by lia. cbn [app]. explode r 16.
  match goal with |- context [shuffle_epi8 ?x pick_alpha] => let y := eval cbv in (shuffle_epi8 x pick_alpha) in change (shuffle_epi8 x pick_alpha) with y end.
  unfold xor_si128. cbn [zipw]. rewrite Z.lxor_nilpotent. split; [reflexivity|]. unfold rsum. cbn [dwords fold_right asum]. lia.
Qed.
Lemma scan_reg_ok first mem off s : byte first -> bytes mem -> (off + 16 <= length mem)%nat -> length s = 16%nat ->
  exists s', scan_reg (set1_epi32 first) mem off s = Done s' /\ length s' = 16%nat /\ cong (rsum s') (rsum s + asum first (firstn 16 (skipn off mem))).
Proof.
  intros F B H L. unfold scan_reg, load. replace (off + 16 <=? length mem)%nat with true by lia. cbn [bind repeat Nat.sub]. rewrite app_nil_r.
  assert (L16 : length (firstn 16 (skipn off mem)) = 16%nat) by (rewrite firstn_length, skipn_length; lia).
  destruct (rsum_reg first (firstn 16 (skipn off mem)) L16 ltac:(now apply bytes_firstn, bytes_skipn) F) as (L1 & R1).
  eexists. split; [reflexivity|]. rewrite <- R1. now apply rsum_add.
Qed.
Lemma cong_trans a b c : cong a b -> cong b c -> cong a c. Proof. unfold cong. congruence. Qed.
Lemma cong_add a b c : cong a b -> cong (a + c) (b + c). Proof. unfold cong. intro. rewrite Z.add_mod, H, <- Z.add_mod by lia. reflexivity. Qed.
Lemma cong_eq a b : a = b -> cong a b. Proof. unfold cong. congruence. Qed.

(** Folding a step that adds the sum of its chunk. *)
Lemma fold_scan {S} (ok : S -> Prop) (val : S -> Z) first (k : nat) (step : S -> list Z -> outcome S) cs :
  Forall (fun c => length c = (k * 4)%nat /\ bytes c) cs ->
  (forall s c, ok s -> length c = (k * 4)%nat -> bytes c -> exists s', step s c = Done s' /\ ok s' /\ cong (val s') (val s + asum first c)) ->
  forall s, ok s -> exists s', foldM step cs s = Done s' /\ ok s' /\ cong (val s') (val s + asum first (concat cs)).
Proof.
  intros H Hs. induction H as [|c cs [Lc Bc] _ IH]; intros s Os; cbn [foldM concat].
  - exists s. split; [reflexivity|]. split; [exact Os|]. cbn [asum]. now rewrite Z.add_0_r.
  - destruct (Hs s c Os Lc Bc) as (s1 & E1 & O1 & C1). rewrite E1. cbn [bind]. destruct (IH s1 O1) as (s2 & E2 & O2 & C2).
    exists s2. split; [exact E2|]. split; [exact O2|]. rewrite (asum_app first k) by exact Lc. rewrite Z.add_assoc.
    eapply cong_trans; [exact C2|]. now apply cong_add.
Qed.
Lemma chunks_good k (l : list Z) : bytes l -> Forall (fun c => length c = k /\ bytes c) (chunks_exact k l).
Proof.
  intro B. apply Forall_forall. intros c Hc. unfold chunks_exact in Hc. apply in_map_iff in Hc as (i & <- & Hi). apply in_seq in Hi.
  split; [apply chunk_length; lia|now apply bytes_chunk].
Qed.
(** The rest of a row after its whole blocks. *)
Lemma asum_rest first k w (l : list Z) : (0 < k)%nat -> length l = (w * 4)%nat ->
  asum first l = asum first (concat (chunks_exact (k * 4) l)) + asum first (chunks_rem (k * 4) l) /\ exists w', length (chunks_rem (k * 4) l) = (w' * 4)%nat.
Proof.
  intros Hk L. split.
  - rewrite <- (chunks_unchunk (k * 4) l) at 1 by lia. unfold unchunk. apply asum_app with (w := (length (chunks_exact (k * 4) l) * k)%nat).
    rewrite (concat_len (k * 4)) by apply chunks_exact_Forall_len. lia.
  - destruct (rem_px k Hk w l L) as (w' & H & _). eauto.
Qed.
Lemma shufflelo_dwords a b c d : shufflelo_epi16 1 0 3 2 (of_dwords [a;b;c;d]) = of_dwords [b;a;c;d].
Proof. reflexivity. Qed.
Lemma hsum_ok s : length s = 16%nat -> cong (hsum_epi32 s) (rsum s) /\ - 2 ^ 31 <= hsum_epi32 s < 2 ^ 31.
Proof.
  intro L. destruct (dwords4 s L) as (a & b & c & d & E).
  assert (E2 : dwords (shuffle_epi32 1 0 3 2 s) = [c;d;a;b]) by (explode s 16; cbn [dwords] in E; inversion E; reflexivity).
  assert (Eh : hsum_epi32 s = wrap32 ((c + a) mod 4294967296 + (d + b) mod 4294967296)).
  { unfold hsum_epi32. replace (add_epi32 (shuffle_epi32 1 0 3 2 s) s) with (of_dwords [c + a; d + b; a + c; b + d]) by (unfold add_epi32; now rewrite E, E2).
    rewrite shufflelo_dwords. unfold add_epi32. rewrite !dwords_of_dwords. cbn [map zipw]. rewrite sdwords_of_dwords. reflexivity. }
  rewrite Eh. split; [|apply wrap32_range].
  eapply cong_trans; [apply cong_wrap|]. unfold cong, rsum. rewrite E. cbn [fold_right]. rewrite <- Z.add_mod by lia. f_equal. lia.
Qed.
Lemma chunks4_cons (a b c d : Z) t : chunks_exact 4 (a :: b :: c :: d :: t) = [a;b;c;d] :: chunks_exact 4 t.
Proof.
  unfold chunks_exact. cbn [length]. replace (S (S (S (S (length t)))) / 4)%nat with (S (length t / 4)) by lia.
  cbn [seq map]. f_equal. rewrite <- seq_shift, map_map. reflexivity.
Qed.
Lemma scan_tail_ok first row : forall h, (exists w, length row = (w * 4)%nat) ->
  exists h', scan_tail first row h = Done h' /\ cong h' (h + asum first row) /\ (- 2 ^ 31 <= h < 2 ^ 31 -> - 2 ^ 31 <= h' < 2 ^ 31).
Proof.
  intros h (w & L). revert row L h. induction w as [|w IH]; intros row L h.
  - destruct row; [|discriminate]. exists h. split; [reflexivity|]. split; [cbn [asum]; now rewrite Z.add_0_r|auto].
  - do 4 (destruct row as [|? row]; [cbn in L; lia|]). unfold scan_tail. rewrite chunks4_cons. cbn [foldM idx nth_error bind].
    destruct (IH row ltac:(cbn in L; lia) (wrap32 (h + Z.lxor z2 first))) as (h' & E & C & R). unfold scan_tail in E.
    exists h'. split; [exact E|]. split.
    + cbn [asum]. rewrite Z.add_assoc. eapply cong_trans; [exact C|]. apply cong_add, cong_wrap.
    + intros _. apply R. apply wrap32_range.
Qed.
Lemma skip_skip {A} a b (l : list A) : skipn a (skipn b l) = skipn (b + a) l.
Proof. revert l. induction b as [|b IH]; intro l; [reflexivity|]. destruct l; [now rewrite !skipn_nil|]. cbn [skipn Nat.add]. apply IH. Qed.
(** Skipping to a part of a list. *)
Lemma asum_cut first (l : list Z) a : (exists w, a = (w * 4)%nat) -> (a <= length l)%nat -> asum first l = asum first (firstn a l) + asum first (skipn a l).
Proof. intros (w & E) H. rewrite <- (firstn_skipn a l) at 1. apply asum_app with (w := w). rewrite firstn_length. lia. Qed.
Section Row.
Variables (first : Z).
Hypothesis F : byte first.
Let def := set1_epi32 first.
Lemma step16 s c : length s = 16%nat -> length c = (4 * 4)%nat -> bytes c ->
  exists s', scan_reg def c 0 s = Done s' /\ length s' = 16%nat /\ cong (rsum s') (rsum s + asum first c).
Proof using F.
  intros Ls Lc B. destruct (scan_reg_ok first c 0 s F B ltac:(lia) Ls) as (s' & E & L & C). exists s'. split; [exact E|]. split; [exact L|].
  cbn [skipn] in C. rewrite firstn_all2 in C by lia. exact C.
Qed.
Lemma step64 s c : length s = 16%nat -> length c = (16 * 4)%nat -> bytes c ->
  exists s', (s <- scan_reg def c 0 s ;; s <- scan_reg def c 16 s ;; s <- scan_reg def c 32 s ;; scan_reg def c 48 s) = Done s' /\
    length s' = 16%nat /\ cong (rsum s') (rsum s + asum first c).
Proof using F.
  intros Ls Lc B.
  destruct (scan_reg_ok first c 0 s F B ltac:(lia) Ls) as (s1 & E1 & L1 & C1). fold def in E1. rewrite E1. cbn [bind].
  destruct (scan_reg_ok first c 16 s1 F B ltac:(lia) L1) as (s2 & E2 & L2 & C2). fold def in E2. rewrite E2. cbn [bind].
  destruct (scan_reg_ok first c 32 s2 F B ltac:(lia) L2) as (s3 & E3 & L3 & C3). fold def in E3. rewrite E3. cbn [bind].
  destruct (scan_reg_ok first c 48 s3 F B ltac:(lia) L3) as (s4 & E4 & L4 & C4). fold def in E4. 
  exists s4. split; [exact E4|]. split; [exact L4|].
  assert (Q : asum first c = asum first (firstn 16 (skipn 0 c)) + asum first (firstn 16 (skipn 16 c)) + asum first (firstn 16 (skipn 32 c)) + asum first (firstn 16 (skipn 48 c))).
  { rewrite <- (quarters c Lc) at 1. rewrite !(asum_app first 4) by (rewrite firstn_length, skipn_length; lia). lia. }
  rewrite Q, !Z.add_assoc.
  eapply cong_trans; [exact C4|]. apply cong_add. eapply cong_trans; [exact C3|]. apply cong_add. eapply cong_trans; [exact C2|]. now apply cong_add.
Qed.
Lemma sse_scan_row_ok row w : bytes row -> length row = (w * 4)%nat ->
  exists h, sse_scan_row first row = Done h /\ cong h (asum first row) /\ - 2 ^ 31 <= h < 2 ^ 31.
Proof using F.
  intros B L. unfold sse_scan_row. fold def.
  destruct (fold_scan (S := m128) (fun s => length s = 16%nat) rsum first 16 
    (fun s c => s <- scan_reg def c 0 s ;; s <- scan_reg def c 16 s ;; s <- scan_reg def c 32 s ;; scan_reg def c 48 s)
    (chunks_exact 64 row) (chunks_good 64 row B) step64 zeros eq_refl) as (s1 & E1 & L1 & C1). rewrite E1. cbn [bind].
  destruct (asum_rest first 16 w row ltac:(lia) L) as (A1 & w1 & W1). change (16 * 4)%nat with 64%nat in *.
  set (row1 := chunks_rem 64 row) in *. assert (B1 : bytes row1) by (apply bytes_skipn, B).
  destruct (fold_scan (S := m128) (fun s => length s = 16%nat) rsum first 4 (fun s c => scan_reg def c 0 s)
    (chunks_exact 16 row1) (chunks_good 16 row1 B1) step16 s1 L1) as (s2 & E2 & L2 & C2). rewrite E2. cbn [bind].
  destruct (asum_rest first 4 w1 row1 ltac:(lia) W1) as (A2 & w2 & W2). change (4 * 4)%nat with 16%nat in *.
  destruct (hsum_ok s2 L2) as (H1 & H2).
  destruct (scan_tail_ok first (chunks_rem 16 row1) (hsum_epi32 s2) (ex_intro _ w2 W2)) as (h & E & C & R).
  exists h. split; [exact E|]. split; [|now apply R].
  rewrite A1, A2. eapply cong_trans; [exact C|]. rewrite Z.add_assoc. apply cong_add.
  eapply cong_trans; [exact H1|]. eapply cong_trans; [exact C2|]. apply cong_add. eapply cong_trans; [exact C1|]. apply cong_eq. reflexivity.
Qed.
(** AVX2 *)
Let ok2 (s : m256) := length (fst s) = 16%nat /\ length (snd s) = 16%nat.
Let val2 (s : m256) := rsum (fst s) + rsum (snd s).
Lemma reg256_ok mem off s : bytes mem -> (off + 32 <= length mem)%nat -> ok2 s ->
  exists s', scan_reg256 def mem off s = Done s' /\ ok2 s' /\ cong (val2 s') (val2 s + asum first (firstn 32 (skipn off mem))).
Proof using F.
  intros B H (La & Lb). unfold scan_reg256.
  destruct (scan_reg_ok first mem off (fst s) F B ltac:(lia) La) as (s1 & E1 & L1 & C1). fold def in E1. rewrite E1. cbn [bind].
  destruct (scan_reg_ok first mem (off + 16) (snd s) F B ltac:(lia) Lb) as (s2 & E2 & L2 & C2). fold def in E2. rewrite E2. cbn [bind].
  exists (s1, s2). split; [reflexivity|]. split; [now split|]. unfold val2. cbn [fst snd].
  assert (Q : asum first (firstn 32 (skipn off mem)) = asum first (firstn 16 (skipn off mem)) + asum first (firstn 16 (skipn (off + 16) mem))).
  { rewrite (asum_cut first (firstn 32 (skipn off mem)) 16) by (try (exists 4%nat; reflexivity); rewrite firstn_length, skipn_length; lia).
    rewrite firstn_firstn, skipn_firstn_comm, skip_skip. reflexivity. }
  rewrite Q. unfold cong in *. rewrite Z.add_mod, C1, C2, <- Z.add_mod by lia. f_equal. lia.
Qed.
Lemma step32 s c : ok2 s -> length c = (8 * 4)%nat -> bytes c ->
  exists s', scan_reg256 def c 0 s = Done s' /\ ok2 s' /\ cong (val2 s') (val2 s + asum first c).
Proof using F.
  intros Os Lc B. destruct (reg256_ok c 0 s B ltac:(lia) Os) as (s' & E & O & C). exists s'. split; [exact E|]. split; [exact O|].
  cbn [skipn] in C. rewrite firstn_all2 in C by lia. exact C.
Qed.
Lemma quarters32 (l : list Z) : length l = 128%nat ->
  firstn 32 (skipn 0 l) ++ firstn 32 (skipn 32 l) ++ firstn 32 (skipn 64 l) ++ firstn 32 (skipn 96 l) = l.
Proof. intro H. explode l 128. reflexivity. Qed.
Lemma step128 s c : ok2 s -> length c = (32 * 4)%nat -> bytes c ->
  exists s', (s <- scan_reg256 def c 0 s ;; s <- scan_reg256 def c 32 s ;; s <- scan_reg256 def c 64 s ;; scan_reg256 def c 96 s) = Done s' /\
    ok2 s' /\ cong (val2 s') (val2 s + asum first c).
Proof using F.
  intros Os Lc B.
  destruct (reg256_ok c 0 s B ltac:(lia) Os) as (s1 & E1 & L1 & C1). rewrite E1. cbn [bind].
  destruct (reg256_ok c 32 s1 B ltac:(lia) L1) as (s2 & E2 & L2 & C2). rewrite E2. cbn [bind].
  destruct (reg256_ok c 64 s2 B ltac:(lia) L2) as (s3 & E3 & L3 & C3). rewrite E3. cbn [bind].
  destruct (reg256_ok c 96 s3 B ltac:(lia) L3) as (s4 & E4 & L4 & C4).
  exists s4. split; [exact E4|]. split; [exact L4|].
  assert (Q : asum first c = asum first (firstn 32 (skipn 0 c)) + asum first (firstn 32 (skipn 32 c)) + asum first (firstn 32 (skipn 64 c)) + asum first (firstn 32 (skipn 96 c))).
  { rewrite <- (quarters32 c Lc) at 1. rewrite !(asum_app first 8) by (rewrite firstn_length, skipn_length; lia). lia. }
  rewrite Q, !Z.add_assoc.
  eapply cong_trans; [exact C4|]. apply cong_add. eapply cong_trans; [exact C3|]. apply cong_add. eapply cong_trans; [exact C2|]. now apply cong_add.
Qed.
Lemma avx_scan_row_ok row w : bytes row -> length row = (w * 4)%nat ->
  exists h, avx_scan_row first row = Done h /\ cong h (asum first row) /\ - 2 ^ 31 <= h < 2 ^ 31.
Proof using F.
  intros B L. unfold avx_scan_row. fold def.
  destruct (fold_scan (S := m256) ok2 val2 first 32 
    (fun s c => s <- scan_reg256 def c 0 s ;; s <- scan_reg256 def c 32 s ;; s <- scan_reg256 def c 64 s ;; scan_reg256 def c 96 s)
    (chunks_exact 128 row) (chunks_good 128 row B) step128 (both zeros) ltac:(split; reflexivity)) as (s1 & E1 & L1 & C1). rewrite E1. cbn [bind].
  destruct (asum_rest first 32 w row ltac:(lia) L) as (A1 & w1 & W1). change (32 * 4)%nat with 128%nat in *.
  set (row1 := chunks_rem 128 row) in *. assert (B1 : bytes row1) by (apply bytes_skipn, B).
  destruct (fold_scan (S := m256) ok2 val2 first 8 (fun s c => scan_reg256 def c 0 s)
    (chunks_exact 32 row1) (chunks_good 32 row1 B1) step32 s1 L1) as (s2 & E2 & L2 & C2). rewrite E2. cbn [bind].
  destruct (asum_rest first 8 w1 row1 ltac:(lia) W1) as (A2 & w2 & W2). change (8 * 4)%nat with 32%nat in *.
  set (row2 := chunks_rem 32 row1) in *. assert (B2 : bytes row2) by (apply bytes_skipn, B1).
  destruct L2 as (L2a & L2b). destruct (rsum_add (fst s2) (snd s2) L2a L2b) as (L3 & C3).
  destruct (fold_scan (S := m128) (fun s => length s = 16%nat) rsum first 4 (fun s c => scan_reg def c 0 s)
    (chunks_exact 16 row2) (chunks_good 16 row2 B2) step16 _ L3) as (s4 & E4 & L4 & C4). rewrite E4. cbn [bind].
  destruct (asum_rest first 4 w2 row2 ltac:(lia) W2) as (A3 & w3 & W3). change (4 * 4)%nat with 16%nat in *.
  destruct (hsum_ok s4 L4) as (H1 & H2).
  destruct (scan_tail_ok first (chunks_rem 16 row2) (hsum_epi32 s4) (ex_intro _ w3 W3)) as (h & E & C & R).
  exists h. split; [exact E|]. split; [|now apply R].
  rewrite A1, A2, A3. eapply cong_trans; [exact C|]. rewrite !Z.add_assoc. apply cong_add.
  eapply cong_trans; [exact H1|]. eapply cong_trans; [exact C4|]. apply cong_add.
  eapply cong_trans; [exact C3|]. eapply cong_trans; [exact C2|]. apply cong_add. eapply cong_trans; [exact C1|]. apply cong_eq. reflexivity.
Qed.
End Row.

(** ** The portable scan of a row *)
Lemma scan_pixels_sum first row : forall s, (exists w, length row = (w * 4)%nat) -> 0 <= s < 2 ^ 32 ->
  scan_pixels (2 ^ 32) first s (chunks_exact 4 row) = Done ((s + asum first row) mod 2 ^ 32).
Proof.
  intros s (w & L). revert row L s. induction w as [|w IH]; intros row L s Hs.
  - destruct row; [|discriminate]. cbn [asum]. rewrite Z.add_0_r, Z.mod_small by exact Hs. reflexivity.
  - do 4 (destruct row as [|? row]; [cbn in L; lia|]). rewrite chunks4_cons. cbn [scan_pixels idx nth_error bind].
    rewrite IH by (cbn in L; lia). cbn [asum]. f_equal. rewrite Zplus_mod_idemp_l. f_equal. lia.
Qed.
Lemma scan_rows_same scan first w rows :
  (forall row, bytes row -> length row = (w * 4)%nat -> exists h, scan first row = Done h /\ cong h (asum first row) /\ - 2 ^ 31 <= h < 2 ^ 31) ->
  Forall bytes rows -> x86_scan_rows scan first w rows = scan_rows (2 ^ 32) first 0 w rows.
Proof.
  intros H B. induction B as [|r rows Br _ IH]; [reflexivity|]. cbn [x86_scan_rows scan_rows].
  destruct (slice r 0 (w * 4)) as [v| |] eqn:E; cbn [bind]; auto.
  assert (V : length v = (w * 4)%nat /\ bytes v).
  { unfold slice in E. destruct (_ && _) eqn:E2; [|discriminate]. injection E as <-. cbn [skipn]. rewrite Nat.sub_0_r. split; [rewrite firstn_length; lia|].
    now apply bytes_firstn. }
  destruct V as (V & Bv). destruct (H v Bv V) as (h & -> & C & R). cbn [bind].
  rewrite scan_pixels_sum by (eauto || (split; [reflexivity|]; apply Z.pow_pos_nonneg; lia)). cbn [bind Z.add].
  unfold cong in C. change 4294967296 with (2 ^ 32) in C. rewrite <- C.
  assert (Q : (h =? 0) = (h mod 2 ^ 32 =? 0)).
  { change (2 ^ 31) with 2147483648 in R. change (2 ^ 32) with 4294967296. lia. }
  rewrite <- Q. destruct (Z.eqb_spec h 0) as [->|]; cbn [negb]; [|reflexivity]. exact IH.
Qed.
Lemma bytes_rows (im : image Z) k : bytes (buf im) -> Forall bytes (chunks_exact k (buf im)).
Proof. intro B. eapply Forall_impl; [|apply (chunks_good k _ B)]. intros a H. apply H. Qed.
Lemma alpha_needed_same c (im : image Z) : bytes (buf im) -> buf im <> [] -> alpha_needed_u8_x86 c im = alpha_needed_u8 im.
Proof.
  intros B NE. assert (G : forall scan, (forall first w row, byte first -> bytes row -> length row = (w * 4)%nat -> 
      exists h, scan first row = Done h /\ cong h (asum first row) /\ - 2 ^ 31 <= h < 2 ^ 31) ->
      x86_has_alpha scan (buf im) (width im) (stride_of 4 im) = alpha_needed_u8 im).
  { intros scan H. unfold x86_has_alpha, alpha_needed_u8, has_non_constant_alpha. destruct (buf im) as [|z l] eqn:E; [congruence|]. rewrite <- E in *.
    destruct (idx (buf im) 3) as [first| |] eqn:EI; cbn [bind]; auto.
    assert (Hf : byte first).
    { unfold idx in EI. destruct (nth_error (buf im) 3) as [x|] eqn:EN; [|discriminate]. injection EI as <-. unfold bytes in B. rewrite Forall_forall in B. apply B. now apply nth_error_In with (n := 3%nat). }
    unfold chunks_exact_o. destruct (_ =? 0)%nat; cbn [bind]; auto.
    apply scan_rows_same; [|now apply bytes_rows]. intros row Br Lr. now apply (H first (width im)). }
  unfold alpha_needed_u8_x86. destruct (avx2 c); [|destruct (sse41 c); [|reflexivity]]; apply G; intros.
  - now apply avx_scan_row_ok with w. - now apply sse_scan_row_ok with w.
Qed.
