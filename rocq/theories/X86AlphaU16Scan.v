(** The 16-bit vector alpha scan. *)
From Coq Require Import ZArith List Lia Bool ZifyBool ZifyNat.
From Verif Require Import Base BaseProofs ImageStore FixedPoint Dispatch Resize Spec SpecApi SpecAlpha F32 KernelProofs DispatchProofs NoFail Alpha AlphaProofs AlphaScan
  Simd SimdProofs X86Dispatch X86Alpha X86AlphaProofs X86AlphaScan X86Float X86U16 X86AlphaU16 SpecX86AlphaU16 X86AlphaU16Proofs.
Import ListNotations.
Local Open Scope Z_scope.

Definition dsum (s : list Z) : Z := fold_right Z.add 0 s.
Lemma add32_cong a b : cong (add32 a b) (a + b).
Proof. unfold add32. apply cong_wrap. Qed.
Lemma cong_plus a b c d : cong a b -> cong c d -> cong (a + c) (b + d).
Proof. unfold cong. intros H1 H2. rewrite Z.add_mod, H1, H2, <- Z.add_mod by lia. reflexivity. Qed.
Lemma zip_add s t : length s = 4%nat -> length t = 4%nat -> length (zipw add32 s t) = 4%nat /\ cong (dsum (zipw add32 s t)) (dsum s + dsum t).
Proof.
  intros Ls Lt. explode s 4. explode t 4. split; [reflexivity|]. cbn [zipw]. unfold dsum. cbn [fold_right].
  match goal with |- cong (add32 ?a ?b + (add32 ?c ?d + (add32 ?e ?f + (add32 ?g ?h + 0)))) _ =>
    pose proof (add32_cong a b); pose proof (add32_cong c d); pose proof (add32_cong e f); pose proof (add32_cong g h) end.
  eapply cong_trans; [repeat (apply cong_plus; [eassumption|]); apply cong_eq; reflexivity|]. apply cong_eq. lia.
Qed.
Lemma scan_pair_ok first r0 r1 s : length r0 = 8%nat -> length r1 = 8%nat -> length s = 4%nat ->
  length (scan_pair first r0 r1 s) = 4%nat /\ cong (dsum (scan_pair first r0 r1 s)) (dsum s + (asum first r0 + asum first r1)).
Proof.
  intros L0 L1 Ls. unfold scan_pair.
  assert (E : exists t, dws (zipw Z.lxor (unpacklo_dw (pick_alpha_w r0) (pick_alpha_w r1)) (concat (repeat [first; 0] 4))) = t /\ length t = 4%nat /\ dsum t = asum first r0 + asum first r1).
  { explode r0 8. explode r1 8. eexists. split; [reflexivity|]. split; [reflexivity|].
    cbv [pick_alpha_w shuffle_w map Z.ltb Z.compare Z.to_nat Pos.to_nat Pos.iter_op Nat.add nth unpacklo_dw firstn inter2 concat repeat app zipw dws dsum fold_right asum].
    rewrite Z.lxor_nilpotent. lia. }
  destruct E as (t & -> & Lt & Et). rewrite <- Et. now apply zip_add.
Qed.
Lemma hsum_dw_ok s : length s = 4%nat -> cong (hsum_dw s) (dsum s) /\ - 2 ^ 31 <= hsum_dw s < 2 ^ 31.
Proof.
  intro L. explode s 4. split; [|apply wrap32_range]. unfold hsum_dw. cbn [nth zipw dsum fold_right].
  eapply cong_trans; [apply add32_cong|]. eapply cong_trans; [apply cong_plus; apply add32_cong|]. apply cong_eq. cbn [dsum fold_right]. lia.
Qed.
(** Folding a step that adds m times the sum of its chunk. *)
Lemma fold_scan_w {S} (ok : S -> Prop) (val : S -> Z) first m (k : nat) (step : S -> list Z -> outcome S) cs :
  Forall (fun c => length c = (k * 4)%nat) cs ->
  (forall s c, ok s -> length c = (k * 4)%nat -> exists s', step s c = Done s' /\ ok s' /\ cong (val s') (val s + m * asum first c)) ->
  forall s, ok s -> exists s', foldM step cs s = Done s' /\ ok s' /\ cong (val s') (val s + m * asum first (concat cs)).
Proof.
  intros H Hs. induction H as [|c cs Lc _ IH]; intros s Os; cbn [foldM concat].
  - exists s. split; [reflexivity|]. split; [exact Os|]. cbn [asum]. now rewrite Z.mul_0_r, Z.add_0_r.
  - destruct (Hs s c Os Lc) as (s1 & E1 & O1 & C1). rewrite E1. cbn [bind]. destruct (IH s1 O1) as (s2 & E2 & O2 & C2).
    exists s2. split; [exact E2|]. split; [exact O2|]. rewrite (asum_app first k) by exact Lc. rewrite Z.mul_add_distr_l, Z.add_assoc.
    eapply cong_trans; [exact C2|]. now apply cong_add.
Qed.
Lemma asum_quarters first c : length c = 32%nat ->
  asum first c = asum first (firstn 8 (skipn 0 c)) + asum first (firstn 8 (skipn 8 c)) + (asum first (firstn 8 (skipn 16 c)) + asum first (firstn 8 (skipn 24 c))).
Proof.
  intro L. rewrite <- (quarters_w c L) at 1. rewrite !(asum_app first 2) by (rewrite firstn_length, skipn_length; lia). lia.
Qed.
(** The sum a row of [w] pixels leaves: pixels in the blocks of [big] words count once, those in the blocks of
    [small] words after them twice, the others once. *)
Definition row_sum (big small : nat) (first : Z) (row : list Z) : Z :=
  let rest := chunks_rem big row in
  asum first (concat (chunks_exact big row)) + 2 * asum first (concat (chunks_exact small rest)) + asum first (chunks_rem small rest).
Lemma sse_scan_row_u16_ok first row w : length row = (w * 4)%nat ->
  exists h, sse_scan_row_u16 first row = Done h /\ cong h (row_sum 32 8 first row) /\ - 2 ^ 31 <= h < 2 ^ 31.
Proof.
  intro L. unfold sse_scan_row_u16.
  match goal with |- context [foldM ?st (chunks_exact 32 row) zero_dw] =>
    destruct (fold_scan_w (fun s => length s = 4%nat) dsum first 1 8 st (chunks_exact 32 row) (chunks_exact_Forall_len 32 row)) with (s := zero_dw) as (s1 & E1 & L1 & C1)
  end.
  { intros s c Ls Lc. rewrite !loadw_ok by lia. cbn [bind]. eexists. split; [reflexivity|].
    destruct (scan_pair_ok first (firstn 8 (skipn 0 c)) (firstn 8 (skipn 8 c)) s) as (La & Ca); [rewrite firstn_length, skipn_length; lia..|exact Ls|].
    destruct (scan_pair_ok first (firstn 8 (skipn 16 c)) (firstn 8 (skipn 24 c)) (scan_pair first (firstn 8 (skipn 0 c)) (firstn 8 (skipn 8 c)) s)) as (Lb & Cb); [rewrite firstn_length, skipn_length; lia..|exact La|].
    split; [exact Lb|]. eapply cong_trans; [exact Cb|]. rewrite (asum_quarters first c Lc), Z.mul_1_l. rewrite (Z.add_assoc (dsum s)). now apply cong_add. }
  { reflexivity. }
  rewrite E1. cbn [bind]. destruct (asum_rest first 8 w row ltac:(lia) L) as (_ & w1 & W1). change (8 * 4)%nat with 32%nat in *.
  set (row1 := chunks_rem 32 row) in *.
  match goal with |- context [foldM ?st (chunks_exact 8 row1) s1] =>
    destruct (fold_scan_w (fun s => length s = 4%nat) dsum first 2 2 st (chunks_exact 8 row1) (chunks_exact_Forall_len 8 row1)) with (s := s1) as (s2 & E2 & L2 & C2)
  end.
  { intros s c Ls Lc. rewrite !loadw_ok by lia. cbn [bind]. eexists. split; [reflexivity|].
    destruct (scan_pair_ok first (firstn 8 (skipn 0 c)) (firstn 8 (skipn 0 c)) s) as (La & Ca); [rewrite firstn_length, skipn_length; lia..|exact Ls|].
    split; [exact La|]. eapply cong_trans; [exact Ca|]. cbn [skipn]. rewrite firstn_all2 by lia. apply cong_eq. lia. }
  { exact L1. }
  rewrite E2. cbn [bind]. destruct (asum_rest first 2 w1 row1 ltac:(lia) W1) as (_ & w2 & W2). change (2 * 4)%nat with 8%nat in *.
  destruct (hsum_dw_ok s2 L2) as (H1 & H2).
  destruct (scan_tail_ok first (chunks_rem 8 row1) (hsum_dw s2) (ex_intro _ w2 W2)) as (h & E & C & R).
  exists h. split; [exact E|]. split; [|now apply R].
  unfold row_sum. cbv zeta. fold row1. eapply cong_trans; [exact C|]. apply cong_add.
  eapply cong_trans; [exact H1|]. eapply cong_trans; [exact C2|]. apply cong_add. eapply cong_trans; [exact C1|]. apply cong_eq.
  change (dsum zero_dw) with 0. lia.
Qed.
Lemma asum_256 first c off : (off + 16 <= length c)%nat ->
  asum first (firstn 16 (skipn off c)) = asum first (firstn 8 (skipn off c)) + asum first (firstn 8 (skipn (off + 8) c)).
Proof.
  intro H. rewrite (asum_cut first (firstn 16 (skipn off c)) 8) by (try (exists 2%nat; reflexivity); rewrite firstn_length, skipn_length; lia).
  rewrite firstn_firstn, skipn_firstn_comm, skip_skip. reflexivity.
Qed.
Lemma quarters16 (l : list Z) : length l = 64%nat ->
  firstn 16 (skipn 0 l) ++ firstn 16 (skipn 16 l) ++ firstn 16 (skipn 32 l) ++ firstn 16 (skipn 48 l) = l.
Proof. intro H. explode l 64. reflexivity. Qed.
Definition dsum2 (s : list Z * list Z) : Z := dsum (fst s) + dsum (snd s).
Definition ok4 (s : list Z * list Z) : Prop := length (fst s) = 4%nat /\ length (snd s) = 4%nat.
Lemma scan_pair256_ok first c o0 o1 s : (o0 + 16 <= length c)%nat -> (o1 + 16 <= length c)%nat -> ok4 s ->
  let r o := (firstn 8 (skipn o c), firstn 8 (skipn (o + 8) c)) in
  ok4 (scan_pair256 first (r o0) (r o1) s) /\
  cong (dsum2 (scan_pair256 first (r o0) (r o1) s)) (dsum2 s + (asum first (firstn 16 (skipn o0 c)) + asum first (firstn 16 (skipn o1 c)))).
Proof.
  intros H0 H1 (La & Lb). cbv zeta. unfold scan_pair256. cbn [fst snd].
  destruct (scan_pair_ok first (firstn 8 (skipn o0 c)) (firstn 8 (skipn o1 c)) (fst s)) as (Lx & Cx); [rewrite firstn_length, skipn_length; lia..|exact La|].
  destruct (scan_pair_ok first (firstn 8 (skipn (o0 + 8) c)) (firstn 8 (skipn (o1 + 8) c)) (snd s)) as (Ly & Cy); [rewrite firstn_length, skipn_length; lia..|exact Lb|].
  split; [now split|]. unfold dsum2. cbn [fst snd]. rewrite !asum_256 by assumption.
  eapply cong_trans; [apply cong_plus; [exact Cx|exact Cy]|]. apply cong_eq. lia.
Qed.
Lemma avx_scan_row_u16_ok first row w : length row = (w * 4)%nat ->
  exists h, avx_scan_row_u16 first row = Done h /\ cong h (row_sum 64 16 first row) /\ - 2 ^ 31 <= h < 2 ^ 31.
Proof.
  intro L. unfold avx_scan_row_u16.
  match goal with |- context [foldM ?st (chunks_exact 64 row) ?z] =>
    destruct (fold_scan_w ok4 dsum2 first 1 16 st (chunks_exact 64 row) (chunks_exact_Forall_len 64 row)) with (s := z) as (s1 & E1 & L1 & C1)
  end.
  { intros s c Ls Lc. rewrite !load256w_ok by lia. cbn [bind]. eexists. split; [reflexivity|].
    destruct (scan_pair256_ok first c 0 16 s) as (La & Ca); [lia..|exact Ls|]. cbv zeta in La, Ca.
    match type of La with ok4 ?t => set (s' := t) in * end.
    destruct (scan_pair256_ok first c 32 48 s') as (Lb & Cb); [lia..|exact La|]. cbv zeta in Lb, Cb.
    split; [exact Lb|]. eapply cong_trans; [exact Cb|]. eapply cong_trans; [apply cong_add; exact Ca|]. apply cong_eq.
    rewrite <- (quarters16 c Lc) at 5. rewrite !(asum_app first 4) by (rewrite firstn_length, skipn_length; lia). lia. }
  { split; reflexivity. }
  rewrite E1. cbn [bind]. destruct (asum_rest first 16 w row ltac:(lia) L) as (_ & w1 & W1). change (16 * 4)%nat with 64%nat in *.
  set (row1 := chunks_rem 64 row) in *.
  match goal with |- context [foldM ?st (chunks_exact 16 row1) s1] =>
    destruct (fold_scan_w ok4 dsum2 first 2 4 st (chunks_exact 16 row1) (chunks_exact_Forall_len 16 row1)) with (s := s1) as (s2 & E2 & L2 & C2)
  end.
  { intros s c Ls Lc. rewrite !load256w_ok by lia. cbn [bind]. eexists. split; [reflexivity|].
    destruct (scan_pair256_ok first c 0 0 s) as (La & Ca); [lia..|exact Ls|]. cbv zeta in La, Ca.
    split; [exact La|]. eapply cong_trans; [exact Ca|]. cbn [skipn]. rewrite (firstn_all2 (n := 16)) by lia. apply cong_eq. lia. }
  { exact L1. }
  rewrite E2. cbn [bind]. destruct (asum_rest first 4 w1 row1 ltac:(lia) W1) as (_ & w2 & W2). change (4 * 4)%nat with 16%nat in *.
  destruct L2 as (L2a & L2b). destruct (zip_add (fst s2) (snd s2) L2a L2b) as (L3 & C3).
  destruct (hsum_dw_ok _ L3) as (H1 & H2).
  destruct (scan_tail_ok first (chunks_rem 16 row1) (hsum_dw (zipw add32 (fst s2) (snd s2))) (ex_intro _ w2 W2)) as (h & E & C & R).
  exists h. split; [exact E|]. split; [|now apply R].
  unfold row_sum. cbv zeta. fold row1. eapply cong_trans; [exact C|]. apply cong_add.
  eapply cong_trans; [exact H1|]. eapply cong_trans; [exact C3|]. eapply cong_trans; [exact C2|]. apply cong_add. eapply cong_trans; [exact C1|]. apply cong_eq.
  change (dsum2 (zero_dw, zero_dw)) with 0. lia.
Qed.

(** ** Against the portable scan *)
Definition wordlist (l : list Z) : Prop := Forall (fun v => 0 <= v <= 65535) l.
Lemma lxor_word a b : 0 <= a <= 65535 -> 0 <= b <= 65535 -> 0 <= Z.lxor a b <= 65535.
Proof.
  intros Ha Hb. assert (0 <= Z.lxor a b) by (apply Z.lxor_nonneg; lia). split; [assumption|].
  assert (Z.lxor a b < 2 ^ 16); [|lia]. destruct (Z.eq_dec (Z.lxor a b) 0) as [->|N]; [lia|].
  apply Z.log2_lt_pow2; [lia|]. eapply Z.le_lt_trans; [apply Z.log2_lxor; lia|].
  apply Z.max_lub_lt; match goal with |- Z.log2 ?x < _ => destruct (Z.eq_dec x 0) as [->|]; [reflexivity|apply Z.log2_lt_pow2; lia] end.
Qed.
Lemma asum_bound first l w : 0 <= first <= 65535 -> wordlist l -> length l = (w * 4)%nat -> 0 <= asum first l <= 65535 * Z.of_nat w.
Proof.
  intros F. revert w. induction l as [l IH] using (well_founded_induction (Wf_nat.well_founded_ltof _ (@length Z))). intros w W L.
  destruct w as [|w]; [destruct l; [cbn [asum]; lia|discriminate]|].
  do 4 (destruct l as [|? l]; [cbn in L; lia|]). cbn [asum]. unfold wordlist in *. rewrite !Forall_cons_iff in W. destruct W as (_ & _ & _ & Wa & Wl).
  pose proof (lxor_word _ first Wa F).
  assert (0 <= asum first l <= 65535 * Z.of_nat w); [|lia].
  apply IH; auto. unfold Wf_nat.ltof. cbn. lia. cbn in L. lia.
Qed.
Lemma word_skipn n l : wordlist l -> wordlist (skipn n l).
Proof. intro H. unfold wordlist in *. rewrite <- (firstn_skipn n l) in H. now apply Forall_app in H. Qed.
Lemma word_firstn n l : wordlist l -> wordlist (firstn n l).
Proof. intro H. unfold wordlist in *. rewrite <- (firstn_skipn n l) in H. now apply Forall_app in H. Qed.
Lemma word_blocks n l : (0 < n)%nat -> wordlist l -> wordlist (concat (chunks_exact n l)).
Proof. intros Hn H. rewrite <- (chunks_unchunk n l Hn) in H. unfold unchunk, wordlist in *. now apply Forall_app in H. Qed.
Lemma row_sum_bound kb ks first w row : (0 < kb)%nat -> (0 < ks)%nat -> 0 <= first <= 65535 -> wordlist row -> length row = (w * 4)%nat ->
  asum first row <= row_sum (kb * 4) (ks * 4) first row <= 2 * asum first row /\ 0 <= asum first row.
Proof.
  intros Hb Hs F W L. unfold row_sum. cbv zeta.
  destruct (asum_rest first kb w row Hb L) as (A1 & w1 & W1). destruct (asum_rest first ks w1 _ Hs W1) as (A2 & w2 & W2).
  assert (Q1 : 0 <= asum first (concat (chunks_exact (kb * 4) row))).
  { apply (asum_bound first _ (length (chunks_exact (kb * 4) row) * kb) F).
    - apply word_blocks; [lia|exact W].
    - rewrite (concat_len (kb * 4)) by apply chunks_exact_Forall_len. lia. }
  assert (Wr : wordlist (chunks_rem (kb * 4) row)) by now apply word_skipn.
  set (rest := chunks_rem (kb * 4) row) in *.
  assert (Q2 : 0 <= asum first (concat (chunks_exact (ks * 4) rest))).
  { apply (asum_bound first _ (length (chunks_exact (ks * 4) rest) * ks) F).
    - apply word_blocks; [lia|exact Wr].
    - rewrite (concat_len (ks * 4)) by apply chunks_exact_Forall_len. lia. }
  assert (Q3 : 0 <= asum first (chunks_rem (ks * 4) rest)).
  { apply (asum_bound first _ w2 F); [now apply word_skipn|exact W2]. }
  lia.
Qed.
Lemma scan_pixels_sum_m m first row : forall s, 0 < m -> (exists w, length row = (w * 4)%nat) -> 0 <= s < m ->
  scan_pixels m first s (chunks_exact 4 row) = Done ((s + asum first row) mod m).
Proof.
  intros s Hm (w & L). revert row L s. induction w as [|w IH]; intros row L s Hs.
  - destruct row; [|discriminate]. cbn [asum]. rewrite Z.add_0_r, Z.mod_small by exact Hs. reflexivity.
  - do 4 (destruct row as [|? row]; [cbn in L; lia|]). rewrite chunks4_cons. cbn [scan_pixels idx nth_error bind].
    rewrite IH by (try (cbn in L; lia); apply Z.mod_pos_bound; exact Hm). cbn [asum]. f_equal. rewrite Zplus_mod_idemp_l. f_equal. lia.
Qed.
Lemma slice_words r n v : wordlist r -> slice r 0 n = Done v -> length v = n /\ wordlist v.
Proof.
  intros W E. unfold slice in E. destruct (_ && _) eqn:E2; [|discriminate]. injection E as <-. cbn [skipn]. rewrite Nat.sub_0_r. split; [rewrite firstn_length; lia|].
  now apply word_firstn.
Qed.
Lemma zero_iff h a S : cong h S -> - 2 ^ 31 <= h < 2 ^ 31 -> a <= S <= 2 * a -> 0 <= a <= 65535 * 32768 -> (h =? 0) = (a =? 0).
Proof.
  intros C R B A. unfold cong in C. rewrite (Z.mod_small S) in C by lia. change (2 ^ 31) with 2147483648 in R.
  destruct (Z.eqb_spec h 0), (Z.eqb_spec a 0); auto; lia.
Qed.
Lemma scan_rows_u16_same scan kb ks first w rows : (0 < kb)%nat -> (0 < ks)%nat -> 0 <= first <= 65535 -> Z.of_nat w <= 32768 ->
  (forall row, length row = (w * 4)%nat -> exists h, scan first row = Done h /\ cong h (row_sum (kb * 4) (ks * 4) first row) /\ - 2 ^ 31 <= h < 2 ^ 31) ->
  Forall wordlist rows -> x86_scan_rows scan first w rows = scan_rows (2 ^ 64) first 0 w rows.
Proof.
  intros Hb Hs F Hw H B. induction B as [|r rows Br _ IH]; [reflexivity|]. cbn [x86_scan_rows scan_rows].
  destruct (slice r 0 (w * 4)) as [v| |] eqn:E; cbn [bind]; auto.
  destruct (slice_words r _ v Br E) as (V & Bv). destruct (H v V) as (h & -> & C & R). cbn [bind].
  rewrite scan_pixels_sum_m by (eauto || reflexivity || (split; [reflexivity|]; reflexivity)). cbn [bind Z.add].
  destruct (row_sum_bound kb ks first w v Hb Hs F Bv V) as (B1 & B2). pose proof (asum_bound first v w F Bv V) as B3.
  assert (B4 : asum first v <= 65535 * 32768) by lia.
  rewrite (Z.mod_small (asum first v)) by (change (2 ^ 64) with 18446744073709551616; lia).
  rewrite (zero_iff h (asum first v) _ C R B1 ltac:(lia)).
  destruct (Z.eqb_spec (asum first v) 0) as [->|]; cbn [negb]; [|reflexivity]. exact IH.
Qed.
Lemma wordlist_rows (b : list Z) k : wordlist b -> Forall wordlist (chunks_exact k b).
Proof.
  intro W. apply Forall_forall. intros r Hr. unfold chunks_exact in Hr. apply in_map_iff in Hr as (i & <- & _). unfold chunk.
  now apply word_firstn, word_skipn.
Qed.
Lemma alpha_needed_u16_same c (im : image Z) : wordlist (buf im) -> buf im <> [] -> Z.of_nat (width im) <= 32768 -> alpha_needed_u16_x86 c im = alpha_needed_u16 im.
Proof.
  intros B NE Hw. assert (G : forall scan kb ks, (0 < kb)%nat -> (0 < ks)%nat -> (forall first w row, length row = (w * 4)%nat ->
      exists h, scan first row = Done h /\ cong h (row_sum (kb * 4) (ks * 4) first row) /\ - 2 ^ 31 <= h < 2 ^ 31) ->
      x86_has_alpha scan (buf im) (width im) (stride_of 4 im) = alpha_needed_u16 im).
  { intros scan kb ks Hb Hs H. unfold x86_has_alpha, alpha_needed_u16, has_non_constant_alpha. destruct (buf im) as [|z l] eqn:E; [congruence|]. rewrite <- E in *.
    destruct (idx (buf im) 3) as [first| |] eqn:EI; cbn [bind]; auto.
    assert (Hf : 0 <= first <= 65535).
    { unfold idx in EI. destruct (nth_error (buf im) 3) as [x|] eqn:EN; [|discriminate]. injection EI as <-. unfold wordlist in B. rewrite Forall_forall in B. apply B. now apply nth_error_In with (n := 3%nat). }
    unfold chunks_exact_o. destruct (_ =? 0)%nat; cbn [bind]; auto.
    apply (scan_rows_u16_same scan kb ks); auto; [|now apply wordlist_rows]. intros row Lr. now apply (H first (width im)). }
  unfold alpha_needed_u16_x86. destruct (avx2 (base_cpu c)); [|destruct (sse41 (base_cpu c)); [|reflexivity]].
  - apply (G _ 16%nat 4%nat); [lia|lia|]. intros. now apply avx_scan_row_u16_ok with w.
  - apply (G _ 8%nat 2%nat); [lia|lia|]. intros. now apply sse_scan_row_u16_ok with w.
Qed.

(** ** A wide row on which the 32-bit sums wrap *)
Fixpoint pixels (n : nat) (a : Z) : list Z := match n with O => [] | S n => 0 :: 0 :: 0 :: a :: pixels n a end.
Lemma pixels_length n a : length (pixels n a) = (n * 4)%nat.
Proof. induction n as [|n IH]; [reflexivity|]. cbn [pixels length]. lia. Qed.
Lemma pixels_asum n a : asum 0 (pixels n a) = Z.of_nat n * a.
Proof. induction n as [|n IH]; [reflexivity|]. cbn [pixels asum]. rewrite IH, Z.lxor_0_r. lia. Qed.
(** One pixel with alpha 0, then [n] pixels with alpha 32768. *)
Definition wide_row (n : nat) : list Z := [0; 0; 0; 0] ++ pixels n 32768.
Lemma wide_sum big small n : (exists k, big = (k * 4)%nat) -> (0 < big)%nat -> (small <> 0)%nat -> (4 < small)%nat ->
  (((S n * 4) mod big = 4)%nat) -> row_sum big small 0 (wide_row n) = Z.of_nat n * 32768.
Proof.
  intros (k & Hk) Hb _ Hs Hm. unfold row_sum. cbv zeta.
  assert (L : length (wide_row n) = (S n * 4)%nat) by (unfold wide_row; rewrite app_length, pixels_length; cbn; lia).
  assert (Lr : length (chunks_rem big (wide_row n)) = 4%nat).
  { unfold chunks_rem. rewrite skipn_length, L. pose proof (Nat.div_mod (S n * 4) big ltac:(lia)). lia. }
  destruct (asum_rest 0 k (S n) (wide_row n) ltac:(lia) L) as (A & _). rewrite <- Hk in A.
  assert (E0 : chunks_exact small (chunks_rem big (wide_row n)) = []).
  { unfold chunks_exact. rewrite Lr, Nat.div_small by lia. reflexivity. }
  rewrite E0. cbn [concat asum]. unfold chunks_rem at 1. rewrite Lr, Nat.div_small by lia. cbn [Nat.mul skipn].
  unfold wide_row in A at 1. rewrite (asum_app 0 1) in A by reflexivity. rewrite pixels_asum in A. cbn [asum] in A. rewrite Z.lxor_0_r in A. lia.
Qed.
Lemma wide_scan scan kb ks n : (0 < kb)%nat -> (2 <= ks)%nat -> ((S n) mod kb = 1)%nat -> (Z.of_nat n * 32768) mod 2 ^ 32 = 0 ->
  (forall first w row, length row = (w * 4)%nat -> exists h, scan first row = Done h /\ cong h (row_sum (kb * 4) (ks * 4) first row) /\ - 2 ^ 31 <= h < 2 ^ 31) ->
  x86_has_alpha scan (wide_row n) (S n) (S n * 4) = Done false.
Proof.
  intros Hb Hs Hm Hz H. unfold x86_has_alpha. destruct (wide_row n) eqn:E; [discriminate|]. rewrite <- E. clear E.
  assert (L : length (wide_row n) = (S n * 4)%nat) by (unfold wide_row; rewrite app_length, pixels_length; cbn; lia).
  change (idx (wide_row n) 3) with (Done 0). cbn [bind]. unfold chunks_exact_o. replace (S n * 4 =? 0)%nat with false by lia. cbn [bind].
  assert (C1 : chunks_exact (S n * 4) (wide_row n) = [wide_row n]).
  { unfold chunks_exact. rewrite L, Nat.div_same by lia. cbn [seq map]. unfold chunk. cbn [Nat.mul skipn]. now rewrite firstn_all2 by lia. }
  rewrite C1. cbn [x86_scan_rows]. unfold slice. rewrite L, Nat.leb_refl. cbn [andb Nat.leb skipn]. rewrite Nat.sub_0_r, firstn_all2 by lia. cbn [bind].
  destruct (H 0 (S n) (wide_row n) L) as (h & -> & C & R). cbn [bind].
  rewrite wide_sum in C.
  - unfold cong in C. change 4294967296 with (2 ^ 32) in C. rewrite Hz in C.
    assert (h = 0). { change (2 ^ 31) with 2147483648 in R. change (2 ^ 32) with 4294967296 in C. lia. }
    subst h. reflexivity.
  - now exists kb. - lia. - lia. - lia.
  - rewrite Nat.mul_mod_distr_r by lia. lia.
Qed.
