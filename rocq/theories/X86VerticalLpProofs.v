(** Closed form of the low precision vertical kernels of X86VerticalLp.v. *)
From Coq Require Import ZifyBool ZifyNat.
From Verif Require Import Base BaseProofs Spec FixedPoint KernelProofs ColumnProofs Simd SimdProofs
  X86Vertical X86VerticalLp X86VerticalProofs.
Local Open Scope Z_scope.

(** One product: the byte widened to 14 bits (257*b/4), times the weight, rounded at 2^-15. *)
Definition lp_term (p w : Z) : Z := mulhrs (257 * p / 4) w.
(** The stored byte for an accumulator. *)
Definition lp_narrow (a : Z) : Z := sat 0 255 (s16 a / 64).

(** 16-bit lanes holding [l] modulo 2^16. *)
Definition acc16 (r : m128) (l : list Z) : Prop := swords r = map s16 l.
Lemma acc16_eq r l l' : acc16 r l -> l = l' -> acc16 r l'.
Proof. intros ? <-. assumption. Qed.
Lemma acc16_set1 x : acc16 (set1_epi16 x) (repeat x 8).
Proof. unfold acc16. rewrite swords_set1_16. reflexivity. Qed.
Lemma acc16_mdot s p w l ps wl : acc16 s l -> swords p = ps -> swords w = wl ->
  acc16 (add_epi16 s (mulhrs_epi16 p w)) (zipw Z.add l (zipw mulhrs ps wl)).
Proof.
  intros Hs <- <-. unfold acc16. rewrite swords_add, Hs, swords_mulhrs, zipw_map2, map_zipw.
  apply zipw_ext. intros. rewrite s16_add_l, s16_add_r. reflexivity.
Qed.

Lemma words_dup a0 a1 a2 a3 a4 a5 a6 a7 : byte a0 -> byte a1 -> byte a2 -> byte a3 -> byte a4 -> byte a5 -> byte a6 -> byte a7 ->
  swords (srli_epi16 2 [a0; a0; a1; a1; a2; a2; a3; a3; a4; a4; a5; a5; a6; a6; a7; a7]) =
  [257 * a0 / 4; 257 * a1 / 4; 257 * a2 / 4; 257 * a3 / 4; 257 * a4 / 4; 257 * a5 / 4; 257 * a6 / 4; 257 * a7 / 4].
Proof.
  intros. rewrite swords_srli. cbn [words map]. change (2 ^ 2) with 4.
  assert (forall a, byte a -> s16 ((a + 256 * a) / 4) = 257 * a / 4) as E.
  { intros a Ha. replace (a + 256 * a) with (257 * a) by lia. apply s16_small. unfold byte, i16 in *.
    assert (0 <= 257 * a / 4) by (apply Z.div_pos; lia).
    assert (257 * a / 4 < 32768) by (apply Z.div_lt_upper_bound; lia). lia. }
  rewrite !E by assumption. reflexivity.
Qed.

(** ** Groups of two stores: 16 bytes *)
Definition gacc (s : m128 * m128) (A : nat -> Z) : Prop :=
  acc16 (fst s) (map A (seq 0 8)) /\ acc16 (snd s) (map A (seq 8 8)).
Lemma gacc_ext s A B : (forall i, A i = B i) -> gacc s A -> gacc s B.
Proof. intros H. unfold gacc. rewrite !(map_ext A B) by assumption. auto. Qed.

Lemma mdot_ok s A f w w0 : gacc s A -> (forall i, byte (f i)) -> swords w = repeat w0 8 ->
  gacc (mdot s (map f (seq 0 16)) w) (fun i => A i + lp_term (f i) w0).
Proof.
  intros (H0 & H1) Hf Hw. unfold mdot, gacc. cbn [fst snd].
  cbn [map seq unpacklo_epi8 unpackhi_epi8 firstn skipn inter1] in *.
  split; (eapply acc16_eq; [eapply acc16_mdot; [eassumption|apply words_dup; auto|exact Hw]|reflexivity]).
Qed.

Lemma div64_small a : s16 (s16 a / 64) = s16 a / 64.
Proof.
  apply s16_small. pose proof (s16_range a). unfold i16 in *.
  assert (-32768 <= s16 a / 64) by (apply Z.div_le_lower_bound; lia).
  assert (s16 a / 64 < 32768) by (apply Z.div_lt_upper_bound; lia). lia.
Qed.
Lemma lp_pack_ok s A : gacc s A -> lp_pack s = map (fun i => lp_narrow (A i)) (seq 0 16).
Proof.
  unfold gacc, acc16. intros (H0 & H1). unfold lp_pack, packus_epi16, lp_narrow.
  rewrite !swords_srai, H0, H1. change (2 ^ 6) with 64. cbn [map seq app]. rewrite !div64_small. reflexivity.
Qed.

(** Lists of groups, [w] bytes each. *)
Definition gaccs {G} (ok : G -> (nat -> Z) -> Prop) (wd : nat) (st : list G) (n : nat) (A : nat -> Z) : Prop :=
  length st = n /\ forall k g, nth_error st k = Some g -> ok g (fun i => A (wd * k + i)%nat).

Lemma map_groups_ok {G} (f : G -> nat -> outcome G) (P Q : nat -> G -> Prop) st : forall k,
  (forall i g, nth_error st i = Some g -> P (k + i)%nat g) ->
  (forall i g, P i g -> (k <= i < k + length st)%nat -> yields (f g i) (Q i)) ->
  yields (map_groups f st k) (fun st' => length st' = length st /\ forall i g, nth_error st' i = Some g -> Q (k + i)%nat g).
Proof.
  induction st as [|g st IH]; intros k HP Hf; cbn [map_groups].
  - exists []. split; [reflexivity|]. split; [reflexivity|]. intros [|i] g E; discriminate E.
  - eapply yields_bind; [apply (Hf k g); [specialize (HP 0%nat g eq_refl); rewrite Nat.add_0_r in HP; exact HP|cbn; lia]|].
    intros g' Hg'. cbv beta in Hg'. eapply yields_bind; [apply (IH (S k))|].
    + intros i h Hh. specialize (HP (S i) h Hh). replace (S k + i)%nat with (k + S i)%nat by lia. exact HP.
    + intros i h Hh Hi. apply Hf; [exact Hh|]. cbn. lia.
    + intros st' (Hl & Hst). eexists; split; [reflexivity|]. split; [cbn; lia|].
      intros [|i] h E; cbn in E; [injection E as <-; rewrite Nat.add_0_r; exact Hg'|].
      apply Hst in E. replace (k + S i)%nat with (S k + i)%nat by lia. exact E.
Qed.

Lemma concat_groups {G} (pk : G -> list Z) wd (st : list G) : forall (val : nat -> Z) n,
  length st = n -> (forall k g, nth_error st k = Some g -> pk g = map (fun i => val (wd * k + i)%nat) (seq 0 wd)) ->
  concat (map pk st) = map val (seq 0 (wd * n)).
Proof.
  induction st as [|g st IH]; intros val n Hn H; subst n; cbn [length map concat].
  - rewrite Nat.mul_0_r. reflexivity.
  - rewrite (H 0%nat g eq_refl). replace (wd * S (length st))%nat with (wd + wd * length st)%nat by lia.
    rewrite seq_app, map_app. f_equal.
    + apply map_ext. intro i. f_equal. lia.
    + rewrite (IH (fun i => val (wd + i)%nat) (length st) eq_refl).
      * rewrite <- (Nat.add_0_r (0 + wd)) at 1. rewrite Nat.add_0_l.
        rewrite <- (map_map (fun i => (wd + i)%nat) val). f_equal.
        rewrite (Nat.add_0_r wd). clear. generalize (wd * length st)%nat. intro m.
        replace (seq wd m) with (seq (wd + 0) m) by (f_equal; lia). generalize 0%nat. induction m as [|m IHm]; intro a; [reflexivity|].
        cbn [seq map]. f_equal. rewrite IHm. f_equal. lia.
      * intros k h Hk. rewrite (H (S k) h Hk). apply map_ext. intro i. f_equal. lia.
Qed.

Section Tile.
Variables (src : list Z) (ss : nat) (ws : list Z) (b : fbound) (L : nat).
Hypothesis Hbytes : bytes src.
Hypothesis Hws : (bsize b <= length ws)%nat.
Hypothesis Hi16 : Forall i16 ws.
Hypothesis Hsrc : forall k, (k < bsize b)%nat -> (ss * (bstart b + k) + L <= length src)%nat.

Definition lpsum (j x : nat) : Z := LP_ROUNDING + zsum j (fun k => lp_term (nth (ss * (bstart b + k) + x) src 0) (nth k ws 0)).
(** The stored sample. *)
Definition lp_sample (x : nat) : Z := lp_narrow (lpsum (bsize b) x).

Notation px_at := (px_at src ss b).
Lemma lpsum_S j x : lpsum (j + 1) x = lpsum j x + lp_term (px_at j x) (nth j ws 0).
Proof. unfold lpsum, X86VerticalProofs.px_at. rewrite Nat.add_1_r. cbn [zsum]. lia. Qed.
Lemma lpsum_0 x : lpsum 0 x = LP_ROUNDING.
Proof. unfold lpsum. cbn [zsum]. lia. Qed.
Lemma w16 j : swords (set1_epi16 (nth j ws 0)) = repeat (nth j ws 0) 8.
Proof. rewrite swords_set1_16, s16_small by (apply w_i16; assumption). reflexivity. Qed.

Lemma lp_sse_groups_ok n dst x : (x + 16 * n <= L)%nat -> (x + 16 * n <= length dst)%nat ->
  lp_sse_groups src ss ws b n dst x = Done (splice dst x (map (fun i => lp_sample (x + i)) (seq 0 (16 * n)))).
Proof.
  intros Hx Hd. unfold lp_sse_groups.
  match goal with |- context [foldM ?f (seq _ _) _] => set (body := f) end.
  destruct (foldM_seq_inv (fun j st => gaccs gacc 16 st n (fun i => lpsum j (x + i))) body (bsize b) 0 (repeat (lp_vld, lp_vld) n)) as (st & E & HL & Hst).
  - intros j st Hj (HL & Hst). unfold body. rewrite (idx_ok ws j 0) by lia. cbn [bind].
    eapply yields_weaken; [apply (map_groups_ok _ (fun k g => gacc g (fun i => lpsum j (x + (16 * k + i)))) (fun k g => gacc g (fun i => lpsum (j + 1) (x + (16 * k + i)))))|].
    + intros i g Hg. exact (Hst i g Hg).
    + intros k g Hg Hk. rewrite HL in Hk. rewrite <- Nat.add_assoc.
      rewrite load16_row with (L := L) (ws := ws); auto; try lia. cbn [bind]. eexists; split; [reflexivity|].
      eapply gacc_ext; [|eapply (mdot_ok g _ (fun i => px_at j (x + 16 * k + i)) _ (nth j ws 0)); [exact Hg|intro; apply px_byte; assumption|apply w16]].
      intro i. cbv beta. rewrite lpsum_S. do 2 f_equal. rewrite <- Nat.add_assoc. reflexivity.
    + intros st' (HL' & Hst'). split; [lia|]. exact Hst'.
  - split; [apply repeat_length|]. intros k g Hg. apply nth_error_In, repeat_spec in Hg. subst g.
    split; apply acc16_eq with (repeat LP_ROUNDING 8); try apply acc16_set1; cbn [map seq]; rewrite !lpsum_0; reflexivity.
  - rewrite E. cbn [bind]. assert (concat (map lp_pack st) = map (fun i => lp_sample (x + i)) (seq 0 (16 * n))) as ->.
    2:{ rewrite store_bytes_ok; [reflexivity|]. rewrite map_length, seq_length. lia. }
    apply (concat_groups lp_pack 16 st (fun i => lp_sample (x + i)) n HL).
    intros k g Hg. rewrite (lp_pack_ok _ _ (Hst k g Hg)). reflexivity.
Qed.

(** One store: 8 bytes. *)
Lemma half_ok s A f w w0 t : acc16 s (map A (seq 0 8)) -> (forall i, byte (f i)) -> swords w = repeat w0 8 ->
  acc16 (add_epi16 s (mulhrs_epi16 (srli_epi16 2 (unpacklo_epi8 (map f (seq 0 8) ++ t) (map f (seq 0 8) ++ t))) w))
     (map (fun i => A i + lp_term (f i) w0) (seq 0 8)).
Proof.
  intros H0 Hf Hw. cbn [map seq app unpacklo_epi8 firstn inter1] in *.
  eapply acc16_eq; [eapply acc16_mdot; [eassumption|apply words_dup; auto|exact Hw]|reflexivity].
Qed.
Lemma half_pack s t A : acc16 s (map A (seq 0 8)) ->
  firstn 8 (packus_epi16 (srai_epi16 6 s) (srai_epi16 6 t)) = map (fun i => lp_narrow (A i)) (seq 0 8).
Proof.
  unfold acc16. intros H0. unfold packus_epi16, lp_narrow.
  rewrite !swords_srai, H0. change (2 ^ 6) with 64. cbn [map seq app firstn]. rewrite !div64_small. reflexivity.
Qed.

Lemma half_start x : acc16 lp_vld (map (fun i => lpsum 0 (x + i)) (seq 0 8)).
Proof. apply acc16_eq with (repeat LP_ROUNDING 8); [apply acc16_set1|]. cbn [map seq]. rewrite !lpsum_0. reflexivity. Qed.

Lemma lp_8_ok dst x : (x + 8 <= L)%nat -> (x + 8 <= length dst)%nat ->
  lp_8 src ss ws b dst x = Done (splice dst x (map (fun i => lp_sample (x + i)) (seq 0 8))).
Proof.
  intros Hx Hd. unfold lp_8.
  match goal with |- context [foldM ?f (seq _ _) _] => set (body := f) end.
  destruct (foldM_seq_inv (fun j s => acc16 s (map (fun i => lpsum j (x + i)) (seq 0 8))) body (bsize b) 0 lp_vld) as (s & E & Hs).
  - intros j s Hj Hs. unfold body. rewrite (idx_ok ws j 0) by lia. cbn [bind].
    rewrite load_row with (L := L) (ws := ws); auto; try lia. cbn [bind]. eexists; split; [reflexivity|].
    eapply acc16_eq; [eapply (half_ok s _ (fun i => px_at j (x + i)) _ (nth j ws 0)); [exact Hs|intro; apply px_byte; assumption|apply w16]|].
    apply map_ext. intro i. rewrite lpsum_S. reflexivity.
  - apply half_start.
  - rewrite E. cbn [bind]. cbv zeta. rewrite (half_pack _ _ _ Hs), store_bytes_ok; [reflexivity|]. rewrite map_length, seq_length. lia.
Qed.

Lemma lp_1_ok dst x : (x + 1 <= L)%nat -> (x + 1 <= length dst)%nat ->
  lp_1 src ss ws b dst x = Done (splice dst x (map (fun i => lp_sample (x + i)) (seq 0 1))).
Proof.
  intros Hx Hd. unfold lp_1.
  match goal with |- context [foldM ?f (seq _ _) _] => set (body := f) end.
  destruct (foldM_seq_inv (fun j s => acc16 s (map (fun _ => lpsum j x) (seq 0 8))) body (bsize b) 0 lp_vld) as (s & E & Hs).
  - intros j s Hj Hs. unfold body. rewrite (idx_ok ws j 0) by lia. cbn [bind].
    rewrite (idx_ok src _ 0) by (specialize (Hsrc j); lia). cbn [bind]. eexists; split; [reflexivity|].
    change (nth (ss * (bstart b + j) + x) src 0) with (px_at j x).
    replace (set1_epi8 (px_at j x)) with (map (fun _ : nat => px_at j x) (seq 0 8) ++ repeat (px_at j x) 8).
    2:{ unfold set1_epi8. rewrite Z.mod_small by (apply px_byte; assumption). reflexivity. }
    eapply acc16_eq; [eapply (half_ok s _ (fun i => px_at j x) _ (nth j ws 0)); [exact Hs|intro; apply px_byte; assumption|apply w16]|].
    apply map_ext. intro i. rewrite lpsum_S. reflexivity.
  - apply acc16_eq with (repeat LP_ROUNDING 8); [apply acc16_set1|]. cbn [map seq]. rewrite !lpsum_0. reflexivity.
  - rewrite E. cbn [bind]. cbv zeta. 
    replace (firstn 1 (packus_epi16 (srai_epi16 6 s) (srai_epi16 6 s))) with (firstn 1 (firstn 8 (packus_epi16 (srai_epi16 6 s) (srai_epi16 6 s)))).
    2:{ rewrite firstn_firstn. reflexivity. }
    rewrite (half_pack _ _ _ Hs), store_bytes_ok by (cbn; lia). cbn [map seq firstn]. rewrite Nat.add_0_r. reflexivity.
Qed.

(** *** AVX2 *)
Definition gpair (g0 g1 : m128 * m128) : m256 * m256 := ((fst g0, fst g1), (snd g0, snd g1)).
Definition gacc256 (g : m256 * m256) (A : nat -> Z) : Prop :=
  exists g0 g1, g = gpair g0 g1 /\ gacc g0 A /\ gacc g1 (fun i => A (16 + i)%nat).
Lemma mdot256_pair g0 g1 a0 a1 w : mdot256 (gpair g0 g1) (a0, a1) (both w) = gpair (mdot g0 a0 w) (mdot g1 a1 w).
Proof. reflexivity. Qed.
Lemma lp_pack256_pair g0 g1 : lp_pack256 (gpair g0 g1) = (lp_pack g0, lp_pack g1).
Proof. reflexivity. Qed.

Lemma lp_avx_groups_ok n dst x : (x + 32 * n <= L)%nat -> (x + 32 * n <= length dst)%nat ->
  lp_avx_groups src ss ws b n dst x = Done (splice dst x (map (fun i => lp_sample (x + i)) (seq 0 (32 * n)))).
Proof.
  intros Hx Hd. unfold lp_avx_groups.
  match goal with |- context [foldM ?f (seq _ _) _] => set (body := f) end.
  destruct (foldM_seq_inv (fun j st => gaccs gacc256 32 st n (fun i => lpsum j (x + i))) body (bsize b) 0 (repeat (both lp_vld, both lp_vld) n)) as (st & E & HL & Hst).
  - intros j st Hj (HL & Hst). unfold body. rewrite (idx_ok ws j 0) by lia. cbn [bind].
    eapply yields_weaken; [apply (map_groups_ok _ (fun k g => gacc256 g (fun i => lpsum j (x + (32 * k + i)))) (fun k g => gacc256 g (fun i => lpsum (j + 1) (x + (32 * k + i)))))|].
    + intros i g Hg. exact (Hst i g Hg).
    + intros k g (g0 & g1 & -> & Hg0 & Hg1) Hk. rewrite HL in Hk. rewrite <- Nat.add_assoc.
      rewrite load256_row with (L := L) (ws := ws); auto; try lia. cbn [bind]. eexists; split; [reflexivity|].
      rewrite mdot256_pair. eexists _, _. split; [reflexivity|]. split.
      * eapply gacc_ext; [|eapply (mdot_ok g0 _ (fun i => px_at j (x + 32 * k + i)) _ (nth j ws 0)); [exact Hg0|intro; apply px_byte; assumption|apply w16]].
        intro i. cbv beta. rewrite lpsum_S. do 2 f_equal. rewrite <- Nat.add_assoc. reflexivity.
      * eapply gacc_ext; [|eapply (mdot_ok g1 _ (fun i => px_at j (x + 32 * k + 16 + i)) _ (nth j ws 0)); [exact Hg1|intro; apply px_byte; assumption|apply w16]].
        intro i. cbv beta. rewrite lpsum_S. do 3 f_equal. lia.
    + intros st' (HL' & Hst'). split; [lia|]. exact Hst'.
  - split; [apply repeat_length|]. intros k g Hg. apply nth_error_In, repeat_spec in Hg. subst g.
    exists (lp_vld, lp_vld), (lp_vld, lp_vld). split; [reflexivity|]. split;
    (split; apply acc16_eq with (repeat LP_ROUNDING 8); try apply acc16_set1; cbn [map seq]; rewrite !lpsum_0; reflexivity).
  - rewrite E. cbn [bind]. rewrite (concat_groups (fun g => bytes256 (lp_pack256 g)) 32 st (fun i => lp_sample (x + i)) n HL).
    + rewrite store_bytes_ok; [reflexivity|]. rewrite map_length, seq_length. lia.
    + intros k g Hg. destruct (Hst k g Hg) as (g0 & g1 & -> & H0 & H1). rewrite lp_pack256_pair.
      unfold bytes256. cbn [fst snd]. rewrite (lp_pack_ok _ _ H0), (lp_pack_ok _ _ H1). unfold lp_sample.
      cbn [map seq app Nat.add]. reflexivity.
Qed.

Lemma lp_avx_16_ok dst x : (x + 16 <= L)%nat -> (x + 16 <= length dst)%nat ->
  lp_avx_16 src ss ws b dst x = Done (splice dst x (map (fun i => lp_sample (x + i)) (seq 0 16))).
Proof.
  intros Hx Hd. unfold lp_avx_16.
  match goal with |- context [foldM ?f (seq _ _) _] => set (body := f) end.
  destruct (foldM_seq_inv (fun j (s : m256) => gacc s (fun i => lpsum j (x + i))) body (bsize b) 0 (both lp_vld)) as (s & E & Hs).
  - intros j s Hj Hs. unfold body. rewrite (idx_ok ws j 0) by lia. cbn [bind].
    rewrite load16_row with (L := L) (ws := ws); auto; try lia. cbn [bind]. cbv zeta. eexists; split; [reflexivity|].
    eapply gacc_ext; [|eapply (mdot_ok s _ (fun i => px_at j (x + i)) (set1_epi16 (nth j ws 0)) (nth j ws 0)); [exact Hs|intro; apply px_byte; assumption|apply w16]].
    intro i. cbv beta. rewrite lpsum_S. reflexivity.
  - split; apply acc16_eq with (repeat LP_ROUNDING 8); try apply acc16_set1; cbn [map seq]; rewrite !lpsum_0; reflexivity.
  - rewrite E. cbn [bind]. cbv zeta.
    assert (fst (permute4x64 3 1 2 0 (lane2 packus_epi16 (lane1 (srai_epi16 6) s) (lane1 (srai_epi16 6) s))) = lp_pack s) as ->.
    { destruct Hs as (H0 & H1). unfold lp_pack, lane1, lane2, packus_epi16, acc16 in *. cbn [fst snd] in *.
      rewrite !swords_srai, H0, H1. cbn [map seq app]. unfold permute4x64, qw, bytes256. cbn [fst snd Nat.mul Nat.add skipn firstn app]. reflexivity. }
    rewrite (lp_pack_ok _ _ Hs), store_bytes_ok; [reflexivity|]. rewrite map_length, seq_length. lia.
Qed.
End Tile.

Section Row.
Variables (src : list Z) (ss : nat) (ws : list Z) (b : fbound) (dst : list Z).
Hypothesis Hbytes : bytes src.
Hypothesis Hws : (bsize b <= length ws)%nat.
Hypothesis Hi16 : Forall i16 ws.
Hypothesis Hsrc : forall k, (k < bsize b)%nat -> (ss * (bstart b + k) + length dst <= length src)%nat.
Let P cx := rowmap cx (lp_sample src ss ws b) dst.

Lemma P_len cx : (cx <= length dst)%nat -> length (P cx) = length dst.
Proof. intros. apply rowmap_length. assumption. Qed.
Lemma P_end c : c = length dst -> P c = map (lp_sample src ss ws b) (seq 0 (length dst)).
Proof. intros ->. unfold P, rowmap. rewrite skipn_all, app_nil_r. reflexivity. Qed.
Ltac tile lem := intros cx _ Hcx; rewrite lem with (L := length dst); auto; try lia; [|rewrite P_len; lia];
    f_equal; unfold P; rewrite rowmap_step by lia; reflexivity.

Theorem vertical_sse_row_lp_closed :
  vertical_sse_row_lp b src dst ss ws = Done (map (lp_sample src ss ws b) (seq 0 (length dst))).
Proof.
  unfold vertical_sse_row_lp. cbv zeta.
  destruct (stage P 64 63 (length dst) 0 (lp_sse_groups src ss ws b 4)) with (fuel := length dst) (cx := 0%nat) as (c1 & E1 & H1 & _); try lia.
  { tile lp_sse_groups_ok. }
  change (P 0%nat) with dst in E1. rewrite E1. cbn [bind].
  destruct (stage P 32 31 (length dst) 0 (lp_sse_groups src ss ws b 2)) with (fuel := length dst) (cx := c1) as (c2 & E2 & H2 & _); try lia.
  { tile lp_sse_groups_ok. }
  rewrite E2. cbn [bind].
  destruct (stage P 16 15 (length dst) 0 (lp_sse_groups src ss ws b 1)) with (fuel := length dst) (cx := c2) as (c3 & E3 & H3 & _); try lia.
  { tile lp_sse_groups_ok. }
  rewrite E3. cbn [bind].
  destruct (stage P 8 7 (length dst) 0 (lp_8 src ss ws b)) with (fuel := length dst) (cx := c3) as (c4 & E4 & H4 & _); try lia.
  { tile lp_8_ok. }
  rewrite E4. cbn [bind].
  destruct (stage P 1 0 (length dst) 0 (lp_1 src ss ws b)) with (fuel := length dst) (cx := c4) as (c5 & E5 & H5 & H6); try lia.
  { tile lp_1_ok. }
  rewrite E5. cbn [bind]. f_equal. apply P_end. lia.
Qed.

Theorem vertical_avx_row_lp_closed :
  vertical_avx_row_lp b src dst ss ws = Done (map (lp_sample src ss ws b) (seq 0 (length dst))).
Proof.
  unfold vertical_avx_row_lp. cbv zeta.
  destruct (stage P 64 63 (length dst) 0 (lp_avx_groups src ss ws b 2)) with (fuel := length dst) (cx := 0%nat) as (c1 & E1 & H1 & _); try lia.
  { tile lp_avx_groups_ok. }
  change (P 0%nat) with dst in E1. rewrite E1. cbn [bind].
  destruct (stage P 32 31 (length dst) 0 (lp_avx_groups src ss ws b 1)) with (fuel := length dst) (cx := c1) as (c2 & E2 & H2 & _); try lia.
  { tile lp_avx_groups_ok. }
  rewrite E2. cbn [bind].
  destruct (stage P 16 15 (length dst) 0 (lp_avx_16 src ss ws b)) with (fuel := length dst) (cx := c2) as (c3 & E3 & H3 & _); try lia.
  { tile lp_avx_16_ok. }
  rewrite E3. cbn [bind].
  destruct (stage P 8 7 (length dst) 0 (lp_8 src ss ws b)) with (fuel := length dst) (cx := c3) as (c4 & E4 & H4 & _); try lia.
  { tile lp_8_ok. }
  rewrite E4. cbn [bind].
  destruct (stage P 1 0 (length dst) 0 (lp_1 src ss ws b)) with (fuel := length dst) (cx := c4) as (c5 & E5 & H5 & H6); try lia.
  { tile lp_1_ok. }
  rewrite E5. cbn [bind]. f_equal. apply P_end. lia.
Qed.
End Row.
