(** Closed forms of the 16-bit vertical kernels of X86U16.v. *)
From Coq Require Import ZArith List Lia Bool ZifyBool ZifyNat.
From Verif Require Import Base BaseProofs Spec SpecFloat FixedPoint KernelProofs ColumnProofs F32 Alpha ApiFloat Simd SimdProofs X86Alpha
  X86Float X86FloatKernels X86FloatCalls X86U16 SpecX86U16.
Import ListNotations.
Local Open Scope nat_scope.

(** ** Loads *)
Lemma firstn_map_nth (l : list Z) n o : o + n <= length l -> firstn n (skipn o l) = map (fun i => nth (o + i) l 0%Z) (seq 0 n).
Proof.
  intro H. apply nth_ext with (d := 0%Z) (d' := 0%Z).
  - rewrite map_length, seq_length, firstn_length, skipn_length. lia.
  - intros i Hi. rewrite firstn_length, skipn_length in Hi.
    rewrite nth_firstn by lia. rewrite nth_skipn. now rewrite nth_map_seq by lia.
Qed.
Lemma loadw_ok n m o : o + n <= length m ->
  loadw n m o = Done (map (fun i => nth (o + i) m 0%Z) (seq 0 n) ++ repeat 0%Z (8 - n)).
Proof. intro H. unfold loadw. replace (o + n <=? length m) with true by lia. now rewrite firstn_map_nth. Qed.
Lemma storew_ok d o v : o + length v <= length d -> storew d o v = Done (splice d o v).
Proof. intro H. unfold storew. replace (o + length v <=? length d) with true by lia. reflexivity. Qed.

Lemma weighted_rows_ok {W} (dW : W) b (ws : list W) : bsize b <= length ws ->
  weighted_rows b ws = map (fun j => (j, nth j ws dW)) (seq 0 (bsize b)).
Proof.
  intro H. unfold weighted_rows. rewrite firstn_length_le by lia.
  assert (E : firstn (bsize b) ws = map (fun j => nth j ws dW) (seq 0 (bsize b))).
  { apply nth_ext with (d := dW) (d' := dW).
    - rewrite firstn_length_le, map_length, seq_length by lia. reflexivity.
    - intros i Hi. rewrite firstn_length_le in Hi by lia. rewrite nth_firstn by lia. now rewrite nth_map_seq by lia. }
  rewrite E. apply combine_map_r.
Qed.

(** ** The loop over blocks *)
Definition next_cx (B n cx : nat) : nat := if n / B =? 0 then cx else cx + (n / B - 1) * B.
Lemma vblocks_closed B vals cell n cx dst :
  0 < B -> (forall v, v + B <= n -> vals v = Done (map (fun i => cell (v + i)) (seq 0 B))) ->
  cx + length dst <= n ->
  vblocks B vals cx dst =
  Done (next_cx B (length dst) cx, map (fun j => cell (cx + j)) (seq 0 (length dst / B * B)) ++ chunks_rem B dst).
Proof.
  intros HB Hv Hn. unfold vblocks, next_cx.
  set (body := fun (st : nat * list Z) x => _).
  set (Inv := fun x (st : nat * list Z) => st = ((if x =? 0 then cx else cx + (x - 1) * B), rowmap (x * B) (fun j => cell (cx + j)) dst)).
  assert (D : length dst / B * B <= length dst) by (pose proof (Nat.mul_div_le (length dst) B ltac:(lia)); lia).
  destruct (foldM_seq_inv Inv body (length dst / B) 0 (cx, dst)) as (r & E & Hr).
  { intros x st Hx ->. unfold body. assert (Hb : x * B + B <= length dst) by nia.
    rewrite Hv by lia. cbn [bind snd].
    rewrite storew_ok by (rewrite map_length, seq_length, rowmap_length by lia; lia).
    cbn [bind]. eexists. split; [reflexivity|]. unfold Inv. f_equal.
    - replace (x + 1 =? 0) with false by lia. lia.
    - replace ((x + 1) * B) with (x * B + B) by lia.
      rewrite <- (rowmap_step (fun j => cell (cx + j)) (x * B) B dst) by lia. f_equal.
      apply map_ext. intro i. f_equal. lia. }
  { unfold Inv. cbn [Nat.eqb Nat.mul]. unfold rowmap. reflexivity. }
  rewrite E. unfold Inv in Hr. rewrite Hr. f_equal.
Qed.

Lemma vsingles_closed vals cell n cx dst :
  (forall v, v + 1 <= n -> vals v = Done [cell v]) -> cx + length dst <= n ->
  vsingles vals cx dst = Done (map (fun j => cell (cx + j)) (seq 0 (length dst))).
Proof.
  intros Hv Hn. unfold vsingles. set (body := fun d x => _).
  destruct (foldM_seq_inv (fun x d => d = rowmap x (fun j => cell (cx + j)) dst) body (length dst) 0 dst) as (r & E & Hr).
  { intros x d Hx ->. unfold body. rewrite Hv by lia. cbn [bind].
    eexists. split; [apply storew_ok; cbn [length]; rewrite rowmap_length by lia; lia|].
    cbv beta. rewrite <- (rowmap_step (fun j => cell (cx + j)) x 1 dst) by lia. cbn [seq map]. now rewrite Nat.add_0_r. }
  { unfold rowmap. reflexivity. }
  rewrite E. cbv beta in Hr. rewrite Hr. cbn [Nat.add]. now rewrite rowmap_all.
Qed.

Lemma map_seq_from {A} (f : nat -> A) k m : map f (seq k m) = map (fun j => f (k + j)) (seq 0 m).
Proof. revert k. induction m as [|m IH]; intro k; [reflexivity|]. cbn [seq map]. rewrite Nat.add_0_r. f_equal. rewrite (IH (S k)). rewrite <- (seq_shift m 0), map_map. apply map_ext. intro j. f_equal. lia. Qed.
(** The row as the chain of parts leaves it. *)
Fixpoint parts_row (parts : list nat) (vcell scell : nat -> Z) (cx n : nat) : list Z :=
  match parts with
  | [] => map (fun j => scell (cx + j)) (seq 0 n)
  | B :: rest => map (fun j => vcell (cx + j)) (seq 0 (n / B * B)) ++ parts_row rest vcell scell (next_cx B n cx) (n - n / B * B)
  end.
Lemma parts_row_length parts vcell scell : Forall (fun B => 0 < B) parts -> forall cx n, length (parts_row parts vcell scell cx n) = n.
Proof.
  induction 1 as [|B rest HB Hr IH]; intros cx n; cbn [parts_row].
  - now rewrite map_length, seq_length.
  - rewrite app_length, map_length, seq_length, IH. pose proof (Nat.mul_div_le n B ltac:(lia)). lia.
Qed.

Lemma parts_row_read parts vcell scell : Forall (fun B => 0 < B /\ B mod 4 = 0) parts ->
  forall cx n, (forall l, l = length parts -> l = 0 -> n < 4) -> (exists pre, parts = pre ++ [4]) \/ parts = [] ->
  parts_row parts vcell scell cx n =
  map (fun j => (if j <? n / 4 * 4 then vcell else scell) (column_read parts cx n j)) (seq 0 n).
Proof.
  induction 1 as [|B rest [HB H4] Hr IH]; intros cx n H0 Hl; cbn [parts_row column_read].
  - specialize (H0 0 eq_refl eq_refl). apply map_ext. intro j. rewrite Nat.div_small by lia. reflexivity.
  - set (k := n / B * B).
    assert (Hk : k <= n) by (pose proof (Nat.mul_div_le n B ltac:(lia)); unfold k; lia).
    assert (Hk4 : k mod 4 = 0).
    { unfold k. rewrite Nat.mul_mod, H4, Nat.mul_0_r by lia. reflexivity. }
    assert (Rem : n - k < B). { unfold k. pose proof (Nat.mod_upper_bound n B ltac:(lia)). rewrite Nat.mod_eq in H by lia. lia. }
    assert (ES : seq 0 n = seq 0 k ++ seq k (n - k)) by (replace n with (k + (n - k)) at 1 by lia; apply seq_app).
    rewrite ES, map_app. f_equal.
    + apply map_ext_in. intros j Hj. apply in_seq in Hj. replace (j <? k) with true by lia.
      replace (j <? n / 4 * 4) with true; [reflexivity|]. symmetry. apply Nat.ltb_lt. lia.
    + rewrite IH.
      * cbn [Nat.add]. rewrite (map_seq_from _ k). apply map_ext_in. intros j Hj. apply in_seq in Hj.
        replace (k + j <? k) with false by lia. replace (k + j - k) with j by lia. fold (next_cx B n cx).
        replace (k + j <? n / 4 * 4) with (j <? (n - k) / 4 * 4); [reflexivity|]. lia.
      * intros l Hl1 Hl2. subst l. destruct rest; [|discriminate]. destruct Hl as [[pre Hp]|]; [|discriminate].
        destruct pre as [|? [|? ?]]; try discriminate. injection Hp as ->. lia.
      * destruct Hl as [[pre Hp]|]; [|discriminate]. destruct pre as [|p0 pre].
        -- right. now injection Hp.
        -- left. exists pre. now injection Hp.
Qed.

(** ** The blocks, up to 12 bits *)
Definition quad {A} (g : nat -> A) (v : nat) : list A := [g v; g (v + 1); g (v + 2); g (v + 3)].
Definition oct {A} (g : nat -> A) (v : nat) : list A :=
  [g v; g (v + 1); g (v + 2); g (v + 3); g (v + 4); g (v + 5); g (v + 6); g (v + 7)].
Ltac cell1 := first [lia | progress f_equal; cell1].
Ltac cells := repeat (apply f_equal2; [cell1|]); try reflexivity.

Lemma dot_lo s0 s1 s2 s3 a0 a1 a2 a3 a4 a5 a6 a7 w :
  dot16 [s0; s1; s2; s3] (lo_w [a0; a1; a2; a3; a4; a5; a6; a7]) (set1_w w) =
  [add32 s0 (wrap32 (s16 a0 * s16 w)); add32 s1 (wrap32 (s16 a1 * s16 w)); add32 s2 (wrap32 (s16 a2 * s16 w)); add32 s3 (wrap32 (s16 a3 * s16 w))]%Z.
Proof.
  unfold dot16, madd_w, lo_w, set1_w. cbn [firstn inter1 repeat map zipw pair_sums]. change (s16 0) with 0%Z.
  rewrite !Z.mul_0_l, !Z.add_0_r. reflexivity.
Qed.
Lemma dot_hi s0 s1 s2 s3 a0 a1 a2 a3 a4 a5 a6 a7 w :
  dot16 [s0; s1; s2; s3] (hi_w [a0; a1; a2; a3; a4; a5; a6; a7]) (set1_w w) =
  [add32 s0 (wrap32 (s16 a4 * s16 w)); add32 s1 (wrap32 (s16 a5 * s16 w)); add32 s2 (wrap32 (s16 a6 * s16 w)); add32 s3 (wrap32 (s16 a7 * s16 w))]%Z.
Proof.
  unfold dot16, madd_w, hi_w, set1_w. cbn [skipn inter1 repeat map zipw pair_sums]. change (s16 0) with 0%Z.
  rewrite !Z.mul_0_l, !Z.add_0_r. reflexivity.
Qed.

Section FixedCells.
Variables (src : list Z) (ss : nat) (ws : list Z) (b : fbound) (maxc : Z) (n : nat).
Hypothesis Hws : bsize b <= length ws.
Hypothesis Hsrc : forall k, k < bsize b -> ss * (bstart b + k) + n <= length src.
Let X (j p : nat) : Z := nth (ss * (bstart b + j) + p) src 0%Z.
Let W (j : nat) : Z := nth j ws 0%Z.
Definition vsum (j p : nat) : Z :=
  wrap32 (2 ^ 14 + zsum j (fun k => s16 (nth (ss * (bstart b + k) + p) src 0) * s16 (nth k ws 0)))%Z.
Definition vcell (p : nat) : Z := min16 (sat 0 65535 (Z.shiftr (vsum (bsize b) p) 15)) maxc.
Definition scell (p : nat) : Z :=
  Z.min (Z.max (Z.shiftr (wrap32 (2 ^ 14 + zsum (bsize b) (fun k => nth (ss * (bstart b + k) + p) src 0 * nth k ws 0)%Z)) 15) 0) maxc.

Lemma vsum_S j p : vsum (S j) p = add32 (vsum j p) (wrap32 (s16 (X j p) * s16 (W j))).
Proof. unfold vsum, X, W. rewrite add32_wrap. cbn [zsum]. f_equal. ring. Qed.
Lemma vsum_0 p : vsum 0 p = ROUNDING_CONST.
Proof. reflexivity. Qed.
Lemma load_oct j v o : j < bsize b -> v + o + 8 <= n -> loadw 8 src (ss * (bstart b + j) + v + o) = Done (oct (X j) (v + o)).
Proof using Hws Hsrc.
  intros Hj Hv. specialize (Hsrc j Hj). rewrite loadw_ok by lia. cbn [seq map Nat.sub repeat app]. unfold oct, X. f_equal. cells.
Qed.
Lemma load_4 j v : j < bsize b -> v + 4 <= n ->
  loadw 4 src (ss * (bstart b + j) + v) = Done (quad (X j) v ++ [0; 0; 0; 0]%Z).
Proof using Hws Hsrc.
  intros Hj Hv. specialize (Hsrc j Hj). rewrite loadw_ok by lia. cbn [seq map Nat.sub repeat app]. unfold quad, X. cbn [app]. f_equal. cells.
Qed.
Lemma step_lo j v : dot16 (quad (vsum j) v) (lo_w (oct (X j) v)) (set1_w (W j)) = quad (vsum (S j)) v.
Proof. unfold quad, oct. rewrite dot_lo, !vsum_S. reflexivity. Qed.
Lemma step_hi j v : dot16 (quad (vsum j) (v + 4)) (hi_w (oct (X j) v)) (set1_w (W j)) = quad (vsum (S j)) (v + 4).
Proof.
  unfold quad, oct. rewrite dot_hi. replace (v + 5) with (v + 4 + 1) by lia. replace (v + 6) with (v + 4 + 2) by lia.
  replace (v + 7) with (v + 4 + 3) by lia. now rewrite !vsum_S.
Qed.
Lemma pack_cells v u : u = v + 4 ->
  min_w (packus_w (srai15 (quad (vsum (bsize b)) v)) (srai15 (quad (vsum (bsize b)) u))) (set1_w maxc) = oct vcell v.
Proof. intros ->. unfold quad, oct, packus_w, srai15, min_w, set1_w, vcell. cbn [map app repeat zipw]. change PRECISION with 15%Z. cells. Qed.

(** The loop over the taps, whatever the registers. *)
Lemma tap_loop {S} (St : nat -> S) (body : S -> nat * Z -> outcome S) s0 :
  (forall j, j < bsize b -> body (St j) (j, W j) = Done (St (j + 1))) -> s0 = St 0 ->
  foldM body (weighted_rows b ws) s0 = Done (St (bsize b)).
Proof using Hws Hsrc.
  intros Hb ->. rewrite (weighted_rows_ok 0%Z) by exact Hws. rewrite foldM_map.
  destruct (foldM_seq_inv (fun j s => s = St j) (fun s j => body s (j, nth j ws 0%Z)) (bsize b) 0 (St 0)) as (r & E & Hr).
  - intros j s Hj ->. eexists. split; [apply Hb; lia|reflexivity].
  - reflexivity.
  - rewrite E. cbv beta in Hr. now rewrite Hr.
Qed.

Lemma column_sse1_ok v : v + 8 <= n -> column_sse src ss ws b maxc 1 v = Done (map (fun i => vcell (v + i)) (seq 0 8)).
Proof using Hws Hsrc.
  intro Hv. unfold column_sse.
  rewrite (tap_loop (fun j => [quad (vsum j) v; quad (vsum j) (v + 4)])); [|intros j Hj|reflexivity].
  - cbn [bind seq flat_map Nat.mul Nat.add nth app]. rewrite pack_cells by lia. unfold oct. cbn [app map]. f_equal. cells.
  - cbn [seq map seqM Nat.mul fst snd]. rewrite load_oct by lia. cbn [bind flat_map app combine map fst snd].
    rewrite !Nat.add_0_r, step_lo, step_hi, Nat.add_1_r. reflexivity.
Qed.
Lemma column_sse2_ok v : v + 16 <= n -> column_sse src ss ws b maxc 2 v = Done (map (fun i => vcell (v + i)) (seq 0 16)).
Proof using Hws Hsrc.
  intro Hv. unfold column_sse.
  rewrite (tap_loop (fun j => [quad (vsum j) v; quad (vsum j) (v + 4); quad (vsum j) (v + 8); quad (vsum j) (v + 8 + 4)])); [|intros j Hj|reflexivity].
  - cbn [bind seq flat_map Nat.mul Nat.add nth app]. rewrite !pack_cells by lia. unfold oct. cbn [app map]. f_equal. cells.
  - cbn [seq map seqM fst snd]. change (8 * 0) with 0. change (8 * 1) with 8. rewrite !load_oct by lia. cbn [bind flat_map app combine map fst snd].
    rewrite !Nat.add_0_r, !step_lo, !step_hi, Nat.add_1_r. reflexivity.
Qed.
Lemma load_256 j v o : j < bsize b -> v + o + 16 <= n ->
  load256w src (ss * (bstart b + j) + v + o) = Done (oct (X j) (v + o), oct (X j) (v + o + 8)).
Proof using Hws Hsrc.
  intros Hj Hv. unfold load256w. rewrite load_oct by lia. cbn [bind].
  replace (ss * (bstart b + j) + v + o + 8) with (ss * (bstart b + j) + v + (o + 8)) by lia. rewrite load_oct by lia. cbn [bind].
  now rewrite Nat.add_assoc.
Qed.
Lemma step_256 j v u w : u = v + 4 -> w = v + 8 ->
  dot256 (quad (vsum j) v, quad (vsum j) w) (lo_256 (oct (X j) v, oct (X j) w)) (set1_w (W j), set1_w (W j)) = (quad (vsum (S j)) v, quad (vsum (S j)) w) /\
  dot256 (quad (vsum j) u, quad (vsum j) (w + 4)) (hi_256 (oct (X j) v, oct (X j) w)) (set1_w (W j), set1_w (W j)) = (quad (vsum (S j)) u, quad (vsum (S j)) (w + 4)).
Proof. intros -> ->. unfold dot256, lo_256, hi_256. cbn [fst snd]. now rewrite !step_lo, !step_hi. Qed.

Lemma column_avx1_ok v : v + 16 <= n -> column_avx src ss ws b maxc 1 v = Done (map (fun i => vcell (v + i)) (seq 0 16)).
Proof using Hws Hsrc.
  intro Hv. unfold column_avx.
  rewrite (tap_loop (fun j => [(quad (vsum j) v, quad (vsum j) (v + 8)); (quad (vsum j) (v + 4), quad (vsum j) (v + 8 + 4))])); [|intros j Hj|reflexivity].
  - cbn [bind seq flat_map Nat.mul Nat.add nth app]. unfold words256, pack_256. cbn [fst snd]. rewrite !pack_cells by lia. unfold oct. cbn [app map]. f_equal. cells.
  - cbn [seq map seqM fst snd]. change (16 * 0) with 0. rewrite load_256 by lia. cbn [bind flat_map app combine map fst snd].
    rewrite !Nat.add_0_r. destruct (step_256 j v (v + 4) (v + 8) eq_refl eq_refl) as [-> ->]. rewrite Nat.add_1_r. reflexivity.
Qed.
Lemma column_avx2_ok v : v + 32 <= n -> column_avx src ss ws b maxc 2 v = Done (map (fun i => vcell (v + i)) (seq 0 32)).
Proof using Hws Hsrc.
  intro Hv. unfold column_avx.
  rewrite (tap_loop (fun j => [(quad (vsum j) v, quad (vsum j) (v + 8)); (quad (vsum j) (v + 4), quad (vsum j) (v + 8 + 4));
    (quad (vsum j) (v + 16), quad (vsum j) (v + 16 + 8)); (quad (vsum j) (v + 16 + 4), quad (vsum j) (v + 16 + 8 + 4))])); [|intros j Hj|reflexivity].
  - cbn [bind seq flat_map Nat.mul Nat.add nth app]. unfold words256, pack_256. cbn [fst snd]. rewrite !pack_cells by lia. unfold oct. cbn [app map]. f_equal. cells.
  - cbn [seq map seqM fst snd]. change (16 * 0) with 0. change (16 * 1) with 16. rewrite !load_256 by lia. cbn [bind flat_map app combine map fst snd].
    rewrite !Nat.add_0_r. destruct (step_256 j v (v + 4) (v + 8) eq_refl eq_refl) as [-> ->].
    destruct (step_256 j (v + 16) (v + 16 + 4) (v + 16 + 8) eq_refl eq_refl) as [-> ->]. rewrite Nat.add_1_r. reflexivity.
Qed.
Lemma pack_half v : firstn 4 (packus_w (srai15 (quad (vsum (bsize b)) v)) (repeat 0%Z 4)) = quad (fun p => sat 0 65535 (Z.shiftr (vsum (bsize b) p) 15)) v.
Proof. reflexivity. Qed.
Lemma column_avx8_ok v : v + 8 <= n -> column_avx8 src ss ws b maxc v = Done (map (fun i => vcell (v + i)) (seq 0 8)).
Proof using Hws Hsrc.
  intro Hv. unfold column_avx8.
  rewrite (tap_loop (fun j => (quad (vsum j) v, quad (vsum j) (v + 4)))); [|intros j Hj|reflexivity].
  - cbn [bind]. cbv zeta. cbn [fst snd]. rewrite !pack_half. f_equal. unfold quad, min_w, set1_w. cbn [app zipw repeat seq map]. unfold vcell. cells.
  - cbn [fst snd]. replace (ss * (bstart b + j) + v) with (ss * (bstart b + j) + v + 0) by lia. rewrite load_oct by lia. cbn [bind]. rewrite Nat.add_0_r, Nat.add_1_r.
    unfold dot256, lo_256, oct. cbn [fst snd firstn skipn app]. f_equal. unfold quad. rewrite !dot_lo. replace (v + 5) with (v + 4 + 1) by lia. replace (v + 6) with (v + 4 + 2) by lia.
    replace (v + 7) with (v + 4 + 3) by lia. now rewrite !vsum_S.
Qed.
Lemma column_4_ok v : v + 4 <= n -> column_4 src ss ws b maxc v = Done (map (fun i => vcell (v + i)) (seq 0 4)).
Proof using Hws Hsrc.
  intro Hv. unfold column_4.
  rewrite (tap_loop (fun j => quad (vsum j) v)); [|intros j Hj|reflexivity].
  - cbn [bind]. f_equal. unfold quad, packus_w, srai15, min_w, set1_w, vcell. cbn [map app repeat zipw firstn seq]. change PRECISION with 15%Z. cells.
  - cbn [fst snd]. rewrite load_4 by lia. cbn [bind]. unfold quad at 2. cbn [app]. unfold quad. rewrite dot_lo; replace (j + 1) with (S j) by lia; rewrite !vsum_S. reflexivity.
Qed.
Lemma column_1_ok v : v + 1 <= n -> column_1 src ss ws b maxc v = Done [scell v].
Proof using Hws Hsrc.
  intro Hv. unfold column_1.
  rewrite (tap_loop (fun j => wrap32 (2 ^ 14 + zsum j (fun k => nth (ss * (bstart b + k) + v) src 0 * nth k ws 0))%Z)); [|intros j Hj|reflexivity].
  - reflexivity.
  - cbn [fst snd]. specialize (Hsrc j Hj). rewrite (idx_ok _ _ 0%Z) by lia. cbn [bind]. unfold mul32. rewrite add32_wrap, Nat.add_1_r. cbn [zsum].
    f_equal. f_equal. unfold W. ring.
Qed.
End FixedCells.

(** ** Whole rows *)
Lemma vblocks_part B vals cell n cx dst :
  0 < B -> (forall v, v + B <= n -> vals v = Done (map (fun i => cell (v + i)) (seq 0 B))) -> cx + length dst <= n ->
  exists d, vblocks B vals cx dst = Done (next_cx B (length dst) cx, d) /\
    covered B d = map (fun j => cell (cx + j)) (seq 0 (length dst / B * B)) /\
    length (chunks_rem B d) = length dst - length dst / B * B /\
    next_cx B (length dst) cx + (length dst - length dst / B * B) <= n.
Proof.
  intros HB Hv Hn. eexists. split; [apply (vblocks_closed B vals cell n); assumption|].
  pose proof (Nat.mul_div_le (length dst) B ltac:(lia)) as D.
  set (k := length dst / B * B) in *.
  assert (Lk : length (map (fun j => cell (cx + j)) (seq 0 k) ++ chunks_rem B dst) = length dst).
  { rewrite app_length, map_length, seq_length. unfold chunks_rem. rewrite skipn_length. fold k. lia. }
  set (d := map (fun j => cell (cx + j)) (seq 0 k) ++ chunks_rem B dst) in *.
  split; [|split].
  - unfold covered. rewrite Lk. fold k. unfold d. rewrite firstn_app, map_length, seq_length, Nat.sub_diag, firstn_O, app_nil_r.
    apply firstn_all2. rewrite map_length, seq_length. lia.
  - unfold chunks_rem at 1. rewrite skipn_length, Lk. reflexivity.
  - unfold next_cx. destruct (length dst / B =? 0) eqn:E; [lia|].
    assert ((length dst / B - 1) * B + B = k) by (unfold k; nia). lia.
Qed.
Definition row_by_parts (parts : list nat) (vcell scell : nat -> Z) (n : nat) : list Z :=
  map (fun j => (if j <? n / 4 * 4 then vcell else scell) (column_read parts 0 n j)) (seq 0 n).
Lemma by_parts parts vcell scell n : parts = sse_parts \/ parts = avx_parts ->
  parts_row parts vcell scell 0 n = row_by_parts parts vcell scell n.
Proof.
  intros H. unfold row_by_parts. apply parts_row_read.
  - destruct H as [->| ->]; repeat constructor; lia.
  - intros l -> E. destruct H as [->| ->]; discriminate.
  - left. destruct H as [->| ->]; [exists [16; 8]|exists [32; 16; 8]]; reflexivity.
Qed.

Section Chains.
Variables (vcell scell : nat -> Z) (dst : list Z).
Let n := length dst.
Variables (v32 v16 v8 v4 v1 : nat -> outcome (list Z)).
Hypothesis H32 : forall v, v + 32 <= n -> v32 v = Done (map (fun i => vcell (v + i)) (seq 0 32)).
Hypothesis H16 : forall v, v + 16 <= n -> v16 v = Done (map (fun i => vcell (v + i)) (seq 0 16)).
Hypothesis H8 : forall v, v + 8 <= n -> v8 v = Done (map (fun i => vcell (v + i)) (seq 0 8)).
Hypothesis H4 : forall v, v + 4 <= n -> v4 v = Done (map (fun i => vcell (v + i)) (seq 0 4)).
Hypothesis H1 : forall v, v + 1 <= n -> v1 v = Done [scell v].
Lemma sse_chain :
  ('(cx, d16) <- vblocks 16 v16 0 dst ;;
   '(cx, d8) <- vblocks 8 v8 cx (chunks_rem 16 d16) ;;
   '(cx, d4) <- vblocks 4 v4 cx (chunks_rem 8 d8) ;;
   d1 <- vsingles v1 cx (chunks_rem 4 d4) ;;
   Done (covered 16 d16 ++ covered 8 d8 ++ covered 4 d4 ++ d1)) = Done (row_by_parts sse_parts vcell scell n).
Proof using H16 H8 H4 H1.
  clear H32 v32. rewrite <- by_parts by now left. cbn [parts_row sse_parts].
  destruct (vblocks_part 16 v16 vcell n 0 dst ltac:(lia) H16 ltac:(lia)) as (d & -> & C & Lr & Hn). cbn [bind]. fold n in C, Lr, Hn |- *. rewrite C. clear C.
  destruct (vblocks_part 8 v8 vcell n (next_cx 16 n 0) (chunks_rem 16 d) ltac:(lia) H8 ltac:(lia)) as (d2 & E2 & C & Lr2 & Hn2). rewrite E2. cbn [bind]. rewrite C. clear E2 C.
  rewrite Lr in *.
  destruct (vblocks_part 4 v4 vcell n _ (chunks_rem 8 d2) ltac:(lia) H4 ltac:(rewrite Lr2; exact Hn2)) as (d3 & E3 & C & Lr3 & Hn3). rewrite E3. cbn [bind]. rewrite C. clear E3 C.
  rewrite Lr2 in *.
  rewrite (vsingles_closed v1 scell n) by (try exact H1; rewrite Lr3; exact Hn3). cbn [bind]. rewrite Lr3. reflexivity.
Qed.
Lemma avx_chain :
  ('(cx, d32) <- vblocks 32 v32 0 dst ;;
   '(cx, d16) <- vblocks 16 v16 cx (chunks_rem 32 d32) ;;
   '(cx, d8) <- vblocks 8 v8 cx (chunks_rem 16 d16) ;;
   '(cx, d4) <- vblocks 4 v4 cx (chunks_rem 8 d8) ;;
   d1 <- vsingles v1 cx (chunks_rem 4 d4) ;;
   Done (covered 32 d32 ++ covered 16 d16 ++ covered 8 d8 ++ covered 4 d4 ++ d1)) = Done (row_by_parts avx_parts vcell scell n).
Proof using H32 H16 H8 H4 H1.
  rewrite <- by_parts by now right. cbn [parts_row avx_parts].
  destruct (vblocks_part 32 v32 vcell n 0 dst ltac:(lia) H32 ltac:(lia)) as (d0 & -> & C & Lr0 & Hn0). cbn [bind]. fold n in C, Lr0, Hn0 |- *. rewrite C. clear C.
  destruct (vblocks_part 16 v16 vcell n _ (chunks_rem 32 d0) ltac:(lia) H16 ltac:(rewrite Lr0; exact Hn0)) as (d & E & C & Lr & Hn). rewrite E. cbn [bind]. rewrite C. clear E C.
  rewrite Lr0 in *.
  destruct (vblocks_part 8 v8 vcell n _ (chunks_rem 16 d) ltac:(lia) H8 ltac:(rewrite Lr; exact Hn)) as (d2 & E2 & C & Lr2 & Hn2). rewrite E2. cbn [bind]. rewrite C. clear E2 C.
  rewrite Lr in *.
  destruct (vblocks_part 4 v4 vcell n _ (chunks_rem 8 d2) ltac:(lia) H4 ltac:(rewrite Lr2; exact Hn2)) as (d3 & E3 & C & Lr3 & Hn3). rewrite E3. cbn [bind]. rewrite C. clear E3 C.
  rewrite Lr2 in *.
  rewrite (vsingles_closed v1 scell n) by (try exact H1; rewrite Lr3; exact Hn3). cbn [bind]. rewrite Lr3. reflexivity.
Qed.
End Chains.

Section FixedRows.
Variables (depth : nat) (b : fbound) (src dst : list Z) (ss : nat) (ws : list Z).
Hypothesis Hd : depth_ok depth = true.
Hypothesis Hws : bsize b <= length ws.
Hypothesis Hsrc : forall k, k < bsize b -> ss * (bstart b + k) + length dst <= length src.
Let V := vcell src ss ws b (max_colors depth).
Let S := scell src ss ws b (max_colors depth).
Lemma vertical_sse_u16lb_closed : vertical_sse_u16lb depth b src dst ss ws = Done (row_by_parts sse_parts V S (length dst)).
Proof using Hd Hws Hsrc.
  unfold vertical_sse_u16lb. rewrite Hd. cbv zeta. apply sse_chain; intros; [eapply column_sse2_ok|eapply column_sse1_ok|eapply column_4_ok|eapply column_1_ok]; eauto.
Qed.
Lemma vertical_avx_u16lb_closed : vertical_avx_u16lb depth b src dst ss ws = Done (row_by_parts avx_parts V S (length dst)).
Proof using Hd Hws Hsrc.
  unfold vertical_avx_u16lb. rewrite Hd. cbv zeta.
  apply avx_chain; intros; [eapply column_avx2_ok|eapply column_avx1_ok|eapply column_avx8_ok|eapply column_4_ok|eapply column_1_ok]; eauto.
Qed.
End FixedRows.

(** ** More than 12 bits *)
Section FloatCells.
Variables (k : mlaf_kind) (fma : bool) (src : list Z) (ss : nat) (ws : list f32) (b : fbound) (depth n : nat).
Hypothesis Hws : bsize b <= length ws.
Hypothesis Hsrc : forall k, k < bsize b -> ss * (bstart b + k) + n <= length src.
Let X (j p : nat) : Z := nth (ss * (bstart b + j) + p) src 0%Z.
Let W (j : nat) : f32 := nth j ws f0.
Definition fsum (madd : f32 -> f32 -> f32 -> f32) (j p : nat) : f32 :=
  accumulate_from madd 0 j (fun i => u16_as_f32 (nth (ss * (bstart b + i) + p) src 0%Z)) (fun i => nth i ws f0) f0.
Definition fvcell (p : nat) : Z := nearest_u16 depth (fsum (prefer_fma fma) (bsize b) p).
Definition fscell (p : nat) : Z := to_mixed_u16 depth (fsum (mlaf k) (bsize b) p).

Lemma fsum_S m j p : fsum m (S j) p = m (fsum m j p) (u16_as_f32 (X j p)) (W j).
Proof. unfold fsum. rewrite accf_snoc. reflexivity. Qed.
Lemma fload_oct j v o : j < bsize b -> v + o + 8 <= n -> loadw 8 src (ss * (bstart b + j) + v + o) = Done (oct (X j) (v + o)).
Proof using Hws Hsrc.
  intros Hj Hv. specialize (Hsrc j Hj). rewrite loadw_ok by lia. cbn [seq map Nat.sub repeat app]. unfold oct, X. f_equal. cells.
Qed.
Lemma fload_4 j v : j < bsize b -> v + 4 <= n ->
  loadw 4 src (ss * (bstart b + j) + v) = Done (quad (X j) v ++ [0; 0; 0; 0]%Z).
Proof using Hws Hsrc.
  intros Hj Hv. specialize (Hsrc j Hj). rewrite loadw_ok by lia. cbn [seq map Nat.sub repeat app]. unfold quad, X. cbn [app]. f_equal. cells.
Qed.
Lemma fstep_lo j v l : l = oct (X j) v \/ l = quad (X j) v ++ [0; 0; 0; 0]%Z ->
  vfma fma (quad (fsum (prefer_fma fma) j) v) (cvt (lo_d l)) (set1_ps 4 (W j)) = quad (fsum (prefer_fma fma) (S j)) v.
Proof. intros [->| ->]; unfold quad, oct, vfma, cvt, lo_d, set1_ps; cbn [firstn app map repeat fzip3]; now rewrite !fsum_S. Qed.
Lemma fstep_hi j v : vfma fma (quad (fsum (prefer_fma fma) j) (v + 4)) (cvt (hi_d (oct (X j) v))) (set1_ps 4 (W j)) = quad (fsum (prefer_fma fma) (S j)) (v + 4).
Proof.
  unfold quad, oct, vfma, cvt, hi_d, set1_ps. replace (v + 5) with (v + 4 + 1) by lia. replace (v + 6) with (v + 4 + 2) by lia.
  replace (v + 7) with (v + 4 + 3) by lia. cbn [skipn map repeat fzip3]. now rewrite !fsum_S.
Qed.
Lemma fpack_cells v u : u = v + 4 ->
  packus_w (narrow_ps depth (quad (fsum (prefer_fma fma) (bsize b)) v)) (narrow_ps depth (quad (fsum (prefer_fma fma) (bsize b)) u)) = oct fvcell v.
Proof. intros ->. unfold quad, oct, packus_w, narrow_ps, fvcell. cbn [map app]. unfold nearest_u16, clampZ, sat. cells. Qed.
Lemma ftap_loop {S} (St : nat -> S) (body : S -> nat * f32 -> outcome S) s0 :
  (forall j, j < bsize b -> body (St j) (j, W j) = Done (St (j + 1))) -> s0 = St 0 ->
  foldM body (weighted_rows b ws) s0 = Done (St (bsize b)).
Proof using Hws Hsrc.
  intros Hb ->. rewrite (weighted_rows_ok f0) by exact Hws. rewrite foldM_map.
  destruct (foldM_seq_inv (fun j s => s = St j) (fun s j => body s (j, nth j ws f0)) (bsize b) 0 (St 0)) as (r & E & Hr).
  - intros j s Hj ->. eexists. split; [apply Hb; lia|reflexivity].
  - reflexivity.
  - rewrite E. cbv beta in Hr. now rewrite Hr.
Qed.
Notation fs := (fsum (prefer_fma fma)).
Lemma fcolumn_sse1_ok v : v + 8 <= n -> fcolumn_sse fma src ss ws b depth 1 v = Done (map (fun i => fvcell (v + i)) (seq 0 8)).
Proof using Hws Hsrc.
  intro Hv. unfold fcolumn_sse.
  rewrite (ftap_loop (fun j => [quad (fs j) v; quad (fs j) (v + 4)])); [|intros j Hj|reflexivity].
  - cbn [bind seq flat_map Nat.mul Nat.add nth app]. rewrite fpack_cells by lia. unfold oct. cbn [app map]. f_equal. cells.
  - cbn [seq map seqM Nat.mul fst snd]. rewrite fload_oct by lia. cbn [bind flat_map app combine map fst snd].
    rewrite !Nat.add_0_r, fstep_lo, fstep_hi, Nat.add_1_r by now left. reflexivity.
Qed.
Lemma fcolumn_sse2_ok v : v + 16 <= n -> fcolumn_sse fma src ss ws b depth 2 v = Done (map (fun i => fvcell (v + i)) (seq 0 16)).
Proof using Hws Hsrc.
  intro Hv. unfold fcolumn_sse.
  rewrite (ftap_loop (fun j => [quad (fs j) v; quad (fs j) (v + 4); quad (fs j) (v + 8); quad (fs j) (v + 8 + 4)])); [|intros j Hj|reflexivity].
  - cbn [bind seq flat_map Nat.mul Nat.add nth app]. rewrite !fpack_cells by lia. unfold oct. cbn [app map]. f_equal. cells.
  - cbn [seq map seqM fst snd]. change (8 * 0) with 0. change (8 * 1) with 8. rewrite !fload_oct by lia. cbn [bind flat_map app combine map fst snd].
    rewrite !Nat.add_0_r, !fstep_hi. rewrite !fstep_lo by now left. rewrite Nat.add_1_r. reflexivity.
Qed.
Lemma fcolumn_4_ok v : v + 4 <= n -> fcolumn_4 fma src ss ws b depth v = Done (map (fun i => fvcell (v + i)) (seq 0 4)).
Proof using Hws Hsrc.
  intro Hv. unfold fcolumn_4.
  rewrite (ftap_loop (fun j => quad (fs j) v)); [|intros j Hj|reflexivity].
  - cbn [bind]. f_equal. unfold quad, packus_w, narrow_ps, fvcell. cbn [map app firstn seq]. unfold nearest_u16, clampZ, sat. cells.
  - cbn [fst snd]. rewrite fload_4 by lia. cbn [bind]. rewrite fstep_lo by now right. now rewrite Nat.add_1_r.
Qed.
Lemma fcolumn_1_ok v : v + 1 <= n -> fcolumn_1 k src ss ws b depth v = Done [fscell v].
Proof using Hws Hsrc.
  intro Hv. unfold fcolumn_1.
  rewrite (ftap_loop (fun j => fsum (mlaf k) j v)); [|intros j Hj|reflexivity].
  - reflexivity.
  - cbn [fst snd]. specialize (Hsrc j Hj). rewrite (idx_ok _ _ 0%Z) by lia. cbn [bind]. now rewrite Nat.add_1_r, fsum_S.
Qed.
End FloatCells.
Lemma vertical_sse_u16_closed k fma depth b src dst ss ws : bsize b <= length ws ->
  (forall j, j < bsize b -> ss * (bstart b + j) + length dst <= length src) ->
  vertical_sse_u16 k fma depth b src dst ss ws =
  Done (row_by_parts sse_parts (fvcell fma src ss ws b depth) (fscell k src ss ws b depth) (length dst)).
Proof.
  intros Hws Hsrc. unfold vertical_sse_u16.
  apply sse_chain; intros; [eapply fcolumn_sse2_ok|eapply fcolumn_sse1_ok|eapply fcolumn_4_ok|eapply fcolumn_1_ok]; eauto.
Qed.
