(** Closed form of the portable fixed point column kernel of FixedPoint.v. *)
From Coq Require Import ZifyBool ZifyNat.
From Verif Require Import Base BaseProofs ColorGroup FixedPoint Spec KernelProofs.
Local Open Scope Z_scope.

(** Value of sample j of one output row. *)
Definition vsum (src : list Z) (ss : nat) (ws : list Z) (b : fbound) (j : nat) : Z :=
  zsum (bsize b) (fun k => nth (ss * (bstart b + k) + j) src 0 * nth k ws 0).
Definition vval (maxv : Z) (src : list Z) (ss : nat) (ws : list Z) (b : fbound) (j : nat) : Z :=
  saturate_narrow maxv (wrap32 (vsum src ss ws b j)).

Lemma accumulate_length w st p : length p = length st -> length (accumulate w st p) = length st.
Proof. intro H. unfold accumulate. rewrite map_length, combine_length. lia. Qed.

Lemma accumulate_map w n A (p : list Z) :
  length p = n ->
  accumulate w (map (fun i => wrap32 (A i)) (seq 0 n)) p =
  map (fun i => wrap32 (A i + nth i p 0 * w)) (seq 0 n).
Proof.
  intro H. apply list_ext. intro i. unfold accumulate.
  rewrite nth_error_map, nth_error_combine, !nth_error_map_seq. cbn [Nat.add].
  destruct (i <? n)%nat eqn:E; [|reflexivity].
  rewrite (nth_error_nth_lt p i 0) by lia. cbn. f_equal. apply mul_add_lane.
Qed.

Lemma column_block_ok n src ss filter b x :
  (1 <= bsize b)%nat -> (bsize b <= length filter)%nat ->
  (forall k, (k < bsize b)%nat -> (ss * (bstart b + k) + x + n <= length src)%nat) ->
  column_block n src ss filter b x =
  Done (map (fun i => wrap32 (vsum src ss filter b (x + i))) (seq 0 n)).
Proof.
  intros H1 Hf Hs. unfold column_block.
  rewrite (idx_ok filter 0 0) by lia. cbn [bind].
  assert (S0 := Hs 0%nat ltac:(lia)). rewrite Nat.add_0_r in S0.
  rewrite slice_ok by lia. cbn [bind].
  set (P y := firstn n (skipn (ss * y + x) src)).
  assert (LP : forall k, (k < bsize b)%nat -> length (P (bstart b + k)%nat) = n).
  { intros k Hk. unfold P. rewrite firstn_length, skipn_length. specialize (Hs k Hk). lia. }
  assert (NP : forall k i, (i < n)%nat -> nth i (P k) 0 = nth (ss * k + (x + i)) src 0).
  { intros k i Hi. unfold P. rewrite nth_firstn by lia. rewrite nth_skipn. f_equal. lia. }
  replace (ss * bstart b + x + n - (ss * bstart b + x))%nat with n by lia.
  fold (P (bstart b)).
  assert (I0 : repeat 0 n = map (fun i => wrap32 0) (seq 0 n)).
  { apply list_ext. intro i. rewrite nth_error_repeat_case, nth_error_map_seq.
    destruct (i <? n)%nat; reflexivity. }
  rewrite I0, (accumulate_map _ n (fun _ => 0)).
  2:{ specialize (LP 0%nat ltac:(lia)). rewrite Nat.add_0_r in LP. exact LP. }
  (* remaining taps *)
  assert (G : forall ws j A, (j + length ws + 1 = bsize b)%nat ->
    foldM (fun st jw => let '(j, w) := jw in
             let py := (bstart b + j + 1)%nat in
             p <- slice src (ss * py + x) (ss * py + x + n) ;;
             Done (accumulate w st p))
      (combine (seq j (length ws)) ws) (map (fun i => wrap32 (A i)) (seq 0 n)) =
    Done (map (fun i => wrap32 (A i + zsum (length ws) (fun k => nth (ss * (bstart b + (j + 1 + k)) + (x + i)) src 0 * nth k ws 0))) (seq 0 n))).
  { induction ws as [|w ws IH]; intros j A Hj.
    - cbn. f_equal. apply map_seq_ext. intros. now rewrite Z.add_0_r.
    - cbn [length] in Hj. cbn [length seq combine foldM]. cbv beta iota.
      assert (Sj := Hs (j + 1)%nat ltac:(lia)).
      rewrite slice_ok by lia. cbn [bind].
      replace (bstart b + j + 1)%nat with (bstart b + (j + 1))%nat by lia.
      replace (ss * (bstart b + (j + 1)) + x + n - (ss * (bstart b + (j + 1)) + x))%nat with n by lia.
      fold (P (bstart b + (j + 1))%nat).
      rewrite accumulate_map by (apply LP; lia).
      rewrite (IH (S j)) by lia. f_equal. apply map_seq_ext. intros i Hi.
      rewrite zsum_S_l. cbn [nth]. rewrite NP by lia. rewrite Nat.add_0_r.
      f_equal. rewrite Z.add_assoc. f_equal. apply zsum_ext. intros k Hk. do 2 f_equal. f_equal. f_equal. lia. }
  set (ws := skipn 1 (firstn (bsize b) filter)).
  assert (Lws : length ws = (bsize b - 1)%nat).
  { unfold ws. rewrite skipn_length, firstn_length. lia. }
  cbv zeta in G |- *. fold ws. rewrite (G ws 0%nat (fun i => 0 + nth i (P (bstart b)) 0 * nth 0 filter 0)) by lia.
  f_equal. apply map_seq_ext. intros i Hi. f_equal. rewrite NP by lia. unfold vsum.
  destruct (bsize b) as [|sz] eqn:Esz; [lia|]. rewrite zsum_S_l, Nat.add_0_r, Z.add_0_l. f_equal.
  rewrite Lws. replace (S sz - 1)%nat with sz by lia.
  apply zsum_ext. intros k Hk. f_equal.
  unfold ws. rewrite nth_skipn. rewrite nth_firstn by lia. reflexivity.
Qed.

(** Progress of the destination row: the first cx samples done. *)
Lemma rowmap_step {T} (val : nat -> T) cx n d :
  (cx + n <= length d)%nat ->
  splice (rowmap cx val d) cx (map (fun i => val (cx + i)%nat) (seq 0 n)) = rowmap (cx + n) val d.
Proof.
  intro H. apply list_ext. intro i.
  rewrite nth_error_splice by (rewrite map_length, seq_length, rowmap_length; lia).
  rewrite map_length, seq_length, !nth_error_rowmap by lia.
  destruct ((cx <=? i) && (i <? cx + n))%nat eqn:E.
  - rewrite nth_error_map_seq. replace (i - cx <? n)%nat with true by lia.
    replace (i <? cx + n)%nat with true by lia. do 2 f_equal. lia.
  - destruct (i <? cx)%nat eqn:E1.
    + replace (i <? cx + n)%nat with true by lia. reflexivity.
    + replace (i <? cx + n)%nat with false by lia. reflexivity.
Qed.

Lemma while_tiles_ok {S} (P : nat -> S) step slack total (body : S -> nat -> outcome S) :
  (1 <= step)%nat -> (step <= slack \/ (step = 1 /\ slack = 0))%nat ->
  (forall cx, (cx + slack < total)%nat -> body (P cx) cx = Done (P (cx + step)%nat)) ->
  forall fuel cx, (cx <= total)%nat -> (total <= cx + fuel)%nat ->
  exists cx', while_tiles fuel step slack total body cx (P cx) = Done (cx', P cx') /\
              (cx <= cx' <= total)%nat /\ (total <= cx' + slack)%nat.
Proof.
  intros H1 H2 HB. induction fuel as [|fuel IH]; intros cx Hc Hf.
  - cbn [while_tiles]. replace (cx + slack <? total)%nat with false by lia.
    exists cx. repeat split; auto; lia.
  - cbn [while_tiles]. destruct (cx + slack <? total)%nat eqn:E.
    + rewrite HB by lia. cbn [bind].
      destruct (IH (cx + step)%nat) as (cx' & E' & R1 & R2); [lia|lia|].
      exists cx'. split; [exact E'|]. lia.
    + exists cx. repeat split; auto; lia.
Qed.

Section Column.
Variables (maxv : Z) (src : list Z) (ss : nat) (ws : list Z) (b : fbound) (dst : list Z).
Hypothesis Hsz : (1 <= bsize b)%nat.
Hypothesis Hws : (bsize b <= length ws)%nat.
Hypothesis Hsrc : forall k, (k < bsize b)%nat -> (ss * (bstart b + k) + length dst <= length src)%nat.

Let P cx := rowmap cx (vval maxv src ss ws b) dst.

Lemma filter_nonempty {X} (A B : X) : match ws with [] => A | _ => B end = B.
Proof. destruct ws; [cbn in Hws; lia|reflexivity]. Qed.

Lemma block_at n x : (x + n <= length dst)%nat ->
  column_block n src ss ws b x = Done (map (fun i => wrap32 (vsum src ss ws b (x + i))) (seq 0 n)).
Proof. intro H. apply column_block_ok; auto. intros k Hk. specialize (Hsrc k Hk). lia. Qed.

Lemma store_at n cx : (cx + n <= length dst)%nat ->
  store_block maxv (P cx) cx (map (fun i => wrap32 (vsum src ss ws b (cx + i))) (seq 0 n)) =
  Done (P (cx + n)%nat).
Proof.
  intro H. unfold store_block. rewrite map_length, seq_length. unfold P at 1.
  rewrite rowmap_length by lia. replace (cx + n <=? length dst)%nat with true by lia.
  f_equal. rewrite map_map. unfold P. rewrite <- rowmap_step by lia. reflexivity.
Qed.

Lemma direct_at n cx : (cx + n <= length dst)%nat ->
  column_direct n maxv src ss (P cx) ws b cx = Done (P (cx + n)%nat).
Proof.
  intro H. unfold column_direct. rewrite filter_nonempty, block_at by lia. cbn [bind].
  apply store_at; lia.
Qed.

Lemma double_at n cx : (cx + 2 * n <= length dst)%nat ->
  column_double n maxv src ss (P cx) ws b cx = Done (P (cx + 2 * n)%nat).
Proof.
  intro H. unfold column_double. rewrite filter_nonempty, !block_at by lia. cbn [bind].
  rewrite store_at by lia. cbn [bind]. rewrite store_at by lia. do 2 f_equal. lia.
Qed.

Lemma four_at n cx : (cx + 4 * n <= length dst)%nat ->
  column_four n maxv src ss (P cx) ws b cx = Done (P (cx + 4 * n)%nat).
Proof.
  intro H. unfold column_four. rewrite filter_nonempty, !block_at by lia. cbn [bind].
  rewrite store_at by lia. cbn [bind]. rewrite store_at by lia. cbn [bind].
  replace (cx + n * 2)%nat with (cx + n + n)%nat by lia.
  rewrite store_at by lia. cbn [bind].
  replace (cx + n * 3)%nat with (cx + n + n + n)%nat by lia.
  rewrite store_at by lia. do 2 f_equal. lia.
Qed.

(** column_handler_fixed_point: every sample of the row, whatever its length,
    is the weighted sum over the window. *)
Theorem column_handler_closed :
  column_handler maxv b src dst ss ws = Done (map (vval maxv src ss ws b) (seq 0 (length dst))).
Proof.
  unfold column_handler.
  assert (P0 : dst = P 0%nat) by reflexivity.
  set (total := length dst).
  destruct (while_tiles_ok P 64 64 total
     (fun d cx => column_four 16 maxv src ss d ws b cx)) with (fuel := total) (cx := 0%nat)
     as (c1 & E1 & B1 & _); try lia.
  { intros cx Hcx. rewrite four_at by (unfold total in *; lia). reflexivity. }
  rewrite <- P0 in E1. rewrite E1. cbn [bind].
  destruct (while_tiles_ok P 32 32 total
     (fun d cx => column_double 16 maxv src ss d ws b cx)) with (fuel := total) (cx := c1)
     as (c2 & E2 & B2 & _); try lia.
  { intros cx Hcx. rewrite double_at by (unfold total in *; lia). reflexivity. }
  rewrite E2. cbn [bind].
  destruct (while_tiles_ok P 16 16 total
     (fun d cx => column_direct 16 maxv src ss d ws b cx)) with (fuel := total) (cx := c2)
     as (c3 & E3 & B3 & _); try lia.
  { intros cx Hcx. rewrite direct_at by (unfold total in *; lia). reflexivity. }
  rewrite E3. cbn [bind].
  destruct (while_tiles_ok P 8 8 total
     (fun d cx => column_direct 8 maxv src ss d ws b cx)) with (fuel := total) (cx := c3)
     as (c4 & E4 & B4 & _); try lia.
  { intros cx Hcx. rewrite direct_at by (unfold total in *; lia). reflexivity. }
  rewrite E4. cbn [bind].
  destruct (while_tiles_ok P 1 0 total
     (fun d cx => column_direct 1 maxv src ss d ws b cx)) with (fuel := total) (cx := c4)
     as (c5 & E5 & B5 & F5); try lia.
  { intros cx Hcx. rewrite direct_at by (unfold total in *; lia). reflexivity. }
  rewrite E5. cbn [bind]. f_equal. assert (c5 = total) by lia. subst c5.
  unfold P, rowmap. unfold total. rewrite skipn_all. apply app_nil_r.
Qed.
End Column.
