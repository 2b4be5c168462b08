(** Interleaving of row tasks at the granularity of single loads and stores.

    Base.v treats a rayon loop as running whole row tasks one after the other, in any order.
    Here the tasks run concurrently on the one shared buffer: a task is a sequential program of
    loads and stores, rayon's `par_chunks_exact_mut(n)` hands task i the elements
    [i*n, (i+1)*n) and nothing else (Rust's `&mut [T]`), the source is immutable while the
    loop runs, and at any moment any one task makes one step.  The theorem: every complete
    execution leaves the buffer the sequential loop leaves. *)
From Verif Require Import Base BaseProofs.
From Coq Require Import Relations.
Local Open Scope nat_scope.

Section Par.
Context {T : Type}.

(** A row task (the closure given to `for_each`), after resolving what it reads from the
    shared immutable source: loads from and stores to its own chunk; [Crash] is a panic. *)
Inductive prog :=
| Halt
| Crash
| Load (j : nat) (cont : T -> prog)
| Store (j : nat) (v : T) (rest : prog).

(** The task run alone on its own chunk; an index outside the chunk panics. *)
Fixpoint alone (p : prog) (d : list T) : outcome (list T) :=
  match p with
  | Halt => Done d
  | Crash => Panic
  | Load j c => match nth_error d j with Some v => alone (c v) d | None => Panic end
  | Store j v r => if j <? length d then alone r (upd d j v) else Panic
  end.

(** The number of steps it makes when run alone. *)
Fixpoint cost (p : prog) (d : list T) : nat :=
  match p with
  | Halt | Crash => 0
  | Load j c => S (match nth_error d j with Some v => cost (c v) d | None => 0 end)
  | Store j v r => S (if j <? length d then cost r (upd d j v) else 0)
  end.

(** One step of the machine: some task i does its next load or store on the shared buffer. *)
Definition cfg : Type := list prog * list T.
Inductive step (n : nat) : cfg -> cfg -> Prop :=
| step_load ps mem i j c v : nth_error ps i = Some (Load j c) -> j < n ->
    nth_error mem (i * n + j) = Some v -> step n (ps, mem) (upd ps i (c v), mem)
| step_store ps mem i j v r : nth_error ps i = Some (Store j v r) -> j < n ->
    i * n + j < length mem -> step n (ps, mem) (upd ps i r, upd mem (i * n + j) v)
| step_crash_load ps mem i j c : nth_error ps i = Some (Load j c) -> n <= j ->
    step n (ps, mem) (upd ps i Crash, mem)
| step_crash_store ps mem i j v r : nth_error ps i = Some (Store j v r) -> n <= j ->
    step n (ps, mem) (upd ps i Crash, mem).

Inductive steps (n : nat) : nat -> cfg -> cfg -> Prop :=
| steps_0 c : steps n 0 c c
| steps_S m a b c : step n a b -> steps n m b c -> steps n (S m) a c.

Definition finished (p : prog) : Prop := p = Halt \/ p = Crash.

(** ** Proof *)
Section Fix.
Variable n : nat.
Hypothesis n_pos : 0 < n.

Lemma nth_error_map_upd (ps : list prog) i p k : i < length ps ->
  nth_error (upd ps i p) k = if k =? i then Some p else nth_error ps k.
Proof. intros H. rewrite nth_error_upd. replace (i <? length ps) with true by lia. reflexivity. Qed.

Lemma chunk_upd_same (mem : list T) i j v : i < length mem / n -> j < n ->
  chunk n (upd mem (i * n + j) v) i = upd (chunk n mem i) j v.
Proof.
  intros Hi Hj. apply list_ext; intro k. rewrite nth_error_chunk, !nth_error_upd, nth_error_chunk.
  rewrite (chunk_length n mem i Hi).
  assert (i * n + j < length mem) by (pose proof (Nat.div_mod (length mem) n); nia).
  replace (j <? n) with true by lia. replace (i * n + j <? length mem) with true by lia.
  destruct (k <? n) eqn:E1; destruct (k =? j) eqn:E2.
  - replace (i * n + k =? i * n + j) with true by lia. reflexivity.
  - replace (i * n + k =? i * n + j) with false by lia. reflexivity.
  - lia.
  - reflexivity.
Qed.

Lemma chunk_upd_other (mem : list T) i i' j v : i <> i' -> j < n ->
  chunk n (upd mem (i * n + j) v) i' = chunk n mem i'.
Proof.
  intros Hi Hj. apply list_ext; intro k. rewrite !nth_error_chunk, !nth_error_upd.
  destruct (k <? n) eqn:E1; [|reflexivity].
  replace (i' * n + k =? i * n + j) with false; [reflexivity|]. symmetry. apply Nat.eqb_neq. nia.
Qed.

(** What every step keeps: the outcome of each task run alone from here, the number of
    tasks, the length of the buffer and everything outside the tasks' chunks. *)
Definition same (a b : cfg) : Prop :=
  length (fst b) = length (fst a) /\ length (snd b) = length (snd a) /\
  (forall i p, nth_error (fst a) i = Some p -> exists p', nth_error (fst b) i = Some p' /\
     alone p' (chunk n (snd b) i) = alone p (chunk n (snd a) i)) /\
  (forall k, length (fst a) * n <= k -> nth_error (snd b) k = nth_error (snd a) k).

Definition total (c : cfg) : nat :=
  fold_right (fun i acc => match nth_error (fst c) i with Some p => cost p (chunk n (snd c) i) | None => 0 end + acc)
    0 (seq 0 (length (fst c))).

Lemma fold_seq_ext (f g : nat -> nat) l : (forall i, In i l -> f i = g i) ->
  fold_right (fun i acc => f i + acc) 0 l = fold_right (fun i acc => g i + acc) 0 l.
Proof. induction l as [|a l IH]; intros H; cbn; [reflexivity|]. rewrite H, IH; auto; [intros; apply H; now right|now left]. Qed.

Lemma fold_seq_one (f g : nat -> nat) l i : NoDup l -> In i l -> (forall k, In k l -> k <> i -> g k = f k) -> f i = S (g i) ->
  fold_right (fun k acc => f k + acc) 0 l = S (fold_right (fun k acc => g k + acc) 0 l).
Proof.
  induction l as [|a l IH]; intros ND I E F; [destruct I|]. inversion ND as [|? ? NI ND']; subst. cbn.
  destruct (Nat.eq_dec a i) as [->|Ne].
  - rewrite F. rewrite (fold_seq_ext f g l); [lia|]. intros k Hk. symmetry. apply E; [now right|]. intros ->. contradiction.
  - pose proof (E a (or_introl eq_refl) Ne) as Ea. destruct I as [->|I]; [contradiction|].
    rewrite (IH ND' I); [rewrite Ea; lia| |exact F]. intros k Hk Hn. apply E; [now right|exact Hn].
Qed.

Lemma step_same a b : length (fst a) <= length (snd a) / n -> step n a b -> same a b /\ total a = S (total b).
Proof.
  intros Hl H.
  assert (Gen : forall ps mem i p p' mem', nth_error ps i = Some p -> length ps <= length mem / n ->
    length mem' = length mem ->
    alone p' (chunk n mem' i) = alone p (chunk n mem i) -> cost p (chunk n mem i) = S (cost p' (chunk n mem' i)) ->
    (forall i', i' <> i -> chunk n mem' i' = chunk n mem i') ->
    (forall k, length ps * n <= k -> nth_error mem' k = nth_error mem k) ->
    same (ps, mem) (upd ps i p', mem') /\ total (ps, mem) = S (total (upd ps i p', mem'))).
  { intros ps mem i p p' mem' E L Lm EA EC EO ER.
    assert (Hi : i < length ps) by (apply nth_error_Some; rewrite E; discriminate).
    split.
    - split; [apply upd_length|]. split; [exact Lm|]. split; [|exact ER]. cbn [fst snd].
      intros k q Hk. rewrite nth_error_map_upd by exact Hi. destruct (k =? i) eqn:Ek.
      + apply Nat.eqb_eq in Ek. subst k. rewrite Hk in E. injection E as ->. exists p'. auto.
      + exists q. rewrite EO by lia. auto.
    - unfold total. cbn [fst snd]. rewrite upd_length.
      apply fold_seq_one with (i := i).
      + apply seq_NoDup.
      + apply in_seq. lia.
      + intros k Hk Ne. rewrite nth_error_map_upd by exact Hi. replace (k =? i) with false by lia. rewrite EO by lia. reflexivity.
      + rewrite nth_error_map_upd by exact Hi. rewrite Nat.eqb_refl, E. exact EC. }
  inversion H as [ps mem i j c v E Hj Ev|ps mem i j v r E Hj Hm|ps mem i j c E Hj|ps mem i j v r E Hj]; subst; cbn [fst snd] in Hl;
    assert (Hi : i < length mem / n) by (assert (i < length ps) by (apply nth_error_Some; rewrite E; discriminate); lia).
  - eapply Gen; [exact E|exact Hl|reflexivity| | |reflexivity|reflexivity]; cbn [alone cost];
      rewrite nth_error_chunk; replace (j <? n) with true by lia; rewrite Ev; reflexivity.
  - eapply Gen; [exact E|exact Hl|apply upd_length| | | |].
    + cbn [alone]. rewrite (chunk_length n mem i Hi). replace (j <? n) with true by lia. rewrite chunk_upd_same by auto. reflexivity.
    + cbn [cost]. rewrite (chunk_length n mem i Hi). replace (j <? n) with true by lia. rewrite chunk_upd_same by auto. reflexivity.
    + intros i' Ne. apply chunk_upd_other; auto.
    + intros k Hk. rewrite nth_error_upd. assert (i < length ps) by (apply nth_error_Some; rewrite E; discriminate).
      replace (k =? i * n + j) with false; [reflexivity|]. symmetry. apply Nat.eqb_neq. nia.
  - eapply Gen; [exact E|exact Hl|reflexivity| | |reflexivity|reflexivity]; cbn [alone cost];
      rewrite nth_error_chunk; replace (j <? n) with false by lia; reflexivity.
  - eapply Gen; [exact E|exact Hl|reflexivity| | |reflexivity|reflexivity]; cbn [alone cost];
      rewrite (chunk_length n mem i Hi); replace (j <? n) with false by lia; reflexivity.
Qed.

Lemma steps_same m a b : length (fst a) <= length (snd a) / n -> steps n m a b -> same a b /\ total a = m + total b.
Proof.
  intros Hl H. induction H as [c|m a b c H1 H2 IH].
  - split; [|reflexivity]. split; [reflexivity|]. split; [reflexivity|]. split; [|reflexivity].
    intros i p E. exists p. auto.
  - destruct (step_same a b Hl H1) as [(A1 & A2 & A3 & A4) C1].
    destruct IH as [(B1 & B2 & B3 & B4) C2]; [rewrite A1, A2; exact Hl|].
    split; [|lia]. split; [congruence|]. split; [congruence|]. split.
    + intros i p E. destruct (A3 i p E) as (p' & E' & Q'). destruct (B3 i p' E') as (p'' & E'' & Q''). exists p''. split; [exact E''|congruence].
    + intros k Hk. rewrite B4 by (rewrite A1; exact Hk). apply A4; exact Hk.
Qed.

Lemma zip_alone : forall (ps : list prog) (cs ds : list (list T)), length cs = length ds -> length ps <= length cs ->
  (forall i p, nth_error ps i = Some p -> exists c d, nth_error cs i = Some c /\ nth_error ds i = Some d /\ alone p c = Done d) ->
  (forall i, length ps <= i -> nth_error cs i = nth_error ds i) ->
  zip_mut (fun d p => alone p d) cs ps = Done ds.
Proof.
  induction ps as [|p ps IH]; intros cs ds L1 L2 H1 H2.
  - replace (zip_mut (fun d p => alone p d) cs []) with (Done cs : outcome (list (list T))) by (destruct cs; reflexivity).
    f_equal. apply list_ext. intro i. apply H2. cbn; lia.
  - destruct cs as [|c cs]; [cbn in L2; lia|]. destruct ds as [|d ds]; [discriminate|].
    destruct (H1 0 p eq_refl) as (c0 & d0 & E1 & E2 & E). cbn in E1, E2. injection E1 as <-. injection E2 as <-.
    cbn [zip_mut]. rewrite E. cbn [bind].
    rewrite (IH cs ds); [reflexivity|cbn in L1; lia|cbn in L2; lia| |].
    + intros i q Hq. exact (H1 (S i) q Hq).
    + intros i Hi. apply (H2 (S i)). cbn; lia.
Qed.

(** The buffer after a complete execution, chunk by chunk. *)
Lemma all_done ps mem ps' mem' m : length ps <= length mem / n ->
  steps n m (ps, mem) (ps', mem') -> Forall (eq Halt) ps' ->
  zip_mut (fun d p => alone p d) (chunks_exact n mem) ps = Done (chunks_exact n mem') /\
  chunks_rem n mem' = chunks_rem n mem /\ length mem' = length mem.
Proof.
  intros Hl H F. destruct (steps_same m (ps, mem) (ps', mem') Hl H) as [(S1 & S2 & S3 & S4) _]. cbn [fst snd] in *.
  assert (EA : forall i p, nth_error ps i = Some p -> alone p (chunk n mem i) = Done (chunk n mem' i)).
  { intros i p E. destruct (S3 i p E) as (p' & E' & Q). rewrite <- Q.
    rewrite Forall_forall in F. rewrite <- (F p' (nth_error_In _ _ E')). reflexivity. }
  split; [|split; [|exact S2]].
  - apply (zip_alone ps (chunks_exact n mem) (chunks_exact n mem')).
    + rewrite !chunks_exact_length. congruence.
    + rewrite chunks_exact_length. exact Hl.
    + intros i p E. assert (Hi : i < length ps) by (apply nth_error_Some; rewrite E; discriminate).
      exists (chunk n mem i), (chunk n mem' i). rewrite !nth_error_chunks, S2.
      replace (i <? length mem / n) with true by lia. auto.
    + intros i Hi. rewrite !nth_error_chunks, S2. destruct (i <? length mem / n); [|reflexivity].
      f_equal. apply list_ext. intro j. rewrite !nth_error_chunk. destruct (j <? n); [|reflexivity].
      symmetry. apply S4. nia.
  - unfold chunks_rem. rewrite S2. apply list_ext. intro k. rewrite !nth_error_skipn. apply S4. nia.
Qed.

(** A machine that is not finished can move. *)
Lemma progress ps mem : length ps <= length mem / n -> Forall finished ps \/ exists b, step n (ps, mem) b.
Proof.
  intros Hl.
  assert (G : (exists i p, nth_error ps i = Some p /\ ~ finished p) \/ Forall finished ps).
  { clear Hl. induction ps as [|p ps [(i & q & E & F)|IH]].
    - right. constructor.
    - left. exists (S i), q. auto.
    - destruct p as [| |j c|j v r].
      + right. constructor; [now left|exact IH].
      + right. constructor; [now right|exact IH].
      + left. exists 0, (Load j c). split; [reflexivity|]. intros [H|H]; discriminate.
      + left. exists 0, (Store j v r). split; [reflexivity|]. intros [H|H]; discriminate. }
  destruct G as [(i & p & E & F)|G]; [right|left; exact G].
  assert (Hi : i < length ps) by (apply nth_error_Some; rewrite E; discriminate).
  assert (Hm : forall j, j < n -> i * n + j < length mem) by (intros; pose proof (Nat.div_mod (length mem) n); nia).
  destruct p as [| |j c|j v r].
  - destruct F; now left.
  - destruct F; now right.
  - destruct (Nat.lt_ge_cases j n) as [L|L].
    + destruct (nth_error mem (i * n + j)) as [v|] eqn:Ev.
      * eexists. eapply step_load; eauto.
      * apply nth_error_None in Ev. specialize (Hm j L). lia.
    + eexists. eapply step_crash_load; eauto.
  - destruct (Nat.lt_ge_cases j n) as [L|L].
    + eexists. eapply step_store; eauto.
    + eexists. eapply step_crash_store; eauto.
Qed.

(** If the sequential loop succeeds no task ever crashes. *)
Lemma no_crash ps mem ps' mem' m r : length ps <= length mem / n ->
  zip_mut (fun d p => alone p d) (chunks_exact n mem) ps = Done r ->
  steps n m (ps, mem) (ps', mem') -> Forall (fun p => p <> Crash) ps'.
Proof.
  intros Hl Z H. destruct (steps_same m (ps, mem) (ps', mem') Hl H) as [(S1 & S2 & S3 & S4) _]. cbn [fst snd] in *.
  apply Forall_forall. intros p' I ->. apply In_nth_error in I. destruct I as (i & E').
  assert (Hi : i < length ps) by (rewrite <- S1; apply nth_error_Some; rewrite E'; discriminate).
  destruct (nth_error ps i) as [p|] eqn:E; [|apply nth_error_None in E; lia].
  destruct (S3 i p E) as (q & Eq & Q). rewrite E' in Eq. injection Eq as <-. cbn [alone] in Q.
  assert (C : nth_error (chunks_exact n mem) i = Some (chunk n mem i)).
  { rewrite nth_error_chunks. replace (i <? length mem / n) with true by lia. reflexivity. }
  revert Z C E Q. generalize (chunks_exact n mem) (chunk n mem i). clear. intros cs c. revert cs ps r.
  induction i as [|i IH]; intros [|c0 cs] [|p0 ps] r Z C E Q; try discriminate.
  - cbn in C, E. injection C as ->. injection E as ->. cbn [zip_mut] in Z. rewrite <- Q in Z. discriminate.
  - cbn in C, E. cbn [zip_mut] in Z. destruct (alone p0 c0); try discriminate. cbn [bind] in Z.
    destruct (zip_mut (fun d p => alone p d) cs ps) eqn:Z'; try discriminate. eapply IH; eauto.
Qed.
End Fix.
End Par.
Arguments prog T : clear implicits.

(** [p] is a program for the loop body [f] applied to the source chunk [s] on chunks of length
    [n]: run alone it computes what [f] computes.  Several programs may do (whatever order and
    number of loads and stores the compiler picks). *)
Definition implements {T B} (n : nat) (f : list T -> B -> outcome (list T)) (s : B) (p : prog T) : Prop :=
  forall d, length d = n -> alone p d = f d s.

(** At least one always does, for bodies that keep the length: load everything, then store
    everything. *)
Fixpoint store_all {T} (j : nat) (l : list T) : prog T :=
  match l with [] => Halt | v :: r => Store j v (store_all (S j) r) end.
Fixpoint load_all {T} (j m : nat) (acc : list T) (k : list T -> prog T) : prog T :=
  match m with O => k acc | S m' => Load j (fun v => load_all (S j) m' (acc ++ [v]) k) end.
Definition program_of {T B} (n : nat) (f : list T -> B -> outcome (list T)) (s : B) : prog T :=
  load_all 0 n [] (fun d => match f d s with Done d' => store_all 0 d' | _ => Crash end).

Lemma load_all_alone {T} (m : nat) : forall j acc (k : list T -> prog T) d, j + m = length d -> acc = firstn j d ->
  alone (load_all j m acc k) d = alone (k d) d.
Proof.
  induction m as [|m IH]; intros j acc k d H A; cbn [load_all alone].
  - rewrite A, firstn_all2 by lia. reflexivity.
  - destruct (nth_error d j) as [v|] eqn:E; [|apply nth_error_None in E; lia].
    rewrite IH; [reflexivity|lia|]. rewrite A. apply list_ext. intro i.
    rewrite nth_error_app_case, !nth_error_firstn, firstn_length.
    replace (Nat.min j (length d)) with j by lia.
    destruct (i <? j) eqn:E1.
    + replace (i <? S j) with true by lia. reflexivity.
    + destruct (i <? S j) eqn:E2.
      * replace i with j by lia. rewrite Nat.sub_diag. cbn. congruence.
      * apply nth_error_None_ge. cbn. lia.
Qed.

Lemma store_all_alone {T} (l : list T) : forall j d, j + length l = length d ->
  alone (store_all j l) d = Done (firstn j d ++ l).
Proof.
  induction l as [|v l IH]; intros j d H; cbn [store_all alone length] in *.
  - rewrite app_nil_r, firstn_all2 by lia. reflexivity.
  - replace (j <? length d) with true by lia. rewrite IH by (rewrite upd_length; lia).
    f_equal. change (v :: l) with ([v] ++ l). rewrite app_assoc. f_equal. apply list_ext. intro i.
    rewrite nth_error_app_case, !nth_error_firstn, firstn_length, nth_error_upd.
    replace (Nat.min j (length d)) with j by lia. replace (j <? length d) with true by lia.
    destruct (i <? j) eqn:E1.
    + replace (i <? S j) with true by lia. replace (i =? j) with false by lia. reflexivity.
    + destruct (i <? S j) eqn:E2.
      * replace i with j by lia. rewrite Nat.sub_diag, Nat.eqb_refl. reflexivity.
      * rewrite nth_error_None_ge by (cbn; lia). reflexivity.
Qed.

Lemma program_of_ok {T B} n (f : list T -> B -> outcome (list T)) s :
  (forall d, length d = n -> match f d s with Done d' => length d' = n | Fail _ => False | Panic => True end) ->
  implements n f s (program_of n f s).
Proof.
  intros H d Hd. unfold program_of. rewrite load_all_alone by (cbn; auto).
  specialize (H d Hd). destruct (f d s) as [d'|e|]; [|destruct H|reflexivity].
  rewrite store_all_alone by (cbn; lia). reflexivity.
Qed.

Lemma forall2_len {A B} (R : A -> B -> Prop) l1 l2 : Forall2 R l1 l2 -> length l1 = length l2.
Proof. induction 1; cbn; congruence. Qed.

Lemma zip_implements {T B} n (f : list T -> B -> outcome (list T)) ss ps : Forall2 (implements n f) ss ps ->
  forall cs, Forall (fun c => length c = n) cs ->
  zip_mut (fun d p => alone p d) cs ps = zip_mut f cs ss.
Proof.
  induction 1 as [|s p ss' ps' H1 H2 IH]; intros cs F.
  - destruct cs; reflexivity.
  - destruct cs as [|c cs]; [reflexivity|]. cbn [zip_mut]. rewrite (H1 c (Forall_inv F)), (IH cs (Forall_inv_tail F)). reflexivity.
Qed.

(** ** A parallel loop over the rows of a buffer, at the granularity of single accesses. *)
Section Loop.
Context {T B : Type} (n : nat) (f : list T -> B -> outcome (list T)) (ss : list B) (mem : list T).
Hypothesis n_pos : 0 < n.
Variable ps : list (prog T).
Hypothesis ps_ok : Forall2 (implements n f) ss ps.
Hypothesis enough : length ss <= length mem / n.

Lemma progs_len : length ps = length ss.
Proof. exact (eq_sym (forall2_len _ _ _ ps_ok)). Qed.

Lemma zip_programs : zip_mut (fun d p => alone p d) (chunks_exact n mem) ps = zip_mut f (chunks_exact n mem) ss.
Proof. exact (zip_implements n f ss ps ps_ok _ (chunks_exact_Forall_len n mem)). Qed.

Theorem interleaving : forall m ps' mem', steps n m (ps, mem) (ps', mem') ->
  (* complete executions leave what the sequential loop leaves *)
  (Forall (eq Halt) ps' -> zip_mut f (chunks_exact n mem) ss = Done (chunks_exact n mem') /\
     chunks_rem n mem' = chunks_rem n mem /\ length mem' = length mem) /\
  (* an execution that is not finished can go on, and cannot go on forever *)
  (Forall finished ps' \/ exists c, step n (ps', mem') c) /\ m <= total n (ps, mem) /\
  (* no panic unless the sequential loop panics *)
  (forall r, zip_mut f (chunks_exact n mem) ss = Done r -> Forall (fun p => p <> Crash) ps').
Proof.
  intros m ps' mem' H. rewrite <- zip_programs. pose proof progs_len as PL.
  assert (Hl : length ps <= length mem / n) by lia.
  destruct (steps_same n n_pos m (ps, mem) (ps', mem') Hl H) as [(S1 & S2 & S3 & S4) C]. cbn [fst snd] in *.
  split; [|split; [|split]].
  - intros F. exact (all_done n n_pos ps mem ps' mem' m Hl H F).
  - apply progress; auto. rewrite S1, S2. exact Hl.
  - lia.
  - intros r Z. exact (no_crash n n_pos ps mem ps' mem' m r Hl Z H).
Qed.

(** Such executions exist: any strategy of picking an unfinished task reaches one. *)
Theorem completes : forall r, zip_mut f (chunks_exact n mem) ss = Done r ->
  exists m ps' mem', steps n m (ps, mem) (ps', mem') /\ Forall (eq Halt) ps'.
Proof.
  intros r Z. pose proof progs_len as PL. rewrite <- zip_programs in Z.
  assert (Hl : length ps <= length mem / n) by lia.
  assert (G : forall (t : nat) (a : list (prog T) * list T), total n a = t -> length (fst a) <= length (snd a) / n ->
     exists m b, steps n m a b /\ Forall (@finished T) (fst b)).
  { intro t. induction t as [t IH] using lt_wf_ind. intros [qs mm] E L.
    destruct (progress n n_pos qs mm L) as [F|[b Hb]].
    - exists 0, (qs, mm). split; [constructor|exact F].
    - destruct (step_same n n_pos (qs, mm) b L Hb) as [(S1 & S2 & _) C].
      destruct (IH (total n b) ltac:(lia) b eq_refl) as (m & c & Hc & F); [rewrite S1, S2; exact L|].
      exists (S m), c. split; [econstructor; eauto|exact F]. }
  destruct (G _ (ps, mem) eq_refl Hl) as (m & [ps' mem'] & H & F).
  exists m, ps', mem'. split; [exact H|].
  pose proof (no_crash n n_pos ps mem ps' mem' m r Hl Z H) as NC. cbn [fst] in F.
  rewrite Forall_forall in *. intros p I. destruct (F p I) as [->| ->]; [reflexivity|]. exfalso. exact (NC Crash I eq_refl).
Qed.
End Loop.
