(** C29: threading policies. *)
From Coq Require Import ZArith NArith List Bool Lia.
From Verif Require Import Base ImageStore Resize F32 Sampler Api ApiRgba FloatConv ApiFloat Threading.
From Verif Require Import Spec SpecApi SpecThreading BaseProofs Parallel ImageProofs Witness Properties2 Properties3 Properties4.
Import ListNotations.
Local Open Scope nat_scope.

(** ** C29 Threading policy determines worker count. *)

(** Single never asks for workers and works on the calling thread; Fixed n asks for max(n,1);
    Adaptive asks for between one and the reported parallelism. *)
Theorem C29_worker_count : forall h w ht, sane_host h ->
  (workers_requested h Single w ht = 0%N /\ get_pool h Single w ht = None) /\
  (forall n, workers_requested h (Fixed n) w ht = N.max n 1 /\ get_pool h (Fixed n) w ht = build_pool h (N.max n 1)) /\
  (exists n, workers_requested h Adaptive w ht = n /\ get_pool h Adaptive w ht = build_pool h n /\ (1 <= n)%N /\
     (forall m, reported_parallelism h = Some m -> (n <= m)%N) /\
     (reported_parallelism h = None -> n = 1%N)).
Proof.
  intros h w ht [H _]. split; [split; reflexivity|]. split; [intros; split; reflexivity|].
  exists (thread_count h Adaptive w ht). split; [reflexivity|]. split; [reflexivity|].
  unfold thread_count, available_parallelism, clampN.
  generalize (N.of_nat (wmul w ht) / (256 * 256))%N. intros v.
  destruct (reported_parallelism h) as [m|].
  - specialize (H m eq_refl). split; [|split].
    + destruct (N.ltb_spec v 1); [lia|]. destruct (N.ltb_spec m v); lia.
    + intros m' E. injection E as <-. destruct (N.ltb_spec v 1); [lia|]. destruct (N.ltb_spec m v); lia.
    + discriminate.
  - split; [|split].
    + destruct (N.ltb_spec v 1); [lia|]. destruct (N.ltb_spec 1 v); lia.
    + discriminate.
    + intros _. destruct (N.ltb_spec v 1); [lia|]. destruct (N.ltb_spec 1 v); lia.
Qed.
Print Assumptions C29_worker_count.

(** Adaptive: one worker per 65536 pixels of destination, within those bounds, for
    destinations whose area fits the machine word (calls with larger ones are refused, C04). *)
Theorem C29_adaptive_area : forall h w ht m, sane_host h -> reported_parallelism h = Some m ->
  (N.of_nat w * N.of_nat ht < 2 ^ 64)%N ->
  workers_requested h Adaptive w ht = N.max 1 (N.min m (N.of_nat w * N.of_nat ht / 65536)).
Proof.
  intros h w ht m [H _] E A. specialize (H m E). unfold workers_requested, thread_count, available_parallelism, clampN.
  rewrite E. unfold wmul. rewrite N.mod_small by exact A. rewrite N2Nat.id.
  change (256 * 256)%N with 65536%N. generalize (N.of_nat w * N.of_nat ht / 65536)%N. intros v.
  destruct (N.ltb_spec v 1); [lia|]. destruct (N.ltb_spec m v); lia.
Qed.
Print Assumptions C29_adaptive_area.

(** A larger destination never gets fewer workers. *)
Theorem C29_adaptive_grows : forall h w ht w' ht', sane_host h ->
  (w * ht <= w' * ht')%nat -> (N.of_nat w' * N.of_nat ht' < 2 ^ 64)%N ->
  (workers_requested h Adaptive w ht <= workers_requested h Adaptive w' ht')%N.
Proof.
  intros h w ht w' ht' [H _] Le A. unfold workers_requested, thread_count, clampN.
  assert (Hm : (1 <= available_parallelism h)%N).
  { unfold available_parallelism. destruct (reported_parallelism h); [apply H; auto|lia]. }
  revert Hm. generalize (available_parallelism h). intros m Hm.
  assert (A' : (N.of_nat w * N.of_nat ht < 2 ^ 64)%N).
  { rewrite <- Nat2N.inj_mul in *. apply N.le_lt_trans with (2 := A). lia. }
  unfold wmul. rewrite !N.mod_small by assumption. rewrite !N2Nat.id.
  assert (D : (N.of_nat w * N.of_nat ht / (256 * 256) <= N.of_nat w' * N.of_nat ht' / (256 * 256))%N).
  { apply N.div_le_mono; [discriminate|]. rewrite <- !Nat2N.inj_mul. lia. }
  revert D. generalize (N.of_nat w * N.of_nat ht / (256 * 256))%N (N.of_nat w' * N.of_nat ht' / (256 * 256))%N.
  intros v v' D. destruct (N.ltb_spec v 1), (N.ltb_spec v' 1), (N.ltb_spec m v), (N.ltb_spec m v'); lia.
Qed.
Print Assumptions C29_adaptive_grows.

(** No worker is started for a call that is refused or only copies. *)
Theorem C29_no_workers_when_refused : forall (T : Type) (N' : nat) nd h p (store into : image T),
  first_error (refusal_table N' nd store into) <> None \/ ~ changes_size store into ->
  workers_of_call N' nd h p store into = 0%N.
Proof.
  intros T N' nd h p store into H. unfold workers_of_call. rewrite checks_table.
  destruct (first_error _) eqn:E; [reflexivity|].
  destruct H as [H|H]; [contradiction|].
  destruct ((width store =? width into) && (height store =? height into))%nat eqn:Q; [reflexivity|].
  exfalso. apply H. unfold changes_size. apply andb_false_iff in Q. destruct Q as [Q|Q]; apply Nat.eqb_neq in Q; auto.
Qed.
Print Assumptions C29_no_workers_when_refused.

Lemma pool_for_ok : forall h s (T : Type) (into : image T), sane_host h -> pool_ok (pool_for h s into).
Proof.
  intros h s T into [_ H]. unfold pool_for, get_pool. destruct (spolicy s); [exact Logic.I|apply H|apply H].
Qed.

(** The policy is not observable in the result: for every machine, policy and call, the
    outcome is the one of a fresh (single-threaded) scaler with the same filter. *)
Theorem C29_policy_not_observable : forall h L k (N' : nat) s premultiply, sane_host h ->
  (forall store into, scaler_resize_u8 h L N' s store into = scaler_resize_u8 h L N' (scaler_new (sfunction s)) store into) /\
  (forall store into, scaler_resize_rgba h L s store into premultiply = scaler_resize_rgba h L (scaler_new (sfunction s)) store into premultiply) /\
  (forall store into, scaler_resize_u16 h L k N' s store into = scaler_resize_u16 h L k N' (scaler_new (sfunction s)) store into) /\
  (forall store into, scaler_resize_rgba_u16 h L k s store into premultiply = scaler_resize_rgba_u16 h L k (scaler_new (sfunction s)) store into premultiply) /\
  (forall store into, scaler_resize_f32 h L k N' s store into = scaler_resize_f32 h L k N' (scaler_new (sfunction s)) store into) /\
  (forall store into, scaler_resize_rgba_f32 h L k s store into premultiply = scaler_resize_rgba_f32 h L k (scaler_new (sfunction s)) store into premultiply).
Proof.
  intros h L k N' s pm H. split; [|split; [|split; [|split; [|split]]]]; intros store into.
  - apply C13_schedule_independent. apply pool_for_ok; auto.
  - apply C13_schedule_independent_rgba. apply pool_for_ok; auto.
  - exact (proj1 (C13_schedule_independent_u16 k L _ N' _ pm store into (pool_for_ok h s Z into H))).
  - exact (proj2 (C13_schedule_independent_u16 k L _ N' _ pm store into (pool_for_ok h s Z into H))).
  - exact (proj1 (C13_schedule_independent_f32 k L _ N' _ pm store into (pool_for_ok h s f32 into H))).
  - exact (proj2 (C13_schedule_independent_f32 k L _ N' _ pm store into (pool_for_ok h s f32 into H))).
Qed.
Print Assumptions C29_policy_not_observable.

(** The convenience call `scale(options)` does what the scaler method does with the same
    filter and premultiply flag, threads or not. *)
Theorem C29_scale_is_resize : forall h L k (N' : nat) o, sane_host h ->
  (forall store into, scale_u8 h L N' o store into = resize_u8 L (o_function o) N' None store into) /\
  (forall store into, scale_rgba_u8 h L o store into = resize_rgba_u8 L (o_function o) None (o_premultiply o) store into) /\
  (forall store into, scale_u16 h L k N' o store into = resize_u16 k L (o_function o) N' None store into) /\
  (forall store into, scale_rgba_u16 h L k o store into = resize_rgba_u16 k L (o_function o) None (o_premultiply o) store into) /\
  (forall store into, scale_f32 h L k N' o store into = resize_f32 k L (o_function o) N' None store into) /\
  (forall store into, scale_rgba_f32 h L k o store into = resize_rgba_f32 k L (o_function o) None (o_premultiply o) store into).
Proof.
  intros h L k N' o H.
  destruct (C29_policy_not_observable h L k N' (scaler_of_options o) (o_premultiply o) H) as (A & B & C & D & E & F).
  split; [exact A|split; [exact B|split; [exact C|split; [exact D|split; [exact E|exact F]]]]].
Qed.
Print Assumptions C29_scale_is_resize.

(** What the `multithreading` option decides: off, `scale` starts no worker; on, a call that
    resizes starts one worker per 65536 destination pixels, at least one and at most one per
    processor. *)
Theorem C29_options_decide_workers : forall (T : Type) (N' : nat) nd h o m (store into : image T),
  sane_host h -> reported_parallelism h = Some m -> first_error (refusal_table N' nd store into) = None -> changes_size store into ->
  (N.of_nat (width into) * N.of_nat (height into) < 2 ^ 64)%N ->
  workers_of_call N' nd h (spolicy (scaler_of_options o)) store into =
  if o_multithreading o then N.max 1 (N.min m (N.of_nat (width into) * N.of_nat (height into) / 65536)) else 0%N.
Proof.
  intros T N' nd h o m store into H E R C A. unfold workers_of_call. rewrite checks_table, R. cbn [bind].
  destruct ((width store =? width into) && (height store =? height into))%nat eqn:Q.
  { exfalso. apply andb_prop in Q. destruct Q as [Q1 Q2]. apply Nat.eqb_eq in Q1, Q2. destruct C; contradiction. }
  destruct o as [fn pm [|]]; [|reflexivity]. change (spolicy _) with Adaptive. cbn [o_multithreading].
  now apply C29_adaptive_area.
Qed.
Print Assumptions C29_options_decide_workers.
Example C29_options_nonvacuous : sane_host (mkHost (Some 8%N) (fun _ => Some (fun _ n => rev (seq 0 n)))) /\
  first_error (refusal_table 1 false (gray 2 2 2 [1; 2; 3; 4]%Z) (gray 3 1 3 [0; 0; 0]%Z)) = None /\
  changes_size (gray 2 2 2 [1; 2; 3; 4]%Z) (gray 3 1 3 [0; 0; 0]%Z).
Proof.
  split; [|split; [reflexivity|left; discriminate]]. split; [intros n E; injection E as <-; lia|].
  intros n. exact pool_two.
Qed.

(** On the portable path a Single policy keeps every row loop on the calling thread.
    Missing (refuted below): the RGBA16 un-premultiplication of the SSE 4.1 path. *)
Theorem C29_single_stays_partial : forall h w ht, runs portable_loop (get_pool h Single w ht) = CallerThread.
Proof. reflexivity. Qed.
Theorem C29_single_stays_refuted : forall h w ht, runs sse_unpremultiply_u16_loop (get_pool h Single w ht) = GlobalPool.
Proof. reflexivity. Qed.
Print Assumptions C29_single_stays_refuted.

(** Non-vacuity: a host with 8 processors whose pools run tasks backwards. *)
Definition host8 := mkHost (Some 8%N) (fun _ => Some (fun _ n => rev (seq 0 n))).
Example C29_host : sane_host host8.
Proof. split; [intros n [= <-]; lia|intros n; exact pool_two]. Qed.
Example C29_counts : workers_requested host8 Adaptive 640 480 = 4%N /\ workers_requested host8 Adaptive 3840 2160 = 8%N /\
  workers_requested host8 Adaptive 16 16 = 1%N /\ workers_requested host8 (Fixed 0) 16 16 = 1%N.
Proof. repeat split; vm_compute; reflexivity. Qed.

(** ** C13 at the granularity of single loads and stores: a row loop of the crate, run by any
    number of workers whose individual accesses to the shared destination buffer interleave in
    any way.  [ps] are sequential programs for the row tasks (any programs computing the row
    function [f] when run alone); each works on its own chunk of [n] elements, as rayon's
    `par_chunks_exact_mut(n)` guarantees.  Every complete execution leaves exactly the buffer
    of the loop model used in all other theorems. *)
Theorem C13_interleaving : forall (T B : Type) (n : nat) (f : list T -> B -> outcome (list T)) (ss : list B) (mem : list T)
  (ps : list (prog T)) (pool : pool_t) (label m : nat) (ps' : list (prog T)) (mem' : list T),
  0 < n -> length ss <= length mem / n -> Forall2 (implements n f) ss ps -> pool_ok pool ->
  steps n m (ps, mem) (ps', mem') -> Forall (eq Halt) ps' ->
  for_each pool label f (chunks_exact n mem) ss = Done (chunks_exact n mem') /\
  chunks_rem n mem' = chunks_rem n mem /\ length mem' = length mem.
Proof.
  intros T B n f ss mem ps pool label m ps' mem' Hn L P Q H F.
  destruct (interleaving n f ss mem Hn ps P L m ps' mem' H) as (A & _). destruct (A F) as (Z & R & E).
  split; [|split; assumption]. apply for_each_seq; assumption.
Qed.
Print Assumptions C13_interleaving.

(** Executions of a loop the sequential run completes never panic, never get stuck and are finite. *)
Theorem C13_interleaving_completes : forall (T B : Type) (n : nat) (f : list T -> B -> outcome (list T)) (ss : list B) (mem : list T)
  (ps : list (prog T)) (r : list (list T)),
  0 < n -> length ss <= length mem / n -> Forall2 (implements n f) ss ps ->
  for_each None 0 f (chunks_exact n mem) ss = Done r ->
  (exists m ps' mem', steps n m (ps, mem) (ps', mem') /\ Forall (eq Halt) ps') /\
  exists bound, forall m ps' mem', steps n m (ps, mem) (ps', mem') ->
    m <= bound /\ (Forall (eq Halt) ps' \/ exists c, step n (ps', mem') c).
Proof.
  intros T B n f ss mem ps r Hn L P Z. cbn [for_each] in Z. split.
  - exact (completes n f ss mem Hn ps P L r Z).
  - exists (total n (ps, mem)). intros m ps' mem' H.
    destruct (interleaving n f ss mem Hn ps P L m ps' mem' H) as (_ & PR & Le & NC). specialize (NC r Z).
    split; [exact Le|]. destruct PR as [F|S']; [left|right; exact S'].
    rewrite Forall_forall in *. intros p I. destruct (F p I) as [->| ->]; [reflexivity|]. exfalso. exact (NC Crash I eq_refl).
Qed.
Print Assumptions C13_interleaving_completes.

(** Non-vacuity: programs for every row function that keeps the row length. *)
Example C13_programs_exist : forall (T B : Type) (n : nat) (f : list T -> B -> outcome (list T)) (ss : list B),
  (forall d s, length d = n -> match f d s with Done d' => length d' = n | Fail _ => False | Panic => True end) ->
  Forall2 (implements n f) ss (map (program_of n f) ss).
Proof.
  intros T B n f ss H. induction ss as [|s ss IH]; cbn; constructor; [|exact IH].
  apply program_of_ok. intros d. apply H.
Qed.
