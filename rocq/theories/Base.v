(** Base vocabulary of the model: outcomes, slices, chunk iterators, machine words.

    Nothing here is specific to pic-scale; each definition says which Rust / std
    construct it stands for. *)
From Coq Require Export List Arith ZArith NArith Lia Bool.
Export ListNotations.

(** Errors a public call may return: /repo/src/pic_scale_error.rs lines 41-50
    (enum PicScaleError) and 32-39 (struct PicScaleBufferMismatch). *)
Inductive error : Type :=
| ZeroImageDimensions
| SourceImageIsTooLarge
| DestinationImageIsTooLarge
| BufferMismatch (expected width height channels slice_len : nat)
| InvalidStride (minimal given : nat)
| UnsupportedBitDepth (depth : nat)
| UnknownResizingFilter.

(** Outcome of a Rust call: a value, an `Err`, or a panic.  An out-of-range
    `get_unchecked` (undefined behaviour in Rust) is also mapped to [Panic]. *)
Inductive outcome (A : Type) : Type :=
| Done (a : A)
| Fail (e : error)
| Panic.
Arguments Done {A} a.
Arguments Fail {A} e.
Arguments Panic {A}.

Definition bind {A B} (m : outcome A) (f : A -> outcome B) : outcome B :=
  match m with Done a => f a | Fail e => Fail e | Panic => Panic end.
Notation "x <- m ;; k" := (bind m (fun x => k))
  (at level 61, m at next level, right associativity).
Notation "' p <- m ;; k" := (bind m (fun x => match x with p => k end))
  (at level 61, p pattern, m at next level, right associativity).

(** `s[i]` (panics out of range). *)
Definition idx {A} (l : list A) (i : nat) : outcome A :=
  match nth_error l i with Some a => Done a | None => Panic end.

(** `&s[a..b]` (panics unless a <= b <= len). *)
Definition slice {A} (l : list A) (a b : nat) : outcome (list A) :=
  if andb (a <=? b) (b <=? length l) then Done (firstn (b - a) (skipn a l)) else Panic.

(** `&s[a..]`. *)
Definition slice_from {A} (l : list A) (a : nat) : outcome (list A) :=
  if a <=? length l then Done (skipn a l) else Panic.

(** Writing [v] over positions [a ..  a + length v) of [l]: the effect of
    storing through a `&mut s[a..b]`. *)
Definition splice {A} (l : list A) (a : nat) (v : list A) : list A :=
  firstn a l ++ v ++ skipn (a + length v) l.

(** `s[i] = v`; the range check is the caller's ([set_idx] panics). *)
Definition upd {A} (l : list A) (i : nat) (v : A) : list A :=
  firstn i l ++ match skipn i l with [] => [] | _ :: t => v :: t end.
Definition set_idx {A} (l : list A) (i : nat) (v : A) : outcome (list A) :=
  if i <? length l then Done (upd l i v) else Panic.

(** `chunks_exact(k)` / `chunks_exact_mut(k)` / rayon's `par_chunks_exact(_mut)`:
    the i-th chunk is elements [i*k, i*k+k); there are len / k of them.
    A zero chunk size panics ([chunks_ok]). *)
Definition chunk {A} (k : nat) (l : list A) (i : nat) : list A :=
  firstn k (skipn (i * k) l).
Definition chunks_exact {A} (k : nat) (l : list A) : list (list A) :=
  map (chunk k l) (seq 0 (length l / k)).
(** `.remainder()` / `.into_remainder()`. *)
Definition chunks_rem {A} (k : nat) (l : list A) : list A :=
  skipn (length l / k * k) l.
Definition chunks_exact_o {A} (k : nat) (l : list A) : outcome (list (list A)) :=
  if k =? 0 then Panic else Done (chunks_exact k l).

(** `dst_iter.zip(src_iter).for_each(|(d, s)| ...)` where the body rewrites its
    [d] in place: zip stops at the shorter side, so surplus destination items
    are unchanged. *)
Fixpoint zip_mut {A B} (f : A -> B -> outcome A) (ds : list A) (ss : list B)
  : outcome (list A) :=
  match ds, ss with
  | d :: ds', s :: ss' =>
      d' <- f d s ;; r <- zip_mut f ds' ss' ;; Done (d' :: r)
  | _, _ => Done ds
  end.

(** The whole buffer after the chunks were rewritten in place. *)
Definition unchunk {A} (cs : list (list A)) (rem : list A) : list A := concat cs ++ rem.

Fixpoint seqM {A} (ms : list (outcome A)) : outcome (list A) :=
  match ms with
  | [] => Done []
  | m :: r => a <- m ;; t <- seqM r ;; Done (a :: t)
  end.

(** Fold with early exit, for loops whose body may panic. *)
Fixpoint foldM {A S} (f : S -> A -> outcome S) (l : list A) (s : S) : outcome S :=
  match l with
  | [] => Done s
  | a :: r => s' <- f s a ;; foldM f r s'
  end.

(** usize is a 64-bit word; in a release build `*` wraps. *)
Definition usize_mod : N := (2 ^ 64)%N.
Definition wmul (a b : nat) : nat :=
  N.to_nat ((N.of_nat a * N.of_nat b) mod usize_mod)%N.
(** `overflowing_mul(..).1` *)
Definition mul_overflows (a b : nat) : bool :=
  (usize_mod <=? N.of_nat a * N.of_nat b)%N.
(** A nat that fits a usize. *)
Definition fits_usize (a : nat) : Prop := (N.of_nat a < usize_mod)%N.

(** A rayon loop `par_chunks_exact_mut(..).zip(..).for_each(body)`: the tasks are
    the zipped pairs; a schedule is the order in which tasks run (a list of task
    numbers).  Each task owns its destination chunk (rayon hands out disjoint
    `&mut`), so running task [i] replaces chunk [i] by the body's result.
    Interleaving at the granularity of single stores is treated in Parallel.v. *)
Definition run_task {A B} (f : A -> B -> outcome A) (ss : list B) (ds : list A) (i : nat)
  : outcome (list A) :=
  match nth_error ds i, nth_error ss i with
  | Some d, Some s => d' <- f d s ;; Done (upd ds i d')
  | _, _ => Panic
  end.
Definition zip_sched {A B} (order : list nat) (f : A -> B -> outcome A)
  (ds : list A) (ss : list B) : outcome (list A) :=
  foldM (run_task f ss) order ds.

(** A thread pool, or none.  [Some sched] gives for every loop (identified by a
    label) and number of tasks the order in which the pool happens to run them. *)
Definition pool_t : Type := option (nat -> nat -> list nat).

(** `if let Some(pool) = pool { par loop } else { sequential loop }`. *)
Definition for_each {A B} (pool : pool_t) (label : nat) (f : A -> B -> outcome A)
  (ds : list A) (ss : list B) : outcome (list A) :=
  match pool with
  | None => zip_mut f ds ss
  | Some sched => zip_sched (sched label (Nat.min (length ds) (length ss))) f ds ss
  end.

(** i32 two's complement wrap-around (release build `+`, `*`, `+=` on i32). *)
Definition wrap32 (z : Z) : Z := (z + 2 ^ 31) mod 2 ^ 32 - 2 ^ 31.
Definition add32 (a b : Z) : Z := wrap32 (a + b).
Definition mul32 (a b : Z) : Z := wrap32 (a * b).
