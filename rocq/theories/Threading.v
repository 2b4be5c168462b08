(** Threading policies and the Scaler object: /repo/src/threading_policy.rs, the Scaler
    methods and the `scale` convenience calls of /repo/src/scaler.rs. *)
From Coq Require Import ZArith NArith List Bool.
From Verif Require Import Base ImageStore Resize F32 Sampler Api ApiRgba FloatConv ApiFloat.
Import ListNotations.

(** threading_policy.rs 41-52 (targets other than wasm32; `Fixed(usize)`). *)
Inductive threading_policy := Single | Fixed (n : N) | Adaptive.

(** What the machine answers: `std::thread::available_parallelism()` ([None] for its error
    case) and rayon's `ThreadPoolBuilder::num_threads(n).build().ok()`: [None] when threads
    cannot be created, otherwise a pool with its schedules (Base.v). *)
Record host := mkHost {
  reported_parallelism : option N;
  build_pool : N -> pool_t
}.

(** ThreadingPolicy::available_parallelism, threading_policy.rs 67-71. *)
Definition available_parallelism (h : host) : N :=
  match reported_parallelism h with Some n => n | None => 1%N end.

(** usize::clamp(lo, hi) (its `assert!(lo <= hi)` cannot fire for lo = 1 and a NonZeroUsize). *)
Definition clampN (lo hi v : N) : N := if (v <? lo)%N then lo else if (hi <? v)%N then hi else v.

(** ThreadingPolicy::thread_count, threading_policy.rs 58-65; `width * height` wraps in a
    release build. *)
Definition thread_count (h : host) (p : threading_policy) (w ht : nat) : N :=
  match p with
  | Single => 1
  | Fixed n => N.max n 1
  | Adaptive => clampN 1 (available_parallelism h) (N.of_nat (wmul w ht) / (256 * 256))
  end.

(** ThreadingPolicy::get_pool, threading_policy.rs 80-90. *)
Definition get_pool (h : host) (p : threading_policy) (w ht : nat) : pool_t :=
  match p with
  | Single => None
  | _ => build_pool h (thread_count h p w ht)
  end.

(** The number of worker threads `get_pool` asks rayon to create (0: rayon is not asked). *)
Definition workers_requested (h : host) (p : threading_policy) (w ht : nat) : N :=
  match p with Single => 0%N | _ => thread_count h p w ht end.

(** The workers a whole call requests: the pool is built after the argument checks and after
    the same-size shortcut, for the size of the destination (scaler.rs 584-611, 875-902). *)
Definition workers_of_call {T} (N' : nat) (nd : bool) (h : host) (p : threading_policy) (store into : image T) : N :=
  match checks N' nd store into with
  | Done _ => if (width store =? width into) && (height store =? height into) then 0%N
              else workers_requested h p (width into) (height into)
  | _ => 0%N
  end.

(** struct Scaler, scaler.rs 47-52 (workload_strategy only selects vector kernels, which are not
    on the portable path); Scaler::new 341-347; set_threading_policy 937-939. *)
Record scaler := mkScaler { sfunction : resampling_function; spolicy : threading_policy }.
Definition scaler_new (f : resampling_function) : scaler := mkScaler f Single.
Definition set_threading_policy (s : scaler) (p : threading_policy) : scaler := mkScaler (sfunction s) p.

Section Methods.
Variable h : host.
Variable L : libm.
Variable k : mlaf_kind.
Definition pool_for {T} (s : scaler) (into : image T) : pool_t := get_pool h (spolicy s) (width into) (height into).
(** Scaler::resize_plane, resize_cbcr8, resize_rgb; resize_rgba (scaler.rs 936-1190). *)
Definition scaler_resize_u8 (N' : nat) (s : scaler) (store into : image Z) : callres Z :=
  resize_u8 L (sfunction s) N' (pool_for s into) store into.
Definition scaler_resize_rgba (s : scaler) (store into : image Z) (premultiply : bool) : callres Z :=
  resize_rgba_u8 L (sfunction s) (pool_for s into) premultiply store into.
Definition scaler_resize_u16 (N' : nat) (s : scaler) (store into : image Z) : callres Z :=
  resize_u16 k L (sfunction s) N' (pool_for s into) store into.
Definition scaler_resize_rgba_u16 (s : scaler) (store into : image Z) (premultiply : bool) : callres Z :=
  resize_rgba_u16 k L (sfunction s) (pool_for s into) premultiply store into.
Definition scaler_resize_f32 (N' : nat) (s : scaler) (store into : image f32) : callres f32 :=
  resize_f32 k L (sfunction s) N' (pool_for s into) store into.
Definition scaler_resize_rgba_f32 (s : scaler) (store into : image f32) (premultiply : bool) : callres f32 :=
  resize_rgba_f32 k L (sfunction s) (pool_for s into) premultiply store into.

(** struct ScalingOptions, scaler.rs 1190-1196. *)
Record scaling_options := mkOptions {
  o_function : resampling_function; o_premultiply : bool; o_multithreading : bool }.
(** The scaler every `ImageStoreScaling::scale` builds, e.g. scaler.rs 1214-1219. *)
Definition scaler_of_options (o : scaling_options) : scaler :=
  set_threading_policy (scaler_new (o_function o)) (if o_multithreading o then Adaptive else Single).
(** `scale` of Planar8/CbCr8/Rgb8 (scaler.rs 1224-1276) and Rgba8 (1208-1222) images ... *)
Definition scale_u8 (N' : nat) (o : scaling_options) (store into : image Z) : callres Z :=
  scaler_resize_u8 N' (scaler_of_options o) store into.
Definition scale_rgba_u8 (o : scaling_options) (store into : image Z) : callres Z :=
  scaler_resize_rgba (scaler_of_options o) store into (o_premultiply o).
(** ... of 16-bit images (1278-1337), ... *)
Definition scale_u16 (N' : nat) (o : scaling_options) (store into : image Z) : callres Z :=
  scaler_resize_u16 N' (scaler_of_options o) store into.
Definition scale_rgba_u16 (o : scaling_options) (store into : image Z) : callres Z :=
  scaler_resize_rgba_u16 (scaler_of_options o) store into (o_premultiply o).
(** ... and of f32 images (1338-1400). *)
Definition scale_f32 (N' : nat) (o : scaling_options) (store into : image f32) : callres f32 :=
  scaler_resize_f32 N' (scaler_of_options o) store into.
Definition scale_rgba_f32 (o : scaling_options) (store into : image f32) : callres f32 :=
  scaler_resize_rgba_f32 (scaler_of_options o) store into (o_premultiply o).
End Methods.

(** ** Where a row loop runs.  Every row loop of the crate has one of two shapes: *)
Inductive row_loop :=
| PoolOrCaller   (* `if let Some(pool) { pool.install(par_chunks..) } else { chunks_exact_mut(..) }` *)
| AlwaysParallel (* `if let Some(pool) { pool.install(par_chunks..) } else { par_chunks_exact_mut(..) }` *).
Inductive runs_on := CallerThread | OwnPool | GlobalPool.
Definition runs (l : row_loop) (pool : pool_t) : runs_on :=
  match l, pool with
  | _, Some _ => OwnPool
  | PoolOrCaller, None => CallerThread
  | AlwaysParallel, None => GlobalPool
  end.
(** dispatch_group_u8.rs 52-135, dispatch_group_u16.rs 61-200, dispatch_group_f32.rs 50-190,
    alpha_handle_u8.rs 60-150, alpha_handle_u16.rs 125-185, alpha_handle_f32.rs 85-130,
    nearest_sampler.rs 45-80: *)
Definition portable_loop : row_loop := PoolOrCaller.
(** sse/alpha_u16.rs 200-231, the un-premultiplication of RGBA16 on x86 with SSE 4.1: *)
Definition sse_unpremultiply_u16_loop : row_loop := AlwaysParallel.
