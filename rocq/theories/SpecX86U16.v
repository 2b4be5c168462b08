(** What the 16-bit resize computes on x86-64, described on pictures and windows, without
    reference to registers or loops. *)
From Coq Require Import ZArith List Bool.
From Verif Require Import Base Spec F32 SpecFloat ApiFloat Alpha X86Dispatch X86Alpha X86Float.
Import ListNotations.
Local Open Scope nat_scope.

(** ** Where the vertical pass reads
    A row of n samples is processed in parts of decreasing block size; each part covers as
    many whole blocks as fit.  The first part reads every column from its own position.  A
    later part does not go on where the previous part stopped: it starts again at the
    first column of the LAST BLOCK of the previous part.  [column_read parts 0 n j] is the
    column that destination column j is computed from. *)
Fixpoint column_read (parts : list nat) (from n j : nat) : nat :=
  match parts with
  | [] => from + j
  | B :: rest =>
      if j <? n / B * B then from + j
      else column_read rest (if n / B =? 0 then from else from + (n / B - 1) * B) (n - n / B * B) (j - n / B * B)
  end.
Definition sse_parts : list nat := [16; 8; 4].
Definition avx_parts : list nat := [32; 16; 8; 4].
(** Row lengths for which every column is read from its own position. *)
Definition reads_in_place (parts : list nat) (n : nat) : Prop := forall j, j < n -> column_read parts 0 n j = j.
(** The column of a picture of N channels at flat position q. *)
Definition flat {T} (N : nat) (p : nat -> nat -> nat -> T) (y q : nat) : T := p y (q / N) (q mod N).

(** ** Up to 12 bits: sums in units of 2^-15, rounded to nearest *)
Definition u16_fixed_v (parts : list nat) (N w : nat) (maxv : Z) (V : windows) (p : picture) : picture := fun y x c =>
  round_q15 maxv (zsum (wsize V y) (fun k => (wcoef V y k * flat N p (wstart V y + k) (column_read parts 0 (w * N) (x * N + c)))%Z)).

(** ** More than 12 bits: f32 sums *)
(** Rounded to the nearest integer (ties to even) and clamped to the sample range. *)
Definition nearest_u16 (depth : nat) (v : f32) : Z := clampZ 0 65535 (Z.min (cvtps v) (max_colors depth)).
(** The last n mod 4 columns of a row are computed one by one, by the portable arithmetic
    started from zero and rounded up; the others by vector arithmetic and rounded to
    nearest. *)
Definition u16_float_v (k : mlaf_kind) (fma : bool) (depth N w : nat) (W : taps f32) (p : picture) : picture := fun y x c =>
  let q := column_read sse_parts 0 (w * N) (x * N + c) in
  let xs := fun j => u16_as_f32 (flat N p (tstart W y + j) q) in
  if x * N + c <? w * N / 4 * 4
  then nearest_u16 depth (accumulate_from (prefer_fma fma) 0 (tsize W y) xs (tweight W y) f0)
  else to_mixed_u16 depth (accumulate_from (mlaf k) 0 (tsize W y) xs (tweight W y) f0).

(** The vector kernel for the leftover rows of RGBA images (the last h mod 4 rows) reads the
    wrong pixel for up to two taps: with q8 taps done in groups of eight and q4 >= q8
    taps done in groups of eight or four, tap q8 of a group of four is read one pixel to the right,
    and tap q4 + 1 of a group of two one pixel to the left. *)
Definition taps8 (n : nat) : nat := 8 * ((n - 1) / 8).
Definition taps4 (n : nat) : nat := taps8 n + 4 * ((n - taps8 n - 1) / 4).
Definition tap_read (n k : nat) : nat :=
  if (k =? taps8 n) && (taps8 n <? taps4 n) then k + 1
  else if (k =? taps4 n + 1) && (taps4 n + 2 <? n) then k - 1
  else k.
(** The order in which the taps are added up: in every group of eight 3, 2, 1, 0, 7, 6, 5, 4,
    in a group of four 3, 2, 1, 0, then left to right. *)
Definition tap_order (n : nat) : list nat :=
  flat_map (fun g => map (fun o => 8 * g + o) [3; 2; 1; 0; 7; 6; 5; 4]) (seq 0 ((n - 1) / 8)) ++
  flat_map (fun g => map (fun o => taps8 n + 4 * g + o) [3; 2; 1; 0]) (seq 0 ((n - taps8 n - 1) / 4)) ++
  seq (taps4 n) (n - taps4 n).
Definition ordered_sum (madd : f32 -> f32 -> f32 -> f32) (l : list nat) (x w : nat -> f32) : f32 :=
  fold_left (fun s k => madd s (x k) (w k)) l f0.
(** _mm_max_ps with zero: zero also replaces NaN. *)
Definition not_below_0 (v : f32) : f32 := if fltb f0 v then v else f0.
Definition u16_float_row (fma : bool) (depth : nat) (W : taps f32) (p : picture) : picture := fun y x c =>
  let n := tsize W x in
  nearest_u16 depth (not_below_0 (ordered_sum (prefer_fma fma) (tap_order n)
    (fun k => u16_as_f32 (p y (tstart W x + tap_read n k) c)) (tweight W x))).

(** ** Whole calls, on processor [c] *)
Definition vectors (c : fcpu) : bool := sse41 (base_cpu c) || avx2 (base_cpu c).
Definition vparts (c : fcpu) : list nat := if avx2 (base_cpu c) then avx_parts else sse_parts.
(** Vertical pass, up to 12 bits: without vector instructions the portable one (rounded down). *)
Definition x86u_v (c : fcpu) (N w : nat) (maxv : Z) (V : windows) : picture -> picture :=
  if vectors c then u16_fixed_v (vparts c) N w maxv V else resample_v maxv V.
(** More than 12 bits; [h] is the number of rows. *)
Definition x86u_float_v (k : mlaf_kind) (c : fcpu) (depth N w : nat) (W : taps f32) : picture -> picture :=
  if sse41 (base_cpu c) then u16_float_v k (has_fma c) depth N w W
  else float_v f0 fmul (mlaf k) u16_as_f32 (to_mixed_u16 depth) W.
Definition x86u_float_h (k : mlaf_kind) (c : fcpu) (depth N h : nat) (W : taps f32) (p : picture) : picture := fun y x ch =>
  if (N =? 4) && sse41 (base_cpu c) && (4 * (h / 4) <=? y) then u16_float_row (has_fma c) depth W p y x ch
  else float_h f0 fmul (mlaf k) u16_as_f32 (to_mixed_u16 depth) W p y x ch.
(** Only the directions whose size changes are resampled, rows (vertically) first. *)
Definition u16_two_passes (sw sh dw dh : nat) (PV PH : picture -> picture) (p : picture) : picture :=
  let p := if sh =? dh then p else PV p in if sw =? dw then p else PH p.
Definition x86u_low (c : fcpu) (N sw sh dw dh : nat) (maxv : Z) (V H : windows) : picture -> picture :=
  u16_two_passes sw sh dw dh (x86u_v c N sw maxv V) (resample_h maxv H).
Definition x86u_deep (k : mlaf_kind) (c : fcpu) (depth N sw sh dw dh : nat) (V H : taps f32) : picture -> picture :=
  u16_two_passes sw sh dw dh (x86u_float_v k c depth N sw V) (x86u_float_h k c depth N dh H).
