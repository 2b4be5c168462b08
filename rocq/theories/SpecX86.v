(** What the 8-bit resize computes on x86-64, described on pictures and windows,
    without reference to registers or loops. *)
From Coq Require Import ZArith List Bool.
From Verif Require Import Base ImageStore Spec SpecApi X86Dispatch.
Local Open Scope Z_scope.

(** ** Quality arithmetic: exact sums in units of 2^-15 *)
Definition sum_v (W : windows) (p : picture) (y x c : nat) : Z :=
  zsum (wsize W y) (fun k => wcoef W y k * p (wstart W y + k)%nat x c).
(** Rounding to nearest (the portable vertical pass rounds down). *)
Definition round_v (W : windows) (p : picture) : picture := fun y x c => round_q15 255 (sum_v W p y x c).
(** The SSE4.1 vertical pass: the first [32 * ((n-1)/32)] bytes of a row of n bytes are
    stored without the division by 2^15. *)
Definition undivided (N n x c : nat) : bool := (x * N + c <? 32 * ((n * N - 1) / 32))%nat.
Definition sse_v (N n : nat) (W : windows) (p : picture) : picture := fun y x c =>
  if undivided N n x c then clampZ 0 255 (2 ^ 14 + sum_v W p y x c) else round_q15 255 (sum_v W p y x c).

(** The AVX2 horizontal pass of RGB images: red and green of the last one or two taps of
    every window are taken from column 0. *)
Definition misread (size k c : nat) : bool := ((c <? 2) && (2 * ((size - 1) / 2) <=? k))%nat.
Definition avx_rgb_h (W : windows) (p : picture) : picture := fun y x c =>
  round_q15 255 (zsum (wsize W x) (fun k =>
    wcoef W x k * (if misread (wsize W x) k c then p y 0%nat c else p y (wstart W x + k)%nat c))).

(** ** Low precision arithmetic: samples widened to 14 bits, 16-bit sums *)
Definition lp_product (v w : Z) : Z := (257 * v / 4 * w / 2 ^ 14 + 1) / 2.
Definition to_i16 (z : Z) : Z := (z + 2 ^ 15) mod 2 ^ 16 - 2 ^ 15.
Definition lp_store (s : Z) : Z := clampZ 0 255 (to_i16 (32 + s) / 64).
Definition lp_v (W : windows) (p : picture) : picture := fun y x c =>
  lp_store (zsum (wsize W y) (fun k => lp_product (p (wstart W y + k)%nat x c) (wcoef W y k))).
Definition lp_h (W : windows) (p : picture) : picture := fun y x c =>
  lp_store (zsum (wsize W x) (fun k => lp_product (p y (wstart W x + k)%nat c) (wcoef W x k))).
(** The AVX2 kernel for RGBA gives the alpha of every eighth tap (from the fifth on, while
    eight taps remain) the coefficient of its right neighbour. *)
Definition misweighted (size k c : nat) : bool :=
  ((c =? 3) && (k mod 8 =? 4) && (k <? 8 * ((size - 1) / 8)))%nat.
Definition avx_rgba_lp_h (W : windows) (p : picture) : picture := fun y x c =>
  lp_store (zsum (wsize W x) (fun k => lp_product (p y (wstart W x + k)%nat c)
    (wcoef W x (if misweighted (wsize W x) k c then (k + 1)%nat else k)))).

(** ** Which arithmetic runs *)
Definition below_8 (a b : nat) : bool := (a <? 8 * b)%nat.
Definition x86_v (c : cpu) (s : strategy) (N sw sh dh : nat) (W : windows) : picture -> picture :=
  if speed s && below_8 sh dh && (sse41 c || avx2 c) then lp_v W
  else if avx2 c then round_v W
  else if sse41 c then sse_v N sw W
  else resample_v 255 W.
Definition x86_h (c : cpu) (s : strategy) (N sw dw : nat) (W : windows) : picture -> picture :=
  match N with
  | 1%nat => if sse41 c && speed s then lp_h W else resample_h 255 W
  | 2%nat => if sse41 c && speed s && below_8 sw dw then lp_h W else resample_h 255 W
  | 3%nat => if avx2 c then avx_rgb_h W else resample_h 255 W
  | _ => if speed s && (avx2 c || below_8 sw dw) then avx_rgba_lp_h W else resample_h 255 W
  end.
Definition x86_resample (c : cpu) (s : strategy) (N sw sh dw dh : nat) (V H : windows) (p : picture) : picture :=
  let p := if negb (sh =? dh)%nat then x86_v c s N sw sh dh V p else p in
  if negb (sw =? dw)%nat then x86_h c s N sw dw H p else p.

(** The call that executes AVX2 code on a processor without AVX2. *)
Definition traps (c : cpu) (s : strategy) (N sw dw : nat) : bool :=
  (N =? 4)%nat && speed s && negb (avx2 c) && below_8 sw dw && negb (sw =? dw)%nat.

(** Sums of 8-bit samples stay below 2^30. *)
Definition narrow_safe (W : windows) (n : nat) : Prop :=
  forall o, (o < n)%nat -> zsum (wsize W o) (fun k => Z.abs (wcoef W o k)) * 255 + 2 ^ 14 < 2 ^ 30.

(** Samples of [a] exceed those of [b] by at least [lo] and at most [hi]. *)
Definition differ_by (lo hi : Z) (N : nat) (a b : image Z) : Prop :=
  forall x y c v w, (x < width a)%nat -> (y < height a)%nat -> (c < N)%nat ->
    sample N a x y c = Some v -> sample N b x y c = Some w -> lo <= v - w <= hi.
