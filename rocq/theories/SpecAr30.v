(** Specification vocabulary for packed 30-bit images, in arithmetic on bytes. *)
From Coq Require Import ZArith List Bool.
From Verif Require Import Base ImageStore Spec Sampler SpecApi Ar30.
Import ListNotations.
Local Open Scope Z_scope.

(** The 32-bit word stored in the four bytes from position i: least significant byte
    first, or most significant byte first in network order. *)
Definition word_at (o : byte_order) (b : list Z) (i : nat) : Z :=
  let d k := nth (i + k) b 0 in
  match o with
  | HostOrder => d 0%nat + 256 * d 1%nat + 65536 * d 2%nat + 16777216 * d 3%nat
  | NetworkOrder => d 3%nat + 256 * d 2%nat + 65536 * d 1%nat + 16777216 * d 0%nat
  end.

(** Fields of a word: colour c = 0 (red), 1 (green), 2 (blue); the two alpha bits.
    AR30 has alpha in the top bits and red lowest, RA30 red in the top bits and alpha lowest. *)
Definition colour (t : rgb30) (w : Z) (c : nat) : Z :=
  match t, c with
  | Ar30, O => w mod 1024 | Ar30, 1%nat => (w / 2 ^ 10) mod 1024 | Ar30, _ => (w / 2 ^ 20) mod 1024
  | Ra30, O => w / 2 ^ 22 | Ra30, 1%nat => (w / 2 ^ 12) mod 1024 | Ra30, _ => (w / 2 ^ 2) mod 1024
  end.
Definition alpha_bits (t : rgb30) (w : Z) : Z := match t with Ar30 => w / 2 ^ 30 | Ra30 => w mod 4 end.

(** The picture held by a byte buffer with rows of [stride] bytes. *)
Definition picture30 (t : rgb30) (o : byte_order) (b : list Z) (stride : nat) : picture :=
  fun y x c => colour t (word_at o b (y * stride + x * 4)) c.

(** Both directions round to the nearest integer. *)
Definition resample30 (do_v do_h : bool) (V H : windows) (p : picture) : picture :=
  let p := if do_v then fun y x c => round_q15 1023 (zsum (wsize V y) (fun k => wcoef V y k * p (wstart V y + k)%nat x c)) else p in
  if do_h then resample_h 1023 H p else p.

(** The same with [taps y n] of the n taps of each window in row y. *)
Definition resample30_taps (taps : nat -> nat -> nat) (do_v do_h : bool) (V H : windows) (p : picture) : picture :=
  let p := if do_v then fun y x c => round_q15 1023 (zsum (wsize V y) (fun k => wcoef V y k * p (wstart V y + k)%nat x c)) else p in
  if do_h then fun y x c => round_q15 1023 (zsum (taps y (wsize H x)) (fun k => wcoef H x k * p y (wstart H x + k)%nat c)) else p.

(** The taps the code uses in row y of h rows: all n in the groups of four rows; in the
    remaining (h mod 4) rows all of them only when n is 2, 3, 4 or 6, otherwise a quarter. *)
Definition taps30 (h y n : nat) : nat :=
  if (y <? 4 * (h / 4))%nat then n
  else match n with 2%nat | 3%nat | 4%nat | 6%nat => n | _ => (n / 4)%nat end.

Definition bytes_in (l : list Z) : Prop := Forall (fun v => 0 <= v < 256) l.

(** A call a user would consider valid: [sh] rows of [ss >= 4*sw] bytes, [dh] rows of
    [ds >= 4*dw] bytes, sizes addressable by the machine, sides in the exact range of f32. *)
Record valid30 (f : resampling_function) (src : list Z) (ss sw sh : nat) (dst : list Z) (ds dw dh : nat) : Prop := mkValid30 {
  v30_src : (0 < sw /\ 0 < sh /\ sw * 4 <= ss /\ length src = sh * ss)%nat;
  v30_dst : (0 < dw /\ 0 < dh /\ dw * 4 <= ds /\ length dst = dh * ds)%nat;
  v30_fits : fits_usize (length src) /\ fits_usize (length dst) /\ fits_usize (sw * dh * 4);
  v30_sides : Z.of_nat sw <= 2 ^ 23 /\ Z.of_nat sh <= 2 ^ 23;
  v30_area : f = Area -> Z.of_nat dw <= 2 ^ 22 /\ Z.of_nat dh <= 2 ^ 22;
  v30_bytes : bytes_in src
}.

(** [after] is [before] with the visible bytes rewritten: same length, same padding. *)
Definition only_visible_differ (ds dw : nat) (before after : list Z) : Prop :=
  length after = length before /\
  forall i, (dw * 4 <= i mod ds)%nat -> nth_error after i = nth_error before i.

(** The buffer shows picture [p], fully opaque. *)
Definition shows30 (t : rgb30) (o : byte_order) (b : list Z) (stride w h : nat) (p : picture) : Prop :=
  forall x y, (x < w)%nat -> (y < h)%nat ->
    alpha_bits t (word_at o b (y * stride + x * 4)) = 3 /\
    forall c, (c < 3)%nat -> picture30 t o b stride y x c = p y x c.

(** The conditions under which a packed 30-bit resize is refused, in the order in which
    they are reported. *)
Definition refusal_table30 (src : list Z) (ss sw sh : nat) (dst : list Z) (ds dw dh : nat) : list (bool * error) :=
  [ (((sw =? 0) || (sh =? 0) || (dw =? 0) || (dh =? 0))%nat, ZeroImageDimensions);
    (too_large sw sh 4, SourceImageIsTooLarge);
    (too_large dw dh 4, DestinationImageIsTooLarge);
    (negb (length src =? mulmod ss sh)%nat, BufferMismatch (mulmod ss sh) sw sh 4 (length src));
    ((ss <? mulmod sw 4)%nat, InvalidStride (mulmod sw 4) ss);
    (negb (length dst =? mulmod ds dh)%nat, BufferMismatch (mulmod ds dh) dw dh 4 (length dst));
    ((ds <? mulmod dw 4)%nat, InvalidStride (mulmod dw 4) ds) ].
