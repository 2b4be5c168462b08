(** What the caller of the C interface sees in memory. *)
From Coq Require Import ZArith List Bool.
From Flocq Require Import IEEE754.BinarySingleNaN.
From Verif Require Import Base ImageStore BaseProofs Sampler SpecApi CApi.
Import ListNotations.
Local Open Scope nat_scope.

(** Sample (x, y, k) of the image at the start of memory [m]: rows begin every [pitch]
    bytes, pixels have [N] samples of [esize e] bytes. *)
Definition c_sample {T} (e : elem T) (N : nat) (m : list Z) (pitch x y k : nat) : option T :=
  let off := y * pitch + (x * N + k) * esize e in
  if off + esize e <=? length m then Some (edec e (firstn (esize e) (skipn off m))) else None.

(** Byte [i] of the memory belongs to a pixel. *)
Definition pixel_byte (N size pitch w h i : nat) : Prop :=
  exists x y k b, x < w /\ y < h /\ k < N /\ b < size /\ i = y * pitch + (x * N + k) * size + b.

Definition bytes (m : list Z) : Prop := Forall (fun b => 0 <= b < 256)%Z m.

(** [im] holds the w by h picture described by memory, pitch and channel count. *)
Definition describes {T} (e : elem T) (N : nat) (m : list Z) (pitch w h depth : nat) (im : image T) : Prop :=
  width im = w /\ height im = h /\ channels im = N /\ bit_depth im = depth /\ w * N <= stride im <= pitch /\ length (buf im) = h * stride im /\
  forall x y k, x < w -> y < h -> k < N -> sample N im x y k = c_sample e N m pitch x y k.

(** Every aligned 32-bit word of the memory read as an f32 is a number (the model has one NaN). *)
Definition no_nans (m : list Z) : Prop :=
  forall j, j * 4 + 4 <= length m -> edec elem_f32 (firstn 4 (skipn (j * 4) m)) <> B754_nan.

(** The memory at [b] holds [h] rows of [pitch] bytes, each with room for [w] pixels. *)
Definition holds_rows {T} (e : elem T) (N : nat) (b : block) (pitch w h : nat) : Prop :=
  0 < w /\ 0 < h /\ w * N * esize e <= pitch /\ pitch * h <= length (mem b) /\ fits_usize (pitch * h).

(** Pointer and pitch suit the sample type. *)
Definition well_aligned {T} (e : elem T) (b : block) (pitch : nat) : Prop :=
  addr b mod ealign e = 0 /\ pitch mod esize e = 0.

(** [m'] is [m] with the pixels of [out] in place of those of the w by h image. *)
Definition replaced {T} (e : elem T) (N : nat) (m m' : list Z) (pitch w h : nat) (out : image T) : Prop :=
  length m' = length m /\
  (forall x y k, x < w -> y < h -> k < N -> c_sample e N m' pitch x y k = sample N out x y k) /\
  (forall i, ~ pixel_byte N (esize e) pitch w h i -> nth_error m' i = nth_error m i).

(** The filters of the C header by number, and the Rust filter of the same name. *)
Definition header_filters : list (Z * resampling_function) :=
  [(0, Nearest); (1, Bilinear); (2, Lanczos3); (3, MitchellNetravalli); (4, Bicubic); (5, CatmullRom)]%Z.
