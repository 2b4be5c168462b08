(** Specification vocabulary at the level of the public API: what a user sees of an
    image, which calls are valid, which calls are refused. *)
From Coq Require Import ZArith List Bool.
From Verif Require Import Base ImageStore FixedPoint Resize Spec F32 Weights Sampler.
Import ListNotations.

(** ** Specification vocabulary *)

(** Sample (x, y, c) of the image is inside its buffer. *)
Definition addressable {T} (N : nat) (im : image T) : Prop :=
  forall x y c, x < width im -> y < height im -> c < N ->
    y * stride im + x * N + c < length (buf im).

(** The sample a user sees at (x, y, c); [None] when outside the buffer. *)
Definition sample {T} (N : nat) (im : image T) (x y c : nat) : option T :=
  nth_error (buf im) (y * stride im + x * N + c).

(** The two images show the same picture. *)
Definition same_picture {T} (N : nat) (a b : image T) : Prop :=
  width a = width b /\ height a = height b /\
  forall x y c, x < width a -> y < height a -> c < N -> sample N a x y c = sample N b x y c.


(** ** Refused calls *)
Definition first_error (table : list (bool * error)) : option error :=
  match find fst table with Some (_, e) => Some e | None => None end.

Definition mulmod (a b : nat) : nat := N.to_nat ((N.of_nat a * N.of_nat b) mod 2 ^ 64).
Definition row_len {T} (N : nat) (im : image T) : nat := if stride im =? 0 then mulmod (width im) N else stride im.
Definition too_large (w h c : nat) : bool := (2 ^ 64 <=? N.of_nat w * N.of_nat h * N.of_nat c)%N.

(** The conditions under which a resize is refused, in the order in which they
    are reported: destination buffer, destination stride, source buffer, source
    stride, empty image, source too large, destination too large, bit depth. *)
Definition refusal_table {T} (N : nat) (nd : bool) (store into : image T) : list (bool * error) :=
  [ (negb (length (buf into) =? mulmod (row_len N into) (height into)),
     BufferMismatch (mulmod (row_len N into) (height into)) (width into) (height into) N (length (buf into)));
    (stride into <? mulmod (width into) N, InvalidStride (mulmod (width into) N) (stride into));
    (negb (length (buf store) =? mulmod (row_len N store) (height store)),
     BufferMismatch (mulmod (row_len N store) (height store)) (width store) (height store) N (length (buf store)));
    (stride store <? mulmod (width store) N, InvalidStride (mulmod (width store) N) (stride store));
    ((width store =? 0) || (height store =? 0) || (width into =? 0) || (height into =? 0), ZeroImageDimensions);
    (too_large (width store) (height store) (channels store), SourceImageIsTooLarge);
    (too_large (width into) (height into) (channels store), DestinationImageIsTooLarge);
    (nd && ((bit_depth into =? 0) || (16 <? bit_depth into)), UnsupportedBitDepth (bit_depth into)) ].


(** ** Valid calls *)
Definition changes_size {T} (store into : image T) : Prop :=
  width store <> width into \/ height store <> height into.

(** A call a user would consider valid: 1..4 channels, images of [height] rows of
    [stride >= width*channels] samples, everything addressable by the machine, sides
    within the range in which f32 counts exactly. *)
Record valid_call {T} (N : nat) (nd : bool) (f : resampling_function) (store into : image T) : Prop := mkValid {
  vc_N : 1 <= N <= 4;
  vc_src : 0 < width store /\ 0 < height store /\ width store * N <= stride store /\
           length (buf store) = height store * stride store;
  vc_dst : 0 < width into /\ 0 < height into /\ width into * N <= stride into /\
           length (buf into) = height into * stride into;
  vc_chan : channels store = N;
  vc_fits : fits_usize (length (buf store)) /\ fits_usize (length (buf into)) /\
            fits_usize (width store * height into * N);
  vc_depth : nd = true -> 1 <= bit_depth into <= 16;
  vc_sides : (Z.of_nat (width store) <= 2 ^ 23 /\ Z.of_nat (height store) <= 2 ^ 23)%Z;
  vc_area : f = Area -> (Z.of_nat (width into) <= 2 ^ 22 /\ Z.of_nat (height into) <= 2 ^ 22)%Z
}.

(** In both directions the source is at most [t] times as large as the destination. *)
Definition downscale_at_most {T} (t : Z) (store into : image T) : Prop :=
  (Z.of_nat (width store) <= t * Z.of_nat (width into) /\ Z.of_nat (height store) <= t * Z.of_nat (height into))%Z.


(** ** Pictures and windows *)
Definition windows_of {F} (q : F -> Z) (fw : fweights F) : windows :=
  mkWindows (fun o => bstart (nth o (bounds fw) (mkBound 0 0)))
            (fun o => bsize (nth o (bounds fw) (mkBound 0 0)))
            (fun o k => nth (o * aligned_size fw + k) (map q (weights fw)) 0%Z).

(** The picture held by an image. *)
Definition picture_of (N : nat) (im : image Z) : picture :=
  fun y x c => nth (y * stride im + (x * N + c)) (buf im) 0%Z.

Definition samples_in (maxv : Z) (l : list Z) : Prop := Forall (fun v => 0 <= v <= maxv)%Z l.

(** Integer windows the filter induces between two sizes. *)
Definition filter_windows (fl : rfilter) (insz outsz : nat) : windows :=
  windows_of quant_i16 (generate_weights fl insz outsz).


(** The image shows picture [p]. *)
Definition shows {T} (N : nat) (im : image T) (p : nat -> nat -> nat -> T) : Prop :=
  forall x y c, x < width im -> y < height im -> c < N -> sample N im x y c = Some (p y x c).

(** [after] is [before] with other visible samples: same geometry, same bytes in
    the row padding. *)
Record only_pixels_differ {T} (N : nat) (before after : image T) : Prop := mkOPD {
  opd_width : width after = width before;
  opd_height : height after = height before;
  opd_stride : stride after = stride before;
  opd_depth : bit_depth after = bit_depth before;
  opd_channels : channels after = channels before;
  opd_length : length (buf after) = length (buf before);
  opd_padding : forall i, width before * N <= i mod stride before -> nth_error (buf after) i = nth_error (buf before) i
}.
