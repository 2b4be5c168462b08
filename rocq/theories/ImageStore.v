(** Model of /repo/src/image_store.rs (image records, constructors, validation,
    copies) and of the size checks in /repo/src/support.rs. *)
From Verif Require Import Base.

(** struct ImageStore / ImageStoreMut, image_store.rs lines 50-68 and 78-95.
    The two structs have the same fields; ownership of the buffer (Cow,
    BufferStore) is not modelled. *)
Record image (T : Type) : Type := mkImage {
  buf : list T;
  channels : nat;
  width : nat;
  height : nat;
  stride : nat;
  bit_depth : nat
}.
Arguments mkImage {T}.
Arguments buf {T}. Arguments channels {T}. Arguments width {T}.
Arguments height {T}. Arguments stride {T}. Arguments bit_depth {T}.

Definition set_buf {T} (im : image T) (b : list T) : image T :=
  mkImage b (channels im) (width im) (height im) (stride im) (bit_depth im).
Definition set_bit_depth {T} (im : image T) (d : nat) : image T :=
  mkImage (buf im) (channels im) (width im) (height im) (stride im) d.

(** ImageStore::new 129-151, ImageStore::borrow 153-175, ImageStore::from_slice
    402-425, ImageStoreMut::new 268-290, ::borrow 295-317, ::from_slice 469-492:
    all six have the same body. *)
Definition from_slice {T} (N : nat) (s : list T) (w h : nat) : outcome (image T) :=
  let expected_size := wmul (wmul w h) N in
  if negb (length s =? wmul (wmul w h) N)
  then Fail (BufferMismatch expected_size w h N (length s))
  else Done (mkImage s N w h (wmul w N) 0).

(** alloc 177-187 / 322-332 (depth 0), alloc_with_depth 335-349. *)
Definition alloc_with_depth {T} (zero : T) (N w h depth : nat) : image T :=
  mkImage (repeat zero (wmul (wmul w N) h)) N w h (wmul w N) depth.

(** fn stride(): 362-367 and 378-383. *)
Definition stride_of {T} (N : nat) (im : image T) : nat :=
  if stride im =? 0 then wmul (width im) N else stride im.

(** validate: 221-236 (mut) and 243-258 (shared); identical bodies. *)
Definition validate {T} (N : nat) (im : image T) : outcome unit :=
  let expected_size := wmul (stride_of N im) (height im) in
  if negb (length (buf im) =? wmul (stride_of N im) (height im))
  then Fail (BufferMismatch expected_size (width im) (height im) N (length (buf im)))
  else if stride im <? wmul (width im) N
  then Fail (InvalidStride (wmul (width im) N) (stride im))
  else Done tt.

(** copied 427-436 / 494-503 and to_immutable 505-514: same body. *)
Definition copied {T} (N : nat) (im : image T) : image T :=
  mkImage (buf im) N (width im) (height im) (wmul (width im) N) (bit_depth im).

(** Inner loop of copied_to_mut, 446-448: `for (&src, dst) in src_row.iter().zip(dst_row.iter_mut())`. *)
Definition copy_row {T} (dst_row src_row : list T) : list T :=
  let n := Nat.min (length src_row) (length dst_row) in
  firstn n src_row ++ skipn n dst_row.

(** copied_to_mut 438-450. *)
Definition copied_to_mut {T} (N : nat) (im into : image T) : outcome (image T) :=
  srows <- chunks_exact_o (stride_of N im) (buf im) ;;
  drows <- chunks_exact_o (stride_of N into) (buf into) ;;
  drows' <- zip_mut (fun d s => Done (copy_row d s)) drows srows ;;
  Done (set_buf into (unchunk drows' (chunks_rem (stride_of N into) (buf into)))).

(** check_image_size_overflow, support.rs 33-40. *)
Definition check_image_size_overflow (w h chan : nat) : bool :=
  if mul_overflows w chan then true
  else mul_overflows h (wmul w chan).

(** PicScaleError::code, pic_scale_error.rs 54-64. *)
Definition error_code (e : error) : nat :=
  match e with
  | ZeroImageDimensions => 1
  | SourceImageIsTooLarge => 2
  | DestinationImageIsTooLarge => 3
  | BufferMismatch _ _ _ _ _ => 4
  | InvalidStride _ _ => 5
  | UnsupportedBitDepth _ => 6
  | UnknownResizingFilter => 7
  end.
