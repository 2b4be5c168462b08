(** Model of the resize drivers of /repo/src/scaler.rs (lines 570-934) and of
    /repo/src/nearest_sampler.rs, generic in sample type, weight generator and
    convolution passes. *)
From Verif Require Import Base ImageStore FixedPoint Dispatch.

(** What the caller of a `fn f(&self, src: &ImageStore, into: &mut ImageStoreMut)
    -> Result<(), PicScaleError>` observes: the result together with the content
    of [into] afterwards, or a panic. *)
Inductive verdict := Ok | Err (e : error).
Inductive callres (T : Type) :=
| Returned (v : verdict) (into : image T)
| Panicked.
Arguments Returned {T}. Arguments Panicked {T}.

(** `let a = m?; k(a)` where [into] is the destination at that moment. *)
Definition try {T A} (m : outcome A) (into : image T) (k : A -> callres T) : callres T :=
  match m with
  | Done a => k a
  | Fail e => Returned (Err e) into
  | Panic => Panicked
  end.

(** resize_nearest, nearest_sampler.rs 34-99.  [cx in out i] is the source
    coordinate for destination coordinate [i] (lines 58-63 / 81-86), see
    Nearest.v for the f32 computation. *)
Definition nearest_pixel {T} (N : nat) (src : list T) (offset : nat) (d : list T) : outcome (list T) :=
  s <- slice src offset (offset + N) ;;
  Done (copy_row d s).

Definition nearest_row {T} (N : nat) (coord : nat -> nat -> nat -> nat) (src : list T)
  (src_width src_height dst_width dst_height : nat) (d : list T) (y : nat) : outcome (list T) :=
  let src_stride := src_width * N in
  px <- chunks_exact_o N d ;;
  px' <- zip_mut
    (fun p x =>
       nearest_pixel N src (coord src_height dst_height y * src_stride + coord src_width dst_width x * N) p)
    px (seq 0 (length px)) ;;
  Done (unchunk px' (chunks_rem N d)).

Definition resize_nearest {T} (N : nat) (coord : nat -> nat -> nat -> nat) (src : list T)
  (src_width src_height : nat) (dst : list T) (dst_width dst_height : nat) (pool : pool_t)
  : outcome (list T) :=
  let dst_stride := dst_width * N in
  rows <- chunks_exact_o dst_stride dst ;;
  rows' <- for_each pool lbl_nearest
             (nearest_row N coord src src_width src_height dst_width dst_height)
             rows (seq 0 (length rows)) ;;
  Done (unchunk rows' (chunks_rem dst_stride dst)).

(** Everything a Scaler contributes to a resize call. *)
Record engine (T F : Type) := mkEngine {
  (** T::default() *)
  dflt : T;
  (** CheckStoreDensity::should_have_bit_depth, image_store.rs 190-214 *)
  needs_depth : bool;
  (** self.function == Nearest *)
  is_nearest : bool;
  (** nearest coordinate *)
  coord : nat -> nat -> nat -> nat;
  (** generate_weights(in_size, out_size), scaler.rs 353-567 *)
  gen : nat -> nat -> fweights F;
  (** convolve_vertical / convolve_horizontal of the image type; last argument is
      the destination, its bit_depth selects the u16 variant *)
  vconv : fweights F -> pool_t -> image T -> image T -> outcome (image T);
  hconv : fweights F -> pool_t -> image T -> image T -> outcome (image T);
  (** AssociateAlpha / UnassociateAlpha, image_store.rs 517-733 *)
  premul : pool_t -> image T -> image T -> outcome (image T);
  unpremul : pool_t -> image T -> outcome (image T);
  alpha_needed : image T -> outcome bool
}.
Arguments mkEngine {T F}.
Arguments dflt {T F}. Arguments needs_depth {T F}. Arguments is_nearest {T F}. Arguments coord {T F}.
Arguments gen {T F}. Arguments vconv {T F}. Arguments hconv {T F}.
Arguments premul {T F}. Arguments unpremul {T F}. Arguments alpha_needed {T F}.

(** The argument checks, scaler.rs 584-601 (and identically 875-892). *)
Definition checks {T} (N : nat) (nd : bool) (store into : image T) : outcome unit :=
  _ <- validate N into ;;
  _ <- validate N store ;;
  if (width store =? 0) || (height store =? 0) || (width into =? 0) || (height into =? 0)
  then Fail ZeroImageDimensions
  else if check_image_size_overflow (width store) (height store) (channels store)
  then Fail SourceImageIsTooLarge
  else if check_image_size_overflow (width into) (height into) (channels store)
  then Fail DestinationImageIsTooLarge
  else if nd && negb ((1 <=? bit_depth into) && (bit_depth into <=? 16))
  then Fail (UnsupportedBitDepth (bit_depth into))
  else Done tt.

(** generic_resize, scaler.rs 571-666. *)
Definition generic_resize {T F} (N : nat) (E : engine T F) (pool : pool_t) (store into : image T)
  : callres T :=
  try (checks N (needs_depth E) store into) into (fun _ =>
  if (width store =? width into) && (height store =? height into) then
    try (copied_to_mut N store into) into (fun into' => Returned Ok into')
  else if is_nearest E then
    try (resize_nearest N (coord E) (buf store) (width store) (height store)
           (buf into) (width into) (height into) pool) into
        (fun b => Returned Ok (set_buf into b))
  else
    let do_h := negb (width store =? width into) in
    let do_v := negb (height store =? height into) in
    if do_v && do_h then
      let tv := repeat (dflt E) (wmul (wmul (width store) (height into)) N) in
      try (from_slice N tv (width store) (height into)) into (fun nv =>
      let nv := set_bit_depth nv (bit_depth into) in
      try (vconv E (gen E (height store) (height into)) pool store nv) into (fun nv' =>
      let mid := mkImage (buf nv') N (width store) (height into) (wmul (width store) N) (bit_depth into) in
      try (hconv E (gen E (width store) (width into)) pool mid into) into (fun into' =>
      Returned Ok into')))
    else if do_v then
      try (vconv E (gen E (height store) (height into)) pool store into) into (fun into' =>
      Returned Ok into')
    else if do_h then
      try (hconv E (gen E (width store) (width into)) pool store into) into (fun into' =>
      Returned Ok into')
    else Panicked (* assert!(should_do_horizontal || should_do_vertical), line 627 *)).

(** The common head of the three forward_resize_*_with_alpha, scaler.rs 684-713,
    762-790, 819-847: returns the store to convolve and the flag
    has_alpha_premultiplied, which is initialised to [true] (lines 688, 765, 822)
    and never cleared. *)
Definition premultiply_stage {T F} (N : nat) (E : engine T F) (pool : pool_t) (requested : bool)
  (store into : image T) : outcome (image T * bool) :=
  if requested then
    needed <- alpha_needed E store ;;
    if needed then
      let tp := repeat (dflt E) (wmul (wmul (width store) (height store)) N) in
      ns <- from_slice N tp (width store) (height store) ;;
      let ns := set_bit_depth ns (bit_depth into) in
      ns' <- premul E pool store ns ;;
      Done (mkImage (buf ns') N (width store) (height store) (wmul (width store) N) (bit_depth into), true)
    else Done (store, true)
  else Done (store, true).

(** The common tail: lines 739-741, 796-798, 853-855. *)
Definition unpremultiply_stage {T F} (E : engine T F) (pool : pool_t) (requested has_premul : bool)
  (into : image T) : callres T :=
  if requested && has_premul then
    try (unpremul E pool into) into (fun into' => Returned Ok into')
  else Returned Ok into.

(** forward_resize_with_alpha, scaler.rs 668-744. *)
Definition forward_resize_with_alpha {T F} (N : nat) (E : engine T F) (pool : pool_t)
  (requested : bool) (store into : image T) : callres T :=
  try (premultiply_stage N E pool requested store into) into (fun '(src, has) =>
  let tv := repeat (dflt E) (wmul (wmul (width src) (height into)) N) in
  try (from_slice N tv (width src) (height into)) into (fun nv =>
  let nv := set_bit_depth nv (bit_depth into) in
  try (vconv E (gen E (height src) (height into)) pool src nv) into (fun nv' =>
  let mid := mkImage (buf nv') N (width src) (height into) (wmul (width src) N) (bit_depth into) in
  try (hconv E (gen E (width src) (width into)) pool mid into) into (fun into' =>
  unpremultiply_stage E pool requested has into')))).

(** forward_resize_vertical_with_alpha, scaler.rs 746-801. *)
Definition forward_resize_vertical_with_alpha {T F} (N : nat) (E : engine T F) (pool : pool_t)
  (requested : bool) (store into : image T) : callres T :=
  try (premultiply_stage N E pool requested store into) into (fun '(src, has) =>
  try (vconv E (gen E (height src) (height into)) pool src into) into (fun into' =>
  unpremultiply_stage E pool requested has into')).

(** forward_resize_horizontal_with_alpha, scaler.rs 803-858. *)
Definition forward_resize_horizontal_with_alpha {T F} (N : nat) (E : engine T F) (pool : pool_t)
  (requested : bool) (store into : image T) : callres T :=
  try (premultiply_stage N E pool requested store into) into (fun '(src, has) =>
  try (hconv E (gen E (width src) (width into)) pool src into) into (fun into' =>
  unpremultiply_stage E pool requested has into')).

(** generic_resize_with_alpha, scaler.rs 860-933. *)
Definition generic_resize_with_alpha {T F} (N : nat) (E : engine T F) (pool : pool_t)
  (requested : bool) (store into : image T) : callres T :=
  try (checks N (needs_depth E) store into) into (fun _ =>
  if (width store =? width into) && (height store =? height into) then
    try (copied_to_mut N store into) into (fun into' => Returned Ok into')
  else if is_nearest E then
    try (resize_nearest N (coord E) (buf store) (width store) (height store)
           (buf into) (width into) (height into) pool) into
        (fun b => Returned Ok (set_buf into b))
  else
    let do_h := negb (width store =? width into) in
    let do_v := negb (height store =? height into) in
    if do_v && do_h then forward_resize_with_alpha N E pool requested store into
    else if do_v then forward_resize_vertical_with_alpha N E pool requested store into
    else if do_h then forward_resize_horizontal_with_alpha N E pool requested store into
    else Panicked).
