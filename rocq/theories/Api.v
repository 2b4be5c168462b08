(** The engines behind the public methods of Scaler (/repo/src/scaler.rs 936-1190 and
    the trait impls below), portable code path. *)
From Coq Require Import ZArith List Bool.
From Verif Require Import Base ImageStore FixedPoint Dispatch Resize F32 Weights Sampler.
Import ListNotations.

(** ** The portable fixed point engine (8-bit images, and deep images of at most
    12 bits: /repo/src/plane_u8.rs, cbcr8.rs, rgb_u8.rs, rgba_u8.rs defaults). *)
Definition fixed_engine {F} (N : nat) (maxv : Z) (q : F -> Z) (nd nearest : bool)
  (crd : nat -> nat -> nat -> nat) (g : nat -> nat -> fweights F)
  pre unpre need : engine Z F :=
  mkEngine 0%Z nd nearest crd g
    (fun fw pool im into => vpass q N maxv fw pool im into)
    (fun fw pool im into => hpass q N maxv fw pool im into)
    pre unpre need.

(** The engine: portable kernels, weights of generate_weights, 16-bit fixed point.
    [maxv] is 255 for 8-bit images and 2^depth - 1 for 16-bit images of depth <= 12. *)
Definition portable (N : nat) (maxv : Z) (nd nearest : bool) (fl : rfilter) pre unpre need : engine Z f32 :=
  fixed_engine N maxv quant_i16 nd nearest nearest_coord (generate_weights fl) pre unpre need.

(** `self.function == ResamplingFunction::Nearest`, scaler.rs 608 and 899. *)
Definition wants_nearest (f : resampling_function) : bool := match f with Nearest => true | _ => false end.

(** A Scaler for filter [f] on images of N channels with fixed point kernels.
    [nd] tells whether the destination needs a bit depth (u16). *)
Definition scaler_engine (L : libm) (f : resampling_function) (N : nat) (maxv : Z) (nd : bool)
  pre unpre need : engine Z f32 :=
  portable N maxv nd (wants_nearest f) (resampling_filter L f) pre unpre need.


(** Scaler::resize_plane (N = 1), resize_cbcr8 (N = 2), resize_rgb (N = 3) on the portable path:
    generic_resize over u8 (scaler.rs 936-1000); [rgba] with the premultiply flag off
    goes through generic_resize_with_alpha, see Alpha.v. *)
Definition no_premul : pool_t -> image Z -> image Z -> outcome (image Z) := fun _ _ _ => Panic.
Definition no_unpremul : pool_t -> image Z -> outcome (image Z) := fun _ _ => Panic.
Definition no_alpha : image Z -> outcome bool := fun _ => Panic.
Definition resize_u8 (L : libm) (f : resampling_function) (N : nat) (pool : pool_t) (store into : image Z) : callres Z :=
  generic_resize N (scaler_engine L f N 255 false no_premul no_unpremul no_alpha) pool store into.
