(** The RGBA entry point of 8-bit images, portable code path. *)
From Coq Require Import ZArith List Bool.
From Verif Require Import Base ImageStore Dispatch Resize F32 Weights Sampler Api Alpha.
Import ListNotations.

(** Scaler::resize_rgba (/repo/src/scaler.rs, `impl Scaling for Scaler`):
    `self.generic_resize_with_alpha(store, into, premultiply_alpha)` over u8, N = 4. *)
Definition rgba_engine_u8 (L : libm) (f : resampling_function) : engine Z f32 :=
  scaler_engine L f 4 255 false premul_u8 unpremul_u8 alpha_needed_u8.
Definition resize_rgba_u8 (L : libm) (f : resampling_function) (pool : pool_t) (premultiply : bool)
  (store into : image Z) : callres Z :=
  generic_resize_with_alpha 4 (rgba_engine_u8 L f) pool premultiply store into.
