(** Specification vocabulary for the alpha code of x86-64. *)
From Coq Require Import ZArith Reals List Bool.
From Verif Require Import Base ImageStore Spec SpecApi SpecAlpha F32 F32Proofs.
Local Open Scope Z_scope.

(** Division by 255 of the vector code: v/255 to the nearest integer, except that it is one
    less when v = 255 q + 128, and when v = 255 q + 129 with q >= 130. *)
Definition short_by_one (v : Z) : bool := (v mod 255 =? 128) || ((v mod 255 =? 129) && (130 <=? v / 255)).
Definition vector_div255 (v : Z) : Z := nearest_div v 255 - (if short_by_one v then 1 else 0).

(** Premultiplication of a pixel: SSE4.1 keeps alpha, AVX2 squares it as the portable code does. *)
Definition associate8_sse (r g b a : Z) : list Z :=
  (vector_div255 (r * a) :: vector_div255 (g * a) :: vector_div255 (b * a) :: a :: nil).
Definition associate8_avx (r g b a : Z) : list Z :=
  (vector_div255 (r * a) :: vector_div255 (g * a) :: vector_div255 (b * a) :: vector_div255 (a * a) :: nil).

(** What Intel guarantees about RCPPS: the relative error of the reciprocal is at most
    1.5 * 2^-12 (needed here for the integers 1..255). *)
Definition rcp_accurate (rcp : f32 -> f32) : Prop :=
  forall a, 1 <= a <= 255 -> exists r, fin (rcp (fZ a 0)) r /\ (Rabs (r * IZR a - 1) <= 3 / 8192)%R.

(** [v] is colour*255/alpha, at most 255, up to 3/5. *)
Definition unassociated (c a v : Z) : Prop := 5 * Z.abs (a * v - Z.min (255 * c) (255 * a)) <= 3 * a.
