(** Specification vocabulary for RGBA images. *)
From Coq Require Import ZArith List Bool.
From Verif Require Import Base ImageStore Spec SpecApi.
Import ListNotations.

(** n/m rounded to the nearest integer (ties up). *)
Definition nearest_div (n m : Z) : Z := ((2 * n + m) / (2 * m))%Z.

(** The four samples of pixel (x, y) of an RGBA image. *)
Definition pixel {T} (im : image T) (x y : nat) (r g b a : T) : Prop :=
  sample 4 im x y 0 = Some r /\ sample 4 im x y 1 = Some g /\ sample 4 im x y 2 = Some b /\ sample 4 im x y 3 = Some a.

(** The alpha sample of pixel (x, y). *)
Definition alpha_at {T} (im : image T) (x y : nat) : option T := sample 4 im x y 3.

(** An image as the resize methods accept it: [height] rows of [stride >= width*channels] samples. *)
Definition proper {T} (N : nat) (im : image T) : Prop :=
  0 < width im /\ 0 < height im /\ width im * N <= stride im /\ length (buf im) = height im * stride im.

(** [out] has the size of [im] and each of its pixels is [px] of the pixel of [im] at the
    same place. *)
Definition pixelwise {T} (px : T -> T -> T -> T -> list T) (im out : image T) : Prop :=
  width im = width out /\ height im = height out /\
  forall x y r g b a, x < width im -> y < height im -> pixel im x y r g b a ->
    exists r' g' b' a', px r g b a = [r'; g'; b'; a'] /\ pixel out x y r' g' b' a'.

(** Two visible pixels have different alpha. *)
Definition alpha_varies {T} (im : image T) : Prop :=
  exists x y x' y', x < width im /\ y < height im /\ x' < width im /\ y' < height im /\
    alpha_at im x y <> alpha_at im x' y'.

Local Open Scope Z_scope.
(** What the portable code does to a pixel before resampling (note the squared alpha)... *)
Definition associate8 (r g b a : Z) : list Z :=
  [nearest_div (r * a) 255; nearest_div (g * a) 255; nearest_div (b * a) 255; nearest_div (a * a) 255].
(** ... and after: colour*255/alpha to the nearest integer, modulo 256; 0 for alpha 0 and
    for full-scale colours under partial alpha. *)
Definition unassociate_channel8 (a c : Z) : Z :=
  if a =? 0 then 0 else if (c =? 255) && (a <? 255) then 0 else ((c * 255 + a / 2) / a) mod 256.
Definition unassociate8 (r g b a : Z) : list Z :=
  [unassociate_channel8 a r; unassociate_channel8 a g; unassociate_channel8 a b; a].
