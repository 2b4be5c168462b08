(** Specification vocabulary for the colour space scalers. *)
From Coq Require Import ZArith List Bool.
From Verif Require Import Base ImageStore F32 SpecApi Colors.
Import ListNotations.

(** The samples of pixel (x, y). *)
Definition pixel_at {T} (N : nat) (im : image T) (x y : nat) : list T :=
  firstn N (skipn (y * stride im + x * N) (buf im)).

(** Rows follow each other without padding. *)
Definition dense {T} (N : nat) (im : image T) : Prop := stride im = width im * N.

(** The packed image of [height] rows of [width] pixels found at the start of the buffer. *)
Definition first_bytes {T} (N : nat) (im : image T) : image T :=
  mkImage (firstn (width im * height im * N) (buf im)) N (width im) (height im) (width im * N) (bit_depth im).

(** [b] has the size of [a] and each of its pixels is [px] of the pixel of [a] at the same place. *)
Definition recoloured {A B} (N : nat) (px : list A -> list B) (a : image A) (b : image B) : Prop :=
  width b = width a /\ height b = height a /\
  forall x y, x < width a -> y < height a -> pixel_at N b x y = px (pixel_at N a x y).

(** A packed image all of whose samples are [zero]. *)
Definition blank {T} (zero : T) (N w h : nat) : image T :=
  mkImage (repeat zero (w * h * N)) N w h (w * N) 0.

(** A conversion of one pixel of N samples gives N samples. *)
Definition keeps_arity {A B} (N : nat) (px : list A -> list B) : Prop :=
  forall p, length p = N -> length (px p) = N.
(** ... between 0 and 255. *)
Definition gives_bytes {A} (px : list A -> list Z) : Prop := forall p, samples_in 255 (px p).

(** The destination's row stride in bytes, as f32 samples, and its height fit 32 bits. *)
Definition fits_u32 {T} (into : image T) : Prop :=
  (Z.of_nat (width into) < 2 ^ 28 /\ Z.of_nat (height into) < 2 ^ 32)%Z.

(** The conversions each scaler promises: into its space and back, with its own transfer
    function where it has one and with sRGB otherwise. *)
Definition rgb_in {C : colorutils} (s : colour_scaler C) : list Z -> list f32 :=
  match s with
  | LabScaler => rgb_to_lab C (srgb C)
  | LuvScaler => rgb_to_luv C (srgb C)
  | LChScaler => rgb_to_lch C (srgb C)
  | XYZScaler => srgb_to_xyz C
  | OklabScaler t => rgb_to_oklab C t
  | JzazbzScaler l t => rgb_to_jzazbz C l t
  | SigmoidalScaler => rgb_to_sigmoidal C
  | LinearScaler t => rgb_to_linear C t
  end.
Definition rgb_out {C : colorutils} (s : colour_scaler C) : list f32 -> list Z :=
  match s with
  | LabScaler => lab_to_srgb C
  | LuvScaler => luv_to_rgb C (srgb C)
  | LChScaler => lch_to_rgb C (srgb C)
  | XYZScaler => xyz_to_srgb C
  | OklabScaler t => oklab_to_rgb C t
  | JzazbzScaler l t => jzazbz_to_rgb C l t
  | SigmoidalScaler => sigmoidal_to_rgb C
  | LinearScaler t => linear_to_rgb C t
  end.
Definition rgba_in {C : colorutils} (s : colour_scaler C) : list Z -> list f32 :=
  match s with
  | LabScaler => rgba_to_lab_with_alpha C (srgb C)
  | LuvScaler => rgba_to_luv_with_alpha C (srgb C)
  | LChScaler => rgba_to_lch_with_alpha C (srgb C)
  | XYZScaler => rgba_to_xyz_with_alpha C (srgb C)
  | OklabScaler t => rgba_to_oklab C t
  | JzazbzScaler l t => rgba_to_jzazbz C l t
  | SigmoidalScaler => rgba_to_sigmoidal C
  | LinearScaler t => rgba_to_linear C t
  end.
Definition rgba_out {C : colorutils} (s : colour_scaler C) : list f32 -> list Z :=
  match s with
  | LabScaler => lab_with_alpha_to_rgba C (srgb C)
  | LuvScaler => luv_with_alpha_to_rgba C (srgb C)
  | LChScaler => lch_with_alpha_to_rgba C (srgb C)
  | XYZScaler => xyz_with_alpha_to_rgba C (srgb C)
  | OklabScaler t => oklab_to_rgba C t
  | JzazbzScaler l t => jzazbz_to_rgba C l t
  | SigmoidalScaler => sigmoidal_to_rgba C
  | LinearScaler t => linear_to_rgba C t
  end.

(** The scaler's transfer function is one it honours for RGBA images. *)
Definition usable_for_rgba {C : colorutils} (s : colour_scaler C) : Prop :=
  match s with LinearScaler t => t = srgb C | _ => True end.
