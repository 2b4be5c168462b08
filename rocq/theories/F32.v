(** IEEE-754 binary32 arithmetic as used by the Rust code, on Flocq's
    [binary_float 24 128] (one NaN).  Every operation rounds to nearest even,
    which is what Rust's f32 operators do. *)
From Coq Require Import ZArith Bool List.
From Flocq Require Import Core.Core IEEE754.BinarySingleNaN.
Local Open Scope Z_scope.

Global Instance prec_pos : Prec_gt_0 24. Proof. reflexivity. Qed.
Global Instance prec_emax : Prec_lt_emax 24 128. Proof. reflexivity. Qed.

Definition f32 : Type := binary_float 24 128.
Definition fadd (x y : f32) : f32 := Bplus mode_NE x y.
Definition fsub (x y : f32) : f32 := Bminus mode_NE x y.
Definition fmul (x y : f32) : f32 := Bmult mode_NE x y.
Definition fdiv (x y : f32) : f32 := Bdiv mode_NE x y.
(** f32::mul_add: a single rounding. *)
Definition ffma (x y z : f32) : f32 := Bfma mode_NE x y z.
Definition fabs (x : f32) : f32 := Babs x.
Definition fneg (x : f32) : f32 := Bopp x.
(** f32::floor, ceil, round (half away from zero). *)
Definition ffloor (x : f32) : f32 := Bnearbyint mode_DN x.
Definition fceil (x : f32) : f32 := Bnearbyint mode_UP x.
Definition fround (x : f32) : f32 := Bnearbyint mode_NA x.

(** f32::max / f32::min: a NaN operand is ignored. *)
Definition fmax (x y : f32) : f32 :=
  match Bcompare x y with
  | Some Lt => y
  | Some _ => x
  | None => if is_nan x then y else x
  end.
Definition fmin (x y : f32) : f32 :=
  match Bcompare x y with
  | Some Gt => y
  | Some _ => x
  | None => if is_nan x then y else x
  end.

(** `x == y`, `x < y`, `x <= y` (false on NaN). *)
Definition feqb (x y : f32) : bool := match Bcompare x y with Some Eq => true | _ => false end.
Definition fltb (x y : f32) : bool := match Bcompare x y with Some Lt => true | _ => false end.
Definition fleb (x y : f32) : bool := match Bcompare x y with Some Lt | Some Eq => true | _ => false end.

(** m * 2^e rounded to nearest even: literals and integer-to-float casts. *)
Definition fZ (m e : Z) : f32 := binary_normalize 24 128 prec_pos prec_emax mode_NE m e false.
Definition f_of_nat (n : nat) : f32 := fZ (Z.of_nat n) 0.

Definition f0 : f32 := fZ 0 0.
Definition f1 : f32 := fZ 1 0.
Definition f2 : f32 := fZ 2 0.
Definition fhalf : f32 := fZ 1 (-1).

(** `x as iN` / `x as uN` for a range [lo, hi]: truncation, saturating; NaN gives 0. *)
Definition f_to_int (lo hi : Z) (x : f32) : Z :=
  match x with
  | B754_infinity false => hi
  | B754_infinity true => lo
  | B754_nan => 0
  | _ => Z.max lo (Z.min hi (Btrunc x))
  end.
Definition f_to_usize (x : f32) : nat := Z.to_nat (f_to_int 0 (2 ^ 64 - 1) x).
