(** Model of /repo/src/sampler.rs (the public filter enum, numeric selectors and the
    filter table) and of the resampling kernels of /repo/src/math/*.rs, at T = f32.

    The algebraic kernels are modelled operation by operation in f32.  The C library
    functions (sin, cos, exp) and the Bessel functions stay abstract: they are the
    fields of a record [libm] that every definition takes as an argument, so theorems
    hold for every implementation of them. *)
From Coq Require Import ZArith List Bool.
From Flocq Require Import IEEE754.BinarySingleNaN.
From Verif Require Import Base F32 Weights.
Import ListNotations.

(** enum ResamplingFunction, sampler.rs 64-117 (same order). *)
Inductive resampling_function : Type :=
| Bilinear | Nearest | Cubic | MitchellNetravalli | CatmullRom | Hermite | BSpline | Hann | Bicubic
| Hamming | Hanning | EwaHanning | Blackman | EwaBlackman | Welch | Quadric | EwaQuadric | Gaussian
| Sphinx | Bartlett | Robidoux | EwaRobidoux | RobidouxSharp | EwaRobidouxSharp | Spline16 | Spline36
| Spline64 | Kaiser | BartlettHann | Box | Bohman | Lanczos2 | Lanczos3 | Lanczos4 | Lanczos2Jinc
| Lanczos3Jinc | Lanczos4Jinc | EwaLanczos3Jinc | Ginseng | EwaGinseng | EwaLanczosSharp
| EwaLanczos4Sharpest | EwaLanczosSoft | HaasnSoft | Lagrange2 | Lagrange3 | Lanczos6 | Lanczos6Jinc
| Area.

(** #[default] MitchellNetravalli, sampler.rs 68-69. *)
Definition default_function : resampling_function := MitchellNetravalli.

(** `==` on the enum (derived PartialEq). *)
Definition rf_eq_dec (a b : resampling_function) : {a = b} + {a <> b}.
Proof. decide equality. Defined.
Definition rf_eqb (a b : resampling_function) : bool := if rf_eq_dec a b then true else false.

(** impl From<u32>, sampler.rs 120-174.  The argument is the u32 value. *)
Definition from_u32 (v : N) : resampling_function :=
  match v with
  | 0 => Bilinear | 1 => Nearest | 2 => Cubic | 3 => MitchellNetravalli | 4 => CatmullRom
  | 5 => Hermite | 6 => BSpline | 7 => Hann | 8 => Bicubic | 9 => Hamming | 10 => Hanning
  | 11 => Blackman | 12 => Welch | 13 => Quadric | 14 => Gaussian | 15 => Sphinx | 16 => Bartlett
  | 17 => Robidoux | 18 => RobidouxSharp | 19 => Spline16 | 20 => Spline36 | 21 => Spline64
  | 22 => Kaiser | 23 => BartlettHann | 24 => Box | 25 => Bohman | 26 => Lanczos2 | 27 => Lanczos3
  | 28 => Lanczos4 | 29 => Lanczos2Jinc | 30 => Lanczos3Jinc | 31 => Lanczos4Jinc | 32 => EwaHanning
  | 33 => EwaRobidoux | 34 => EwaBlackman | 35 => EwaQuadric | 36 => EwaRobidouxSharp
  | 37 => EwaLanczos3Jinc | 38 => Ginseng | 39 => EwaGinseng | 40 => EwaLanczosSharp
  | 41 => EwaLanczos4Sharpest | 42 => EwaLanczosSoft | 43 => HaasnSoft | 44 => Lagrange2
  | 45 => Lagrange3 | 46 => Lanczos6 | 47 => Lanczos6Jinc | 48 => Area
  | _ => Bilinear
  end%N.

(** The opaque library functions: f32::sin, cos, exp; [m_jinc x] is
    `(j1(x as f64) / x as f64) as f32` (bessel_order_one.rs 325-330, x <> 0 branch);
    [m_i0] is bessel_i0 (kaiser.rs 33-50). *)
Record libm := mkLibm {
  m_sin : f32 -> f32; m_cos : f32 -> f32; m_exp : f32 -> f32;
  m_jinc : f32 -> f32; m_i0 : f32 -> f32
}.

Local Open Scope Z_scope.
Definition fi (z : Z) : f32 := fZ z 0.
Definition fsqrt (x : f32) : f32 := Bsqrt mode_NE x.
(** std::f32::consts::PI, SQRT_2 (math/consts.rs). *)
Definition fpi : f32 := fZ 13176795 (-22).
Definition fsqrt2 : f32 := fZ 11863283 (-23).

(** math/bilinear.rs 33-43. *)
Definition bilinear (x : f32) : f32 :=
  let x := fabs x in if fltb x f1 then fsub f1 x else f0.
(** sampler.rs 55-60. *)
Definition box_weight (_ : f32) : f32 := f1.

(** math/bc_spline.rs 34-72. *)
Definition bc_spline (d b c : f32) : f32 :=
  let x := if fltb d f0 then fneg d else d in
  let dp := fmul x x in
  let tp := fmul dp x in
  if fltb x f1 then
    fmul (fadd (fadd (fmul (fsub (fsub (fi 12) (fmul (fi 9) b)) (fmul (fi 6) c)) tp)
                     (fmul (fadd (fadd (fi (-18)) (fmul (fi 12) b)) (fmul (fi 6) c)) dp))
               (fsub (fi 6) (fmul (fi 2) b)))
         (fdiv f1 (fi 6))
  else if fltb x f2 then
    fmul (fadd (fadd (fadd (fmul (fsub (fneg b) (fmul (fi 6) c)) tp)
                           (fmul (fadd (fmul (fi 6) b) (fmul (fi 30) c)) dp))
                     (fmul (fsub (fmul (fi (-12)) b) (fmul (fi 48) c)) x))
               (fadd (fmul (fi 8) b) (fmul (fi 24) c)))
         (fdiv f1 (fi 6))
  else f0.
(** math/bc_spline.rs 74-92, 94-112, 114-132, 134-152, 154-178, 180-204. *)
Definition hermite_spline (x : f32) : f32 := bc_spline x f0 f0.
Definition b_spline (x : f32) : f32 := bc_spline x f1 f0.
Definition mitchell_netravalli (x : f32) : f32 := bc_spline x (fdiv f1 (fi 3)) (fdiv f1 (fi 3)).
Definition catmull_rom (x : f32) : f32 := bc_spline x f0 fhalf.
Definition robidoux (x : f32) : f32 :=
  bc_spline x (fdiv (fi 12) (fadd (fi 19) (fmul (fi 9) fsqrt2)))
              (fdiv (fi 13) (fadd (fi 58) (fmul (fi 216) fsqrt2))).
Definition robidoux_sharp (x : f32) : f32 :=
  bc_spline x (fdiv (fi 6) (fadd (fi 13) (fmul (fi 7) fsqrt2)))
              (fdiv (fi 7) (fadd (fi 2) (fmul (fi 12) fsqrt2))).

(** math/cubic.rs 33-60 and 62-91. *)
Definition cubic_spline (d : f32) : f32 :=
  let x := if fltb d f0 then fneg d else d in
  if fltb x f1 then
    fmul (fadd (fi 4) (fmul (fmul x x) (fsub (fmul (fi 3) x) (fi 6)))) (fdiv f1 (fi 6))
  else if fltb x f2 then
    fmul (fadd (fi 8) (fmul x (fadd (fi (-12)) (fmul x (fsub (fi 6) x))))) (fdiv f1 (fi 6))
  else f0.
Definition bicubic_spline (d : f32) : f32 :=
  let a := fZ (-1) (-1) in
  let m := fabs d in
  if fleb f2 m then f0
  else
    let sq := fmul m m in
    let cu := fmul sq m in
    if fleb m f1 then fadd (fsub (fmul (fadd a f2) cu) (fmul (fadd a (fi 3)) sq)) f1
    else fsub (fadd (fsub (fmul a cu) (fmul (fmul (fi 5) a) sq)) (fmul (fmul (fi 8) a) m)) (fmul (fi 4) a).

(** math/quadric.rs 33-48. *)
Definition quadric (x : f32) : f32 :=
  let x := fabs x in
  if fltb x fhalf then fsub (fZ 3 (-2)) (fmul x x)
  else if fltb x (fZ 3 (-1)) then
    let t := fsub x (fZ 3 (-1)) in fmul (fmul fhalf t) t
  else f0.

(** math/welch.rs 33-45. *)
Definition welch (x : f32) : f32 :=
  if feqb x f0 then f1 else if fleb f1 x then f0 else fsub f1 (fmul x x).

(** math/bartlett.rs 34-46. *)
Definition bartlett (x : f32) : f32 :=
  if fleb f0 x && fleb x f1 then fmul f2 x else fsub f2 (fmul f2 x).

(** math/spline_n.rs 33-56, 58-88, 90-129. *)
Definition frac (a b : Z) : f32 := fdiv (fi a) (fi b).
Definition spline16 (x : f32) : f32 :=
  if fltb x f1 then
    fadd (fmul (fsub (fmul (fsub x (frac 9 5)) x) (frac 1 5)) x) f1
  else
    let t := fsub x f1 in
    fmul (fsub (fmul (fadd (fmul (frac (-1) 3) t) (frac 4 5)) t) (frac 7 15)) t.
Definition spline36 (x : f32) : f32 :=
  if fltb x f1 then
    fadd (fmul (fsub (fmul (fsub (fmul (frac 13 11) x) (frac 453 209)) x) (frac 3 209)) x) f1
  else if fltb x f2 then
    let t := fsub x f1 in
    fmul (fsub (fmul (fadd (fmul (frac (-6) 11) t) (frac 270 209)) t) (frac 156 209)) t
  else
    let t := fsub x f2 in
    fmul (fadd (fmul (fsub (fmul (frac 1 11) t) (frac 45 209)) t) (frac 26 209)) t.
Definition spline64 (x : f32) : f32 :=
  if fltb x f1 then
    fadd (fmul (fsub (fmul (fsub (fmul (frac 49 41) x) (frac 6387 2911)) x) (frac 3 2911)) x) f1
  else if fltb x f2 then
    let t := fsub x f1 in
    fmul (fsub (fmul (fadd (fmul (frac (-24) 41) t) (frac 4032 2911)) t) (frac 2328 2911)) t
  else if fltb x (fi 3) then
    let t := fsub x f2 in
    fmul (fadd (fmul (fsub (fmul (frac 6 41) t) (frac 1008 2911)) t) (frac 582 2911)) t
  else
    let t := fsub x (fi 3) in
    fmul (fsub (fmul (fadd (fmul (frac (-1) 41) t) (frac 168 2911)) t) (frac 97 2911)) t.

(** math/lagrange.rs 33-64; lagrange2 66-84, lagrange3 86-106. *)
Definition lagrange (x : f32) (support : nat) : f32 :=
  if fltb (f_of_nat support) x then f0
  else
    let order := f_to_usize (fmul f2 (f_of_nat support)) in
    let n := f_to_usize (fadd (f_of_nat support) x) in
    fold_left (fun v i => if Nat.eqb i n then v
                          else fmul v (fdiv (fsub (fsub (f_of_nat n) (f_of_nat i)) x)
                                            (fsub (f_of_nat n) (f_of_nat i))))
              (seq 0 order) f1.
Definition lagrange2 (x : f32) : f32 := lagrange x 2.
Definition lagrange3 (x : f32) : f32 := lagrange x 3.

Section Transcendental.
Variable L : libm.

(** math/sinc.rs 33-43. *)
Definition sinc (x : f32) : f32 := if feqb x f0 then f1 else fdiv (m_sin L x) x.
(** jinc_f32, math/bessel_order_one.rs 325-330: the value at 0 is 0. *)
Definition jinc (x : f32) : f32 := if feqb x f0 then f0 else m_jinc L x.
(** math/sphinx.rs 33-43. *)
Definition sphinx (x : f32) : f32 :=
  if fltb (fabs x) (fZ 11258999 (-50)) then f1
  else
    let x := fmul x fpi in
    fdiv (fmul (fi 3) (fsub (m_sin L x) (fmul x (m_cos L x)))) (fmul (fmul x x) x).
(** math/hann.rs 34-54, 56-74, 76-93. *)
Definition hann (x : f32) : f32 :=
  let size := fmul f2 f2 in
  let size_scale := fdiv f1 size in
  let part := fdiv fpi size in
  if fltb f2 (fabs x) then f0
  else let r := m_cos L (fmul x part) in fmul (fmul r r) size_scale.
Definition hamming (x : f32) : f32 :=
  let x := fabs x in
  if feqb x f0 then f1 else if fleb f1 x then f0
  else let x := fmul x fpi in fadd (fZ 9059697 (-24)) (fmul (fZ 15435039 (-25)) (m_cos L x)).
Definition hanning (x : f32) : f32 :=
  let x := fabs x in
  if feqb x f0 then f1 else if fleb f1 x then f0
  else let x := fmul x fpi in fadd fhalf (fmul fhalf (m_cos L x)).
(** math/blackman.rs 35-56. *)
Definition blackman_window (x : f32) : f32 :=
  fadd (fsub (fZ 14092861 (-25)) (fmul (fZ 8330905 (-24)) (m_cos L (fmul (fmul f2 fpi) x))))
       (fmul (fZ 5157227 (-26)) (m_cos L (fmul (fmul (fi 4) fpi) x))).
Definition blackman (x : f32) : f32 :=
  let x := fabs x in
  if fltb x f2 then fmul (sinc x) (blackman_window (fdiv x f2)) else f0.
(** math/bohman.rs 33-43. *)
Definition bohman (x : f32) : f32 :=
  if fltb x (fi (-1)) || fltb f1 x then f0
  else
    let dx := fmul fpi (fabs x) in
    fadd (fmul (fsub f1 (fabs x)) (m_cos L dx)) (fmul (fdiv f1 fpi) (m_sin L dx)).
(** math/bartlett.rs 48-63. *)
Definition bartlett_hann (x : f32) : f32 :=
  let x := fabs x in
  if fltb f2 x then f0
  else
    let fac := fabs (fsub (fdiv x (fsub f2 f1)) fhalf) in
    fadd (fsub (fZ 5200937 (-23)) (fmul (fZ 8106751 (-24)) fac))
         (fmul (fZ 3187671 (-23)) (m_cos L (fmul (fmul f2 fpi) fac))).
(** math/gaussian.rs 35-48. *)
Definition gaussian (x : f32) : f32 :=
  let sigma := fZ 11744051 (-25) in
  let den := fmul (fmul f2 sigma) sigma in
  let den := fmul den den in
  fmul (fdiv f1 (fmul (fsqrt (fmul f2 fpi)) sigma)) (m_exp L (fdiv (fneg x) den)).
(** math/kaiser.rs 52-77. *)
Definition kaiser (x : f32) : f32 :=
  if fltb f1 x then f0
  else
    let i0a := fdiv f1 (m_i0 L (fZ 3318743 (-19))) in
    fmul (m_i0 L (fmul (fZ 3318743 (-19)) (fsqrt (fsub f1 (fmul x x))))) i0a.
(** math/lanczos.rs 36-58 (lanczos_jinc) and 112-128 (lanczos_sinc). *)
Definition lanczos_jinc (x a : f32) : f32 :=
  let scale_a := fdiv f1 a in
  if feqb x f0 || fltb (fZ 4259227 (-18)) x then f0
  else if fltb (fabs x) a then
    let d := fmul fpi x in fmul (jinc d) (jinc (fmul d scale_a))
  else f0.
Definition lanczos_sinc (x a : f32) : f32 :=
  let scale_a := fdiv f1 a in
  if fltb (fabs x) a then
    let d := fmul fpi x in fmul (sinc d) (sinc (fmul d scale_a))
  else f0.

(** Constructors of ResamplingFilter, sampler.rs 206-259. *)
Definition f_new (k : f32 -> f32) (size : f32) (ewa : bool) : rfilter :=
  mkFilter k None size ewa true false.
Definition f_window (k : f32 -> f32) (w : rwindow) (size : f32) (ewa : bool) : rfilter :=
  mkFilter k (Some w) size ewa true false.
Definition f_fixed (k : f32 -> f32) (size : f32) (ewa : bool) : rfilter :=
  mkFilter k None size ewa false false.
Definition f_area (k : f32 -> f32) (size : f32) : rfilter :=
  mkFilter k None size false true true.

(** JINC_R3, JINC_R4, sampler.rs 261-262. *)
Definition JINC_R3 : f32 := fZ 848905 (-18).
Definition JINC_R4 : f32 := fZ 8894153 (-21).

(** get_resampling_filter, sampler.rs 264-383. *)
Definition resampling_filter (f : resampling_function) : rfilter :=
  match f with
  | Bilinear | Nearest => f_new bilinear f2 false
  | Cubic => f_new cubic_spline f2 false
  | MitchellNetravalli => f_new mitchell_netravalli f2 false
  | Lanczos3 => f_new (fun x => lanczos_sinc x (fi 3)) (fi 3) false
  | CatmullRom => f_new catmull_rom f2 false
  | Hermite => f_new hermite_spline f2 false
  | BSpline => f_new b_spline f2 false
  | Hann => f_new hann (fi 3) false
  | Bicubic => f_new bicubic_spline f2 false
  | Lanczos4 => f_new (fun x => lanczos_sinc x (fi 4)) (fi 4) false
  | Lanczos2 => f_new (fun x => lanczos_sinc x f2) f2 false
  | Hamming => f_new hamming f2 false
  | Hanning => f_new hanning f2 false
  | EwaHanning => f_window jinc (mkWindow hanning f2 f0 f0) f1 true
  | Welch => f_new welch f2 false
  | Quadric => f_new quadric f2 false
  | EwaQuadric => f_new quadric f2 true
  | Gaussian => f_new gaussian f2 false
  | Sphinx => f_new sphinx f2 false
  | Bartlett => f_new bartlett f2 false
  | Robidoux => f_new robidoux f2 false
  | EwaRobidoux => f_new robidoux f2 true
  | RobidouxSharp => f_new robidoux_sharp f2 false
  | EwaRobidouxSharp => f_new robidoux_sharp f2 true
  | Spline16 => f_fixed spline16 f2 false
  | Spline36 => f_fixed spline36 (fi 4) false
  | Spline64 => f_fixed spline64 (fi 6) false
  | Kaiser => f_new kaiser f2 false
  | BartlettHann => f_new bartlett_hann f2 false
  | Box => f_new box_weight f2 false
  | Area => f_area box_weight f2
  | Bohman => f_new bohman f2 false
  | Lanczos2Jinc => f_new (fun x => lanczos_jinc x f2) f2 false
  | Lanczos3Jinc => f_new (fun x => lanczos_jinc x (fi 3)) (fi 3) false
  | EwaLanczos3Jinc => f_new (fun x => lanczos_jinc x (fi 3)) (fi 3) true
  | Lanczos4Jinc => f_new (fun x => lanczos_jinc x (fi 4)) (fi 4) false
  | Blackman => f_new blackman f2 false
  | EwaBlackman => f_new blackman f2 true
  | Ginseng => f_window sinc (mkWindow jinc (fi 3) f1 f0) (fi 3) false
  | EwaGinseng => f_window sinc (mkWindow jinc JINC_R3 f1 f0) (fi 3) true
  | EwaLanczosSharp => f_window jinc (mkWindow jinc JINC_R3 (fZ 16462653 (-24)) f0) (fi 3) true
  | EwaLanczos4Sharpest => f_window jinc (mkWindow jinc JINC_R4 (fZ 7419825 (-23)) f0) (fi 4) true
  | EwaLanczosSoft => f_window jinc (mkWindow jinc JINC_R3 (fZ 8526741 (-23)) f0) (fi 3) true
  | HaasnSoft => f_window jinc (mkWindow hanning (fi 3) (fZ 9311355 (-23)) f0) (fi 3) false
  | Lagrange2 => f_new lagrange2 f2 false
  | Lagrange3 => f_new lagrange3 (fi 3) false
  | Lanczos6Jinc => f_new (fun x => lanczos_jinc x (fi 6)) (fi 6) false
  | Lanczos6 => f_new (fun x => lanczos_sinc x (fi 6)) (fi 6) false
  end.
End Transcendental.
