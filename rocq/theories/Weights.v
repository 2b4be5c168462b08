(** Model of Scaler::generate_weights, /repo/src/scaler.rs 353-567, at T = f32
    (the convolutions take FilterWeights<f32>), of the filter records of
    /repo/src/sampler.rs 176-259, of the weight quantisation of
    /repo/src/filter_weights.rs 109-113 and of the nearest-neighbour coordinate of
    /repo/src/nearest_sampler.rs 58-66. *)
From Coq Require Import ZArith List.
From Verif Require Import Base FixedPoint F32.
Import ListNotations.

(** struct ResamplingWindow, sampler.rs 177-183. *)
Record rwindow := mkWindow {
  win_fn : f32 -> f32; win_size : f32; win_blur : f32; win_taper : f32
}.
(** struct ResamplingFilter, sampler.rs 196-204.  The kernel and window functions
    are arbitrary functions f32 -> f32. *)
Record rfilter := mkFilter {
  rkernel : f32 -> f32;
  rwin : option rwindow;
  min_kernel : f32;
  is_ewa : bool;
  is_resizable : bool;
  is_area : bool
}.

(** scaler.rs 376: `in_size.as_() / out_size.as_()`. *)
Definition scale_of (insz outsz : nat) : f32 := fdiv (f_of_nat insz) (f_of_nat outsz).
(** 378-381 *)
Definition cutoff_of (fl : rfilter) (scale : f32) : f32 :=
  if is_resizable fl then fmax scale f1 else f1.
(** 391-392 *)
Definition kernel_size_of (fl : rfilter) (scale : f32) : nat :=
  f_to_usize (fround (fmul (min_kernel fl) (cutoff_of fl scale))).
(** 393 *)
Definition radius_of (ksize : nat) : f32 := fdiv (f_of_nat ksize) f2.
(** 409 *)
Definition center_of (insz : nat) (scale : f32) (i : nat) : f32 :=
  fmin (fmul (fadd (f_of_nat i) fhalf) scale) (f_of_nat insz).
(** 413 *)
Definition start_of (center radius : f32) : nat := f_to_usize (fmax (ffloor (fsub center radius)) f0).
(** 414-418 *)
Definition end_of (center radius : f32) (start ksize insz : nat) : nat :=
  f_to_usize (fmin (fmin (fceil (fadd center radius)) (fadd (f_of_nat start) (f_of_nat ksize))) (f_of_nat insz)).

(** One raw weight, 422-447. *)
Definition raw_weight (fl : rfilter) (filter_scale blur_scale center : f32) (k : nat) : f32 :=
  let dx := fsub (f_of_nat k) center in
  match rwin fl with
  | Some w =>
      let x := fabs dx in
      let x := if fltb f0 (win_blur w) then fmul x blur_scale else x in
      let x := if fleb x (win_taper w) then f0
               else fdiv (fsub x (win_taper w)) (fsub f1 (win_taper w)) in
      let xk := fmul x filter_scale in
      let window := if fltb x (win_size w) then win_fn w (fmul xk (win_size w)) else f0 in
      fmul window (rkernel fl xk)
  | None => rkernel fl (fmul (fabs dx) filter_scale)
  end.

(** 398-407 *)
Definition blur_scale_of (fl : rfilter) : f32 :=
  match rwin fl with
  | None => f1
  | Some w => if fltb f0 (win_blur w) then fdiv f1 (win_blur w) else f0
  end.

(** Left-to-right float sum starting from [acc] (448). *)
Fixpoint fsum (acc : f32) (l : list f32) : f32 :=
  match l with [] => acc | w :: r => fsum (fadd acc w) r end.

(** 0.7f32 *)
Definition f07 : f32 := fZ 11744051 (-24).

(** EWA smoothing, 456-468: each weight becomes 0.7*w_j + (1-0.7)*(new w_{j-1});
    the sum restarts from the first weight. *)
Fixpoint ewa_smooth (prev : f32) (l : list f32) : list f32 :=
  match l with
  | [] => []
  | w :: r =>
      let w' := fadd (fmul f07 w) (fmul (fsub f1 f07) prev) in
      w' :: ewa_smooth w' r
  end.
Definition smooth (fl : rfilter) (l : list f32) : list f32 * f32 :=
  if is_ewa fl then
    match l with
    | [] => ([], f0) (* stale local_filters[0] in the code; size 0 does not occur *)
    | w :: r => let r' := ewa_smooth w r in (w :: r', fsum w r')
    end
  else (l, fsum f0 l).

(** 474-486: normalise unless the sum is zero; the row is zero-padded to ksize. *)
Definition normalise (l : list f32) (sum : f32) : list f32 :=
  if negb (feqb sum f0) then let r := fdiv f1 sum in map (fun w => fmul w r) l
  else map (fun _ => f0) l.
Definition pad (n : nat) (l : list f32) : list f32 := firstn n l ++ repeat f0 (n - length l).

(** Window and weights of output position [i], general branch 408-489.
    `end - start` is a saturating subtraction here; the theorems show start < end. *)
Definition general_row (fl : rfilter) (insz : nat) (scale : f32) (i : nat) : fbound * list f32 :=
  let ksize := kernel_size_of fl scale in
  let radius := radius_of ksize in
  let filter_scale := fdiv f1 (cutoff_of fl scale) in
  let cx := center_of insz scale i in
  let start := start_of cx radius in
  let size := end_of cx radius start ksize insz - start in
  let center := fsub cx fhalf in
  let '(ws, sum) := smooth fl (map (raw_weight fl filter_scale (blur_scale_of fl) center) (seq start size)) in
  (mkBound start size, pad ksize (normalise ws sum)).

(** Area branch, 498-566. *)
Definition area_row (insz : nat) (scale : f32) (i : nat) : fbound * list f32 :=
  let inv_scale := fdiv f1 scale in
  let sx := ffloor (fmul (f_of_nat i) scale) in
  let fx := fsub (f_of_nat (i + 1)) (fmul (fadd sx f1) inv_scale) in
  let dx := if fleb fx f0 then f0 else fsub fx (ffloor fx) in
  let dx := fabs dx in
  let w0 := fsub f1 dx in
  let w1 := dx in
  let start := f_to_usize (fmax (ffloor sx) f0) in
  let e := f_to_usize (fmin (fmin (fceil (fadd sx f2)) (fadd (f_of_nat start) f2)) (f_of_nat insz)) in
  let size := e - start in
  let sum := fadd f0 w0 in
  let sum := if (1 <? size)%nat then fadd sum w1 else sum in
  (mkBound start size,
   if negb (feqb sum f0) then pad 2 (map (fun w => fmul w (fdiv f1 sum)) (firstn size [w0; w1]))
   else [f1; f0]).

(** generate_weights: 376-387 choose the branch. *)
Definition generate_weights (fl : rfilter) (insz outsz : nat) : fweights f32 :=
  let scale := scale_of insz outsz in
  if is_area fl && fltb scale f1 then
    let rows := map (area_row insz scale) (seq 0 outsz) in
    mkFW (concat (map snd rows)) (map fst rows) 2 2 outsz
  else
    let ks := kernel_size_of fl scale in
    let rows := map (general_row fl insz scale) (seq 0 outsz) in
    mkFW (concat (map snd rows)) (map fst rows) ks ks outsz.

(** filter_weights.rs 109-113 with J = i16, PRECISION = 15. *)
Definition quant_i16 (w : f32) : Z :=
  f_to_int (- 2 ^ 15)%Z (2 ^ 15 - 1)%Z
    (fmax (fmin (fround (fmul w (fZ 32768 0))) (fZ 32767 0)) (fZ (-32768) 0)).

(** nearest_sampler.rs 58-63 (x) and 61-63 (y): identical expressions. *)
Definition nearest_coord (insz outsz i : nat) : nat :=
  let scale := fdiv (f_of_nat insz) (f_of_nat outsz) in
  let clip := fsub (f_of_nat insz) f1 in
  f_to_usize (fmax (fmin (fsub (fmul (fadd (f_of_nat i) fhalf) scale) fhalf) clip) f0).
