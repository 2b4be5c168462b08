(** Facts about the public filter table. *)
From Coq Require Import ZArith Reals Lra Lia Bool List.
From Flocq Require Import Core.Core IEEE754.BinarySingleNaN.
From Verif Require Import Base FixedPoint F32 F32Proofs Weights WeightsProofs Sampler.
Import ListNotations.

(** ** Numeric selectors *)
Lemma from_u32_default v : (48 < v)%N -> from_u32 v = Bilinear.
Proof.
  intro H. unfold from_u32.
  destruct v as [|p]; [lia|].
  do 6 (destruct p as [p|p|]; try reflexivity; try lia).
Qed.

Definition selector (f : resampling_function) : N :=
  match f with
  | Bilinear => 0 | Nearest => 1 | Cubic => 2 | MitchellNetravalli => 3 | CatmullRom => 4 | Hermite => 5
  | BSpline => 6 | Hann => 7 | Bicubic => 8 | Hamming => 9 | Hanning => 10 | Blackman => 11 | Welch => 12
  | Quadric => 13 | Gaussian => 14 | Sphinx => 15 | Bartlett => 16 | Robidoux => 17 | RobidouxSharp => 18
  | Spline16 => 19 | Spline36 => 20 | Spline64 => 21 | Kaiser => 22 | BartlettHann => 23 | Box => 24
  | Bohman => 25 | Lanczos2 => 26 | Lanczos3 => 27 | Lanczos4 => 28 | Lanczos2Jinc => 29
  | Lanczos3Jinc => 30 | Lanczos4Jinc => 31 | EwaHanning => 32 | EwaRobidoux => 33 | EwaBlackman => 34
  | EwaQuadric => 35 | EwaRobidouxSharp => 36 | EwaLanczos3Jinc => 37 | Ginseng => 38 | EwaGinseng => 39
  | EwaLanczosSharp => 40 | EwaLanczos4Sharpest => 41 | EwaLanczosSoft => 42 | HaasnSoft => 43
  | Lagrange2 => 44 | Lagrange3 => 45 | Lanczos6 => 46 | Lanczos6Jinc => 47 | Area => 48
  end%N.

Lemma from_u32_selector f : from_u32 (selector f) = f /\ (selector f <= 48)%N.
Proof. destruct f; split; (reflexivity || (cbv; discriminate)). Qed.

Lemma selector_from_u32 v : (v <= 48)%N -> selector (from_u32 v) = v.
Proof.
  intro H. unfold from_u32.
  destruct v as [|p]; [reflexivity|].
  do 6 (destruct p as [p|p|]; try reflexivity; try lia).
Qed.

Lemma from_u32_inj a b : (a <= 48)%N -> (b <= 48)%N -> from_u32 a = from_u32 b -> a = b.
Proof. intros Ha Hb H. rewrite <- (selector_from_u32 a Ha), <- (selector_from_u32 b Hb). now rewrite H. Qed.

(** ** The table: support, EWA flag, resizable flag, area flag, windowed *)
Record entry := mkEntry { e_support : Z; e_ewa : bool; e_resizable : bool; e_area : bool; e_windowed : bool }.

(** Independent description of the filters: the documented support in source
    pixels, elliptical (Ewa..) variants, fixed-size splines, windowed kernels. *)
Definition filter_entry (f : resampling_function) : entry :=
  let ewa := match f with
    | EwaHanning | EwaBlackman | EwaQuadric | EwaRobidoux | EwaRobidouxSharp | EwaLanczos3Jinc | EwaGinseng
    | EwaLanczosSharp | EwaLanczos4Sharpest | EwaLanczosSoft => true | _ => false end in
  let resizable := match f with Spline16 | Spline36 | Spline64 => false | _ => true end in
  let area := match f with Area => true | _ => false end in
  let windowed := match f with
    | EwaHanning | Ginseng | EwaGinseng | EwaLanczosSharp | EwaLanczos4Sharpest | EwaLanczosSoft | HaasnSoft => true
    | _ => false end in
  let support := match f with
    | EwaHanning => 1
    | Lanczos3 | Hann | Lanczos3Jinc | EwaLanczos3Jinc | Ginseng | EwaGinseng | EwaLanczosSharp
    | EwaLanczosSoft | HaasnSoft | Lagrange3 => 3
    | Lanczos4 | Lanczos4Jinc | EwaLanczos4Sharpest | Spline36 => 4
    | Lanczos6 | Lanczos6Jinc | Spline64 => 6
    | _ => 2 end%Z in
  mkEntry support ewa resizable area windowed.

Lemma filter_table L f :
  fin (min_kernel (resampling_filter L f)) (IZR (e_support (filter_entry f))) /\
  is_ewa (resampling_filter L f) = e_ewa (filter_entry f) /\
  is_resizable (resampling_filter L f) = e_resizable (filter_entry f) /\
  is_area (resampling_filter L f) = e_area (filter_entry f) /\
  (rwin (resampling_filter L f) <> None <-> e_windowed (filter_entry f) = true).
Proof.
  destruct f; cbn [resampling_filter f_new f_window f_fixed f_area min_kernel filter_entry e_support e_ewa
    e_resizable e_area e_windowed is_ewa is_resizable is_area rwin];
    (split; [first [exact f1_fin | exact f2_fin | apply (fint_exact 3); lia | apply (fint_exact 4); lia | apply (fint_exact 6); lia]|]);
    repeat split; try congruence; try discriminate.
Qed.

Lemma filter_support_ok L f : support_ok (resampling_filter L f).
Proof.
  destruct (filter_table L f) as (H & _). exists (IZR (e_support (filter_entry f))). split; [exact H|].
  destruct f; cbn; lra.
Qed.

(** ** jinc(0) = 0: with a jinc kernel an output position that falls exactly on a
    single source pixel gets weight zero. *)
Definition is_zero (x : f32) : bool := match x with B754_zero _ => true | _ => false end.
Lemma jinc_drops_pixel L f :
  In f [EwaHanning; Lanczos2Jinc; Lanczos3Jinc; Lanczos4Jinc; Lanczos6Jinc; EwaLanczos3Jinc;
        EwaLanczosSharp; EwaLanczos4Sharpest; EwaLanczosSoft; HaasnSoft; Ginseng; EwaGinseng] ->
  forallb is_zero (snd (general_row (resampling_filter L f) 1 (scale_of 1 3) 1)) = true /\
  fst (general_row (resampling_filter L f) 1 (scale_of 1 3) 1) = mkBound 0 1.
Proof.
  intros Hf. cbn [In] in Hf.
  repeat match goal with H : _ \/ _ |- _ => destruct H as [<-|H] end; try contradiction; split; vm_compute; reflexivity.
Qed.

(** ** Rows of the generated weights *)
Definition weight_row (fl : rfilter) (insz outsz : nat) (o : nat) : fbound * list f32 :=
  if is_area fl && fltb (scale_of insz outsz) f1 then area_row insz (scale_of insz outsz) o
  else general_row fl insz (scale_of insz outsz) o.

Lemma concat_nth {A} (rows : list (list A)) n d : Forall (fun r => length r = n) rows ->
  forall o k, k < n -> nth (o * n + k) (concat rows) d = nth k (nth o rows []) d.
Proof.
  intro F. induction F as [|r rows Hr F IH]; intros o k Hk.
  - cbn. destruct (o * n + k), o, k; reflexivity.
  - cbn [concat]. destruct o as [|o].
    + cbn [Nat.mul Nat.add nth]. rewrite app_nth1 by lia. reflexivity.
    + cbn [nth]. rewrite app_nth2 by lia. rewrite <- (IH o k Hk). f_equal. lia.
Qed.

Lemma weight_row_length fl insz outsz o :
  length (snd (weight_row fl insz outsz o)) = aligned_size (generate_weights fl insz outsz).
Proof.
  unfold weight_row, generate_weights. destruct (is_area fl && fltb (scale_of insz outsz) f1); cbn [aligned_size].
  - apply area_row_length.
  - apply general_row_length.
Qed.

Lemma weights_concat fl insz outsz :
  weights (generate_weights fl insz outsz) = concat (map (fun o => snd (weight_row fl insz outsz o)) (seq 0 outsz)) /\
  bounds (generate_weights fl insz outsz) = map (fun o => fst (weight_row fl insz outsz o)) (seq 0 outsz).
Proof.
  unfold weight_row, generate_weights. destruct (is_area fl && fltb (scale_of insz outsz) f1); cbn [weights bounds];
    rewrite !map_map; split; reflexivity.
Qed.

Lemma weights_nth fl insz outsz o k : o < outsz -> k < aligned_size (generate_weights fl insz outsz) ->
  nth (o * aligned_size (generate_weights fl insz outsz) + k) (weights (generate_weights fl insz outsz)) f0 =
  nth k (snd (weight_row fl insz outsz o)) f0.
Proof.
  intros Ho Hk. rewrite (proj1 (weights_concat fl insz outsz)).
  rewrite concat_nth; [|apply Forall_forall; intros r Hr; apply in_map_iff in Hr; destruct Hr as (i & <- & _); apply weight_row_length|exact Hk].
  f_equal. rewrite nth_indep with (d' := snd (weight_row fl insz outsz 0)) by (rewrite map_length, seq_length; exact Ho).
  rewrite (map_nth (fun o => snd (weight_row fl insz outsz o))). rewrite seq_nth by exact Ho. reflexivity.
Qed.

Lemma bounds_nth fl insz outsz o d : o < outsz ->
  nth o (bounds (generate_weights fl insz outsz)) d = fst (weight_row fl insz outsz o).
Proof.
  intro Ho. rewrite (proj2 (weights_concat fl insz outsz)).
  rewrite nth_indep with (d' := fst (weight_row fl insz outsz 0)) by (rewrite map_length, seq_length; exact Ho).
  rewrite (map_nth (fun o => fst (weight_row fl insz outsz o))). rewrite seq_nth by exact Ho. reflexivity.
Qed.
