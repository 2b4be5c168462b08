(** C47-C50: where the windows are and what the weights are, against real arithmetic. *)
From Coq Require Import ZArith Reals List Bool Lia Lra Psatz.
From Flocq Require Import Core.Core IEEE754.BinarySingleNaN.
From Verif Require Import Base FixedPoint F32 F32Proofs Weights WeightsProofs Sampler SamplerProofs Center.
From Verif Require Import ImageStore Resize Api Witness Spec SpecApi SpecKernels KernelAccuracy KernelFacts WindowPos WeightTable KernelProofs QuantSums FilterSums AreaPos AlphaU16.
Import ListNotations.
Local Open Scope R_scope.

(** Area weights are used for enlarging with the Area filter (C50); every other row is built
    by the general branch. *)
Lemma row_general L f insz outsz o :
  (1 <= Zn insz <= 2 ^ 23)%Z -> (1 <= Zn outsz <= 2 ^ 23)%Z -> (f = Area -> (outsz <= insz)%nat) -> (o < outsz)%nat ->
  weight_row (resampling_filter L f) insz outsz o = general_row (resampling_filter L f) insz (scale_of insz outsz) o.
Proof.
  intros Hi Ho Ha H. unfold weight_row.
  destruct (filter_table L f) as (_ & _ & _ & T & _). rewrite T.
  destruct (e_area (filter_entry f)) eqn:E; [|reflexivity].
  assert (F : f = Area) by (destruct f; try discriminate; reflexivity). specialize (Ha F). cbn [andb].
  destruct (fltb (scale_of insz outsz) f1) eqn:E2; [|reflexivity].
  exfalso. apply scale_lt_1 in E2; lia.
Qed.

(** The window of output position o: its start, its end (exclusive) and its k-th weight. *)
Definition win_start (fw : fweights f32) (o : nat) : Z := Zn (bstart (nth o (bounds fw) (mkBound 0 0))).
Definition win_size (fw : fweights f32) (o : nat) : nat := bsize (nth o (bounds fw) (mkBound 0 0)).
Definition win_end (fw : fweights f32) (o : nat) : Z := (win_start fw o + Zn (win_size fw o))%Z.
Definition win_weight (fw : fweights f32) (o k : nat) : f32 := nth (o * aligned_size fw + k) (weights fw) f0.

(** ** C47 The window of an output position is centred on that position. *)

(** Up to rounding the window is the interval of length n (the ideal length rounded to an
    integer) around the ideal centre, rounded outwards, limited to n pixels and clipped to the
    source. *)
Theorem C47_window_position : forall L f insz outsz o,
  (1 <= Z.of_nat insz <= 2 ^ 23)%Z -> (1 <= Z.of_nat outsz <= 2 ^ 23)%Z -> (f = Area -> (outsz <= insz)%nat) -> (o < outsz)%nat ->
  let fw := generate_weights (resampling_filter L f) insz outsz in
  let c := ideal_center insz outsz o in
  exists (n : Z) (p q : R),
    Rabs (IZR n - ideal_length f insz outsz) <= 1 / 2 + ideal_length f insz outsz / 4194304 /\
    Rabs (p - (c - IZR n / 2)) <= (c + IZR n / 2) / 2097152 /\
    Rabs (q - (c + IZR n / 2)) <= (c + IZR n / 2) / 2097152 /\
    win_start fw o = Z.max 0 (Zfloor p) /\
    win_end fw o = Z.min (Z.min (Zceil q) (win_start fw o + n)) (Z.of_nat insz).
Proof.
  intros L f insz outsz o Hi Ho Ha H fw c.
  set (fl := resampling_filter L f). destruct (filter_table L f) as (Fm & _ & T3 & _).
  set (m := e_support (filter_entry f)).
  assert (Hm : (1 <= m <= 16)%Z) by (unfold m; destruct f; cbn; lia).
  destruct (ksize_pos insz outsz o Hi Ho H fl m Hm Fm) as [KB KE].
  destruct (window_position insz outsz o Hi Ho H fl m Hm Fm) as (p & q & Hp & Hq & Hs & He).
  assert (Cu : (if is_resizable fl then Rmax (IZR (Zn insz) / IZR (Zn outsz)) 1 else 1) = ideal_cutoff f insz outsz).
  { unfold fl. rewrite T3. unfold ideal_cutoff. rewrite !INR_IZR_INZ. destruct f; reflexivity. }
  assert (Su : IZR m = support f) by (unfold m; destruct f; reflexivity).
  rewrite Cu, Su in KE.
  assert (Ec : (IZR (Zn o) + 1 / 2) * (IZR (Zn insz) / IZR (Zn outsz)) = c).
  { unfold c, ideal_center. rewrite !INR_IZR_INZ. reflexivity. }
  rewrite Ec in Hp, Hq.
  exists (Zn (kernel_size_of fl (scale_of insz outsz))), p, q.
  split. { fold (ideal_length f insz outsz) in KE. rewrite u_val in KE.
    assert (0 <= ideal_length f insz outsz).
    { unfold ideal_length. rewrite <- Cu, <- Su. pose proof (cut_range insz outsz o Hi Ho H fl) as [C1 _].
      apply Rmult_le_pos; [apply IZR_le; lia|]. apply Rle_trans with 1; [lra|exact C1]. }
    lra. }
  split; [exact Hp|]. split; [exact Hq|].
  unfold win_end, win_start, win_size, fw. fold fl. rewrite !bounds_nth by exact H.
  unfold fl. rewrite row_general by assumption. split; [exact Hs|exact He].
Qed.
Print Assumptions C47_window_position.
Example C47_nonvacuous : (1 <= Z.of_nat 640 <= 2 ^ 23)%Z /\ (1 <= Z.of_nat 37 <= 2 ^ 23)%Z /\ (5 < 37)%nat.
Proof. repeat split; lia. Qed.

(** ** C48 The weights of a window are the samples of the kernel, normalised. *)
Theorem C48_weights_are_kernel_partial : forall L f K insz outsz o, coded_kernel f = Some K ->
  (1 <= Z.of_nat insz <= 65536)%Z -> (1 <= Z.of_nat outsz <= 65536)%Z -> (Z.of_nat insz <= 256 * Z.of_nat outsz)%Z ->
  (f = Area -> (outsz <= insz)%nat) -> (o < outsz)%nat ->
  let fw := generate_weights (resampling_filter L f) insz outsz in
  let n := win_size fw o in
  exists al, length al = n /\
    (forall k, (k < n)%nat ->
      0 <= nth k al 0 /\ Rabs (nth k al 0 - ideal_distance f insz outsz o (Z.to_nat (win_start fw o) + k)) <= (INR insz + 1) / ideal_cutoff f insz outsz / 1048576) /\
    let g := kernel_samples f (map K al) in
    / 7 <= total g /\
    forall k, (k < n)%nat -> exists w, fin (win_weight fw o k) w /\ Rabs (w * total g - nth k g 0) <= (1 + INR n * Rabs w) * weight_tolerance f n.
Proof.
  intros L f K insz outsz o HK Hi Ho Hr Ha H fw n.
  destruct (weights_are_kernel L f K insz outsz o HK Hi Ho Hr H) as (al & E & D & T & W). cbv zeta in *.
  assert (RG := row_general L f insz outsz o ltac:(lia) ltac:(lia) Ha H).
  assert (En : n = bsize (fst (general_row (resampling_filter L f) insz (scale_of insz outsz) o))).
  { unfold n, win_size, fw. rewrite bounds_nth by exact H. rewrite RG. reflexivity. }
  assert (Es : Z.to_nat (win_start fw o) = bstart (fst (general_row (resampling_filter L f) insz (scale_of insz outsz) o))).
  { unfold win_start, fw. rewrite bounds_nth by exact H. rewrite RG. lia. }
  exists al. rewrite En, Es. split; [exact E|]. split; [exact D|]. split; [exact T|].
  intros k Hk. destruct (W k Hk) as (w & Fw & Bw). exists w. split; [|exact Bw].
  unfold win_weight, fw. rewrite weights_nth; [rewrite RG; exact Fw|exact H|].
  assert (SO : sides_ok f insz outsz) by (split; [lia|split; [lia|intros _; lia]]).
  pose proof (sides_wf L f insz outsz SO) as WF.
  pose proof (wf_nth _ _ _ o WF H) as Q. cbv zeta in Q. rewrite bounds_nth, RG in Q by exact H. lia.
Qed.
Print Assumptions C48_weights_are_kernel_partial.
Example C48_nonvacuous : coded_kernel EwaRobidouxSharp <> None /\ (1 <= Z.of_nat 640 <= 65536)%Z /\ (1 <= Z.of_nat 37 <= 65536)%Z /\
  (Z.of_nat 640 <= 256 * Z.of_nat 37)%Z /\ (5 < 37)%nat.
Proof. repeat split; try lia. discriminate. Qed.

(** ** C49 The kernels are the textbook kernels. *)
(** At every distance the code can ask for (beyond the kernel's nominal radius plus one it is
    never asked), the computed value is the textbook value up to the kernel's tolerance (at most 2^-15). *)
Theorem C49_textbook_kernels_partial : forall L f K, kernel_R f = Some K -> robidoux_typo f = false ->
  forall x a, fin x a -> 0 <= a < support f / 2 + 1 ->
  exists v, fin (rkernel (resampling_filter L f) x) v /\ Rabs (v - K a) <= kernel_tolerance f.
Proof.
  intros L f K HK NT. assert (CK : coded_kernel f = Some K) by (unfold coded_kernel; rewrite NT; exact HK).
  destruct (coded_ok L f K CK) as (t & Tt & _ & _ & A & _). unfold kacc in A. rewrite Tt in A.
  replace (IZR (e_support (filter_entry f))) with (support f) in A by (destruct f; reflexivity). exact A.
Qed.
Print Assumptions C49_textbook_kernels_partial.
Example C49_nonvacuous : kernel_R Spline36 = Some spline36_R /\ robidoux_typo Spline36 = false /\ fin fhalf (1 / 2) /\ 0 <= 1 / 2 < support Spline36 / 2 + 1.
Proof. split; [reflexivity|]. split; [reflexivity|]. split; [exact fhalf_fin|]. cbn. lra. Qed.
(** Robidoux and EwaRobidoux use 13 where the kernel's constant is 113: at distance one half the
    value is off by more than a fiftieth. *)
Theorem C49_textbook_kernels_refuted : forall L, exists K x a v, kernel_R Robidoux = Some K /\ fin x a /\ 0 <= a < support Robidoux / 2 + 1 /\
  fin (rkernel (resampling_filter L Robidoux) x) v /\ Rabs (v - K a) > / 50.
Proof.
  intros L. eexists. exists fhalf, (1 / 2).
  destruct (robidoux_acc fhalf (1 / 2) fhalf_fin ltac:(lra)) as (v & Fv & Bv).
  exists v. split; [reflexivity|]. split; [exact fhalf_fin|]. split; [cbn; lra|]. split; [exact Fv|].
  apply abs_le3 in Bv. unfold bc_cubic in *. destruct (Rlt_dec (1 / 2) 1); [|lra].
  assert (S1 : 1414 / 1000 < sqrt 2 < 1415 / 1000).
  { split; [apply Rsqr_incrst_0|apply Rsqr_incrst_0]; rewrite ?Rsqr_sqrt by lra; unfold Rsqr; try lra; apply sqrt_pos. }
  set (B := 12 / (19 + 9 * sqrt 2)) in *. set (D := 58 + 216 * sqrt 2) in *.
  assert (DB : 363 < D < 364) by (unfold D; lra).
  set (C1 := 13 / D) in *. set (C2 := 113 / D) in *.
  assert (E : C2 - C1 = 100 / D) by (unfold C1, C2; field; lra).
  assert (G : / 4 < 100 / D). { apply Rmult_lt_reg_r with D; [lra|]. unfold Rdiv. rewrite (Rmult_assoc 100), Rinv_l by lra. lra. }
  apply Rlt_gt. apply Rlt_le_trans with (- (v - ((12 - 9 * B - 6 * C2) * (1 / 2) ^ 3 + (-18 + 12 * B + 6 * C2) * (1 / 2) ^ 2 + (6 - 2 * B)) / 6)).
  - lra.
  - rewrite <- Rabs_Ropp. apply Rle_abs.
Qed.
Print Assumptions C49_textbook_kernels_refuted.

(** ** C50 Enlarging with Area weights source pixels by the area they cover. *)
(** The weight output position o gives to source pixel k; zero outside the window. *)
Definition weight_given (fw : fweights f32) (o k : nat) : R :=
  if ((win_start fw o <=? Z.of_nat k) && (Z.of_nat k <? win_end fw o))%Z
  then B2R (win_weight fw o (k - Z.to_nat (win_start fw o))) else 0.

Lemma area_row_used L insz outsz o : (1 <= Z.of_nat insz)%Z -> (insz < outsz)%nat -> (Z.of_nat outsz <= 2 ^ 22)%Z ->
  (Z.of_nat insz * Z.of_nat outsz <= 2 ^ 21)%Z ->
  weight_row (resampling_filter L Area) insz outsz o = area_row insz (scale_of insz outsz) o.
Proof.
  intros Hi Hlt Ho Hp. unfold weight_row. cbn [is_area resampling_filter f_area andb].
  assert (E : fltb (scale_of insz outsz) f1 = true); [|rewrite E; reflexivity].
  destruct (scale_pos insz outsz 0 ltac:(lia) ltac:(lia) ltac:(lia)) as (s & Fs & Bs).
  apply (fltb_fin _ _ _ _ Fs f1_fin). apply abs_le3 in Bs. rewrite u_val in Bs.
  assert (O0 : 1 <= IZR (Zn outsz)) by (apply IZR_le; lia).
  assert (IO : IZR (Zn insz) + 1 <= IZR (Zn outsz) <= 2097152) by (split; [rewrite <- plus_IZR|]; apply IZR_le; nia).
  assert (Q : IZR (Zn insz) / IZR (Zn outsz) <= 1 - / 2097152).
  { apply Rmult_le_reg_r with (IZR (Zn outsz)); [lra|]. unfold Rdiv. rewrite Rmult_assoc, Rinv_l by lra. lra. }
  lra.
Qed.
Theorem C50_area_coverage_partial : forall L insz outsz o k, (1 <= insz < outsz)%nat -> (Z.of_nat insz * Z.of_nat outsz <= 2 ^ 21)%Z ->
  (o < outsz)%nat -> (o = 0 \/ (o * insz) mod outsz <> 0)%nat -> (k < insz)%nat ->
  Rabs (weight_given (generate_weights (resampling_filter L Area) insz outsz) o k - coverage insz outsz o k) <= INR outsz / 524288.
Proof.
  intros L insz outsz o k Hi Hp Ho Hb Hk.
  assert (RU := area_row_used L insz outsz o ltac:(lia) ltac:(lia) ltac:(nia) Hp).
  assert (HB : (o = 0%nat \/ 1 <= Zn o * Zn insz mod Zn outsz)%Z).
  { destruct Hb as [->|Hb]; [left; reflexivity|right]. rewrite <- Nat2Z.inj_mul, <- Nat2Z.inj_mod. lia. }
  pose proof (area_weights insz outsz o ltac:(lia) ltac:(lia) Hp Ho HB k Hk) as A.
  rewrite INR_IZR_INZ.
  assert (WF : wf_fw (generate_weights (resampling_filter L Area) insz outsz) insz outsz).
  { apply sides_wf. split; [nia|]. split; [nia|]. intros _. nia. }
  pose proof (wf_nth _ _ _ o WF Ho) as Q. cbv zeta in Q. rewrite bounds_nth, RU in Q by exact Ho.
  replace (weight_given _ o k) with (given insz outsz o k); [exact A|].
  unfold weight_given, given, win_start, win_end, win_size, win_weight. rewrite !bounds_nth, RU by exact Ho. cbv zeta.
  set (bd := fst (area_row insz (scale_of insz outsz) o)) in *.
  unfold win_start. rewrite bounds_nth, RU by exact Ho. fold bd.
  destruct ((bstart bd <=? k)%nat && (k <? bstart bd + bsize bd)%nat) eqn:C.
  - apply andb_prop in C. destruct C as [C1 C2]. apply Nat.leb_le in C1. apply Nat.ltb_lt in C2.
    replace ((Zn (bstart bd) <=? Zn k) && (Zn k <? Zn (bstart bd) + Zn (bsize bd)))%Z with true by (symmetry; apply andb_true_intro; split; [apply Z.leb_le|apply Z.ltb_lt]; lia).
    rewrite Nat2Z.id. rewrite weights_nth; [rewrite RU; reflexivity|exact Ho|lia].
  - destruct ((Zn (bstart bd) <=? Zn k) && (Zn k <? Zn (bstart bd) + Zn (bsize bd)))%Z eqn:C3; [|reflexivity].
    exfalso. apply andb_prop in C3. destruct C3 as [C1 C2]. apply Z.leb_le in C1. apply Z.ltb_lt in C2.
    assert ((bstart bd <=? k)%nat && (k <? bstart bd + bsize bd)%nat = true); [|congruence].
    apply andb_true_intro; split; [apply Nat.leb_le|apply Nat.ltb_lt]; lia.
Qed.
Print Assumptions C50_area_coverage_partial.
Example C50_nonvacuous : (1 <= 26 < 44)%nat /\ (Z.of_nat 26 * Z.of_nat 44 <= 2 ^ 21)%Z /\ (23 < 44)%nat /\ ((23 * 26) mod 44 <> 0)%nat /\ (13 < 26)%nat.
Proof. vm_compute. repeat split; try lia; discriminate. Qed.
(** Where the output pixel begins exactly at a source pixel edge the claim can fail altogether:
    enlarging 26 to 44 pixels, output 22 lies inside source pixel 13 but takes source pixel 12. *)
Theorem C50_area_coverage_refuted : forall L,
  coverage 26 44 22 13 = 1 /\ weight_given (generate_weights (resampling_filter L Area) 26 44) 22 13 = 0 /\
  weight_given (generate_weights (resampling_filter L Area) 26 44) 22 12 = 1.
Proof.
  intros L. split.
  - unfold coverage. replace (INR 26) with 26 by (cbn; lra). replace (INR 44) with 44 by (cbn; lra). replace (INR 22) with 22 by (cbn; lra). replace (INR 13) with 13 by (cbn; lra).
    rewrite (Rmin_left) by lra. rewrite (Rmax_left ((22) * (26 / 44))) by lra. rewrite Rmax_right by lra. field.
  - unfold weight_given.
    replace (win_start (generate_weights (resampling_filter L Area) 26 44) 22) with 12%Z by (vm_compute; reflexivity).
    replace (win_end (generate_weights (resampling_filter L Area) 26 44) 22) with 14%Z by (vm_compute; reflexivity).
    change (Z.of_nat 13) with 13%Z. change (Z.of_nat 12) with 12%Z. cbn [Z.leb Z.ltb Z.compare Pos.compare Pos.compare_cont andb].
    replace (win_weight (generate_weights (resampling_filter L Area) 26 44) 22 (13 - Z.to_nat 12)) with f0 by (apply f32_bits_inj; vm_compute; reflexivity).
    replace (win_weight (generate_weights (resampling_filter L Area) 26 44) 22 (12 - Z.to_nat 12)) with f1 by (apply f32_bits_inj; vm_compute; reflexivity).
    split; [reflexivity|]. apply f1_fin.
Qed.
Print Assumptions C50_area_coverage_refuted.
(** The same at the API: a row of 26 pixels, all 0 but pixel 13, enlarged to 44. Output 22
    covers [13, 13.59) of the source, all of it inside pixel 13, yet shows nothing of it. *)
Theorem C50_area_coverage_image_refuted : forall L, exists out,
  resize_u8 L Area 1 None (gray 26 1 26 (repeat 0 13 ++ [255] ++ repeat 0 12)%Z) (gray 44 1 44 (repeat 0%Z 44)) = Returned Ok out /\
  sample 1 out 22 0 0 = Some 0%Z.
Proof. intro L. eexists; (split; [vm_compute; reflexivity|vm_compute; reflexivity]). Qed.
Print Assumptions C50_area_coverage_image_refuted.
