(** Integer windows of the public filters: sums of the fixed point coefficients,
    absence of 32-bit overflow, behaviour on constant images. *)
From Coq Require Import ZArith Reals Lra Lia Bool List Psatz ZifyBool ZifyNat.
From Flocq Require Import Core.Core IEEE754.BinarySingleNaN.
From Verif Require Import Base BaseProofs FixedPoint Spec KernelProofs DispatchProofs ResizeProofs F32 F32Proofs Weights WeightsProofs QuantProofs
  ImageStore Dispatch Resize PortableProofs Sampler SamplerProofs WeightSum FilterSums Center.
Import ListNotations.
Local Open Scope R_scope.

Fixpoint rsumn (n : nat) (g : nat -> R) : R := match n with O => 0 | S m => rsumn m g + g m end.
Lemma rsumn_S_l n g : rsumn (S n) g = g O + rsumn n (fun k => g (S k)).
Proof. induction n as [|n IH]; [cbn; ring|]. cbn [rsumn] in *. rewrite IH. ring. Qed.
Lemma rsum_rsumn ws : rsum ws = rsumn (length ws) (fun k => nth k ws 0).
Proof. induction ws as [|w ws IH]; [reflexivity|]. cbn [rsum length]. rewrite rsumn_S_l. cbn [nth]. now rewrite IH. Qed.
Lemma rsumn_nonneg n g : (forall k, (k < n)%nat -> 0 <= g k) -> 0 <= rsumn n g.
Proof.
  induction n as [|n IH]; intro H; [cbn; lra|]. cbn [rsumn].
  specialize (IH (fun k Hk => H k (Nat.lt_lt_succ_r _ _ Hk))). specialize (H n (Nat.lt_succ_diag_r n)). lra.
Qed.

(** One weight. *)
Lemma quant_pos w r : fin w r -> 0 <= r <= IZR (2 ^ 80) ->
  (0 <= quant_i16 w)%Z /\ IZR (quant_i16 w) <= 65536 * r /\ IZR (quant_i16 w) <= 32768 * r + 1 / 2 /\
  32768 * r - 1 / 2 - Rmax 0 (32768 * r - 32767 - 1 / 2) <= IZR (quant_i16 w).
Proof.
  intros F B. rewrite (quant_fin w r F) by (rewrite Rabs_pos_eq; lra).
  destruct (ZnearestA_spec (r * 32768)) as [H _]. apply Rabs_le_inv in H.
  set (z := ZnearestA (r * 32768)) in *.
  assert (Z0 : (0 <= z)%Z).
  { assert (-1 < z)%Z; [|lia]. apply lt_IZR. lra. }
  unfold clampZ. rewrite (Z.max_r (-32768)) by lia.
  pose proof (Rmax_l 0 (32768 * r - 32767 - 1 / 2)) as M1. pose proof (Rmax_r 0 (32768 * r - 32767 - 1 / 2)) as M2.
  destruct (Z.min_spec 32767 z) as [[C ->]|[C ->]].
  - apply IZR_lt in C. repeat split; try lia; lra.
  - apply IZR_le in C. repeat split; try lia; try lra.
    destruct (Z.eq_dec z 0) as [->|N]; [lra|]. assert (1 <= z)%Z as G by lia. apply IZR_le in G. lra.
Qed.

Definition quant_row (row : list f32) (k : nat) : Z := quant_i16 (nth k row f0).

Lemma quant_row_sums row n : row_unit row n -> (Zn n <= 2 ^ 23)%Z ->
  (forall k, (k < n)%nat -> (0 <= quant_row row k)%Z) /\
  (zsum n (quant_row row) <= 196610)%Z /\
  (64 * Z.abs (zsum n (quant_row row) - 2 ^ 15) <= 33 * Zn n + 34)%Z.
Proof.
  intros (ws & Lw & Fw & Pw & Sw) Hn. apply Rabs_le_inv in Sw.
  assert (NB : 0 <= INR n <= 8388608).
  { rewrite INR_IZR_INZ. split; apply IZR_le; lia. }
  rewrite rsum_rsumn, Lw in Sw. set (g := fun k => nth k ws 0) in *.
  assert (G0 : forall k, (k < n)%nat -> 0 <= g k).
  { intros k Hk. rewrite Forall_forall in Pw. apply Pw. apply nth_In. lia. }
  assert (GS : forall m, (m <= n)%nat -> 0 <= rsumn m g <= rsumn n g).
  { intros m Hm. split; [apply rsumn_nonneg; intros; apply G0; lia|].
    clear -Hm G0. induction n as [|n IH]; [replace m with 0%nat by lia; lra|].
    destruct (Nat.eq_dec m (S n)) as [->|]; [lra|]. cbn [rsumn].
    specialize (IH (fun k Hk => G0 k (Nat.lt_lt_succ_r _ _ Hk)) ltac:(lia)). specialize (G0 n ltac:(lia)). lra. }
  assert (GB : forall k, (k < n)%nat -> 0 <= g k <= IZR (2 ^ 80)).
  { intros k Hk. split; [now apply G0|]. pose proof (GS (S k) ltac:(lia)) as Q. cbn [rsumn] in Q.
    pose proof (GS k ltac:(lia)) as Q'. apply Rle_trans with 4; [lra|apply IZR_le; lia]. }
  assert (Q : forall k, (k < n)%nat -> _) by (intros k Hk; exact (quant_pos _ _ (Fw k Hk) (GB k Hk))).
  assert (A : forall m, (m <= n)%nat ->
     IZR (zsum m (quant_row row)) <= 65536 * rsumn m g /\
     IZR (zsum m (quant_row row)) <= 32768 * rsumn m g + INR m / 2 /\
     32768 * rsumn m g - INR m / 2 - Rmax 0 (32768 * rsumn m g - 32767 - 1 / 2) <= IZR (zsum m (quant_row row))).
  { induction m as [|m IH]; intro Hm.
    - cbn [zsum rsumn]. rewrite Rmax_left by lra. cbn [INR]. lra.
    - destruct (IH ltac:(lia)) as (I1 & I2 & I3). destruct (Q m ltac:(lia)) as (_ & J1 & J2 & J3).
      cbn [zsum rsumn]. rewrite plus_IZR, S_INR. fold (g m) in *. unfold quant_row at 2 4 6.
      repeat split; try lra.
      pose proof (GS m ltac:(lia)) as U1. pose proof (G0 m ltac:(lia)) as U2.
      set (a := rsumn m g) in *. set (b := g m) in *.
      assert (Rmax 0 (32768 * a - 32767 - 1 / 2) + Rmax 0 (32768 * b - 32767 - 1 / 2)
              <= Rmax 0 (32768 * (a + b) - 32767 - 1 / 2)).
      { unfold Rmax. repeat destruct (Rle_dec _ _); lra. }
      lra. }
  destruct (A n (le_n n)) as (A1 & A2 & A3).
  split; [intros k Hk; apply (Q k Hk)|].
  set (s := rsumn n g) in *.
  split.
  - apply le_IZR. eapply Rle_trans; [exact A1|]. lra.
  - assert (E : Rmax 0 (32768 * s - 32767 - 1 / 2) <= (INR n + 2) / 128 + 1 / 2).
    { apply Rmax_lub; lra. }
    apply le_IZR. rewrite mult_IZR, abs_IZR, minus_IZR, plus_IZR, mult_IZR, <- INR_IZR_INZ.
    change (IZR (2 ^ 15)) with 32768.
    assert (Rabs (IZR (zsum n (quant_row row)) - 32768) <= (33 * INR n + 34) / 64); [|lra].
    apply Rabs_le. lra.
Qed.

(** ** Windows of the public filters *)
Lemma wcoef_row fl insz outsz o k : (o < outsz)%nat -> (k < aligned_size (generate_weights fl insz outsz))%nat ->
  wcoef (filter_windows fl insz outsz) o k = quant_row (snd (weight_row fl insz outsz o)) k.
Proof.
  intros Ho Hk. unfold filter_windows, windows_of, quant_row. cbn [wcoef].
  replace 0%Z with (quant_i16 f0) by (vm_compute; reflexivity).
  rewrite map_nth. f_equal. now apply weights_nth.
Qed.
Lemma wsize_row fl insz outsz o : (o < outsz)%nat ->
  wsize (filter_windows fl insz outsz) o = bsize (fst (weight_row fl insz outsz o)).
Proof. intro Ho. unfold filter_windows, windows_of. cbn [wsize]. f_equal. now apply bounds_nth. Qed.

Local Open Scope Z_scope.

(** Sides for which windows are exact. *)
Definition sides_ok (f : resampling_function) (insz outsz : nat) : Prop :=
  1 <= Zn insz <= 2 ^ 23 /\ 1 <= Zn outsz <= 2 ^ 64 /\ (f = Area -> Zn outsz <= 2 ^ 22).

Lemma is_area_iff L f : is_area (resampling_filter L f) = true -> f = Area.
Proof. destruct f; intro H; try discriminate H; reflexivity. Qed.

Lemma sides_wf L f insz outsz : sides_ok f insz outsz ->
  wf_fw (generate_weights (resampling_filter L f) insz outsz) insz outsz.
Proof.
  intros (A & B & C). apply generate_weights_wf; auto; [apply filter_support_ok|].
  intro E. apply C. now apply is_area_iff in E.
Qed.

Lemma averaging_windows L f insz outsz o : averaging f = true -> sides_ok f insz outsz -> (o < outsz)%nat ->
  let W := filter_windows (resampling_filter L f) insz outsz in
  (forall k, (k < wsize W o)%nat -> 0 <= wcoef W o k) /\
  zsum (wsize W o) (wcoef W o) <= 196610 /\
  64 * Z.abs (zsum (wsize W o) (wcoef W o) - 2 ^ 15) <= 33 * Zn (wsize W o) + 34.
Proof.
  intros A S Ho W. pose proof (sides_wf L f insz outsz S) as WF. destruct S as (S1 & S2 & S3).
  pose proof (averaging_row L f insz outsz o A S1 S2 S3 Ho) as U.
  pose proof (filter_windows_in _ _ _ o WF Ho) as B. fold W in B.
  assert (K : (wsize W o <= aligned_size (generate_weights (resampling_filter L f) insz outsz))%nat).
  { pose proof (wf_nth _ _ _ o WF Ho) as Q. cbv zeta in Q. unfold W, filter_windows, windows_of. cbn [wsize]. lia. }
  unfold W in *. rewrite <- wsize_row in U by exact Ho.
  destruct (quant_row_sums _ _ U ltac:(lia)) as (Q1 & Q2 & Q3).
  assert (E : zsum (wsize (filter_windows (resampling_filter L f) insz outsz) o)
                   (wcoef (filter_windows (resampling_filter L f) insz outsz) o) =
              zsum (wsize (filter_windows (resampling_filter L f) insz outsz) o)
                   (quant_row (snd (weight_row (resampling_filter L f) insz outsz o)))).
  { apply zsum_ext. intros k Hk. apply wcoef_row; [exact Ho|lia]. }
  rewrite E. split; [|split; assumption].
  intros k Hk. rewrite wcoef_row by (try exact Ho; lia). now apply Q1.
Qed.

Lemma averaging_nonneg L f insz outsz : averaging f = true -> sides_ok f insz outsz ->
  nonneg_weights (filter_windows (resampling_filter L f) insz outsz) outsz.
Proof. intros A S o k Ho Hk. now apply (averaging_windows L f insz outsz o A S Ho). Qed.

Lemma averaging_safe L f insz outsz maxv : averaging f = true -> sides_ok f insz outsz -> 0 <= maxv <= 4095 ->
  accumulator_safe maxv (filter_windows (resampling_filter L f) insz outsz) outsz.
Proof.
  intros A S Hm o Ho. destruct (averaging_windows L f insz outsz o A S Ho) as (Q1 & Q2 & _).
  rewrite (zsum_ext _ _ (wcoef (filter_windows (resampling_filter L f) insz outsz) o)).
  2:{ intros k Hk. apply Z.abs_eq. now apply Q1. }
  nia.
Qed.

(** ** Window length against the downscale ratio *)
Lemma scale_ratio insz outsz t : 1 <= Zn insz <= 2 ^ 23 -> 1 <= Zn outsz <= 2 ^ 64 -> 1 <= t <= 2 ^ 23 ->
  Zn insz <= t * Zn outsz -> exists s, fin (scale_of insz outsz) s /\ (0 <= s <= IZR t)%R.
Proof.
  intros Hin Hout Ht H.
  assert (Fi : fin (f_of_nat insz) (IZR (Zn insz))) by (apply f_of_nat_exact; lia).
  assert (Fo : fin (f_of_nat outsz) (rnd (IZR (Zn outsz)))) by (apply f_of_nat_fin; lia).
  assert (IB : (1 <= IZR (Zn insz) <= 8388608)%R) by (split; apply IZR_le; lia).
  assert (OB : (1 <= rnd (IZR (Zn outsz)))%R) by (apply rnd_ge_fmt; [apply (fmt_IZR 1); lia|apply IZR_le; lia]).
  assert (TB : (1 <= IZR t)%R) by (apply IZR_le; lia).
  assert (K : (IZR (Zn insz) <= IZR t * rnd (IZR (Zn outsz)))%R).
  { destruct (Z.le_gt_cases (Zn outsz) (2 ^ 24)) as [Q|Q].
    - rewrite rnd_fmt by (apply fmt_IZR; lia). rewrite <- mult_IZR. apply IZR_le. lia.
    - assert (16777216 <= rnd (IZR (Zn outsz)))%R.
      { apply rnd_ge_fmt; [apply (fmt_IZR 16777216); lia|]. apply IZR_le. lia. }
      nra. }
  set (O := rnd (IZR (Zn outsz))) in *.
  assert (Q : (0 <= IZR (Zn insz) / O <= IZR t)%R).
  { split.
    - unfold Rdiv. apply Rmult_le_pos; [lra|]. apply Rlt_le, Rinv_0_lt_compat. lra.
    - apply Rmult_le_reg_r with O; [lra|]. unfold Rdiv. rewrite Rmult_assoc, Rinv_l by lra. lra. }
  exists (rnd (IZR (Zn insz) / O)). split.
  - apply fdiv_fin; auto; [lra|]. apply moderate_pos; [lra|]. eapply Rle_trans; [apply Q|]. apply IZR_le. lia.
  - split; [apply rnd_ge_fmt; [apply fmt_0|lra]|apply rnd_le_fmt; [apply fmt_IZR; lia|lra]].
Qed.

Lemma window_length L f insz outsz t o : sides_ok f insz outsz -> 1 <= t <= 10000 -> Zn insz <= t * Zn outsz ->
  (o < outsz)%nat ->
  Zn (wsize (filter_windows (resampling_filter L f) insz outsz) o) <= Z.max 2 (e_support (filter_entry f) * t).
Proof.
  intros S Ht Hr Ho. pose proof (sides_wf L f insz outsz S) as WF. destruct S as (S1 & S2 & S3).
  pose proof (wf_nth _ _ _ o WF Ho) as Q. cbv zeta in Q.
  assert (B : Zn (aligned_size (generate_weights (resampling_filter L f) insz outsz)) <= Z.max 2 (e_support (filter_entry f) * t)).
  { unfold generate_weights. destruct (is_area _ && fltb _ f1); cbn [aligned_size]; [lia|].
    destruct (scale_ratio insz outsz t ltac:(lia) ltac:(lia) ltac:(lia) Hr) as (s & Fs & Bs).
    destruct (filter_table L f) as (Fm & _).
    set (m := e_support (filter_entry f)) in *.
    assert (Hm : 1 <= m <= 6) by (unfold m; destruct f; cbn; lia).
    assert (Tb : (1 <= IZR t)%R) by (apply IZR_le; lia).
    assert (Cut : exists c, fin (cutoff_of (resampling_filter L f) (scale_of insz outsz)) c /\ (1 <= c <= IZR t)%R).
    { unfold cutoff_of. destruct (is_resizable _).
      - exists (Rmax s 1). split; [apply fmax_fin; [exact Fs|apply f1_fin]|]. split; [apply Rmax_r|apply Rmax_lub; lra].
      - exists 1%R. split; [apply f1_fin|lra]. }
    destruct Cut as (c & Fc & Bc).
    assert (Mr : (1 <= IZR m <= 6)%R) by (split; apply IZR_le; lia).
    assert (Tr : (IZR t <= 10000)%R) by (apply IZR_le; lia).
    assert (Fmc : fin (fmul (min_kernel (resampling_filter L f)) (cutoff_of (resampling_filter L f) (scale_of insz outsz))) (rnd (IZR m * c))).
    { apply fmul_fin; auto. apply moderate_pos; [nra|]. apply Rle_trans with 60000%R; [nra|apply IZR_le; lia]. }
    assert (R0 : (0 <= rnd (IZR m * c))%R) by (apply rnd_ge_fmt; [apply fmt_0|nra]).
    assert (R1 : (rnd (IZR m * c) <= IZR (m * t))%R).
    { apply rnd_le_fmt; [apply fmt_IZR; nia|]. rewrite mult_IZR. nra. }
    pose proof (fround_fin _ _ Fmc) as Fr.
    pose proof (ZnearestA_ge _ 0 R0) as Z0. pose proof (ZnearestA_le _ _ R1) as Z1.
    unfold kernel_size_of. rewrite (f_to_usize_Z _ _ Fr) by nia. nia. }
  unfold filter_windows, windows_of. cbn [wsize]. lia.
Qed.

(** Downscaling by at most 42 cannot overflow for any filter with 8-bit samples;
    by at most 2 for 12-bit samples. *)
Lemma any_filter_safe L f insz outsz t maxv : sides_ok f insz outsz -> 1 <= t <= 10000 -> Zn insz <= t * Zn outsz ->
  0 <= maxv -> Z.max 2 (e_support (filter_entry f) * t) * maxv <= 65535 ->
  accumulator_safe maxv (filter_windows (resampling_filter L f) insz outsz) outsz.
Proof.
  intros S Ht Hr Hm Hb. apply small_window_safe; [exact Hm|].
  intros o Ho. pose proof (window_length L f insz outsz t o S Ht Hr Ho) as Q. unfold filter_windows in Q. nia.
Qed.

(** ** Constant images *)
Lemma const_pass_h W n o maxv v :
  (forall k, (k < wsize W o)%nat -> 0 <= wcoef W o k) ->
  64 * Z.abs (zsum (wsize W o) (wcoef W o) - 2 ^ 15) <= 33 * Zn (wsize W o) + 34 ->
  Zn (wsize W o) <= n -> 0 <= v <= maxv -> (33 * n + 34) * v < 1048576 ->
  round_q15 maxv (zsum (wsize W o) (wcoef W o) * v) = v.
Proof.
  intros _ Hs Hn Hv Hc. set (S := zsum _ _) in *. unfold round_q15.
  assert (E : (S * v + 2 ^ 14) / 2 ^ 15 = v).
  { symmetry. apply Z.div_unique with ((S - 2 ^ 15) * v + 2 ^ 14); [left|nia].
    assert (Z.abs ((S - 2 ^ 15) * v) < 16384); [|lia]. rewrite Z.abs_mul, (Z.abs_eq v) by lia. nia. }
  rewrite E. unfold clampZ. lia.
Qed.
Lemma const_pass_v W n o maxv v :
  64 * Z.abs (zsum (wsize W o) (wcoef W o) - 2 ^ 15) <= 33 * Zn (wsize W o) + 34 ->
  Zn (wsize W o) <= n -> 0 <= v <= maxv -> (33 * n + 34) * v < 1048576 ->
  v - 1 <= floor_q15 maxv (zsum (wsize W o) (wcoef W o) * v) <= v.
Proof.
  intros Hs Hn Hv Hc. set (S := zsum _ _) in *. unfold floor_q15.
  assert (A : Z.abs ((S - 2 ^ 15) * v) < 16384).
  { rewrite Z.abs_mul, (Z.abs_eq v) by lia. nia. }
  assert (E1 : v - 1 <= S * v / 2 ^ 15) by (apply Z.div_le_lower_bound; lia).
  assert (E2 : S * v / 2 ^ 15 < v + 1) by (apply Z.div_lt_upper_bound; lia).
  assert (v - 1 >= 0 \/ v = 0) as [C| ->] by lia; unfold clampZ; lia.
Qed.
