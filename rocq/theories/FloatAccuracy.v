(** From summed taps to accurate f32 samples. *)
From Coq Require Import ZArith Reals Lra Lia Bool List Psatz Permutation ZifyBool ZifyNat.
From Flocq Require Import Core.Core IEEE754.BinarySingleNaN.
From Verif Require Import Base BaseProofs FixedPoint FloatConv ImageStore Resize Spec SpecApi SpecFloat F32 F32Proofs Weights WeightsProofs QuantProofs Sampler SamplerProofs WeightSum FilterSums Center QuantSums
  SpecKernels SpecAccuracy KernelAccuracy KernelFacts WindowPos WeightValues WeightTable Accuracy ApiFloat DriverProofs FloatApiProofs KernelProofs DispatchProofs
  FloatErr SpecX86Float FloatSumErr SpecFloatAccuracy X86FloatKernels Properties7 Properties8.
Import ListNotations.
Local Open Scope R_scope.

(** ** The portable expression *)
Lemma weighted_sums k n x w : sums_taps no_extra n x w (SpecFloat.weighted f0 fmul (mlaf k) n x w).
Proof.
  exists (rev (seq 0 n)). unfold no_extra. rewrite app_nil_r. split; [symmetry; apply Permutation_rev|].
  assert (ST : forall l a j, (j < n)%nat -> summed n x w l a -> summed n x w (j :: l) (mlaf k a (x j) (w j))).
  { intros l a j Hj H. destruct k; cbn [mlaf]; [now apply sum_fused|now apply sum_unfused']. }
  assert (ACC : forall m from l a, (from + m <= n)%nat -> summed n x w l a ->
    summed n x w (rev (seq from m) ++ l) (accumulate_from (mlaf k) from m x w a)).
  { induction m as [|m IH]; intros from l a Hm H; [exact H|].
    unfold accumulate_from. cbn [seq fold_left rev]. rewrite <- app_assoc. apply IH; [lia|]. apply ST; [lia|exact H]. }
  unfold SpecFloat.weighted. destruct (starts_with_product n) eqn:E.
  - assert (Hn : (1 <= n)%nat) by (destruct n; [discriminate|lia]).
    specialize (ACC (n - 1)%nat 1%nat [0%nat] (fmul (x 0%nat) (w 0%nat)) ltac:(lia) (sum_first n x w 0%nat ltac:(lia))).
    replace (rev (seq 0 n)) with (rev (seq 1 (n - 1)) ++ [0%nat]); [exact ACC|].
    destruct n as [|n]; [lia|]. cbn [seq rev]. replace (S n - 1)%nat with n by lia. reflexivity.
  - specialize (ACC n 0%nat [] f0 ltac:(lia) (sum_none n x w)). rewrite app_nil_r in ACC. exact ACC.
Qed.

(** ** Sums *)
Lemma lsum_seq g : forall n a, lsum g (seq a n) = total (map g (seq a n)).
Proof. induction n as [|n IH]; intro a; [reflexivity|]. cbn [seq map lsum]. unfold total. cbn [fold_right]. fold (total (map g (seq (S a) n))). now rewrite IH. Qed.
Lemma sum_to_rsumn n g : sum_to n g = rsumn n g.
Proof. apply total_map_seq. Qed.

Lemma sums_blend W o p v : sums_taps no_extra (tsize W o) (fun k => p (tstart W o + k)%nat) (tweight W o) v -> blend_at W o p v.
Proof.
  intros (l & Pm & S). unfold no_extra in Pm. rewrite app_nil_r in Pm. unfold blend_at. cbv zeta. intros Hn Fi Hs.
  set (n := tsize W o) in *. set (X := fun k => B2R (p (tstart W o + k)%nat)) in *. set (Wt := fun k => B2R (tweight W o k)) in *.
  assert (EL : length l = n) by (rewrite (Permutation_length Pm), seq_length; reflexivity).
  assert (EA : lsum (fun k => Rabs (X k * Wt k)) l = sum_to n (fun k => Rabs (X k * Wt k))) by (rewrite (lsum_perm _ _ _ Pm); apply lsum_seq).
  assert (ES : lsum (fun k => X k * Wt k) l = sum_to n (fun k => X k * Wt k)) by (rewrite (lsum_perm _ _ _ Pm); apply lsum_seq).
  destruct (summed_error n (fun k => p (tstart W o + k)%nat) (tweight W o) X Wt
    ltac:(intros k Hk; split; [apply Fi; exact Hk|reflexivity]) ltac:(intros k Hk; split; [apply Fi; exact Hk|reflexivity]) l v S) as (r & (F & Er) & E).
  { rewrite EA. exact Hs. } { rewrite EL. exact Hn. }
  split; [exact F|].
  change (Rabs (B2R v - sum_to n (fun k => X k * Wt k)) <= INR n * / 4194304 * sum_to n (fun k => Rabs (X k * Wt k)) + INR n * bpow radix2 (-147)).
  rewrite Er, <- ES. eapply Rle_trans; [exact E|]. rewrite EL, EA. apply cost_bound; [exact Hn|].
  rewrite <- EA. apply lsum_nonneg. intro. apply Rabs_pos.
Qed.

(** ** Bounded kernels *)
Lemma kernel_bounded f K a : coded_kernel f = Some K -> 0 <= a -> Rabs (K a) <= 5 / 4.
Proof.
  intros HK Ha.
  destruct (coded_ok (mkLibm (fun x => x) (fun x => x) (fun x => x) (fun x => x) (fun x => x)) f K HK) as (t & _ & _ & _ & _ & Bd & _).
  destruct (Rlt_le_dec a (IZR (e_support (filter_entry f)) / 2 + 1)) as [L|G]; [apply Bd; lra|].
  clear Bd. destruct f; try discriminate HK; cbn in HK; injection HK as <-; cbn in G;
    unfold triangle, flat, parabola, quadratic_bspline, bc_cubic, spline16_R, spline36_R, spline64_R;
    repeat (destruct Rlt_dec; [exfalso; lra|]); rewrite Rabs_pos_eq; lra.
Qed.
Lemma samples_bounded f K al : coded_kernel f = Some K -> (forall k, (k < length al)%nat -> 0 <= nth k al 0) ->
  Forall (fun x => Rabs x <= 5 / 4) (kernel_samples f (map K al)).
Proof.
  intros HK H. assert (F : Forall (fun x => Rabs x <= 5 / 4) (map K al)).
  { rewrite Forall_map, Forall_forall. intros a Ha. apply (kernel_bounded f K a HK). destruct (In_nth _ _ 0 Ha) as (k & Hk & <-). now apply H. }
  destruct (map K al) as [|v r]; [constructor|]. unfold kernel_samples. destruct (elliptical f); [|exact F].
  inversion F as [|? ? Hv Hr]; subst. constructor; [exact Hv|]. clear F. revert v Hv. induction Hr as [|z r Hz Hr IH]; intros v Hv; cbn [blend]; constructor.
  - eapply Rle_trans; [apply Rabs_triang|]. rewrite !Rabs_mult, !(Rabs_pos_eq (_ / _)) by lra. lra.
  - apply IH. eapply Rle_trans; [apply Rabs_triang|]. rewrite !Rabs_mult, !(Rabs_pos_eq (_ / _)) by lra. lra.
Qed.

(** ** Weights near the kernel give means near the textbook mean *)
Lemma float_blend n (x w g : nat -> R) tau G M :
  / 7 <= G -> 0 <= tau -> INR n * tau <= / 28 -> 0 <= M -> G = rsumn n g ->
  (forall k, (k < n)%nat -> Rabs (w k * G - g k) <= (1 + INR n * Rabs (w k)) * tau) ->
  (forall k, (k < n)%nat -> Rabs (x k) <= M) ->
  let S := rsumn n (fun k => Rabs (g k)) / G in
  rsumn n (fun k => Rabs (w k)) <= 4 / 3 * S + 1 / 3 /\ 1 <= S /\
  Rabs (rsumn n (fun k => x k * w k) - rsumn n (fun k => g k * x k) / G) <= 4 / 3 * (M * INR n * (1 + S) * (tau / G)).
Proof.
  intros HG Ht Hnt HM EG Hw Hx S. pose proof (pos_INR n) as Hn.
  assert (Gi : 0 < / G <= 7).
  { assert (0 < / G) by (apply Rinv_0_lt_compat; lra). split; [assumption|].
    replace 7 with (/ (/ 7)) by lra. apply Rinv_le_contravar; lra. }
  set (gi := / G) in *. assert (GG1 : G * gi = 1) by (apply Rinv_r; lra).
  assert (Hd : forall k, (k < n)%nat -> Rabs (w k - g k * gi) <= (1 + INR n * Rabs (w k)) * (tau * gi)).
  { intros k Hk. replace (w k - g k * gi) with ((w k * G - g k) * gi) by (replace (w k) with (w k * (G * gi)) at 2 by (rewrite GG1; ring); ring).
    rewrite Rabs_mult, (Rabs_pos_eq gi) by lra. rewrite <- Rmult_assoc. apply Rmult_le_compat_r; [lra|]. now apply Hw. }
  assert (Hntg : INR n * (tau * gi) <= 1 / 4).
  { replace (INR n * (tau * gi)) with (INR n * tau * gi) by ring. assert (0 <= INR n * tau) by nra. nra. }
  assert (Tg : 0 <= tau * gi) by nra.
  assert (Hwk : forall k, (k < n)%nat -> Rabs (w k) <= 4 / 3 * gi * Rabs (g k) + 4 / 3 * (tau * gi)).
  { intros k Hk. specialize (Hd k Hk). pose proof (Rabs_pos (w k)).
    assert (Rabs (w k) <= Rabs (w k - g k * gi) + Rabs (g k * gi)).
    { replace (w k) with ((w k - g k * gi) + g k * gi) at 1 by ring. apply Rabs_triang. }
    rewrite (Rabs_mult (g k)), (Rabs_pos_eq gi) in H0 by lra.
    assert (INR n * Rabs (w k) * (tau * gi) <= 1 / 4 * Rabs (w k)).
    { replace (INR n * Rabs (w k) * (tau * gi)) with (INR n * (tau * gi) * Rabs (w k)) by ring. apply Rmult_le_compat_r; lra. }
    nra. }
  assert (HS : S = gi * rsumn n (fun k => Rabs (g k))) by (unfold S, Rdiv; fold gi; ring).
  assert (SW : rsumn n (fun k => Rabs (w k)) <= 4 / 3 * S + 1 / 3).
  { eapply Rle_trans; [apply (rsumn_ge n (fun k => 4 / 3 * gi * Rabs (g k) + 4 / 3 * (tau * gi))); exact Hwk|].
    rewrite rsumn_plus, rsumn_scal, rsumn_const, HS. lra. }
  assert (S1 : 1 <= S).
  { rewrite HS. pose proof (rsumn_abs n g) as A. rewrite <- EG, Rabs_pos_eq in A by lra.
    rewrite <- GG1, (Rmult_comm G). apply Rmult_le_compat_l; lra. }
  split; [exact SW|]. split; [exact S1|].
  assert (E : rsumn n (fun k => x k * w k) - rsumn n (fun k => g k * x k) / G = rsumn n (fun k => x k * (w k - g k * gi))).
  { unfold Rdiv. fold gi. rewrite Rmult_comm, <- rsumn_scal.
    replace (rsumn n (fun k => x k * w k)) with (rsumn n (fun k => x k * (w k - g k * gi)) + rsumn n (fun k => gi * (g k * x k))); [ring|].
    rewrite <- rsumn_plus. apply rsumn_ext. intros k _. ring. }
  rewrite E. eapply Rle_trans; [apply rsumn_abs|].
  eapply Rle_trans; [apply (rsumn_ge n (fun k => M * (tau * gi) + M * INR n * (tau * gi) * Rabs (w k)))|].
  - intros k Hk. rewrite Rabs_mult. pose proof (Rabs_pos (x k)). pose proof (Rabs_pos (w k)). pose proof (Rabs_pos (w k - g k * gi)).
    replace (M * (tau * gi) + M * INR n * (tau * gi) * Rabs (w k)) with (M * ((1 + INR n * Rabs (w k)) * (tau * gi))) by ring.
    apply Rmult_le_compat; auto.
  - rewrite rsumn_plus, rsumn_const, (rsumn_scal n (M * INR n * (tau * gi)) (fun k => Rabs (w k))). replace (tau / G) with (tau * gi) by reflexivity.
    assert (P : 0 <= M * INR n * (tau * gi)) by (apply Rmult_le_pos; [apply Rmult_le_pos|]; lra).
    set (q := M * INR n * (tau * gi)) in *.
    replace (4 / 3 * (M * INR n * (1 + S) * (tau * gi))) with (q * (4 / 3 * (1 + S))) by (unfold q; ring).
    replace (M * (tau * gi) * INR n + q * rsumn n (fun k => Rabs (w k))) with (q * (1 + rsumn n (fun k => Rabs (w k)))) by (unfold q; ring).
    apply Rmult_le_compat_l; lra.
Qed.

Lemma one_direction_f32 L f K insz outsz o (p : nat -> f32) v : coded_kernel f = Some K ->
  (1 <= Z.of_nat insz <= 65536)%Z -> (1 <= Z.of_nat outsz <= 65536)%Z -> (Z.of_nat insz <= downscale_limit f * Z.of_nat outsz)%Z ->
  (f = Area -> (outsz <= insz)%nat) -> (o < outsz)%nat ->
  blend_at (filter_taps (resampling_filter L f) insz outsz) o p v ->
  textbook_f32_at f K insz outsz o p v.
Proof.
  intros HK Hi Ho Hr Ha H HB.
  assert (DL : (downscale_limit f <= 170)%Z) by (unfold downscale_limit; destruct (averaging f); lia).
  assert (DL1 : (1 <= downscale_limit f)%Z) by (unfold downscale_limit; destruct (averaging f); lia).
  destruct (C48_weights_are_kernel_partial L f K insz outsz o HK Hi Ho ltac:(nia) Ha H) as (al & Ea & Da & Hrest). cbv zeta in Hrest.
  destruct Hrest as (T & Ws).
  assert (W47 := C47_window_position L f insz outsz o ltac:(lia) ltac:(lia) Ha H). cbv zeta in W47.
  unfold blend_at, filter_taps in HB. cbv zeta in HB.
  set (fw := generate_weights (resampling_filter L f) insz outsz) in *.
  change (tsize (taps_of f0 fw) o) with (win_size fw o) in HB.
  set (n := win_size fw o) in *. set (st := tstart (taps_of f0 fw) o) in *.
  assert (Est : Z.to_nat (win_start fw o) = st) by (unfold win_start; rewrite Nat2Z.id; reflexivity).
  set (g := kernel_samples f (map K al)) in *.
  assert (Lg : length g = n) by (unfold g; rewrite samples_length, map_length; exact Ea).
  assert (SO : sides_ok f insz outsz) by (split; [lia|split; [lia|intros _; lia]]).
  assert (Hn : (Z.of_nat n <= Z.max 2 (e_support (filter_entry f) * downscale_limit f))%Z).
  { pose proof (QuantSums.window_length L f insz outsz (downscale_limit f) o SO ltac:(lia) Hr H) as Q. exact Q. }
  destruct (tau_bound f K n HK Hn) as [Ht0 Ht1].
  pose proof (sides_wf L f insz outsz SO) as WF. pose proof (wf_nth _ _ _ o WF H) as Q. cbv zeta in Q. fold fw in Q.
  change (1 <= n /\ n <= aligned_size fw /\ st + n <= insz)%nat in Q. destruct Q as (Q1 & Q2 & Q3).
  assert (N512 : (Z.of_nat n <= 512)%Z).
  { unfold downscale_limit in Hn. destruct f; try discriminate HK; cbn in Hn; lia. }
  exists st, n, al. split.
  { unfold window_near. destruct W47 as (n' & p' & q' & A & B & C & D & E). exists n', p', q'.
    split; [exact A|]. split; [exact B|]. split; [exact C|].
    unfold win_start in D. unfold win_end, win_start in E. split; [exact D|exact E]. }
  split; [exact Q3|]. split; [exact N512|]. split; [exact Ea|].
  split; [intros k Hk; rewrite <- Est; exact (Da k Hk)|]. cbv zeta. fold g. split; [exact T|].
  split; [apply samples_bounded; [exact HK|]; intros k Hk; apply Da; lia|].
  intros M HM Hp.
  assert (M0 : 0 <= M) by (destruct (Hp 0%nat ltac:(lia)) as (_ & B); eapply Rle_trans; [apply Rabs_pos|exact B]).
  set (x := fun k => B2R (p (st + k)%nat)) in *.
  set (w := fun k => B2R (win_weight fw o k)).
  assert (Hw : forall k, (k < n)%nat -> is_finite (win_weight fw o k) = true /\ Rabs (w k * total g - nth k g 0) <= (1 + INR n * Rabs (w k)) * weight_tolerance f n).
  { intros k Hk. destruct (Ws k Hk) as (w' & (F1 & F2) & Bw). unfold w. rewrite F2. split; [exact F1|exact Bw]. }
  destruct (float_blend n x w (fun k => nth k g 0) (weight_tolerance f n) (total g) M T Ht0 Ht1 M0
    ltac:(rewrite total_nth, Lg; reflexivity) ltac:(intros k Hk; exact (proj2 (Hw k Hk))) ltac:(intros k Hk; exact (proj2 (Hp k Hk)))) as (SW & S1 & BE).
  set (Sg := rsumn n (fun k => Rabs (nth k g 0)) / total g) in *.
  assert (G0 : 0 < total g) by lra.
  assert (SGb : rsumn n (fun k => Rabs (nth k g 0)) <= 5 / 4 * INR n).
  { apply rsumn_le_const. intros k Hk. assert (F := samples_bounded f K al HK ltac:(intros j Hj; apply Da; lia)). fold g in F.
    rewrite Forall_nth in F. apply F. lia. }
  assert (Nr : INR n <= 512) by (rewrite INR_IZR_INZ; apply IZR_le; exact N512).
  assert (Nr1 : 1 <= INR n) by (change 1 with (INR 1); apply le_INR; lia).
  assert (Sb : Sg <= 4480).
  { unfold Sg, Rdiv. assert (0 <= rsumn n (fun k => Rabs (nth k g 0))) by (rewrite <- total_map_seq; apply Rle_trans with (lsum (fun k => Rabs (nth k g 0)) (seq 0 n)); [apply lsum_nonneg; intro; apply Rabs_pos|rewrite lsum_seq; lra]).
    assert (/ total g <= 7) by (replace 7 with (/ (/ 7)) by lra; apply Rinv_le_contravar; lra).
    assert (0 < / total g) by (apply Rinv_0_lt_compat; lra). nra. }
  assert (SZ : sum_to n (fun k => Rabs (x k * w k)) <= M * rsumn n (fun k => Rabs (w k))).
  { rewrite sum_to_rsumn, <- rsumn_scal. apply rsumn_ge. intros k Hk. rewrite Rabs_mult. apply Rmult_le_compat_r; [apply Rabs_pos|]. exact (proj2 (Hp k Hk)). }
  assert (Sz2 : M * rsumn n (fun k => Rabs (w k)) <= M * (4 / 3 * (1 + Sg))) by (apply Rmult_le_compat_l; lra).
  destruct (HB ltac:(lia)) as (Fv & Ev).
  { intros k Hk. split; [exact (proj1 (Hp k Hk))|exact (proj1 (Hw k Hk))]. }
  { change (sum_to n (fun k => Rabs (x k * w k)) <= IZR (2 ^ 98)).
    assert (M * (4 / 3 * (1 + Sg)) <= IZR (2 ^ 80) * 8192) by (apply Rmult_le_compat; lra).
    assert (IZR (2 ^ 80) * 8192 <= IZR (2 ^ 98)) by (change 8192 with (IZR 8192); rewrite <- mult_IZR; apply IZR_le; lia). lra. }
  change (Rabs (B2R v - sum_to n (fun k => x k * w k)) <= INR n * / 4194304 * sum_to n (fun k => Rabs (x k * w k)) + INR n * bpow radix2 (-147)) in Ev.
  split; [exact Fv|].
  change (fun k => B2R (p (st + k)%nat)) with x. unfold SpecAccuracy.weighted. rewrite total_map_seq, Lg.
  set (t := rsumn n (fun k => nth k g 0 * x k) / total g) in *.
  replace (B2R v - t) with ((B2R v - sum_to n (fun k => x k * w k)) + (sum_to n (fun k => x k * w k) - t)) by ring.
  eapply Rle_trans; [apply Rabs_triang|]. rewrite (sum_to_rsumn n (fun k => x k * w k)) in *.
  unfold float_tolerance. rewrite total_abs, Lg. fold Sg.
  assert (B47 : INR n * bpow radix2 (-147) <= bpow radix2 (-100)).
  { apply Rle_trans with (bpow radix2 10 * bpow radix2 (-147)); [|rewrite <- bpow_plus; apply bpow_le; lia].
    apply Rmult_le_compat_r; [apply bpow_ge_0|]. change (bpow radix2 10) with 1024. lra. }
  assert (R1 : INR n * / 4194304 * sum_to n (fun k => Rabs (x k * w k)) <= INR n * / 4194304 * (M * (4 / 3 * (1 + Sg)))).
  { apply Rmult_le_compat_l; [lra|]. lra. }
  set (tg := weight_tolerance f n / total g) in *.
  assert (Tg0 : 0 <= tg) by (unfold tg, Rdiv; apply Rmult_le_pos; [exact Ht0|]; left; apply Rinv_0_lt_compat; lra).
  assert (P0 : 0 <= M * INR n * (1 + Sg)) by (apply Rmult_le_pos; [apply Rmult_le_pos|]; lra).
  replace (M * (2 * INR n * (1 + Sg) * (tg + / 4194304))) with (2 * (M * INR n * (1 + Sg) * tg) + 2 * (M * INR n * (1 + Sg) * / 4194304)) by ring.
  replace (INR n * / 4194304 * (M * (4 / 3 * (1 + Sg)))) with (4 / 3 * (M * INR n * (1 + Sg) * / 4194304)) in R1 by ring.
  assert (0 <= M * INR n * (1 + Sg) * tg) by (apply Rmult_le_pos; lra).
  assert (0 <= M * INR n * (1 + Sg) * / 4194304) by (apply Rmult_le_pos; lra).
  lra.
Qed.
