(** Nearest-neighbour coordinates and the nearest-neighbour resampler. *)
From Coq Require Import ZArith Reals Lra Lia Bool List ZifyBool ZifyNat.
From Flocq Require Import Core.Core IEEE754.BinarySingleNaN.
From Verif Require Import Base BaseProofs ImageStore FixedPoint Dispatch Resize Spec KernelProofs DispatchProofs
  ResizeProofs F32 F32Proofs Weights WeightsProofs NoFail ImageProofs.
Import ListNotations.
Local Open Scope R_scope.

Section Coord.
Variables (insz outsz : nat).
Hypothesis Hin1 : (1 <= Zn insz)%Z.
Hypothesis Hin2 : (Zn insz <= 2 ^ 24)%Z.
Hypothesis Hout1 : (1 <= Zn outsz)%Z.
Hypothesis Hout2 : (Zn outsz <= 2 ^ 64)%Z.

Let I := IZR (Zn insz).

(** The real number that is truncated to give the coordinate. *)
Definition nc_scale : R := rnd (I / rnd (IZR (Zn outsz))).
Definition nc_val (i : nat) : R :=
  Rmax (Rmin (rnd (rnd (rnd (rnd (IZR (Zn i)) + 1 / 2) * nc_scale) - 1 / 2)) (I - 1)) 0.

Lemma nc_I : 1 <= I <= 16777216.
Proof. unfold I. split; apply IZR_le; lia. Qed.
Lemma nc_O : 1 <= rnd (IZR (Zn outsz)) <= IZR (2 ^ 64).
Proof.
  split.
  - apply rnd_ge_fmt; [apply (fmt_IZR 1); lia|]. apply IZR_le. lia.
  - apply rnd_le_fmt; [apply fmt_pow; lia|]. apply IZR_le. lia.
Qed.
Lemma nc_scale_bounds : 0 <= nc_scale <= I.
Proof.
  pose proof nc_I. pose proof nc_O. unfold nc_scale.
  set (o := rnd (IZR (Zn outsz))) in *.
  assert (D : 0 <= I / o <= I).
  { split.
    - apply Rmult_le_pos; [lra|]. apply Rlt_le, Rinv_0_lt_compat. lra.
    - unfold Rdiv. rewrite <- (Rmult_1_r I) at 2. apply Rmult_le_compat_l; [lra|].
      rewrite <- Rinv_1. apply Rinv_le_contravar; lra. }
  split.
  - apply rnd_ge_fmt; [apply fmt_0|apply D].
  - apply rnd_le_fmt; [apply fmt_IZR; lia|apply D].
Qed.

Lemma nc_fin i : (Zn i <= 2 ^ 64)%Z ->
  nearest_coord insz outsz i = Z.to_nat (Ztrunc (nc_val i)).
Proof.
  intro Hi. pose proof nc_I as HI. pose proof nc_O as HO. pose proof nc_scale_bounds as HS.
  assert (Fi : fin (f_of_nat insz) I) by (apply f_of_nat_exact; lia).
  assert (Fo : fin (f_of_nat outsz) (rnd (IZR (Zn outsz)))) by (apply f_of_nat_fin; lia).
  assert (Fs : fin (fdiv (f_of_nat insz) (f_of_nat outsz)) nc_scale).
  { apply fdiv_fin; auto; [lra|].
    assert (D : 0 <= I / rnd (IZR (Zn outsz)) <= I).
    { set (o := rnd (IZR (Zn outsz))) in *. split.
      - apply Rmult_le_pos; [lra|]. apply Rlt_le, Rinv_0_lt_compat. lra.
      - unfold Rdiv. rewrite <- (Rmult_1_r I) at 2. apply Rmult_le_compat_l; [lra|].
        rewrite <- Rinv_1. apply Rinv_le_contravar; lra. }
    apply moderate_pos; [apply D|]. eapply Rle_trans; [apply D|]. eapply Rle_trans; [apply HI|]. apply IZR_le. lia. }
  destruct (rnd_nat_bounds i Hi) as [N1 N2].
  assert (F1 : fin (fadd (f_of_nat i) fhalf) (rnd (rnd (IZR (Zn i)) + 1 / 2))).
  { apply fadd_fin; [apply f_of_nat_fin; lia|apply fhalf_fin|].
    apply moderate_pos; [lra|].
    eapply Rle_trans; [apply Rplus_le_compat; [exact N2|apply Rle_trans with 1; [lra|apply Rle_refl]]|].
    rewrite <- plus_IZR. apply IZR_le. lia. }
  set (a := rnd (rnd (IZR (Zn i)) + 1 / 2)) in *.
  assert (A1 : 0 <= a) by (apply rnd_ge_fmt; [apply fmt_0|lra]).
  assert (A2 : a <= IZR (2 ^ 65)).
  { apply rnd_le_fmt; [apply fmt_pow; lia|].
    assert (IZR (2 ^ 65) = IZR (2 ^ 64) + IZR (2 ^ 64)) by (rewrite <- plus_IZR; f_equal).
    assert (1 <= IZR (2 ^ 64)) by (apply IZR_le; lia). lra. }
  assert (P1 : 0 <= a * nc_scale) by nra.
  assert (P2 : a * nc_scale <= IZR (2 ^ 90)).
  { apply Rle_trans with (IZR (2 ^ 65) * 16777216).
    - apply Rmult_le_compat; lra.
    - rewrite <- mult_IZR. apply IZR_le. lia. }
  assert (F2 : fin (fmul (fadd (f_of_nat i) fhalf) (fdiv (f_of_nat insz) (f_of_nat outsz))) (rnd (a * nc_scale))).
  { apply fmul_fin; auto. apply moderate_pos; [lra|]. eapply Rle_trans; [exact P2|]. apply IZR_le. lia. }
  set (b := rnd (a * nc_scale)) in *.
  assert (B1 : 0 <= b) by (apply rnd_ge_fmt; [apply fmt_0|lra]).
  assert (B2 : b <= IZR (2 ^ 90)) by (apply rnd_le_fmt; [apply fmt_pow; lia|lra]).
  assert (F3 : fin (fsub (fmul (fadd (f_of_nat i) fhalf) (fdiv (f_of_nat insz) (f_of_nat outsz))) fhalf) (rnd (b - 1 / 2))).
  { apply fsub_fin; [exact F2|apply fhalf_fin|]. apply moderate_abs with (IZR (2 ^ 90) + 1).
    - apply Rabs_le. lra.
    - change 1 with (IZR 1). rewrite <- plus_IZR. apply IZR_le. lia. }
  assert (F4 : fin (fsub (f_of_nat insz) f1) (I - 1)).
  { rewrite <- (rnd_fmt (I - 1)).
    - apply fsub_fin; [exact Fi|apply f1_fin|]. apply moderate_pos; [lra|].
      apply Rle_trans with 16777216; [lra|]. apply IZR_le. lia.
    - unfold I. rewrite <- minus_IZR. apply fmt_IZR. lia. }
  assert (F5 := fmax_fin _ _ _ _ (fmin_fin _ _ _ _ F3 F4) f0_fin).
  unfold nearest_coord, f_to_usize. rewrite (f_to_int_fin _ _ _ _ F5) by lia.
  fold a. fold b. change (Rmax (Rmin (rnd (b - 1 / 2)) (I - 1)) 0) with (nc_val i).
  assert (V : 0 <= nc_val i <= I - 1).
  { unfold nc_val. split; [apply Rmax_r|]. apply Rmax_lub; [apply Rmin_r|lra]. }
  assert (T1 : (0 <= Ztrunc (nc_val i))%Z) by (apply Ztrunc_ge; [lia|apply V]).
  assert (T2 : (Ztrunc (nc_val i) <= Zn insz - 1)%Z) by (apply Ztrunc_le'; rewrite minus_IZR; apply V).
  f_equal. lia.
Qed.

Lemma nc_range i : (Zn i <= 2 ^ 64)%Z -> (nearest_coord insz outsz i < insz)%nat.
Proof.
  intro Hi. rewrite nc_fin by assumption. pose proof nc_I.
  assert (V : 0 <= nc_val i <= I - 1).
  { unfold nc_val. split; [apply Rmax_r|]. apply Rmax_lub; [apply Rmin_r|lra]. }
  assert (T1 : (0 <= Ztrunc (nc_val i))%Z) by (apply Ztrunc_ge; [lia|apply V]).
  assert (T2 : (Ztrunc (nc_val i) <= Zn insz - 1)%Z) by (apply Ztrunc_le'; rewrite minus_IZR; apply V).
  lia.
Qed.

Lemma nc_mono i j : (i <= j)%nat -> (Zn j <= 2 ^ 64)%Z ->
  (nearest_coord insz outsz i <= nearest_coord insz outsz j)%nat.
Proof.
  intros Hij Hj. rewrite !nc_fin by lia.
  assert (M : nc_val i <= nc_val j).
  { unfold nc_val. pose proof nc_scale_bounds.
    apply Rle_max_compat_r. apply Rle_min_compat_r. apply rnd_le.
    apply Rplus_le_compat_r. apply rnd_le. apply Rmult_le_compat_r; [lra|]. apply rnd_le.
    apply Rplus_le_compat_r. apply rnd_le. apply IZR_le. lia. }
  apply Ztrunc_le in M. lia.
Qed.
End Coord.
Local Close Scope R_scope.

(** ** The nearest-neighbour resampler on densely packed images *)
Lemma off_bound a b w h N : a < h -> b < w -> a * (w * N) + b * N + N <= h * (w * N).
Proof.
  intros H1 H2. assert (S a * (w * N) <= h * (w * N)) by (apply Nat.mul_le_mono_r; lia).
  assert (S b * N <= w * N) by (apply Nat.mul_le_mono_r; lia). lia.
Qed.

Lemma nearest_row_closed {T} N (d0 : T) crd (src : list T) w h w' h' (d : list T) y :
  0 < N -> length d = w' * N -> length src = h * (w * N) ->
  (forall x, x < w' -> crd w w' x < w) -> crd h h' y < h ->
  nearest_row N crd src w h w' h' d y =
  Done (map (fun j => nth (crd h h' y * (w * N) + crd w w' (j / N) * N + j mod N) src d0) (seq 0 (w' * N))).
Proof.
  intros HN Ld Ls Hx Hy. unfold nearest_row.
  rewrite chunks_exact_o_ok by assumption. cbn [bind].
  set (off := fun x => crd h h' y * (w * N) + crd w w' x * N).
  assert (Lc : length (chunks_exact N d) = w') by (rewrite chunks_exact_length, Ld, Nat.div_mul; lia).
  rewrite Lc.
  rewrite (zip_mut_spec _ (fun p x => firstn N (skipn (off x) src))).
  2:{ intros i p x Hp Hi. rewrite nth_error_chunks in Hp.
      destruct (i <? length d / N) eqn:Ei; [|discriminate]. injection Hp as <-.
      rewrite Ld, Nat.div_mul in Ei by lia.
      assert (Ex : x = i).
      { rewrite <- (map_id (seq 0 w')), nth_error_map_seq, Ei in Hi. injection Hi as <-. reflexivity. }
      subst x. unfold nearest_pixel. fold (off i).
      assert (Bo : off i + N <= length src).
      { unfold off. rewrite Ls. apply off_bound; auto. apply Hx. lia. }
      rewrite slice_ok by lia. cbn [bind]. f_equal. unfold copy_row.
      replace (off i + N - off i) with N by lia.
      rewrite chunk_length by (rewrite Ld, Nat.div_mul; lia).
      rewrite firstn_length, skipn_length. replace (Nat.min (Nat.min N (length src - off i)) N) with N by lia.
      rewrite firstn_firstn, Nat.min_id.
      assert (Sk : skipn N (chunk N d i) = []).
      { apply skipn_all2. rewrite chunk_length by (rewrite Ld, Nat.div_mul; lia). lia. }
      rewrite Sk. now rewrite app_nil_r. }
  cbn [bind]. f_equal.
  rewrite (chunks_rem_exact N d w') by lia. unfold unchunk. rewrite app_nil_r.
  rewrite seq_length, (skipn_all2 (n := w')) by lia. rewrite app_nil_r.
  apply list_ext. intro j. rewrite nth_error_map_seq. cbn [Nat.add].
  assert (Lp : Forall (fun c : list T => length c = N)
     (map (fun p : list T * nat => firstn N (skipn (off (snd p)) src)) (combine (chunks_exact N d) (seq 0 w')))).
  { apply Forall_forall. intros c Hc. apply in_map_iff in Hc. destruct Hc as ([p x] & <- & Hp).
    apply in_combine_r in Hp. apply in_seq in Hp. cbn [snd]. rewrite firstn_length, skipn_length.
    assert (off x + N <= length src) by (unfold off; rewrite Ls; apply off_bound; auto; apply Hx; lia). lia. }
  rewrite (nth_error_concat_uniform N) by assumption.
  rewrite nth_error_map, nth_error_combine, nth_error_chunks, Ld, Nat.div_mul by lia.
  assert (Es : nth_error (seq 0 w') (j / N) = if j / N <? w' then Some (j / N) else None).
  { rewrite <- (map_id (seq 0 w')), nth_error_map_seq. reflexivity. }
  rewrite Es.
  destruct (j <? w' * N) eqn:E.
  - assert (j / N < w') by (apply Nat.div_lt_upper_bound; lia).
    replace (j / N <? w') with true by lia. cbn [option_map fst snd].
    rewrite nth_error_firstn. pose proof (Nat.mod_upper_bound j N ltac:(lia)).
    replace (j mod N <? N) with true by lia. rewrite nth_error_skipn. fold (off (j / N)).
    apply nth_error_nth_lt. unfold off. rewrite Ls. pose proof (off_bound (crd h h' y) (crd w w' (j / N)) w h N Hy (Hx (j / N) ltac:(lia))). lia.
  - assert (w' <= j / N) by (apply Nat.div_le_lower_bound; lia).
    replace (j / N <? w') with false by lia. reflexivity.
Qed.

Theorem resize_nearest_closed {T} N (d0 : T) crd (src : list T) w h dst w' h' pool :
  0 < N -> 0 < w' -> pool_ok pool -> length dst = h' * (w' * N) -> length src = h * (w * N) ->
  (forall x, x < w' -> crd w w' x < w) -> (forall y, y < h' -> crd h h' y < h) ->
  resize_nearest N crd src w h dst w' h' pool =
  Done (pixmap d0 h' (w' * N) (w' * N)
     (fun y j => nth (crd h h' y * (w * N) + crd w w' (j / N) * N + j mod N) src d0) dst).
Proof.
  intros HN Hw HP Ld Ls Hx Hy. unfold resize_nearest.
  assert (P : 0 < w' * N) by nia.
  rewrite chunks_exact_o_ok by assumption. cbn [bind].
  assert (Lr : length (chunks_exact (w' * N) dst) = h') by (rewrite chunks_exact_length, Ld, Nat.div_mul; lia).
  set (row := fun y => map (fun j => nth (crd h h' y * (w * N) + crd w w' (j / N) * N + j mod N) src d0) (seq 0 (w' * N))).
  assert (Z : zip_mut (nearest_row N crd src w h w' h') (chunks_exact (w' * N) dst) (seq 0 (length (chunks_exact (w' * N) dst)))
            = Done (map row (seq 0 h'))).
  { rewrite Lr. rewrite (zip_mut_spec _ (fun _ y => row y)).
    - f_equal. apply list_ext. intro y.
      etransitivity; [apply (nth_error_zip_result (fun _ y => row y))|]. rewrite nth_error_chunks, nth_error_map_seq.
      rewrite Ld, Nat.div_mul by lia. cbn [Nat.add].
      assert (Es : nth_error (seq 0 h') y = if y <? h' then Some y else None).
      { rewrite <- (map_id (seq 0 h')), nth_error_map_seq. reflexivity. }
      rewrite Es. destruct (y <? h'); reflexivity.
    - intros i d y Hd Hi. rewrite nth_error_chunks in Hd.
      destruct (i <? length dst / (w' * N)) eqn:Ei; [|discriminate]. injection Hd as <-.
      rewrite Ld, Nat.div_mul in Ei by lia.
      rewrite <- (map_id (seq 0 h')), nth_error_map_seq, Ei in Hi. injection Hi as <-. cbn [Nat.add].
      apply nearest_row_closed; auto.
      + apply chunk_length. rewrite Ld, Nat.div_mul; lia.
      + apply Hy. lia. }
  rewrite (for_each_seq _ _ _ _ _ _ HP Z). cbn [bind]. f_equal.
  rewrite (chunks_rem_exact (w' * N) dst h') by lia. unfold unchunk. rewrite app_nil_r.
  rewrite <- (pixmap_rows d0) by (auto; lia).
  f_equal. apply map_ext_in. intros y Hy'. apply in_seq in Hy'.
  unfold rowmap, row. rewrite skipn_all2; [now rewrite app_nil_r|].
  rewrite chunk_length; [lia|]. rewrite Ld, Nat.div_mul; lia.
Qed.
