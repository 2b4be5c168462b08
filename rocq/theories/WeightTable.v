(** The weights of the polynomial filters. *)
From Coq Require Import ZArith Reals Lra Lia Bool List Psatz ZifyBool ZifyNat.
From Flocq Require Import Core.Core IEEE754.BinarySingleNaN.
From Verif Require Import Base FixedPoint F32 F32Proofs Weights WeightsProofs Sampler SamplerProofs WeightSum FilterSums Center QuantSums SpecKernels
  KernelAccuracy KernelFacts WindowPos WeightValues.
Import ListNotations.
Local Open Scope R_scope.

(** ** Sums with coefficients *)
Lemma rsumn_ge n g h : (forall k, (k < n)%nat -> h k <= g k) -> rsumn n h <= rsumn n g.
Proof.
  induction n as [|n IH]; intros H; cbn [rsumn]; [lra|].
  pose proof (H n ltac:(lia)). specialize (IH (fun k Hk => H k ltac:(lia))). lra.
Qed.
Lemma rsumn_plus n g h : rsumn n (fun k => g k + h k) = rsumn n g + rsumn n h.
Proof. induction n as [|n IH]; cbn [rsumn]; [lra|]. rewrite IH. ring. Qed.
Lemma rsumn_ext n g h : (forall k, (k < n)%nat -> g k = h k) -> rsumn n g = rsumn n h.
Proof. induction n as [|n IH]; intros H; cbn [rsumn]; [reflexivity|]. rewrite IH by (intros; apply H; lia). rewrite H by lia. reflexivity. Qed.
Lemma rsumn_one n i x : (i < n)%nat -> rsumn n (fun k => if (k =? i)%nat then x else 0) = x.
Proof.
  induction n as [|n IH]; intros H; [lia|]. cbn [rsumn]. destruct (Nat.eq_dec i n) as [->|N].
  - rewrite Nat.eqb_refl. rewrite (rsumn_ext n _ (fun _ => 0)).
    + assert (Z : rsumn n (fun _ => 0) = 0) by (clear; induction n as [|n IH]; cbn [rsumn]; lra). lra.
    + intros k Hk. destruct (Nat.eqb_spec k n); [lia|reflexivity].
  - rewrite IH by lia. destruct (Nat.eqb_spec n i); [lia|lra].
Qed.
Lemma rsumn_le_const n g x : (forall k, (k < n)%nat -> g k <= x) -> rsumn n g <= x * INR n.
Proof.
  induction n as [|n IH]; intros H; cbn [rsumn]; [cbn; lra|]. rewrite S_INR. pose proof (H n ltac:(lia)).
  specialize (IH (fun k Hk => H k ltac:(lia))). lra.
Qed.
Lemma weighted_low n (al v : nat -> R) i0 mid low a0 a1 :
  (i0 < n)%nat -> 0 <= a0 <= a1 -> 0 <= mid -> 0 <= low -> mid <= v i0 ->
  (forall j, (j < n)%nat -> a0 <= al j <= a1) -> (forall j, (0 < j < n - 1)%nat -> 0 <= v j) -> (forall j, (j < n)%nat -> - low <= v j) ->
  a0 * mid - 2 * (a1 * low) <= rsumn n (fun j => al j * v j).
Proof.
  intros Hi Ha Hm Hl Hv A I L.
  set (h := fun j => (if (j =? i0)%nat then a0 * mid else 0) +
                     ((if (j =? 0)%nat then - (a1 * low) else 0) + (if (j =? n - 1)%nat then - (a1 * low) else 0))).
  assert (AL : 0 <= a1 * low) by nra. assert (AM : 0 <= a0 * mid) by nra.
  eapply Rle_trans; [|apply rsumn_ge with (h := h)].
  - unfold h. rewrite !rsumn_plus, !rsumn_one by lia. lra.
  - intros j Hj. unfold h. specialize (A j Hj). pose proof (L j Hj) as Lj.
    assert (B : - (a1 * low) <= al j * v j).
    { destruct (Rle_or_lt 0 (v j)); [assert (0 <= al j * v j) by (apply Rmult_le_pos; lra); lra|].
      assert (al j * (- v j) <= a1 * low) by (apply Rmult_le_compat; lra). lra. }
    destruct (Nat.eqb_spec j i0) as [->|N].
    + assert (a0 * mid <= al i0 * v i0) by (apply Rmult_le_compat; lra).
      destruct (i0 =? 0)%nat, (i0 =? n - 1)%nat; lra.
    + destruct (Nat.eqb_spec j 0) as [->|N0]; [destruct (0 =? n - 1)%nat; lra|].
      destruct (Nat.eqb_spec j (n - 1)) as [->|N1]; [lra|].
      specialize (I j ltac:(lia)). assert (0 <= al j * v j) by (apply Rmult_le_pos; lra). lra.
Qed.
Lemma total_nth l : total l = rsumn (length l) (fun k => nth k l 0).
Proof. rewrite total_rsum. apply rsum_rsumn. Qed.

(** Blending only redistributes: each sample enters the total with a factor between
    7/10 and 10/7. *)
Lemma blend_length p l : length (blend p l) = length l.
Proof. revert p. induction l as [|v l IH]; intros p; cbn; [reflexivity|]. rewrite IH. reflexivity. Qed.
Lemma blend_total l : forall p, exists cp al, 0 <= cp <= 3 / 7 /\ (forall j, 7 / 10 <= al j <= 1) /\
  total (blend p l) = cp * p + rsumn (length l) (fun j => al j * nth j l 0).
Proof.
  induction l as [|v l IH]; intros p.
  - exists 0, (fun _ => 1). cbn. split; [lra|]. split; [intros; lra|]. lra.
  - cbn [blend]. cbv zeta. destruct (IH (7 / 10 * v + 3 / 10 * p)) as (cp & al & C & A & E).
    exists (3 / 10 * (1 + cp)), (fun j => match j with O => 7 / 10 * (1 + cp) | S j => al j end).
    split; [lra|]. split; [intros [|j]; [lra|apply A]|].
    change (length (v :: l)) with (S (length l)). rewrite rsumn_S_l. cbn [nth].
    change (total ((7 / 10 * v + 3 / 10 * p) :: blend (7 / 10 * v + 3 / 10 * p) l)) with
      ((7 / 10 * v + 3 / 10 * p) + total (blend (7 / 10 * v + 3 / 10 * p) l)). rewrite E. ring.
Qed.
Lemma samples_total (ewa : bool) (l : list R) : exists al, (forall j, (if ewa then 7 / 10 else 1) <= al j <= (if ewa then 10 / 7 else 1)) /\
  total (match l with v :: r => if ewa then v :: blend v r else l | [] => [] end) = rsumn (length l) (fun j => al j * nth j l 0).
Proof.
  destruct l as [|v r].
  - exists (fun _ : nat => 1). destruct ewa; (split; [intros; lra|reflexivity]).
  - destruct ewa.
    + destruct (blend_total r v) as (cp & al & C & A & E).
      exists (fun j => match j with O => 1 + cp | S j => al j end). split; [intros [|j]; [lra|specialize (A j); lra]|].
      change (length (v :: r)) with (S (length r)). rewrite rsumn_S_l. cbn [nth].
      change (total (v :: blend v r)) with (v + total (blend v r)). rewrite E. ring.
    + exists (fun _ : nat => 1). split; [intros; lra|]. rewrite total_nth. apply rsumn_ext. intros; ring.
Qed.

Section Row.
Variables (insz outsz o : nat).
Hypothesis Hin : (1 <= Zn insz <= 2 ^ 16)%Z.
Hypothesis Hout : (1 <= Zn outsz <= 2 ^ 16)%Z.
Hypothesis Hratio : (Zn insz <= 256 * Zn outsz)%Z.
Hypothesis Ho : (o < outsz)%nat.
Variable fl : rfilter.
Variable m : Z.
Hypothesis Hm : (2 <= m <= 6)%Z.
Hypothesis Fm : fin (min_kernel fl) (IZR m).
Hypothesis Hwin : rwin fl = None.
(** Stretched filters have support 2. *)
Hypothesis Hstretch : is_resizable fl = true -> m = 2%Z.
Variable K : R -> R.
Variable tk : positive.
Variable e : R.
Hypothesis He : / 262144 <= e <= / 28000.
Hypothesis Hte : / IZR (Z.pos tk) <= e.
Hypothesis Hacc : kacc tk (IZR m / 2 + 1) (rkernel fl) K.
Hypothesis Hbound : forall a, 0 <= a < IZR m / 2 + 1 -> Rabs (K a) <= 5 / 4.

Let I := IZR (Zn insz).
Let ratio := I / IZR (Zn outsz).
Let c := (IZR (Zn o) + 1 / 2) * ratio.
Let cut := if is_resizable fl then Rmax ratio 1 else 1.
Let b := fst (general_row fl insz (scale_of insz outsz) o).
Let n := bsize b.

Definition tap_pos (k : nat) : R := B2R (tap_arg insz outsz o fl (bstart b + k)).
Let al := map tap_pos (seq 0 n).
Let gs := match map K al with v :: r => if is_ewa fl then v :: blend v r else map K al | [] => [] end.

Lemma cut_bound : 1 <= cut <= 256.
Proof.
  pose proof (cut_range insz outsz o ltac:(lia) ltac:(lia) Ho fl) as C. fold I in C. fold ratio in C. fold cut in C.
  split; [lra|]. unfold cut. destruct (is_resizable fl); [|lra]. apply Rmax_lub; [|lra].
  unfold ratio, I. assert (O1 : 1 <= IZR (Zn outsz)) by (apply IZR_le; lia).
  apply IZR_le in Hratio. rewrite mult_IZR in Hratio.
  apply Rmult_le_reg_r with (IZR (Zn outsz)); [lra|]. unfold Rdiv. rewrite Rmult_assoc, Rinv_l by lra. lra.
Qed.
Lemma window_in : (bstart b + n <= insz /\ 1 <= n)%nat.
Proof.
  assert (Sup : support_ok fl).
  { exists (IZR m). split; [exact Fm|]. split; apply IZR_le || apply (IZR_le 1); lia. }
  pose proof (general_window insz outsz ltac:(lia) ltac:(lia) ltac:(lia) ltac:(lia) fl Sup o ltac:(lia)) as GW. cbv zeta in GW.
  unfold n, b. rewrite general_row_bound. cbv zeta. cbn [bstart bsize]. lia.
Qed.
Lemma n_small : INR n <= 520.
Proof.
  destruct (ksize_pos insz outsz o ltac:(lia) ltac:(lia) Ho fl m ltac:(lia) Fm) as [KB KE]. fold I in KE. fold ratio in KE. fold cut in KE.
  pose proof cut_bound as [C1 C2].
  assert (Sup : support_ok fl).
  { exists (IZR m). split; [exact Fm|]. split; apply IZR_le || apply (IZR_le 1); lia. }
  pose proof (general_window insz outsz ltac:(lia) ltac:(lia) ltac:(lia) ltac:(lia) fl Sup o ltac:(lia)) as GW. cbv zeta in GW.
  assert (NK : INR n <= IZR (Zn (kernel_size_of fl (scale_of insz outsz)))).
  { rewrite INR_IZR_INZ. apply IZR_le. unfold n, b. rewrite general_row_bound. cbv zeta. cbn [bstart bsize]. lia. }
  apply abs_le3 in KE. rewrite u_val in KE.
  assert (MC : IZR m * cut <= 512).
  { clear KE. unfold cut in *. destruct (is_resizable fl) eqn:E; [rewrite Hstretch by (first [exact E|reflexivity]); lra|].
    assert (IZR m <= 6) by (apply IZR_le; lia). lra. }
  assert (0 <= IZR m * cut) by (apply Rmult_le_pos; [apply IZR_le; lia|lra]). lra.
Qed.
Lemma tap_ok k : (k < n)%nat -> fin (tap_arg insz outsz o fl (bstart b + k)) (tap_pos k) /\ 0 <= tap_pos k < IZR m / 2 + 1 /\
  Rabs (tap_pos k - Rabs (IZR (Zn (bstart b + k)) + 1 / 2 - c) / cut) <= (I + 1) / cut / 1048576.
Proof.
  intros Hk. pose proof window_in as WI. pose proof cut_bound as [C1 C2].
  destruct (tap_distance insz outsz o Hin Hout Ho fl (bstart b + k) ltac:(lia)) as (a & F & A0 & A1).
  fold I in A1. fold ratio in A1. fold c in A1. fold cut in A1.
  assert (E : tap_pos k = a) by apply F. rewrite E. split; [exact F|]. split; [|exact A1]. split; [exact A0|].
  pose proof (tap_near insz outsz o Hin Hout Ho fl m ltac:(lia) Fm (bstart b + k)) as TN.
  fold I in TN. fold ratio in TN. fold c in TN. fold cut in TN. fold b in TN. specialize (TN ltac:(unfold n in *; lia)).
  apply abs_le3 in A1. set (D := Rabs _ / cut) in *.
  assert (Ir : 1 <= I <= 65536) by (unfold I; split; apply IZR_le || apply (IZR_le 1); lia).
  assert (IC : (I + 1) / cut / 1048576 <= 1 / 16 + 1 / 1000).
  { assert ((I + 1) / cut <= 65537); [|lra]. apply Rmult_le_reg_r with cut; [lra|]. unfold Rdiv. rewrite Rmult_assoc, Rinv_l by lra. nra. }
  assert (EC : 4 / 5 / cut <= 4 / 5).
  { apply Rmult_le_reg_r with cut; [lra|]. unfold Rdiv. rewrite Rmult_assoc, Rinv_l by lra. nra. }
  assert (IZR m <= 6) by (apply IZR_le; lia). lra.
Qed.
Lemma al_length : length al = n.
Proof. unfold al. rewrite map_length, seq_length. reflexivity. Qed.
Lemma al_nth k : (k < n)%nat -> nth k al 0 = tap_pos k.
Proof.
  intros Hk. unfold al. rewrite (nth_indep _ 0 (tap_pos 0)) by (rewrite map_length, seq_length; exact Hk).
  rewrite map_nth, seq_nth by exact Hk. reflexivity.
Qed.
Definition raw_list : list f32 :=
  map (raw_weight fl (fdiv f1 (cutoff_of fl (scale_of insz outsz))) (blur_scale_of fl) (fsub (center_of insz (scale_of insz outsz) o) fhalf))
      (seq (bstart b) n).
Lemma raw_within : within e raw_list (map K al) /\ Forall (fun g => Rabs g <= 5 / 4) (map K al).
Proof.
  unfold raw_list, al. replace (seq (bstart b) n) with (map (fun k => (bstart b + k)%nat) (seq 0 n)).
  2:{ clear. generalize (bstart b) n. intros s l. revert s. induction l as [|l IH]; intros s; cbn [seq map]; [reflexivity|].
      rewrite Nat.add_0_r. f_equal. rewrite <- (IH (S s)), <- seq_shift, map_map. apply map_ext. intros; lia. }
  rewrite !map_map. 
  assert (G : forall l, (forall k, In k l -> (k < n)%nat) ->
    within e (map (fun x => raw_weight fl (fdiv f1 (cutoff_of fl (scale_of insz outsz))) (blur_scale_of fl)
       (fsub (center_of insz (scale_of insz outsz) o) fhalf) (bstart b + x)) l) (map (fun x => K (tap_pos x)) l) /\
    Forall (fun g => Rabs g <= 5 / 4) (map (fun x => K (tap_pos x)) l)).
  { induction l as [|k l IH]; intros Hl; cbn [map]; [split; constructor|].
    destruct IH as [W B]; [intros; apply Hl; now right|].
    destruct (tap_ok k) as (F & R & _); [apply Hl; now left|].
    split; constructor; auto. destruct (Hacc _ _ F R) as (v & Fv & Bv). exists v. split; [|lra].
    unfold raw_weight. rewrite Hwin. exact Fv. }
  apply G. intros k Hk. apply in_seq in Hk. lia.
Qed.
Lemma gs_length : length gs = n.
Proof.
  unfold gs. pose proof al_length as L. rewrite <- (map_length K) in L. destruct (map K al) as [|v r]; [exact L|].
  destruct (is_ewa fl); [cbn [length]; rewrite blend_length|]; exact L.
Qed.

(** The float samples after smoothing, and their sum. *)
Lemma smooth_within : (8 / 5 * INR n + 2) * u <= 2 * e -> exists ws S s, smooth fl raw_list = (ws, S) /\ within (2 * e) ws gs /\ Forall (fun g => Rabs g <= 5 / 4) gs /\
  fin S s /\ Rabs (s - total gs) <= INR (length gs) * (4 * e).
Proof.
  intros Hsum. destruct raw_within as [W B]. pose proof n_small as N.
  assert (FS : forall ws gs' acc a, within (2 * e) ws gs' -> Forall (fun g => Rabs g <= 5 / 4) gs' -> fin acc a -> Rabs a <= 3 / 2 ->
    INR (length gs') <= 520 -> exists s, fin (fsum acc ws) s /\ Rabs (s - (a + total gs')) <= INR (length gs') * (2 * e + (8 / 5 * INR (length gs') + 8 / 5) * u)).
  { intros ws gs' acc a W' B' Fa Ba N'. destruct (within_vals _ _ _ W') as (vs & V & C).
    assert (Bv : Forall (fun v => Rabs v <= 3 / 2) vs).
    { clear -C B' He. induction C as [|v g vs gs H C IH]; [constructor|].
      pose proof (Forall_inv B') as Bg. apply Forall_inv_tail in B'. cbn beta in Bg. constructor; [|apply IH; exact B'].
      replace v with ((v - g) + g) by ring. eapply Rle_trans; [apply Rabs_triang|]. lra. }
    pose proof (within_length _ _ _ W') as Lw.
    destruct (fsum_abs ws vs acc a V Bv Fa (8 / 5 * INR (length gs') + 3 / 2)) as (s & Fs & Bs); [rewrite Lw; lra|lra|].
    exists s. split; [exact Fs|]. pose proof (rsum_close _ _ _ C) as RC. rewrite Lw in Bs. rewrite total_rsum.
    replace (s - (a + rsum gs')) with ((s - (a + rsum vs)) + (rsum vs - rsum gs')) by ring. eapply Rle_trans; [apply Rabs_triang|]. lra. }
  pose proof gs_length as GL. pose proof window_in as [_ N1].
  assert (LW : length raw_list = length (map K al)) by (apply (within_length _ _ _ W)).
  assert (LK : length (map K al) = n) by (rewrite map_length; apply al_length).
  unfold smooth. unfold gs in *. destruct (is_ewa fl).
  - destruct raw_list as [|x l]; [cbn in LW; lia|]. destruct (map K al) as [|g r]; [cbn in LW; lia|].
    inversion W as [|? ? ? ? (v & Fv & Bv) W']; subst.
    pose proof (Forall_inv B) as Bg. apply Forall_inv_tail in B. cbn beta in Bg.
    destruct (blend_within e l He r x v g W' B Fv ltac:(lra) Bg) as [W2 B2].
    assert (Lr : length (blend g r) = length r) by apply blend_length.
    assert (Nr : INR (length (g :: blend g r)) <= 520) by (rewrite GL; exact N).
    change (length (g :: blend g r)) with (S (length (blend g r))) in *. rewrite S_INR in *.
    destruct (FS (ewa_smooth x l) (blend g r) x v W2 B2 Fv) as (s & Fs & Bs).
    { replace v with ((v - g) + g) by ring. eapply Rle_trans; [apply Rabs_triang|]. lra. } { lra. }
    exists (x :: ewa_smooth x l), (fsum x (ewa_smooth x l)), s. split; [reflexivity|].
    split; [constructor; [exists v; split; [exact Fv|lra]|exact W2]|]. split; [constructor; assumption|].
    split; [exact Fs|]. change (total (g :: blend g r)) with (g + total (blend g r)).
    replace (s - (g + total (blend g r))) with ((s - (v + total (blend g r))) + (v - g)) by ring.
    eapply Rle_trans; [apply Rabs_triang|].
    pose proof (pos_INR (length (blend g r))) as P0. rewrite u_val in *. rewrite <- GL, S_INR in Hsum.
    assert (Q : INR (length (blend g r)) * (2 * e + (8 / 5 * INR (length (blend g r)) + 8 / 5) * / 16777216) <= INR (length (blend g r)) * (4 * e)) by (apply Rmult_le_compat_l; lra).
    lra.
  - assert (E : match map K al with [] => [] | _ :: _ => map K al end = map K al) by (destruct (map K al); reflexivity).
    rewrite E in *.
    assert (W2 : within (2 * e) raw_list (map K al)) by (apply (within_weaken e); [lra|exact W]).
    destruct (FS raw_list (map K al) f0 0 W2 B f0_fin) as (s & Fs & Bs); [rewrite Rabs_R0; lra|rewrite LK; exact N|].
    exists raw_list, (fsum f0 raw_list), s. split; [reflexivity|]. split; [exact W2|]. split; [exact B|]. split; [exact Fs|].
    rewrite Rplus_0_l in Bs. pose proof (pos_INR (length (map K al))) as P0. rewrite u_val in *. rewrite <- LK in Hsum.
    assert (Q : INR (length (map K al)) * (2 * e + (8 / 5 * INR (length (map K al)) + 8 / 5) * / 16777216) <= INR (length (map K al)) * (4 * e)) by (apply Rmult_le_compat_l; lra).
    lra.
Qed.

(** The theorem for one row, when the samples do not cancel. *)
Theorem row_weights : (8 / 5 * INR n + 2) * u <= 2 * e -> / 7 <= total gs ->
  forall k, (k < n)%nat -> exists w, fin (nth k (snd (general_row fl insz (scale_of insz outsz) o)) f0) w /\
    Rabs (w * total gs - nth k gs 0) <= (1 + INR n * Rabs w) * (4 * e).
Proof.
  intros Hsum T k Hk. destruct (smooth_within Hsum) as (ws & SS & s & E & W & B & Fs & Bs). pose proof gs_length as GL. pose proof n_small as N.
  assert (T2 : total gs <= 1000).
  { rewrite total_nth, GL. apply Rle_trans with (5 / 4 * INR n); [|lra].
    assert (G : forall j, (j < n)%nat -> nth j gs 0 <= 5 / 4).
    { intros j Hj. assert (X : Rabs (nth j gs 0) <= 5 / 4).
      { apply (Forall_forall (fun g => Rabs g <= 5 / 4) gs); [exact B|apply nth_In; lia]. }
      apply Rabs_le_inv in X. lra. }
    apply rsumn_le_const. exact G. }
  assert (SH : snd (general_row fl insz (scale_of insz outsz) o) = pad (kernel_size_of fl (scale_of insz outsz)) (normalise ws SS)).
  { unfold raw_list, n, b in E. rewrite general_row_bound in E. cbv zeta in E. cbn [bstart bsize] in E.
    unfold general_row. cbv zeta. rewrite E. reflexivity. }
  assert (LN : length (normalise ws SS) = n).
  { unfold normalise. destruct (negb (feqb SS f0)); rewrite map_length, (within_length _ _ _ W); exact GL. }
  rewrite SH, pad_nth; [|lia|].
  - destruct (normalise_within e ws gs SS s He W B Fs Bs ltac:(rewrite GL; exact N) T T2 k ltac:(lia)) as (w & Fw & Bw).
    exists w. split; [exact Fw|]. rewrite <- GL. exact Bw.
  - rewrite LN. unfold n, b. rewrite general_row_bound. cbv zeta. cbn [bstart bsize].
    assert (Sup : support_ok fl).
    { exists (IZR m). split; [exact Fm|]. split; apply IZR_le || apply (IZR_le 1); lia. }
    pose proof (general_window insz outsz ltac:(lia) ltac:(lia) ltac:(lia) ltac:(lia) fl Sup o ltac:(lia)) as GW. cbv zeta in GW. lia.
Qed.

(** ** The samples do not cancel *)
Lemma center_index : exists i, (i < n)%nat /\ Rabs (IZR (Zn (bstart b + i)) + 1 / 2 - c) <= 41 / 80 /\ tap_pos i <= 29 / 50.
Proof.
  assert (Hfl : exists m, fin (min_kernel fl) m /\ 2 <= m <= 1000).
  { exists (IZR m). split; [exact Fm|]. split; apply IZR_le; lia. }
  destruct (center_tap insz outsz ltac:(lia) ltac:(lia) ltac:(lia) ltac:(lia) fl Hfl o Ho) as (k & cx & Hk & Fc & Rc & Dk).
  destruct (center_pos insz outsz o ltac:(lia) ltac:(lia) Ho) as (cx' & Fc' & Bc & _).
  fold I in Bc. fold ratio in Bc. fold c in Bc.
  assert (cx = cx') by (apply (fin_inj _ _ _ Fc Fc')). subst cx'.
  pose proof (c_range insz outsz o ltac:(lia) ltac:(lia) Ho) as CR. pose proof (ratio_range insz outsz o ltac:(lia) ltac:(lia) Ho) as RR.
  fold I in CR, RR. fold ratio in CR, RR. fold c in CR.
  assert (Ir : 1 <= I <= 65536) by (unfold I; split; apply IZR_le || apply (IZR_le 1); lia).
  assert (Hb : (bstart b <= k < bstart b + n)%nat).
  { unfold n, b. rewrite general_row_bound. cbv zeta. cbn [bstart bsize]. lia. }
  exists (k - bstart b)%nat. split; [lia|].
  destruct (tap_ok (k - bstart b) ltac:(lia)) as (_ & _ & T). replace (bstart b + (k - bstart b))%nat with k in T |- * by lia.
  pose proof cut_bound as [C1 C2]. apply abs_le3 in T. apply abs_le3 in Bc. rewrite u_val in Bc. apply Rabs_le_inv in Dk.
  assert (D : Rabs (IZR (Zn k) + 1 / 2 - c) <= 41 / 80) by (apply Rabs_le; lra).
  split; [exact D|].
  assert (Q : (Rabs (IZR (Zn k) + 1 / 2 - c) + (I + 1) / 1048576) / cut <= 29 / 50).
  { apply Rmult_le_reg_r with cut; [lra|]. unfold Rdiv at 1. rewrite Rmult_assoc, Rinv_l by lra. lra. }
  unfold Rdiv in *. lra.
Qed.
Lemma I1_small : (I + 1) / cut / 1048576 <= (1 / 15) / cut.
Proof.
  pose proof cut_bound as [C1 C2].
  assert (Ir : 1 <= I <= 65536) by (unfold I; split; apply IZR_le || apply (IZR_le 1); lia).
  apply Rmult_le_reg_r with cut; [lra|]. unfold Rdiv. replace ((I + 1) * / cut * / 1048576 * cut) with ((I + 1) * / 1048576 * (/ cut * cut)) by ring.
  rewrite (Rmult_assoc _ (/ cut) cut), Rinv_l by lra. lra.
Qed.
Lemma interior_near j : m = 2%Z -> (0 < j < n - 1)%nat -> tap_pos j < 1.
Proof.
  intros M2 Hj. pose proof cut_bound as [C1 C2]. destruct (tap_ok j ltac:(lia)) as (_ & _ & T). pose proof I1_small as IC.
  pose proof (tap_near insz outsz o Hin Hout Ho fl m ltac:(lia) Fm (bstart b + (j - 1))) as TN1.
  pose proof (tap_near insz outsz o Hin Hout Ho fl m ltac:(lia) Fm (bstart b + (j + 1))) as TN2.
  fold I in TN1, TN2. fold ratio in TN1, TN2. fold c in TN1, TN2. fold cut in TN1, TN2. fold b in TN1, TN2.
  specialize (TN1 ltac:(unfold n in *; lia)). specialize (TN2 ltac:(unfold n in *; lia)). rewrite M2 in TN1, TN2.
  set (x := IZR (Zn (bstart b + j)) + 1 / 2 - c) in *.
  replace (IZR (Zn (bstart b + (j - 1))) + 1 / 2 - c) with (x - 1) in TN1.
  2:{ unfold x. replace (Zn (bstart b + (j - 1))) with (Zn (bstart b + j) - 1)%Z by lia. rewrite minus_IZR. lra. }
  replace (IZR (Zn (bstart b + (j + 1))) + 1 / 2 - c) with (x + 1) in TN2.
  2:{ unfold x. replace (Zn (bstart b + (j + 1))) with (Zn (bstart b + j) + 1)%Z by lia. rewrite plus_IZR. lra. }
  apply abs_le3 in T. set (ic := / cut) in *. assert (Hic : 0 < ic /\ cut * ic = 1).
  { unfold ic. split; [apply Rinv_0_lt_compat; lra|apply Rinv_r; lra]. }
  assert (E : Rabs x / cut + ic <= 2 / 2 * (1 + 1 / 100000) + 4 / 5 / cut).
  { destruct (Rle_or_lt 0 x) as [P|P].
    - replace (Rabs x / cut + ic) with (Rabs (x + 1) / cut); [exact TN2|]. rewrite !Rabs_pos_eq by lra. unfold Rdiv, ic. ring.
    - replace (Rabs x / cut + ic) with (Rabs (x - 1) / cut); [exact TN1|]. rewrite !Rabs_left by lra. unfold Rdiv, ic. ring. }
  assert (IC2 : / 300 <= ic) by (unfold ic; apply Rinv_le; lra).
  unfold Rdiv in *. fold ic in E, T, IC. lra.
Qed.
Lemma gs_total : exists be, (forall j, (if is_ewa fl then 7 / 10 else 1) <= be j <= (if is_ewa fl then 10 / 7 else 1)) /\
  total gs = rsumn n (fun j => be j * K (tap_pos j)).
Proof.
  destruct (samples_total (is_ewa fl) (map K al)) as (be & B & E). exists be. split; [exact B|].
  unfold gs. rewrite E, map_length, al_length. apply rsumn_ext. intros k Hk.
  rewrite (nth_indep _ 0 (K 0)) by (rewrite map_length, al_length; exact Hk). rewrite map_nth, al_nth by exact Hk. reflexivity.
Qed.
Lemma nondegenerate2 mid low : m = 2%Z -> kfacts K 2 mid low -> 0 <= mid -> 0 <= low ->
  (if is_ewa fl then 7 / 10 * mid - 2 * (10 / 7 * low) else mid - 2 * low) >= / 7 -> / 7 <= total gs.
Proof.
  intros M2 KF M0 L0 H. destruct gs_total as (be & B & ->). destruct center_index as (i & Hi & _ & Ci).
  assert (R : forall j, (j < n)%nat -> 0 <= tap_pos j < 2).
  { intros j Hj. destruct (tap_ok j Hj) as (_ & T & _). rewrite M2 in T. lra. }
  pose proof (weighted_low n be (fun j => K (tap_pos j)) i mid low (if is_ewa fl then 7 / 10 else 1) (if is_ewa fl then 10 / 7 else 1) Hi) as WL.
  eapply Rle_trans; [|apply WL; auto].
  - destruct (is_ewa fl); lra.
  - destruct (is_ewa fl); lra.
  - apply KF; [apply R; exact Hi|exact Ci].
  - intros j Hj. apply KF; [apply R; lia|apply interior_near; assumption].
  - intros j Hj. apply KF. apply R; exact Hj.
Qed.

(** The longer splines are never stretched: at most two samples per side matter. *)
Definition sfacts (A : R) : Prop :=
  forall a, 0 <= a < A -> - (137 / 1000) <= K a /\ (a <= 29 / 50 -> 49 / 100 <= K a) /\ (a < 1 -> 0 <= K a) /\
    (2 <= a < 3 -> 0 <= K a) /\ (3 <= a -> - (6 / 1000) <= K a) /\ (a <= 8 / 7 -> - (9 / 100) <= K a) /\ (13 / 7 <= a -> - (47 / 1000) <= K a).
Lemma rsumn_one' n' i x : x <= 0 -> x <= rsumn n' (fun k => if (k =? i)%nat then x else 0).
Proof.
  intros H. destruct (le_lt_dec n' i) as [L|L]; [|rewrite rsumn_one by exact L; lra].
  rewrite (rsumn_ext n' _ (fun _ => 0)).
  - assert (Z : rsumn n' (fun _ => 0) = 0) by (clear; induction n' as [|k IH]; cbn [rsumn]; lra). lra.
  - intros k Hk. destruct (Nat.eqb_spec k i); [lia|reflexivity].
Qed.
Lemma nondegenerate_spline : is_resizable fl = false -> is_ewa fl = false -> sfacts (IZR m / 2 + 1) -> / 7 <= total gs.
Proof.
  intros NR NE SF. destruct gs_total as (be & B & ->). rewrite NE in B.
  rewrite (rsumn_ext n _ (fun j => K (tap_pos j))) by (intros j _; specialize (B j); replace (be j) with 1 by lra; ring).
  destruct center_index as (i & Hi & Di & Ci).
  assert (C1 : cut = 1) by (unfold cut; rewrite NR; reflexivity).
  set (dl := IZR (Zn (bstart b + i)) + 1 / 2 - c) in *. apply Rabs_le_inv in Di.
  assert (T : forall j, (j < n)%nat -> Rabs (tap_pos j - Rabs (IZR (Zn j) - IZR (Zn i) + dl)) <= 1 / 15 /\ 0 <= tap_pos j < IZR m / 2 + 1).
  { intros j Hj. destruct (tap_ok j Hj) as (_ & R & E). split; [|exact R]. pose proof I1_small as IC. rewrite C1 in *.
    replace (IZR (Zn (bstart b + j)) + 1 / 2 - c) with (IZR (Zn j) - IZR (Zn i) + dl) in E.
    2:{ unfold dl. rewrite !Nat2Z.inj_add, !plus_IZR. ring. }
    replace (Rabs (IZR (Zn j) - IZR (Zn i) + dl) / 1) with (Rabs (IZR (Zn j) - IZR (Zn i) + dl)) in E by field. lra. }
  (* lower bounds of the negative parts *)
  set (neg := fun (p : bool) (j : nat) => if p then Rmin 0 (K (tap_pos j)) else 0).
  set (r1 := neg (i + 1 <? n)%nat (i + 1)%nat). set (r2 := neg (i + 2 <? n)%nat (i + 2)%nat).
  set (l1 := neg (1 <=? i)%nat (i - 1)%nat). set (l2 := neg (2 <=? i)%nat (i - 2)%nat).
  assert (NEG : forall p j, neg p j <= 0) by (intros [|] j; unfold neg; [apply Rmin_l|lra]).
  assert (SN : forall p j, (p = true -> (j < n)%nat) -> - (137 / 1000) <= neg p j).
  { intros [|] j Hj; unfold neg; [|lra]. apply Rmin_glb; [lra|]. apply SF. apply T. auto. }
  assert (PAIR : forall p q j1 j2, (p = true -> (j1 < n)%nat) -> (q = true -> (j2 < n)%nat /\ p = true) ->
    (p = true -> q = true -> tap_pos j1 + 13 / 15 <= tap_pos j2 \/ tap_pos j1 < 1) -> - (15 / 100) <= neg p j1 + neg q j2).
  { intros p q j1 j2 P1 P2 PQ. pose proof (SN p j1 P1) as S1. assert (S2 := SN q j2 (fun E => proj1 (P2 E))).
    destruct q; [|change (neg false j2) with 0; lra]. destruct (P2 eq_refl) as [Hj2 ->].
    specialize (P1 eq_refl). destruct (T j1 P1) as [_ R1]. destruct (T j2 Hj2) as [_ R2].
    destruct (SF _ R1) as (A1 & A2 & A3 & A4 & A5 & A6 & A7). destruct (SF _ R2) as (B1 & B2 & B3 & B4 & B5 & B6 & B7).
    destruct (Rlt_dec (tap_pos j1) 1) as [L|L].
    { assert (neg true j1 = 0) by (unfold neg; rewrite Rmin_left; [reflexivity|apply A3; exact L]). lra. }
    destruct (PQ eq_refl eq_refl) as [G|G]; [|lra].
    destruct (Rle_dec (tap_pos j1) (8 / 7)) as [L1|L1].
    - specialize (A6 L1). assert (X1 : - (9 / 100) <= neg true j1) by (unfold neg; apply Rmin_glb; lra).
      assert (Y : 13 / 7 <= tap_pos j2) by lra. specialize (B7 Y).
      assert (X2 : - (47 / 1000) <= neg true j2) by (unfold neg; apply Rmin_glb; lra). lra.
    - assert (Y : 2 <= tap_pos j2) by lra.
      assert (X2 : - (6 / 1000) <= neg true j2).
      { unfold neg. apply Rmin_glb; [lra|]. destruct (Rlt_dec (tap_pos j2) 3); [specialize (B4 ltac:(lra)); lra|apply B5; lra]. }
      lra. }
  assert (GAP : forall j1 j2, (j1 < n)%nat -> (j2 < n)%nat ->
    (j1 = i + 1 /\ j2 = i + 2 \/ i = j1 + 1 /\ i = j2 + 2)%nat -> tap_pos j1 + 13 / 15 <= tap_pos j2).
  { intros j1 j2 H1 H2 [[E1 E2]|[E1 E2]]; destruct (T j1 H1) as [X1 _]; destruct (T j2 H2) as [X2 _]; apply abs_le3 in X1; apply abs_le3 in X2.
    - replace (IZR (Zn j1) - IZR (Zn i) + dl) with (1 + dl) in X1 by (rewrite E1, Nat2Z.inj_add, plus_IZR; cbn [Z.of_nat Pos.of_succ_nat]; lra).
      replace (IZR (Zn j2) - IZR (Zn i) + dl) with (2 + dl) in X2 by (rewrite E2, Nat2Z.inj_add, plus_IZR; cbn [Z.of_nat Pos.of_succ_nat Pos.succ]; lra).
      rewrite Rabs_pos_eq in X1, X2 by lra. lra.
    - replace (IZR (Zn j1) - IZR (Zn i) + dl) with (- (1 - dl)) in X1.
      2:{ rewrite E1, Nat2Z.inj_add, plus_IZR. cbn [Z.of_nat Pos.of_succ_nat]. lra. }
      replace (IZR (Zn j2) - IZR (Zn i) + dl) with (- (2 - dl)) in X2.
      2:{ rewrite E2, Nat2Z.inj_add, plus_IZR. cbn [Z.of_nat Pos.of_succ_nat Pos.succ]. lra. }
      rewrite Rabs_Ropp, Rabs_pos_eq in X1, X2 by lra. lra. }
  assert (PR : - (15 / 100) <= r1 + r2).
  { apply PAIR; [intros; lia|intros; split; lia|]. intros P Q. left. apply GAP; lia. }
  assert (PL : - (15 / 100) <= l1 + l2).
  { apply PAIR; [intros; lia|intros; split; lia|]. intros P Q. left. apply GAP; lia. }
  assert (N6 : INR n <= 6).
  { destruct (ksize_pos insz outsz o ltac:(lia) ltac:(lia) Ho fl m ltac:(lia) Fm) as [KB KE]. fold I in KE. fold ratio in KE. fold cut in KE.
    rewrite C1 in KE. apply abs_le3 in KE. rewrite u_val in KE. assert (M6 : IZR m <= 6) by (apply IZR_le; lia).
    assert (M0 : 0 <= IZR m) by (apply IZR_le; lia).
    assert (KZ : (Zn (kernel_size_of fl (scale_of insz outsz)) < 7)%Z) by (apply lt_IZR; lra).
    assert (Sup : support_ok fl).
    { exists (IZR m). split; [exact Fm|]. split; apply IZR_le || apply (IZR_le 1); lia. }
    pose proof (general_window insz outsz ltac:(lia) ltac:(lia) ltac:(lia) ltac:(lia) fl Sup o ltac:(lia)) as GW. cbv zeta in GW.
    rewrite INR_IZR_INZ. apply IZR_le. unfold n, b. rewrite general_row_bound. cbv zeta. cbn [bstart bsize]. lia. }
  set (ind := fun (t : nat) (x : R) (j : nat) => if (j =? t)%nat then x else 0).
  set (h := fun j => ind i (49 / 100) j + (ind (i + 1)%nat r1 j + (ind (i + 2)%nat r2 j + (ind (i - 1)%nat l1 j + (ind (i - 2)%nat l2 j + - (6 / 1000)))))).
  assert (INEG : forall t x j, x <= 0 -> ind t x j <= 0) by (intros t x j H; unfold ind; destruct (j =? t)%nat; lra).
  eapply Rle_trans; [|apply rsumn_ge with (h := h)].
  - unfold h. rewrite !rsumn_plus.
    pose proof (rsumn_one n i (49 / 100) Hi) as S0.
    pose proof (rsumn_one' n (i + 1) r1 (NEG _ _)) as S1. pose proof (rsumn_one' n (i + 2) r2 (NEG _ _)) as S2.
    pose proof (rsumn_one' n (i - 1) l1 (NEG _ _)) as S3. pose proof (rsumn_one' n (i - 2) l2 (NEG _ _)) as S4.
    assert (S5 : - (6 / 1000) * INR n <= rsumn n (fun _ => - (6 / 1000))).
    { clear. induction n as [|k IH]; cbn [rsumn]; [cbn; lra|]. rewrite S_INR. lra. }
    unfold ind. lra.
  - intros j Hj. unfold h. destruct (T j Hj) as [E R]. destruct (SF _ R) as (A1 & A2 & A3 & A4 & A5 & A6 & A7).
    pose proof (INEG (i + 1)%nat r1 j (NEG _ _)). pose proof (INEG (i + 2)%nat r2 j (NEG _ _)).
    pose proof (INEG (i - 1)%nat l1 j (NEG _ _)). pose proof (INEG (i - 2)%nat l2 j (NEG _ _)).
    destruct (Nat.eq_dec j i) as [->|N0].
    { unfold ind at 1. rewrite Nat.eqb_refl. specialize (A2 Ci). lra. }
    assert (Z0 : ind i (49 / 100) j = 0) by (unfold ind; destruct (Nat.eqb_spec j i); [lia|reflexivity]).
    assert (NV : forall p t, p = true -> t = j -> neg p t <= K (tap_pos j)).
    { intros p t -> ->. unfold neg. apply Rmin_r. }
    destruct (Nat.eq_dec j (i + 1)) as [Ej|N1].
    { assert (ind (i + 1)%nat r1 j = r1) by (unfold ind; destruct (Nat.eqb_spec j (i + 1)); [reflexivity|lia]).
      assert (r1 <= K (tap_pos j)) by (apply NV; lia). lra. }
    destruct (Nat.eq_dec j (i + 2)) as [Ej|N2].
    { assert (ind (i + 2)%nat r2 j = r2) by (unfold ind; destruct (Nat.eqb_spec j (i + 2)); [reflexivity|lia]).
      assert (r2 <= K (tap_pos j)) by (apply NV; lia). lra. }
    destruct (Nat.eq_dec i (j + 1)) as [Ej|N3].
    { assert (ind (i - 1)%nat l1 j = l1) by (unfold ind; destruct (Nat.eqb_spec j (i - 1)); [reflexivity|lia]).
      assert (l1 <= K (tap_pos j)) by (apply NV; lia). lra. }
    destruct (Nat.eq_dec i (j + 2)) as [Ej|N4].
    { assert (ind (i - 2)%nat l2 j = l2) by (unfold ind; destruct (Nat.eqb_spec j (i - 2)); [reflexivity|lia]).
      assert (l2 <= K (tap_pos j)) by (apply NV; lia). lra. }
    assert (FAR : 2 <= tap_pos j).
    { apply abs_le3 in E. destruct (le_lt_dec j i) as [L|L].
      - assert (IZR (Zn j) <= IZR (Zn i) - 3) by (rewrite <- minus_IZR; apply IZR_le; lia).
        rewrite Rabs_left in E by lra. lra.
      - assert (IZR (Zn i) + 3 <= IZR (Zn j)) by (rewrite <- plus_IZR; apply IZR_le; lia).
        rewrite Rabs_pos_eq in E by lra. lra. }
    assert (- (6 / 1000) <= K (tap_pos j)).
    { destruct (Rlt_dec (tap_pos j) 3); [specialize (A4 ltac:(lra)); lra|apply A5; lra]. }
    lra.
Qed.
End Row.

(** ** The filters *)
Lemma spline36_facts : sfacts spline36_R 3.
Proof.
  intros a Ha. unfold spline36_R. destruct (Rlt_dec a 1); [|destruct (Rlt_dec a 2); [|destruct (Rlt_dec a 3); [|lra]]].
  - bern3 a 0 1. repeat split; intros; try lra. bern3 a 0 (29 / 50). lra.
  - repeat split; intros; try lra.
    + destruct (Rle_or_lt a (7 / 5)); [|destruct (Rle_or_lt a (8 / 5))]; [bern3 a 1 (7 / 5)|bern3 a (7 / 5) (8 / 5)|bern3 a (8 / 5) 2]; lra.
    + bern3 a 1 (8 / 7); lra.
    + bern3 a (13 / 7) 2; lra.
  - bern3 a 2 3. repeat split; intros; lra.
Qed.
Lemma spline64_facts : sfacts spline64_R 4.
Proof.
  intros a Ha. unfold spline64_R. destruct (Rlt_dec a 1); [|destruct (Rlt_dec a 2); [|destruct (Rlt_dec a 3); [|destruct (Rlt_dec a 4); [|lra]]]].
  - bern3 a 0 1. repeat split; intros; try lra. bern3 a 0 (29 / 50). lra.
  - repeat split; intros; try lra.
    + destruct (Rle_or_lt a (13 / 10)); [bern3 a 1 (13 / 10); lra|]. destruct (Rle_or_lt a (7 / 5)); [bern3 a (13 / 10) (7 / 5); lra|].
      destruct (Rle_or_lt a (3 / 2)); [bern3 a (7 / 5) (3 / 2); lra|]. destruct (Rle_or_lt a (8 / 5)); [bern3 a (3 / 2) (8 / 5); lra|].
      bern3 a (8 / 5) 2; lra.
    + bern3 a 1 (8 / 7); lra.
    + bern3 a (13 / 7) 2; lra.
  - bern3 a 2 3. repeat split; intros; lra.
  - repeat split; intros; try lra; 
      (destruct (Rle_or_lt a (16 / 5)); [bern3 a 3 (16 / 5); lra|]; destruct (Rle_or_lt a (33 / 10)); [bern3 a (16 / 5) (33 / 10); lra|];
       destruct (Rle_or_lt a (17 / 5)); [bern3 a (33 / 10) (17 / 5); lra|]; destruct (Rle_or_lt a (7 / 2)); [bern3 a (17 / 5) (7 / 2); lra|];
       destruct (Rle_or_lt a (18 / 5)); [bern3 a (7 / 2) (18 / 5); lra|]; bern3 a (18 / 5) 4; lra).
Qed.

Lemma kfacts_bound K mid low : low <= 5 / 4 -> kfacts K 2 mid low -> forall a, 0 <= a < 2 -> Rabs (K a) <= 5 / 4.
Proof. intros H F a Ha. destruct (F a Ha) as (A & _ & _ & B). apply Rabs_le. lra. Qed.
Lemma sp36_bound a : 0 <= a < 3 -> Rabs (spline36_R a) <= 5 / 4.
Proof.
  intros Ha. destruct (spline36_facts a Ha) as (B & _). apply Rabs_le. split; [lra|].
  unfold spline36_R. destruct (Rlt_dec a 1); [|destruct (Rlt_dec a 2); [|destruct (Rlt_dec a 3); [|lra]]]; [bern3 a 0 1|bern3 a 1 2|bern3 a 2 3]; lra.
Qed.
Lemma sp64_bound a : 0 <= a < 4 -> Rabs (spline64_R a) <= 5 / 4.
Proof.
  intros Ha. destruct (spline64_facts a Ha) as (B & _). apply Rabs_le. split; [lra|].
  unfold spline64_R. destruct (Rlt_dec a 1); [|destruct (Rlt_dec a 2); [|destruct (Rlt_dec a 3); [|destruct (Rlt_dec a 4); [|lra]]]];
    [bern3 a 0 1|bern3 a 1 2|bern3 a 2 3|bern3 a 3 4]; lra.
Qed.
Lemma kacc_weaken t A B k K : A <= B -> kacc t B k K -> kacc t A k K.
Proof. intros H P x a F Ha. apply P; auto. lra. Qed.

(** What is needed of a filter. *)
Definition filter_ok (L : libm) (f : resampling_function) (K : R -> R) (t : positive) : Prop :=
  / IZR (Z.pos t) = kernel_tolerance f /\
  let fl := resampling_filter L f in let m := e_support (filter_entry f) in
  rwin fl = None /\ (is_resizable fl = true -> m = 2%Z) /\ kacc t (IZR m / 2 + 1) (rkernel fl) K /\
  (forall a, 0 <= a < IZR m / 2 + 1 -> Rabs (K a) <= 5 / 4) /\ elliptical f = is_ewa fl /\
  ((m = 2%Z /\ exists mid low, kfacts K 2 mid low /\ 0 <= mid /\ 0 <= low /\
      (if is_ewa fl then 7 / 10 * mid - 2 * (10 / 7 * low) else mid - 2 * low) >= / 7) \/
   (is_resizable fl = false /\ is_ewa fl = false /\ sfacts K (IZR m / 2 + 1))).
Lemma two_ok L f K t mid low : / IZR (Z.pos t) = kernel_tolerance f -> e_support (filter_entry f) = 2%Z -> rwin (resampling_filter L f) = None -> elliptical f = is_ewa (resampling_filter L f) ->
  kacc t 4 (rkernel (resampling_filter L f)) K \/ kacc t 2 (rkernel (resampling_filter L f)) K -> kfacts K 2 mid low -> 0 <= mid -> 0 <= low <= 5 / 4 ->
  (if elliptical f then 7 / 10 * mid - 2 * (10 / 7 * low) else mid - 2 * low) >= / 7 -> filter_ok L f K t.
Proof.
  intros Tt S W E A F M Lw N. unfold filter_ok. rewrite S. cbv zeta. split; [exact Tt|]. split; [exact W|]. split; [auto|].
  replace (IZR 2 / 2 + 1) with 2 by lra. split; [destruct A as [A|A]; [apply (kacc_weaken t 2 4); [lra|exact A]|exact A]|].
  split; [apply (kfacts_bound K mid low); [lra|exact F]|]. split; [exact E|].
  left. split; [reflexivity|]. exists mid, low. rewrite <- E. split; [exact F|]. split; [exact M|]. split; [lra|exact N].
Qed.
Lemma coded_ok L f K : coded_kernel f = Some K -> exists t, filter_ok L f K t.
Proof.
  intros H. destruct f; cbn in H; try discriminate; injection H as <-.
  - eexists; eapply (two_ok L _ _ _ (2 / 5) 0); try reflexivity; [left; exact bilinear_acc|exact triangle_facts|cbn; lra..].
  - eexists; eapply (two_ok L _ _ _ (3 / 8) 0); try reflexivity; [left; exact cubic_acc|exact bspline_facts|cbn; lra..].
  - eexists; eapply (two_ok L _ _ _ (3 / 8) (2 / 25)); try reflexivity; [left; exact mitchell_acc|exact mitchell_facts|cbn; lra..].
  - eexists; eapply (two_ok L _ _ _ (3 / 8) (2 / 25)); try reflexivity; [left; exact catmull_acc|exact catmull_facts|cbn; lra..].
  - eexists; eapply (two_ok L _ _ _ (3 / 8) 0); try reflexivity; [left; exact hermite_acc|exact hermite_facts|cbn; lra..].
  - eexists; eapply (two_ok L _ _ _ (3 / 8) 0); try reflexivity; [left; exact b_spline_acc|exact bspline_facts|cbn; lra..].
  - eexists; eapply (two_ok L _ _ _ (3 / 8) (2 / 25)); try reflexivity; [left; exact bicubic_acc|exact catmull_facts|cbn; lra..].
  - eexists; eapply (two_ok L _ _ _ (2 / 5) 0); try reflexivity; [left; exact welch_acc|exact parabola_facts|cbn; lra..].
  - eexists; eapply (two_ok L _ _ _ (2 / 5) 0); try reflexivity; [left; exact quadric_acc|exact quadratic_facts|cbn; lra..].
  - eexists; eapply (two_ok L _ _ _ (2 / 5) 0); try reflexivity; [left; exact quadric_acc|exact quadratic_facts|cbn; lra..].
  - eexists; eapply (two_ok L _ _ _ (2 / 5) (1 / 100)); try reflexivity; [left; exact robidoux_acc|exact robidoux_facts|cbn; lra..].
  - eexists; eapply (two_ok L _ _ _ (2 / 5) (1 / 100)); try reflexivity; [left; exact robidoux_acc|exact robidoux_facts|cbn; lra..].
  - eexists; eapply (two_ok L _ _ _ (11 / 25) (49 / 1000)); try reflexivity; [left; exact robidoux_sharp_acc|exact robidoux_sharp_facts|cbn; lra..].
  - eexists; eapply (two_ok L _ _ _ (11 / 25) (49 / 1000)); try reflexivity; [left; exact robidoux_sharp_acc|exact robidoux_sharp_facts|cbn; lra..].
  - eexists; eapply (two_ok L _ _ _ (3 / 8) (9 / 100)); try reflexivity; [right; exact spline16_acc|exact spline16_facts|cbn; lra..].
  - exists 262144%positive. unfold filter_ok. cbn. replace (4 / 2 + 1) with 3 by lra. split; [reflexivity|]. split; [reflexivity|]. split; [discriminate|].
    split; [apply spline36_acc|]. split; [apply sp36_bound|]. split; [reflexivity|]. right. split; [reflexivity|]. split; [reflexivity|]. apply spline36_facts.
  - exists 262144%positive. unfold filter_ok. cbn. replace (6 / 2 + 1) with 4 by lra. split; [reflexivity|]. split; [reflexivity|]. split; [discriminate|].
    split; [apply spline64_acc|]. split; [apply sp64_bound|]. split; [reflexivity|]. right. split; [reflexivity|]. split; [reflexivity|]. apply spline64_facts.
  - eexists; eapply (two_ok L _ _ _ (2 / 5) 0); try reflexivity; [left; exact box_acc|exact flat_facts|cbn; lra..].
  - eexists; eapply (two_ok L _ _ _ (2 / 5) 0); try reflexivity; [left; exact box_acc|exact flat_facts|cbn; lra..].
Qed.

Theorem weights_are_kernel L f K insz outsz o : coded_kernel f = Some K ->
  (1 <= Zn insz <= 65536)%Z -> (1 <= Zn outsz <= 65536)%Z -> (Zn insz <= 256 * Zn outsz)%Z -> (o < outsz)%nat ->
  let b := fst (general_row (resampling_filter L f) insz (scale_of insz outsz) o) in
  let row := snd (general_row (resampling_filter L f) insz (scale_of insz outsz) o) in
  exists al, length al = bsize b /\
    (forall k, (k < bsize b)%nat ->
      0 <= nth k al 0 /\ Rabs (nth k al 0 - ideal_distance f insz outsz o (bstart b + k)) <= (INR insz + 1) / ideal_cutoff f insz outsz / 1048576) /\
    let g := kernel_samples f (map K al) in
    / 7 <= total g /\
    forall k, (k < bsize b)%nat -> exists w, fin (nth k row f0) w /\ Rabs (w * total g - nth k g 0) <= (1 + INR (bsize b) * Rabs w) * weight_tolerance f (bsize b).
Proof.
  intros HK Hin Hout Hr Ho b row. destruct (coded_ok L f K HK) as (t & Tt & W & St & Acc & Bd & Ew & ND). cbv zeta in *.
  destruct (filter_table L f) as (Fm & T2 & T3 & _).
  set (fl := resampling_filter L f) in *. set (m := e_support (filter_entry f)) in *.
  assert (Hm : (2 <= m <= 6)%Z) by (unfold m; destruct f; try discriminate; cbn; lia).
  assert (Cu : ideal_cutoff f insz outsz = if is_resizable fl then Rmax (IZR (Zn insz) / IZR (Zn outsz)) 1 else 1).
  { rewrite T3. unfold ideal_cutoff. rewrite !INR_IZR_INZ. destruct f; reflexivity. }
  exists (map (tap_pos insz outsz o fl) (seq 0 (bsize b))). split; [rewrite map_length, seq_length; reflexivity|]. split.
  - intros k Hk. unfold b in Hk |- *. fold fl in Hk |- *. rewrite (al_nth insz outsz o fl k Hk).
    destruct (tap_ok insz outsz o Hin Hout Hr Ho fl m Hm Fm St K Bd k Hk) as (_ & T0 & T). split; [exact (proj1 T0)|].
    unfold ideal_distance, ideal_center. rewrite Cu, !INR_IZR_INZ. exact T.
  - assert (EG : kernel_samples f (map K (map (tap_pos insz outsz o fl) (seq 0 (bsize b)))) =
      match map K (map (tap_pos insz outsz o fl) (seq 0 (bsize b))) with v :: r => if is_ewa fl then v :: blend v r else map K (map (tap_pos insz outsz o fl) (seq 0 (bsize b))) | [] => [] end).
    { unfold kernel_samples. rewrite Ew. destruct (map K _); reflexivity. }
    cbv zeta. rewrite EG.
    assert (TT : / 7 <= total (match map K (map (tap_pos insz outsz o fl) (seq 0 (bsize b))) with v :: r => if is_ewa fl then v :: blend v r else map K (map (tap_pos insz outsz o fl) (seq 0 (bsize b))) | [] => [] end)).
    { destruct ND as [(M2 & mid & low & KF & M0 & L0 & C)|(NR & NE & SF)].
      - eapply (nondegenerate2 insz outsz o Hin Hout Hr Ho fl m) with (mid := mid) (low := low); eassumption.
      - eapply (nondegenerate_spline insz outsz o Hin Hout Hr Ho fl m); eassumption. }
    split; [exact TT|]. intros k Hk.
    set (e := Rmax (kernel_tolerance f) (/ 262144 + (INR (bsize b) + 3) / 16777216)).
    assert (NS : INR (bsize b) <= 520) by (eapply (n_small insz outsz o); eassumption).
    assert (P0 := pos_INR (bsize b)).
    assert (He : / 262144 <= e <= / 28000).
    { split; [apply Rle_trans with (/ 262144 + (INR (bsize b) + 3) / 16777216); [lra|apply Rmax_r]|].
      apply Rmax_lub; [destruct f; cbn; lra|lra]. }
    assert (Hte : / IZR (Z.pos t) <= e) by (rewrite Tt; apply Rmax_l).
    assert (Hs : (8 / 5 * INR (bsize b) + 2) * u <= 2 * e).
    { rewrite u_val. apply Rle_trans with (2 * (/ 262144 + (INR (bsize b) + 3) / 16777216)); [lra|]. apply Rmult_le_compat_l; [lra|apply Rmax_r]. }
    unfold weight_tolerance. fold e.
    eapply (row_weights insz outsz o Hin Hout Hr Ho fl m); eassumption.
Qed.
