(** Accuracy of the float sums behind deep (13..16 bit) images. *)
From Coq Require Import ZArith Reals Lra Lia Bool List Psatz ZifyBool ZifyNat.
From Flocq Require Import Core.Core Relative IEEE754.BinarySingleNaN.
From Verif Require Import Base BaseProofs ImageStore FixedPoint Dispatch Resize Spec SpecApi SpecFloat F32 F32Proofs Weights WeightsProofs Sampler SamplerProofs
  WeightSum FilterSums Center QuantSums KernelProofs DispatchProofs ResizeProofs PortableProofs ApiProofs Witness Alpha Api ApiFloat DriverProofs FloatApiProofs RgbaFloat.
Import ListNotations.
Local Open Scope R_scope.

Lemma ffma_fin x y z a b c : fin x a -> fin y b -> fin z c -> moderate (a * b + c) -> fin (ffma x y z) (rnd (a * b + c)).
Proof.
  intros [Fx Vx] [Fy Vy] [Fz Vz] M. pose proof (Bfma_correct 24 128 prec_pos prec_emax mode_NE x y z Fx Fy Fz) as C.
  cbv zeta in C. rewrite Vx, Vy, Vz in C.
  rewrite Rlt_bool_true in C by (apply bpow128_big; exact M).
  destruct C as (C1 & C2 & _). split; [exact C2|exact C1].
Qed.

Definition eta : R := bpow radix2 (-100).
Lemma eta_small : 0 < eta <= / 1000000000000000.
Proof.
  unfold eta. split; [apply bpow_gt_0|]. change (bpow radix2 (-100)) with (/ IZR (2 ^ 100)).
  apply Rinv_le; [lra|]. apply IZR_le. lia.
Qed.

(** Rounding: relative error 2^-24 plus a negligible absolute error. *)
Lemma rnd_err x : Rabs (rnd x - x) <= u * Rabs x + eta.
Proof.
  destruct (relative_error_N_FLT'_ex radix2 (-149) 24 ltac:(lia) (fun x => negb (Z.even x)) x) as (eps & et & H1 & H2 & _ & H3).
  unfold rnd, fe. change ZnearestE with (Znearest (fun x => negb (Z.even x))). rewrite H3.
  replace (x * (1 + eps) + et - x) with (x * eps + et) by ring.
  eapply Rle_trans; [apply Rabs_triang|]. rewrite Rabs_mult.
  assert (U : u_ro radix2 24 = u). { unfold u_ro, u. cbn. lra. }
  rewrite U in H1.
  assert (E1 : Rabs eps <= u).
  { eapply Rle_trans; [exact H1|]. unfold u. lra. }
  assert (E2 : Rabs et <= eta).
  { eapply Rle_trans; [exact H2|]. unfold eta. pose proof (bpow_le radix2 (-149) (-100) ltac:(lia)). pose proof (bpow_gt_0 radix2 (-149)). lra. }
  pose proof (Rabs_pos x). nra.
Qed.

Lemma mod_small x : Rabs x <= 1000000 -> moderate x.
Proof. intro H. unfold moderate. eapply Rle_trans; [exact H|]. apply IZR_le. lia. Qed.

(** One multiply-accumulate. *)
Lemma mlaf_step k acc x w a X W : fin acc a -> fin x X -> fin w W -> 0 <= a -> 0 <= X * W -> a + X * W <= 131000 ->
  exists a', fin (mlaf k acc x w) a' /\ 0 <= a' /\ Rabs (a' - (a + X * W)) <= / 64.
Proof.
  intros Ha Hx Hw Pa Pp B. pose proof eta_small as He. set (p := X * W) in *.
  destruct k; cbn [mlaf].
  - exists (rnd (X * W + a)). fold p. split; [apply ffma_fin; auto; apply mod_small; fold p; rewrite Rabs_pos_eq by lra; lra|].
    split; [apply rnd_ge_fmt; [apply fmt_0|lra]|].
    pose proof (rnd_err (p + a)) as E. rewrite (Rabs_pos_eq (p + a)) in E by lra.
    replace (rnd (p + a) - (a + p)) with (rnd (p + a) - (p + a)) by ring. unfold u in E. lra.
  - assert (Q : fin (fmul x w) (rnd p)) by (apply fmul_fin; auto; apply mod_small; fold p; rewrite Rabs_pos_eq by lra; lra).
    pose proof (rnd_err p) as E. rewrite (Rabs_pos_eq p) in E by lra.
    assert (Q0 : 0 <= rnd p) by (apply rnd_ge_fmt; [apply fmt_0|lra]).
    apply Rabs_le_inv in E. unfold u in E.
    exists (rnd (a + rnd p)). split; [apply fadd_fin; auto; apply mod_small; rewrite Rabs_pos_eq by lra; lra|].
    split; [apply rnd_ge_fmt; [apply fmt_0|lra]|].
    pose proof (rnd_err (a + rnd p)) as E2. rewrite (Rabs_pos_eq (a + rnd p)) in E2 by lra.
    apply Rabs_le_inv in E2. unfold u in E2. apply Rabs_le. lra.
Qed.

Lemma rsumn_shift m i g : rsumn (m + i) g = rsumn m g + rsumn i (fun k => g (m + k)%nat).
Proof. induction i as [|i IH]; cbn [rsumn]; rewrite ?Nat.add_0_r, ?Nat.add_succ_r; cbn [rsumn]; lra. Qed.

Section Close.
Variables (kd : mlaf_kind) (n : nat) (x w : nat -> f32) (X W : nat -> R).
Hypothesis Hn : (Zn n <= 2 ^ 20)%Z.
Hypothesis Hx : forall i, (i < n)%nat -> fin (x i) (X i) /\ fin (w i) (W i) /\ 0 <= X i * W i.
Hypothesis HS : rsumn n (fun i => X i * W i) <= 100000.
Let P (i : nat) : R := X i * W i.

Lemma part_le m : (m <= n)%nat -> 0 <= rsumn m P <= 100000.
Proof.
  intro H. split; [apply rsumn_nonneg; intros; apply Hx; lia|].
  replace n with (m + (n - m))%nat in HS by lia. fold P in HS. rewrite rsumn_shift in HS.
  assert (0 <= rsumn (n - m) (fun k => P (m + k)%nat)) by (apply rsumn_nonneg; intros; apply Hx; lia). lra.
Qed.

Lemma INR_le_20 m : (m <= n)%nat -> 0 <= INR m <= 1048576.
Proof. intro H. split; [apply pos_INR|]. rewrite INR_IZR_INZ. apply IZR_le. lia. Qed.

Lemma accumulate_close : forall len from acc a, (from + len <= n)%nat -> fin acc a -> 0 <= a ->
  Rabs (a - rsumn from P) <= INR from / 64 ->
  exists s, fin (accumulate_from (mlaf kd) from len x w acc) s /\ 0 <= s /\ Rabs (s - rsumn (from + len) P) <= INR (from + len) / 64.
Proof.
  induction len as [|len IH]; intros from acc a Hl Ha Pa E.
  - exists a. rewrite Nat.add_0_r. auto.
  - unfold accumulate_from. cbn [seq fold_left].
    destruct (Hx from ltac:(lia)) as (F1 & F2 & F3).
    pose proof (part_le (S from) ltac:(lia)) as Q. cbn [rsumn] in Q.
    pose proof (INR_le_20 from ltac:(lia)). apply Rabs_le_inv in E.
    change (X from * W from) with (P from) in F3.
    destruct (mlaf_step kd acc (x from) (w from) a (X from) (W from) Ha F1 F2 Pa F3) as (a' & Ha' & Pa' & E').
    { change (X from * W from) with (P from). lra. }
    change (X from * W from) with (P from) in E'. apply Rabs_le_inv in E'.
    destruct (IH (S from) _ a' ltac:(lia) Ha' Pa') as (s & R1 & R2 & R3).
    { cbn [rsumn]. rewrite S_INR. apply Rabs_le. lra. }
    exists s. replace (from + S len)%nat with (S from + len)%nat by lia. auto.
Qed.

Theorem weighted_close : exists s, fin (weighted f0 fmul (mlaf kd) n x w) s /\ 0 <= s /\ Rabs (s - rsumn n P) <= INR n / 64.
Proof.
  unfold weighted. destruct (starts_with_product n) eqn:St.
  - assert (Hn1 : (1 <= n)%nat) by (destruct n; [discriminate St|lia]).
    destruct (Hx 0%nat ltac:(lia)) as (F1 & F2 & F3). pose proof (part_le 1 ltac:(lia)) as Q. cbn [rsumn] in Q.
    change (X 0%nat * W 0%nat) with (P 0%nat) in F3. pose proof eta_small.
    assert (A : fin (fmul (x 0%nat) (w 0%nat)) (rnd (P 0%nat))).
    { apply fmul_fin; auto. apply mod_small. rewrite Rabs_pos_eq by exact F3. change (P 0%nat <= 1000000). lra. }
    pose proof (rnd_err (P 0%nat)) as E. rewrite (Rabs_pos_eq (P 0%nat)) in E by lra. apply Rabs_le_inv in E. unfold u in E.
    destruct (accumulate_close (n - 1) 1 _ _ ltac:(lia) A) as (s & R1 & R2 & R3).
    + apply rnd_ge_fmt; [apply fmt_0|exact F3].
    + cbn [rsumn INR]. apply Rabs_le. lra.
    + exists s. replace (1 + (n - 1))%nat with n in R3 by lia. auto.
  - destruct (accumulate_close n 0 f0 0 ltac:(lia) f0_fin ltac:(lra)) as (s & R1 & R2 & R3).
    + cbn [rsumn INR]. rewrite Rminus_0_r, Rabs_R0. lra.
    + exists s. auto.
Qed.
End Close.

(** ** One output sample of a deep pass *)
Lemma u16_as_fin v : (0 <= v <= 65535)%Z -> fin (u16_as_f32 v) (IZR v).
Proof. intro H. apply fint_exact. lia. Qed.

(** Weights of a row of an averaging filter as reals. *)
Definition row_weights (fl : rfilter) (insz outsz o : nat) (ws : list R) : Prop :=
  let n := tsize (filter_taps fl insz outsz) o in
  length ws = n /\ (forall k, (k < n)%nat -> fin (tweight (filter_taps fl insz outsz) o k) (nth k ws 0)) /\
  Forall (fun w => 0 <= w) ws /\ Rabs (rsum ws - 1) <= (INR n + 2) * / 4194304.

Lemma tweight_row fl insz outsz o k : (o < outsz)%nat -> (k < aligned_size (generate_weights fl insz outsz))%nat ->
  tweight (filter_taps fl insz outsz) o k = nth k (snd (weight_row fl insz outsz o)) f0.
Proof. intros Ho Hk. unfold filter_taps, taps_of. cbn [tweight]. now apply weights_nth. Qed.

Lemma tsize_row fl insz outsz o : (o < outsz)%nat ->
  tsize (filter_taps fl insz outsz) o = bsize (fst (weight_row fl insz outsz o)).
Proof. intro Ho. unfold filter_taps, taps_of. cbn [tsize]. f_equal. now apply bounds_nth. Qed.

Lemma averaging_weights L f insz outsz o : averaging f = true -> sides_ok f insz outsz -> (o < outsz)%nat ->
  exists ws, row_weights (resampling_filter L f) insz outsz o ws.
Proof.
  intros A S Ho. pose proof (sides_wf L f insz outsz S) as WF. pose proof (wf_nth _ _ _ _ WF Ho) as (_ & C2 & _).
  destruct S as (S1 & S2 & S3).
  destruct (averaging_row L f insz outsz o A S1 S2 S3 Ho) as (ws & H1 & H2 & H3 & H4).
  exists ws. unfold row_weights. rewrite tsize_row by auto. split; [exact H1|]. split; [|auto].
  intros k Hk. rewrite tweight_row; auto.
  rewrite <- tsize_row in Hk by auto. unfold filter_taps, taps_of in Hk. cbn [tsize] in Hk. lia.
Qed.

Lemma rsumn_ext n g h : (forall k, (k < n)%nat -> g k = h k) -> rsumn n g = rsumn n h.
Proof. induction n as [|n IH]; intro H; cbn [rsumn]; [reflexivity|]. rewrite IH, H by auto; auto. Qed.
Lemma rsumn_le n g h : (forall k, (k < n)%nat -> g k <= h k) -> rsumn n g <= rsumn n h.
Proof. induction n as [|n IH]; intro H; cbn [rsumn]; [lra|]. pose proof (IH ltac:(auto)). pose proof (H n ltac:(lia)). lra. Qed.
Lemma rsumn_scal n c g : rsumn n (fun k => c * g k) = c * rsumn n g.
Proof. induction n as [|n IH]; cbn [rsumn]; [ring|]. rewrite IH. ring. Qed.

Section Deep.
Variables (kd : mlaf_kind) (L : libm) (f : resampling_function) (insz outsz o : nat) (v : nat -> Z) (lo hi : Z).
Hypothesis A : averaging f = true.
Hypothesis HS : sides_ok f insz outsz.
Hypothesis Ho : (o < outsz)%nat.
Let fl := resampling_filter L f.
Let n := tsize (filter_taps fl insz outsz) o.
Hypothesis Hn : (Zn n <= 2 ^ 20)%Z.
Hypothesis Hv : forall k, (k < n)%nat -> (lo <= v k <= hi)%Z.
Hypothesis Hlo : (0 <= lo)%Z.
Hypothesis Hhi : (hi <= 65535)%Z.
Hypothesis Hlh : (lo <= hi)%Z.

(** The accumulated value is within n/64 of the exact weighted sum. *)
Lemma deep_sum : exists ws s, row_weights fl insz outsz o ws /\
  fin (weighted f0 fmul (mlaf kd) n (fun k => u16_as_f32 (v k)) (tweight (filter_taps fl insz outsz) o)) s /\
  Rabs (s - rsumn n (fun k => nth k ws 0 * IZR (v k))) <= INR n / 64 /\
  IZR lo * rsum ws <= rsumn n (fun k => nth k ws 0 * IZR (v k)) <= IZR hi * rsum ws.
Proof.
  destruct (averaging_weights L f insz outsz o A HS Ho) as (ws & RW). exists ws.
  pose proof RW as RW'. unfold row_weights in RW'. cbv zeta in RW'. change (filter_taps fl insz outsz) with (filter_taps (resampling_filter L f) insz outsz) in RW'. destruct RW' as (R1 & R2 & R3 & R4). change (tsize (filter_taps (resampling_filter L f) insz outsz) o) with n in R1, R2, R4.
  assert (P : forall k, (k < n)%nat -> 0 <= nth k ws 0).
  { intros k Hk. rewrite Forall_forall in R3. apply R3, nth_In. lia. }
  assert (B : IZR lo * rsum ws <= rsumn n (fun k => nth k ws 0 * IZR (v k)) <= IZR hi * rsum ws).
  { rewrite rsum_rsumn, R1, <- !rsumn_scal.
    split; apply rsumn_le; intros k Hk; pose proof (P k Hk); destruct (Hv k Hk) as [V1 V2]; apply IZR_le in V1, V2; nra. }
  assert (I : 0 <= INR n <= 1048576).
  { split; [apply pos_INR|]. rewrite INR_IZR_INZ. apply IZR_le. lia. }
  apply Rabs_le_inv in R4.
  assert (HI : 0 <= IZR hi <= 65535) by (split; [apply (IZR_le 0)|apply IZR_le]; lia).
  destruct (weighted_close kd n (fun k => u16_as_f32 (v k)) (tweight (filter_taps fl insz outsz) o)
    (fun k => IZR (v k)) (fun k => nth k ws 0) Hn) as (s & F & S0 & S1).
  - intros i Hi. split; [apply u16_as_fin; pose proof (Hv i Hi); lia|]. split; [now apply R2|].
    apply Rmult_le_pos; [|now apply P]. apply (IZR_le 0). pose proof (Hv i Hi). lia.
  - rewrite (rsumn_ext n _ (fun k => nth k ws 0 * IZR (v k))) by (intros; ring).
    assert (rsum ws <= 1.3) by lra. nra.
  - rewrite (rsumn_ext n _ (fun k => nth k ws 0 * IZR (v k))) in S1 by (intros; ring).
    exists s. auto.
Qed.

(** Short windows: the stored sample is between the extremes of the window, or one above. *)
Lemma deep_bounds d : (1 <= d <= 16)%nat -> (Zn n <= 30)%Z -> (hi <= max_colors d)%Z ->
  let r := to_mixed_u16 d (weighted f0 fmul (mlaf kd) n (fun k => u16_as_f32 (v k)) (tweight (filter_taps fl insz outsz) o)) in
  (lo <= r <= Z.min (hi + 1) (max_colors d))%Z.
Proof.
  intros Hd H30 HM r. destruct deep_sum as (ws & s & (R1 & _ & _ & R4) & F & E & B).
  unfold r. rewrite (to_mixed_fin d _ s Hd F). fold n in R4.
  assert (I : 0 <= INR n <= 30).
  { split; [apply pos_INR|]. rewrite INR_IZR_INZ. apply IZR_le. lia. }
  apply Rabs_le_inv in R4. apply Rabs_le_inv in E.
  assert (HI : 0 <= IZR hi <= 65535) by (split; [apply (IZR_le 0)|apply IZR_le]; lia).
  assert (LI : 0 <= IZR lo <= 65535) by (split; [apply (IZR_le 0)|apply IZR_le]; lia).
  assert (Q : (INR n + 2) * / 4194304 <= / 131072) by lra.
  assert (T1 : IZR lo - 1 < s) by nra.
  assert (T2 : s <= IZR hi + 1) by nra.
  assert (C1 : (lo <= Zceil s)%Z).
  { assert (lo - 1 < Zceil s)%Z; [|lia]. apply lt_IZR. rewrite minus_IZR. pose proof (Zceil_ub s). lra. }
  assert (C2 : (Zceil s <= hi + 1)%Z).
  { apply Zceil_glb. rewrite plus_IZR. exact T2. }
  lia.
Qed.
End Deep.

(** ** Monotonicity *)
Section Mono.
Variable kd : mlaf_kind.

(** Bounded non-negative operands. *)
Lemma mlaf_mono acc acc' x x' w a a' X X' W : fin acc a -> fin acc' a' -> fin x X -> fin x' X' -> fin w W ->
  0 <= a <= a' -> 0 <= X <= X' -> 0 <= W -> a' + X' * W <= 131000 ->
  exists b b', fin (mlaf kd acc x w) b /\ fin (mlaf kd acc' x' w) b' /\ 0 <= b <= b'.
Proof.
  intros Ha Ha' Hx Hx' Hw Ba BX BW B.
  assert (P : 0 <= X * W <= X' * W) by nra.
  destruct kd; cbn [mlaf].
  - exists (rnd (X * W + a)), (rnd (X' * W + a')).
    split; [apply ffma_fin; auto; apply mod_small; rewrite Rabs_pos_eq by lra; lra|].
    split; [apply ffma_fin; auto; apply mod_small; rewrite Rabs_pos_eq by lra; lra|].
    split; [apply rnd_ge_fmt; [apply fmt_0|lra]|apply rnd_le; lra].
  - assert (Q : fin (fmul x w) (rnd (X * W))) by (apply fmul_fin; auto; apply mod_small; rewrite Rabs_pos_eq by lra; lra).
    assert (Q' : fin (fmul x' w) (rnd (X' * W))) by (apply fmul_fin; auto; apply mod_small; rewrite Rabs_pos_eq by lra; lra).
    assert (M : 0 <= rnd (X * W) <= rnd (X' * W)) by (split; [apply rnd_ge_fmt; [apply fmt_0|lra]|apply rnd_le; lra]).
    pose proof (rnd_err (X' * W)) as E. rewrite (Rabs_pos_eq (X' * W)) in E by lra. apply Rabs_le_inv in E. unfold u in E.
    pose proof eta_small.
    exists (rnd (a + rnd (X * W))), (rnd (a' + rnd (X' * W))).
    split; [apply fadd_fin; auto; apply mod_small; rewrite Rabs_pos_eq by lra; lra|].
    split; [apply fadd_fin; auto; apply mod_small; rewrite Rabs_pos_eq by lra; lra|].
    split; [apply rnd_ge_fmt; [apply fmt_0|lra]|apply rnd_le; lra].
Qed.

Variables (n : nat) (x x' w : nat -> f32) (X X' W : nat -> R).
Hypothesis Hn : (Zn n <= 2 ^ 20)%Z.
Hypothesis Hx : forall i, (i < n)%nat -> fin (x i) (X i) /\ fin (x' i) (X' i) /\ fin (w i) (W i) /\ 0 <= X i <= X' i /\ 0 <= W i.
Hypothesis HS : rsumn n (fun i => X' i * W i) <= 100000.

Lemma accumulate_mono : forall len from acc acc' a a', (from + len <= n)%nat -> fin acc a -> fin acc' a' -> 0 <= a <= a' ->
  Rabs (a' - rsumn from (fun i => X' i * W i)) <= INR from / 64 ->
  exists s s', fin (accumulate_from (mlaf kd) from len x w acc) s /\ fin (accumulate_from (mlaf kd) from len x' w acc') s' /\ 0 <= s <= s'.
Proof.
  assert (Hx' : forall i, (i < n)%nat -> fin (x' i) (X' i) /\ fin (w i) (W i) /\ 0 <= X' i * W i).
  { intros i Hi. destruct (Hx i Hi) as (F1 & F1' & F2 & F3 & F4). repeat split; try apply F1'; try apply F2. nra. }
  induction len as [|len IH]; intros from acc acc' a a' Hl Ha Ha' Pa E.
  - exists a, a'. auto.
  - unfold accumulate_from. cbn [seq fold_left].
    destruct (Hx from ltac:(lia)) as (F1 & F1' & F2 & F3 & F4).
    pose proof (part_le n x' w X' W Hx' HS (S from) ltac:(lia)) as Q. cbn [rsumn] in Q.
    assert (0 <= INR from <= 1048576) by (split; [apply pos_INR|rewrite INR_IZR_INZ; apply IZR_le; lia]). pose proof E as E0. apply Rabs_le_inv in E0.
    assert (B : a' + X' from * W from <= 131000) by lra.
    destruct (mlaf_mono acc acc' (x from) (x' from) (w from) a a' (X from) (X' from) (W from)) as (b & b' & Fb & Fb' & Lb); auto.
    destruct (mlaf_step kd acc' (x' from) (w from) a' (X' from) (W from) Ha' F1' F2 ltac:(lra) ltac:(nra) B) as (c & Fc & _ & Ec).
    assert (c = b') by (destruct Fc as [_ <-]; destruct Fb' as [_ <-]; reflexivity). subst c. apply Rabs_le_inv in Ec.
    apply (IH (S from) _ _ b b'); auto; try lia.
    cbn [rsumn]. rewrite S_INR. apply Rabs_le. lra.
Qed.

Theorem weighted_mono : exists s s', fin (weighted f0 fmul (mlaf kd) n x w) s /\ fin (weighted f0 fmul (mlaf kd) n x' w) s' /\ 0 <= s <= s'.
Proof.
  unfold weighted. destruct (starts_with_product n) eqn:St.
  - assert (Hn1 : (1 <= n)%nat) by (destruct n; [discriminate St|lia]).
    destruct (Hx 0%nat ltac:(lia)) as (F1 & F1' & F2 & F3 & F4).
    assert (Hx' : forall i, (i < n)%nat -> fin (x' i) (X' i) /\ fin (w i) (W i) /\ 0 <= X' i * W i).
    { intros i Hi. destruct (Hx i Hi) as (G1 & G1' & G2 & G3 & G4). repeat split; try apply G1'; try apply G2. nra. }
    pose proof (part_le n x' w X' W Hx' HS 1 ltac:(lia)) as Q. cbn [rsumn] in Q. pose proof eta_small.
    assert (P : 0 <= X 0%nat * W 0%nat <= X' 0%nat * W 0%nat) by nra.
    assert (A : fin (fmul (x 0%nat) (w 0%nat)) (rnd (X 0%nat * W 0%nat))) by (apply fmul_fin; auto; apply mod_small; rewrite Rabs_pos_eq by lra; lra).
    assert (A' : fin (fmul (x' 0%nat) (w 0%nat)) (rnd (X' 0%nat * W 0%nat))) by (apply fmul_fin; auto; apply mod_small; rewrite Rabs_pos_eq by lra; lra).
    pose proof (rnd_err (X' 0%nat * W 0%nat)) as E. rewrite (Rabs_pos_eq (X' 0%nat * W 0%nat)) in E by lra. apply Rabs_le_inv in E. unfold u in E.
    apply (accumulate_mono (n - 1) 1 _ _ _ _ ltac:(lia) A A').
    + split; [apply rnd_ge_fmt; [apply fmt_0|lra]|apply rnd_le; lra].
    + cbn [rsumn INR]. apply Rabs_le. lra.
  - apply (accumulate_mono n 0 f0 f0 0 0 ltac:(lia) f0_fin f0_fin ltac:(lra)).
    cbn [rsumn INR]. rewrite Rminus_0_r, Rabs_R0. lra.
Qed.
End Mono.

Lemma deep_mono kd L f insz outsz o d v v' : averaging f = true -> sides_ok f insz outsz -> (o < outsz)%nat ->
  let T := filter_taps (resampling_filter L f) insz outsz in
  (Zn (tsize T o) <= 2 ^ 20)%Z -> (1 <= d <= 16)%nat ->
  (forall k, (k < tsize T o)%nat -> (0 <= v k <= v' k)%Z /\ (v' k <= 65535)%Z) ->
  (to_mixed_u16 d (weighted f0 fmul (mlaf kd) (tsize T o) (fun k => u16_as_f32 (v k)) (tweight T o)) <=
   to_mixed_u16 d (weighted f0 fmul (mlaf kd) (tsize T o) (fun k => u16_as_f32 (v' k)) (tweight T o)))%Z.
Proof.
  intros A HS Ho T Hn Hd Hv. destruct (averaging_weights L f insz outsz o A HS Ho) as (ws & R1 & R2 & R3 & R4).
  change (filter_taps (resampling_filter L f) insz outsz) with T in R1, R2, R4. set (n := tsize T o) in *.
  assert (P : forall k, (k < n)%nat -> 0 <= nth k ws 0).
  { intros k Hk. rewrite Forall_forall in R3. apply R3, nth_In. lia. }
  assert (I : 0 <= INR n <= 1048576).
  { split; [apply pos_INR|]. rewrite INR_IZR_INZ. apply IZR_le. lia. }
  apply Rabs_le_inv in R4.
  destruct (weighted_mono kd n (fun k => u16_as_f32 (v k)) (fun k => u16_as_f32 (v' k)) (tweight T o)
    (fun k => IZR (v k)) (fun k => IZR (v' k)) (fun k => nth k ws 0) Hn) as (s & s' & F & F' & Le).
  - intros i Hi. destruct (Hv i Hi) as [V1 V2]. split; [apply u16_as_fin; lia|]. split; [apply u16_as_fin; lia|].
    split; [now apply R2|]. split; [|now apply P]. split; [apply (IZR_le 0); lia|apply IZR_le; lia].
  - assert (rsumn n (fun i => IZR (v' i) * nth i ws 0) <= 65535 * rsum ws); [|nra].
    rewrite rsum_rsumn, R1, <- rsumn_scal. apply rsumn_le. intros k Hk. pose proof (P k Hk).
    destruct (Hv k Hk) as [_ V]. apply IZR_le in V. nra.
  - rewrite (to_mixed_fin d _ s Hd F), (to_mixed_fin d _ s' Hd F').
    assert (Zceil s <= Zceil s')%Z by (apply Zceil_le; lra). lia.
Qed.
