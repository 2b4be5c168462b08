(** Facts about the descriptions of the 16-bit passes on x86-64, and the range of sums for
    which the 12-bit calls have a closed form. *)
From Coq Require Import ZArith List Bool Lia Permutation ZifyBool ZifyNat.
From Verif Require Import Base BaseProofs Spec SpecApi F32 SpecFloat FixedPoint ImageStore Resize Weights Sampler SpecKernels Center
  QuantSums SamplerProofs ApiProofs Api Alpha ApiFloat DriverProofs FloatApiProofs X86Dispatch X86Alpha X86Float X86U16 SpecX86U16 X86U16Calls Dispatch KernelProofs.
Import ListNotations.
Local Open Scope nat_scope.

(** ** Row lengths for which every column is read from its own position *)
Lemma read_step B r from n : 0 < B -> Forall (fun B => 0 < B) r ->
  (forall j, j < n -> column_read (B :: r) from n j = from + j) <->
  (n < B /\ forall j, j < n -> column_read r from n j = from + j) \/ (B <= n /\ n mod B = 0).
Proof.
  intros HB HR. cbn [column_read]. split.
  - intro H. destruct (Nat.lt_ge_cases n B) as [L|L].
    + left. split; [exact L|]. intros j Hj. specialize (H j Hj). rewrite (Nat.div_small n B L) in H.
      cbn [Nat.mul Nat.ltb Nat.leb Nat.eqb] in H. now rewrite !Nat.sub_0_r in H.
    + right. split; [exact L|]. destruct (Nat.eq_dec (n mod B) 0) as [E|E]; [exact E|exfalso].
      pose proof (Nat.div_mod n B ltac:(lia)) as D. assert (Q : 1 <= n / B) by (apply Nat.div_le_lower_bound; lia).
      specialize (H (n / B * B) ltac:(nia)). rewrite Nat.ltb_irrefl in H. rewrite Nat.sub_diag in H.
      replace (n / B =? 0) with false in H by lia.
      pose proof (column_read_le r HR (from + (n / B - 1) * B) (n - n / B * B) 0) as Le. nia.
  - intros [(L & H)|(L & E)] j Hj.
    + rewrite (Nat.div_small n B L). cbn [Nat.mul Nat.ltb Nat.leb Nat.eqb]. rewrite !Nat.sub_0_r. now apply H.
    + pose proof (Nat.div_mod n B ltac:(lia)) as D. replace (j <? n / B * B) with true by nia. reflexivity.
Qed.

Lemma in_place_sse n : reads_in_place sse_parts n <-> n mod 16 = 0 \/ n <= 4 \/ n = 8.
Proof.
  unfold reads_in_place, sse_parts. change (forall j, j < n -> column_read [16; 8; 4] 0 n j = j) with (forall j, j < n -> column_read [16; 8; 4] 0 n j = 0 + j).
  rewrite read_step by (repeat constructor). rewrite read_step by (repeat constructor). rewrite read_step by (repeat constructor).
  cbn [column_read].
  split.
  - intros [(A & [(B & [(C & _)|(C & D)])|(B & C)])|(A & B)]; lia.
  - intros H. destruct (Nat.lt_ge_cases n 16); [left|right; lia]. split; [lia|].
    destruct (Nat.lt_ge_cases n 8); [left|right; lia]. split; [lia|].
    destruct (Nat.lt_ge_cases n 4); [left|right; lia]. split; [lia|]. reflexivity.
Qed.
Lemma in_place_avx n : reads_in_place avx_parts n <-> n mod 32 = 0 \/ n <= 4 \/ n = 8 \/ n = 16.
Proof.
  unfold reads_in_place, avx_parts. change (forall j, j < n -> column_read [32; 16; 8; 4] 0 n j = j) with (forall j, j < n -> column_read [32; 16; 8; 4] 0 n j = 0 + j).
  rewrite read_step by (repeat constructor). rewrite read_step by (repeat constructor). rewrite read_step by (repeat constructor). rewrite read_step by (repeat constructor).
  cbn [column_read].
  split.
  - intros [(Z & [(A & [(B & [(C & _)|(C & D)])|(B & C)])|(A & B)])|(Z & A)]; lia.
  - intros H. destruct (Nat.lt_ge_cases n 32); [left|right; lia]. split; [lia|]. destruct (Nat.lt_ge_cases n 16); [left|right; lia]. split; [lia|].
    destruct (Nat.lt_ge_cases n 8); [left|right; lia]. split; [lia|].
    destruct (Nat.lt_ge_cases n 4); [left|right; lia]. split; [lia|]. reflexivity.
Qed.
Lemma flat_at {T} N (p : nat -> nat -> nat -> T) y x c : c < N -> flat N p y (x * N + c) = p y x c.
Proof.
  intro H. unfold flat. rewrite Nat.add_comm, Nat.div_add, Nat.mod_add, Nat.div_small, Nat.mod_small by lia. reflexivity.
Qed.

(** ** The taps of the leftover rows *)
Lemma seq_from m s : seq s m = map (fun i => s + i) (seq 0 m).
Proof.
  revert s. induction m as [|m IH]; intro s; [reflexivity|]. cbn [seq map]. f_equal; [lia|].
  rewrite (IH (S s)), (IH 1), map_map. apply map_ext. intro. lia.
Qed.
Lemma groups_perm B (o : list nat) s m : Permutation o (seq 0 B) ->
  Permutation (flat_map (fun g => map (fun i => s + B * g + i) o) (seq 0 m)) (seq s (B * m)).
Proof.
  intro P. induction m as [|m IH].
  - rewrite Nat.mul_0_r. reflexivity.
  - rewrite seq_S, flat_map_app. cbn [flat_map Nat.add]. rewrite app_nil_r.
    replace (B * S m) with (B * m + B) by lia. rewrite seq_app. apply Permutation_app; [exact IH|].
    rewrite P. rewrite <- (seq_from B (s + B * m)). reflexivity.
Qed.
Lemma tap_order_perm n : Permutation (tap_order n) (seq 0 n).
Proof.
  unfold tap_order. pose proof (Nat.mul_div_le (n - 1) 8 ltac:(lia)) as A. fold (taps8 n) in A.
  set (m8 := (n - 1) / 8) in *. set (m4 := (n - taps8 n - 1) / 4) in *.
  assert (E8 : taps8 n = 8 * m8) by reflexivity. assert (E4 : taps4 n = taps8 n + 4 * m4) by reflexivity.
  pose proof (Nat.mul_div_le (n - taps8 n - 1) 4 ltac:(lia)) as B. fold m4 in B.
  assert (A' : 8 * m8 <= n) by lia. assert (B' : taps8 n + 4 * m4 <= n) by lia.
  transitivity (seq 0 (8 * m8) ++ seq (8 * m8) (4 * m4) ++ seq (8 * m8 + 4 * m4) (n - (8 * m8 + 4 * m4))).
  - rewrite E4, E8. apply Permutation_app; [|apply Permutation_app; [|reflexivity]].
    + apply (groups_perm 8 [3; 2; 1; 0; 7; 6; 5; 4] 0 m8). apply NoDup_Permutation_bis; [|cbn; lia|intros i Hi; cbn in *; lia].
      repeat constructor; cbn; lia.
    + apply (groups_perm 4 [3; 2; 1; 0] (8 * m8) m4). apply NoDup_Permutation_bis; [|cbn; lia|intros i Hi; cbn in *; lia].
      repeat constructor; cbn; lia.
  - rewrite <- !seq_app. replace (8 * m8 + (4 * m4 + (n - (8 * m8 + 4 * m4)))) with n by lia. reflexivity.
Qed.
(** The window sizes for which each tap reads its own pixel. *)
Lemma tap_read_own n : 1 <= n -> ((forall k, k < n -> tap_read n k = k) <-> n mod 8 = 1 \/ n mod 8 = 2).
Proof.
  intro H1. unfold tap_read.
  assert (T8 : exists m r, taps8 n = 8 * m /\ n = 8 * m + r /\ 1 <= r <= 8).
  { exists ((n - 1) / 8), (n - taps8 n). unfold taps8. pose proof (Nat.div_mod (n - 1) 8 ltac:(lia)). pose proof (Nat.mod_upper_bound (n - 1) 8). lia. }
  destruct T8 as (m & r & E & En & Hr).
  assert (T4 : taps4 n = 8 * m + (if 5 <=? r then 4 else 0)).
  { unfold taps4. rewrite E. replace (n - 8 * m - 1) with (r - 1) by lia.
    destruct (Nat.leb_spec 5 r); [replace ((r - 1) / 4) with 1 by (apply Nat.div_unique with (r - 5); lia)|rewrite Nat.div_small by lia]; lia. }
  rewrite E, T4. clear T4 E. subst n.
  replace ((8 * m + r) mod 8) with (r mod 8) by (rewrite (Nat.add_comm (8 * m)), (Nat.mul_comm 8), Nat.mod_add; lia).
  split.
  - intro H. destruct (Nat.leb_spec 5 r) as [G|G].
    + specialize (H (8 * m) ltac:(lia)). replace ((8 * m =? 8 * m) && (8 * m <? 8 * m + 4)) with true in H by lia. lia.
    + destruct (Nat.lt_ge_cases r 3) as [G'|G']; [assert (D : r = 1 \/ r = 2) by lia; destruct D; subst r; [left|right]; reflexivity|].
      specialize (H (8 * m + 1) ltac:(lia)). replace ((8 * m + 1 =? 8 * m) && (8 * m <? 8 * m + 0)) with false in H by lia.
      replace ((8 * m + 1 =? 8 * m + 0 + 1) && (8 * m + 0 + 2 <? 8 * m + r)) with true in H by lia. lia.
  - intros H k Hk. assert (D : r = 1 \/ r = 2).
    { assert (D : r = 1 \/ r = 2 \/ r = 3 \/ r = 4 \/ r = 5 \/ r = 6 \/ r = 7 \/ r = 8) by lia.
      decompose [or] D; subst r; cbn in H; lia. }
    destruct D; subst r; cbn [Nat.leb].
    + replace ((k =? 8 * m) && (8 * m <? 8 * m + 0)) with false by lia.
      replace ((k =? 8 * m + 0 + 1) && (8 * m + 0 + 2 <? 8 * m + 1)) with false by lia. reflexivity.
    + replace ((k =? 8 * m) && (8 * m <? 8 * m + 0)) with false by lia.
      replace ((k =? 8 * m + 0 + 1) && (8 * m + 0 + 2 <? 8 * m + 2)) with false by lia. reflexivity.
Qed.

(** ** Sums *)
(** Averaging filters at any size; every filter when the source is at most t times as large as
    the destination and 6 t (2 maxv + 1) <= 65535 (t = 1 for 12 bits, t = 5 for 10 bits). *)
Definition sums_fit {T} (f : resampling_function) (maxv : Z) (store into : image T) : Prop :=
  averaging f = true \/ (exists t, 1 <= t /\ 6 * t * (2 * maxv + 1) <= 65535 /\ downscale_at_most t store into)%Z.
Lemma safe_small maxv W n : (0 <= maxv <= 4095)%Z -> accumulator_safe (2 * maxv + 1) W n -> sums_small maxv W n.
Proof.
  intros Hm H o Ho. specialize (H o Ho).
  assert (G : (0 <= zsum (wsize W o) (fun k => Z.abs (wcoef W o k)))%Z).
  { generalize (wsize W o). intro m. induction m as [|m IH]; cbn [zsum]; lia. }
  set (z := zsum (wsize W o) (fun k => Z.abs (wcoef W o k))) in *. clearbody z.
  destruct (Z.le_gt_cases (2 ^ 14) z) as [E|E]; nia.
Qed.
Lemma fit_small L f N nd maxv (store into : image Z) : valid_call N nd f store into -> (1 <= maxv <= 4095)%Z -> sums_fit f maxv store into ->
  sums_small maxv (filter_windows (resampling_filter L f) (height store) (height into)) (height into) /\
  sums_small maxv (filter_windows (resampling_filter L f) (width store) (width into)) (width into).
Proof.
  intros V M [A|(t & T1 & T2 & D)].
  - destruct (valid_sides V) as [S1 S2].
    assert (G : forall a b, sides_ok f a b -> sums_small maxv (filter_windows (resampling_filter L f) a b) b).
    { intros a b S o Ho. destruct (averaging_windows L f a b o A S Ho) as (Q1 & Q2 & _).
      rewrite (zsum_ext _ _ (wcoef (filter_windows (resampling_filter L f) a b) o)).
      2:{ intros i Hi. apply Z.abs_eq. now apply Q1. }
      nia. }
    split; apply G; assumption.
  - destruct (any_no_overflow L f N nd (2 * maxv + 1) t store into V ltac:(lia) ltac:(nia) T2 D) as [S1 S2].
    split; apply safe_small; try lia; assumption.
Qed.
