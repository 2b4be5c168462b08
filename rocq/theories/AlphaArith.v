(** Arithmetic of the portable alpha code, pixel by pixel. *)
From Coq Require Import ZArith Reals Lra List Lia Bool ZifyBool ZifyNat.
From Flocq Require Import Core.Core IEEE754.BinarySingleNaN.
From Verif Require Import Base BaseProofs ImageStore F32 F32Proofs WeightSum Alpha SpecAlpha.
Import ListNotations.
Local Open Scope Z_scope.

(** ** Division by 2^k - 1 with shifts *)
Lemma shift_div k M v : (0 < k) -> M = 2 ^ k - 1 -> 0 <= v <= M * M ->
  ((v + 2 ^ (k - 1)) / 2 ^ k + (v + 2 ^ (k - 1))) / 2 ^ k = nearest_div v M.
Proof.
  intros Hk HM Hv.
  assert (HB : 2 ^ k = 2 * 2 ^ (k - 1)) by (replace k with (Z.succ (k - 1)) at 1 by lia; apply Z.pow_succ_r; lia).
  assert (Hh : 1 <= 2 ^ (k - 1)) by (pose proof (Z.pow_pos_nonneg 2 (k - 1)); lia).
  unfold nearest_div. set (h := 2 ^ (k - 1)) in *. set (B := 2 ^ k) in *. clearbody h B.
  set (q := (2 * v + M) / (2 * M)).
  assert (Hq : 2 * M * q <= 2 * v + M < 2 * M * q + 2 * M).
  { pose proof (Z.div_mod (2 * v + M) (2 * M)). pose proof (Z.mod_pos_bound (2 * v + M) (2 * M)). unfold q. nia. }
  assert (0 <= q <= M) by nia.
  symmetry. apply Z.div_unique with (r := ((v + h) / B + (v + h)) - B * q); [|ring]. left.
  assert (H1 : (v + h) / B = q \/ (v + h) / B = q - 1).
  { pose proof (Z.div_mod (v + h) B). pose proof (Z.mod_pos_bound (v + h) B).
    set (t := (v + h) / B) in *. assert (t <= q) by nia. assert (q - 1 <= t) by nia. lia. }
  clear Hv. assert (EB : B * q = M * q + q) by (rewrite HM; ring).
  replace (2 * M * q) with (2 * (M * q)) in Hq by ring. rewrite EB. generalize dependent (M * q). intros X Hq EB.
  destruct H1 as [E|E]; rewrite E; lia.
Qed.

Lemma div_by_255_exact v : 0 <= v <= 255 * 255 -> div_by_255 v = nearest_div v 255.
Proof.
  intro H. unfold div_by_255, wrap16. rewrite !Z.shiftr_div_pow2 by lia.
  rewrite (Z.mod_small (v + 128)) by (change (2 ^ 16) with 65536; lia).
  assert (0 <= (v + 128) / 2 ^ 8 <= 255) by (change (2 ^ 8) with 256; lia).
  rewrite (Z.mod_small (_ + v)) by (change (2 ^ 16) with 65536; lia).
  rewrite (Z.mod_small (_ + 128)) by (change (2 ^ 16) with 65536; lia).
  replace ((v + 128) / 2 ^ 8 + v + 128) with ((v + 2 ^ (8 - 1)) / 2 ^ 8 + (v + 2 ^ (8 - 1))) by (change (2 ^ (8 - 1)) with 128; ring).
  rewrite (shift_div 8 255) by lia.
  assert (0 <= nearest_div v 255 <= 255) by (unfold nearest_div; lia).
  rewrite Z.min_l by lia. apply Z.mod_small. change (2 ^ 8) with 256. lia.
Qed.

Definition byte (v : Z) : Prop := 0 <= v <= 255.

Lemma premul_ch_u8 c a : byte c -> byte a -> div_by_255 (wrap16 (c * a)) = nearest_div (c * a) 255.
Proof.
  unfold byte. intros. unfold wrap16. rewrite Z.mod_small by (change (2 ^ 16) with 65536; nia).
  apply div_by_255_exact. nia.
Qed.
Lemma nearest_div_le c a M : 0 <= c <= M -> 0 <= a -> 0 < M -> 0 <= nearest_div (c * a) M <= a.
Proof.
  intros. unfold nearest_div. split; [apply Z.div_pos; nia|].
  assert ((2 * (c * a) + M) / (2 * M) < a + 1); [|lia]. apply Z.div_lt_upper_bound; nia.
Qed.

Lemma div_by_pow_exact k M v : 0 < k <= 16 -> M = 2 ^ k - 1 -> 0 <= v <= M * M -> div_by_pow k v = nearest_div v M.
Proof.
  intros Hk HM Hv. unfold div_by_pow, wrap_u32, wrap16. rewrite !Z.shiftr_div_pow2 by lia.
  assert (P : 2 ^ k <= 2 ^ 16) by (apply Z.pow_le_mono_r; lia). change (2 ^ 16) with 65536 in *.
  assert (HB : 2 ^ k = 2 * 2 ^ (k - 1)) by (replace k with (Z.succ (k - 1)) at 1 by lia; apply Z.pow_succ_r; lia).
  assert (Hh : 1 <= 2 ^ (k - 1)) by (pose proof (Z.pow_pos_nonneg 2 (k - 1)); lia).
  change (2 ^ 32) with 4294967296.
  assert (M * M <= 65535 * 65535) by nia.
  rewrite (Z.mod_small (v + 2 ^ (k - 1))) by lia.
  assert (D : 0 <= (v + 2 ^ (k - 1)) / 2 ^ k <= M).
  { split; [apply Z.div_pos; lia|]. assert ((v + 2 ^ (k - 1)) / 2 ^ k < M + 1); [|lia].
    apply Z.div_lt_upper_bound; nia. }
  rewrite (Z.mod_small (_ / _ + _)) by nia.
  rewrite (shift_div k M) by lia.
  assert (0 <= nearest_div v M <= M).
  { unfold nearest_div. split; [apply Z.div_pos; nia|]. assert ((2 * v + M) / (2 * M) < M + 1); [|lia].
    apply Z.div_lt_upper_bound; nia. }
  apply Z.mod_small. lia.
Qed.

Lemma premul_u16_exact k c a : k = 10 \/ k = 16 -> 0 <= c <= 2 ^ k - 1 -> 0 <= a <= 2 ^ k - 1 ->
  premul_ch_u16 (2 ^ k - 1) c a = nearest_div (c * a) (2 ^ k - 1).
Proof.
  intros Hk Hc Ha. unfold premul_ch_u16, wrap_u32.
  destruct Hk as [->| ->]; [change (2 ^ 10 - 1) with 1023 in *|change (2 ^ 16 - 1) with 65535 in *]; cbn [Z.eqb Pos.eqb];
    (rewrite Z.mod_small by (change (2 ^ 32) with 4294967296; nia)).
  - apply (div_by_pow_exact 10); [lia|reflexivity|nia].
  - apply (div_by_pow_exact 16); [lia|reflexivity|nia].
Qed.

(** ** The un-premultiplication table *)
Lemma nth_upd (l : list Z) i v k : (i < length l)%nat -> nth k (upd l i v) 0 = if (k =? i)%nat then v else nth k l 0.
Proof.
  intro H. pose proof (nth_error_upd l i v k) as E. replace (i <? length l)%nat with true in E by lia.
  destruct (Nat.eqb_spec k i) as [->|D].
  - now apply nth_error_nth with (d := 0) in E.
  - destruct (nth_error l k) eqn:F.
    + apply nth_error_nth with (d := 0) in E. apply nth_error_nth with (d := 0) in F. congruence.
    + rewrite !nth_overflow; auto; [apply nth_error_None; auto|apply nth_error_None; auto].
Qed.

Definition write (t : list Z) (w : nat * Z) : list Z := upd t (fst w) (snd w).

Lemma fold_write_length ws : forall t, length (fold_left write ws t) = length t.
Proof. induction ws as [|w ws IH]; intro t; [reflexivity|]. cbn [fold_left]. rewrite IH. apply upd_length. Qed.

Lemma row_writes (val : nat -> Z) base m : forall t i, (base + m <= length t)%nat ->
  nth i (fold_left write (map (fun p => ((base + p)%nat, val p)) (seq 0 m)) t) 0 =
  if ((base <=? i) && (i <? base + m))%nat then val (i - base)%nat else nth i t 0.
Proof.
  induction m as [|m IH]; intros t i H.
  - cbn [seq map fold_left]. destruct ((base <=? i) && (i <? base + 0))%nat eqn:E; [lia|reflexivity].
  - rewrite seq_S, map_app, fold_left_app. cbn [map fold_left Nat.add]. unfold write at 1. cbn [fst snd].
    rewrite nth_upd by (rewrite fold_write_length; lia). rewrite IH by lia.
    destruct (Nat.eqb_spec i (base + m)) as [->|D].
    + replace ((base <=? base + m) && (base + m <? base + S m))%nat with true by lia. f_equal. lia.
    + destruct ((base <=? i) && (i <? base + m))%nat eqn:E1, ((base <=? i) && (i <? base + S m))%nat eqn:E2; auto; lia.
Qed.

Definition rows_upto (n : nat) : list (nat * Z) :=
  flat_map (fun alpha => map (fun pixel => ((alpha * 255 + pixel)%nat, table_value alpha pixel)) (seq 0 256)) (seq 0 n).

Lemma table_upto t n : (n * 255 + 1 <= length t)%nat -> (forall i, nth i t 0 = 0) -> forall i,
  nth i (fold_left write (rows_upto n) t) 0 =
  if (i / 255 <? n)%nat then table_value (i / 255) (i mod 255)
  else if ((0 <? n) && (i =? n * 255))%nat then table_value (n - 1) 255 else 0.
Proof.
  intros Ht Hz. induction n as [|n IH]; intros i.
  - cbn [rows_upto seq flat_map fold_left]. rewrite Hz.
    destruct (i / 255 <? 0)%nat eqn:E; [lia|reflexivity].
  - unfold rows_upto. rewrite (seq_S n 0), flat_map_app, fold_left_app. cbn [flat_map Nat.add].
    rewrite app_nil_r. fold (rows_upto n). rewrite row_writes by (rewrite fold_write_length; lia).
    rewrite IH by lia. clear IH. pose proof (Nat.div_mod i 255 ltac:(lia)) as DM. pose proof (Nat.mod_upper_bound i 255 ltac:(lia)) as MB.
    destruct ((n * 255 <=? i) && (i <? n * 255 + 256))%nat eqn:E1.
    + destruct (Nat.eq_dec i (S n * 255)) as [->|D].
      * rewrite Nat.div_mul, Nat.mod_mul by lia. replace (S n <? S n)%nat with false by lia.
        replace ((0 <? S n) && (S n * 255 =? S n * 255))%nat with true by lia. f_equal; lia.
      * assert (Q : (i / 255 = n)%nat) by (symmetry; apply Nat.div_unique with (r := (i - n * 255)%nat); lia).
        rewrite Q. replace (n <? S n)%nat with true by lia. f_equal. rewrite Q in DM. lia.
    + assert (NQ : (i / 255 <> n)%nat) by (intro Q; rewrite Q in DM; lia).
      generalize dependent (i / 255)%nat. intros q DM NQ.
      destruct (Nat.ltb_spec q n) as [E2|E2].
      { replace (q <? S n)%nat with true by lia. reflexivity. }
      replace (q <? S n)%nat with false by lia.
      destruct ((0 <? n) && (i =? n * 255))%nat eqn:E4; [lia|].
      destruct ((0 <? S n) && (i =? S n * 255))%nat eqn:E5; [lia|reflexivity].
Qed.

Lemma table_nth i : nth i unpremultiplication_table 0 =
  if (i / 255 <? 256)%nat then table_value (i / 255) (i mod 255)
  else if (i =? 256 * 255)%nat then table_value 255 255 else 0.
Proof.
  unfold unpremultiplication_table. change table_writes with (rows_upto 256).
  generalize (table_upto (repeat 0 (256 * 256)) 256). intro H.
  etransitivity; [apply H|reflexivity].
  - rewrite repeat_length. apply Nat.leb_le. vm_compute. reflexivity.
  - intro. apply nth_repeat.
Qed.

Lemma unpremul_table a c : byte a -> byte c -> (c <= 254 \/ a = 255) ->
  unpremul_ch_u8 a c = table_value (Z.to_nat a) (Z.to_nat c).
Proof.
  unfold byte. intros Ha Hc H. unfold unpremul_ch_u8, wrap16. change (2 ^ 16) with 65536.
  rewrite (Z.mod_small (a * 255)) by lia. rewrite Z.mod_small by lia. rewrite table_nth.
  destruct (Z.eq_dec c 255) as [->|D].
  - replace a with 255 by lia. vm_compute. reflexivity.
  - assert (Q : (Z.to_nat (a * 255 + c) / 255 = Z.to_nat a)%nat) by
      (symmetry; apply Nat.div_unique with (r := Z.to_nat c); lia).
    assert (R : (Z.to_nat (a * 255 + c) mod 255 = Z.to_nat c)%nat) by
      (symmetry; apply Nat.mod_unique with (q := Z.to_nat a); lia).
    rewrite Q, R. replace (Z.to_nat a <? 256)%nat with true by lia. reflexivity.
Qed.
(** Full-scale colours under partial alpha read the next row of the table. *)
Lemma unpremul_255 a : 0 <= a <= 254 -> unpremul_ch_u8 a 255 = 0.
Proof.
  intros Ha. unfold unpremul_ch_u8, wrap16. change (2 ^ 16) with 65536.
  rewrite (Z.mod_small (a * 255)) by lia. rewrite Z.mod_small by lia. rewrite table_nth.
  replace (Z.to_nat (a * 255 + 255)) with (Z.to_nat (a + 1) * 255)%nat by lia.
  rewrite Nat.div_mul, Nat.mod_mul by lia. replace (Z.to_nat (a + 1) <? 256)%nat with true by lia.
  unfold table_value. destruct (Nat.eqb_spec (Z.to_nat (a + 1)) 0); [reflexivity|].
  rewrite Nat.div_small; [reflexivity|]. pose proof (Nat.div_mod (Z.to_nat (a + 1)) 2). lia.
Qed.

Lemma unpremul_zero c : byte c -> unpremul_ch_u8 0 c = 0.
Proof.
  unfold byte. intro Hc. destruct (Z.eq_dec c 255) as [->|]; [apply unpremul_255; lia|].
  rewrite unpremul_table by (unfold byte; lia). reflexivity.
Qed.

Lemma table_value_Z a c : 0 < a <= 255 -> 0 <= c <= 255 -> table_value (Z.to_nat a) (Z.to_nat c) = ((c * 255 + a / 2) / a) mod 256.
Proof.
  intros. unfold table_value. replace (Z.to_nat a =? 0)%nat with false by lia. f_equal.
  rewrite Nat2Z.inj_div, Nat2Z.inj_add, Nat2Z.inj_mul, Nat2Z.inj_div, !Z2Nat.id by lia. reflexivity.
Qed.

(** Colours at most alpha are divided exactly. *)
Lemma unpremul_exact a c : 0 < a <= 255 -> 0 <= c <= a -> unpremul_ch_u8 a c = (c * 255 + a / 2) / a.
Proof.
  intros Ha Hc. rewrite unpremul_table by (unfold byte; lia). rewrite table_value_Z by lia.
  apply Z.mod_small. split; [apply Z.div_pos; lia|]. apply Z.div_lt_upper_bound; [lia|].
  assert (a / 2 < a) by (apply Z.div_lt; lia). nia.
Qed.

Lemma unpremul_opaque c : byte c -> unpremul_ch_u8 255 c = c.
Proof. unfold byte. intro. rewrite unpremul_exact by lia. change (255 / 2) with 127. lia. Qed.

Lemma roundtrip_u8 c a : byte c -> 0 < a <= 255 ->
  2 * a * Z.abs (unpremul_ch_u8 a (nearest_div (c * a) 255) - c) <= 255 + a.
Proof.
  unfold byte. intros Hc Ha. pose proof (nearest_div_le c a 255 ltac:(lia) ltac:(lia) ltac:(lia)) as P.
  rewrite unpremul_exact by lia. set (p := nearest_div (c * a) 255) in *.
  assert (Hp : 2 * 255 * p <= 2 * (c * a) + 255 < 2 * 255 * p + 2 * 255).
  { unfold p, nearest_div. pose proof (Z.div_mod (2 * (c * a) + 255) (2 * 255)). pose proof (Z.mod_pos_bound (2 * (c * a) + 255) (2 * 255)). lia. }
  clearbody p.
  assert (Hh : a - 1 <= 2 * (a / 2) <= a) by lia. set (h := a / 2) in *. clearbody h.
  assert (Hr : a * ((p * 255 + h) / a) <= p * 255 + h < a * ((p * 255 + h) / a) + a).
  { pose proof (Z.div_mod (p * 255 + h) a). pose proof (Z.mod_pos_bound (p * 255 + h) a). lia. }
  set (r := (p * 255 + h) / a) in *. clearbody r.
  destruct (Z.abs_spec (r - c)) as [[? ->]|[? ->]]; nia.
Qed.

(** Range of the results. *)
Lemma unpremul_ch_u8_range a c : 0 <= unpremul_ch_u8 a c <= 255.
Proof.
  unfold unpremul_ch_u8. rewrite table_nth.
  assert (T : forall x y, 0 <= table_value x y <= 255).
  { intros. unfold table_value. destruct (x =? 0)%nat; [lia|].
    pose proof (Z.mod_pos_bound (Z.of_nat ((y * 255 + x / 2) / x)) (2 ^ 8)). change (2 ^ 8) with 256 in *. lia. }
  destruct (_ <? _)%nat; [apply T|]. destruct (_ =? _)%nat; [apply T|lia].
Qed.
