(** The conversions of processors with SSE4.1 but without F16C: tables over all bit patterns. *)
From Coq Require Import ZArith Reals List Bool Lia Lra ZifyBool.
From Flocq Require Import Core.Core IEEE754.BinarySingleNaN.
From Verif Require Import Base F32 F32Proofs Alpha AlphaU16 CApi CApiF16 CApiF16Proofs F16 F16Arith F16Range X86F16.
Local Open Scope Z_scope.

(** ** Widening: right on every finite number *)
Definition up_agrees (h : Z) : bool :=
  let x := f16_of_bits h in if is_finite x then f32_bits (as_f32 x) =? up_bits h else true.
Fixpoint all_below (p : Z -> bool) (n : nat) (h : Z) : bool :=
  match n with O => true | S n => if p h then all_below p n (h + 1) else false end.
Lemma all_below_ok p n : forall h, all_below p n h = true -> forall x, h <= x < h + Z.of_nat n -> p x = true.
Proof.
  induction n as [|n IH]; intros h H x Hx; [lia|]. cbn in H. destruct (p h) eqn:E; [|discriminate].
  destruct (Z.eq_dec x h) as [->|N]; [exact E|]. apply (IH (h + 1)); [exact H|lia].
Qed.
Lemma up_all : all_below up_agrees (Z.to_nat 65536) 0 = true.
Proof. vm_compute. reflexivity. Qed.
Lemma sign_all : all_below (fun h => negb (Bsign (f16_of_bits h))) (Z.to_nat 32768) 0 = true.
Proof. vm_compute. reflexivity. Qed.
Definition joins (h : Z) : bool := let j := h / 1024 in let i := h mod 1024 in Z.lor (Z.land (j * 2 ^ 10) 31744) i =? h.
Lemma join_all : all_below joins (Z.to_nat 32768) 0 = true.
Proof. vm_compute. reflexivity. Qed.
Lemma join_is j i : 0 <= j < 32 -> 0 <= i < 1024 -> Z.lor (Z.land (j * 2 ^ 10) 31744) i = j * 1024 + i.
Proof.
  intros J I. pose proof (all_below_ok _ _ _ join_all (j * 1024 + i) ltac:(lia)) as H. unfold joins in H.
  replace ((j * 1024 + i) / 1024) with j in H by (apply Z.div_unique with (r := i); lia).
  replace ((j * 1024 + i) mod 1024) with i in H by (apply Z.mod_unique with (q := j); lia). now apply Z.eqb_eq in H.
Qed.
Lemma land_all : all_below (fun j => (0 <=? Z.land (j * 2 ^ 10) 31744) && (Z.land (j * 2 ^ 10) 31744 <? 32768)) (Z.to_nat 256) 0 = true.
Proof. vm_compute. reflexivity. Qed.
Lemma land_range j : 0 <= j < 256 -> 0 <= Z.land (j * 2 ^ 10) 31744 < 2 ^ 15.
Proof. intro J. pose proof (all_below_ok _ _ _ land_all j ltac:(lia)) as H. cbv beta in H. change (2 ^ 15) with 32768. lia. Qed.
