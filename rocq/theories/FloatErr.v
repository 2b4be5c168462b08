(** A small verified rounding-error analyser for f32 expressions built from additions,
    subtractions and multiplications. *)
From Coq Require Import ZArith Reals Lra Lia Bool List QArith Qreals Psatz.
From Flocq Require Import Core.Core IEEE754.BinarySingleNaN.
From Verif Require Import F32 F32Proofs WeightsProofs.
Import ListNotations.
Local Open Scope R_scope.

Inductive fexp := EV (i : nat) | EA (a b : fexp) | ES (a b : fexp) | EM (a b : fexp).

Fixpoint evF (env : list f32) (e : fexp) : f32 :=
  match e with
  | EV i => nth i env f0
  | EA a b => fadd (evF env a) (evF env b)
  | ES a b => fsub (evF env a) (evF env b)
  | EM a b => fmul (evF env a) (evF env b)
  end.
Fixpoint evR (env : list R) (e : fexp) : R :=
  match e with
  | EV i => nth i env 0
  | EA a b => evR env a + evR env b
  | ES a b => evR env a - evR env b
  | EM a b => evR env a * evR env b
  end.

(** (bound on the ideal value, bound on the error of the float). *)
Definition U : Q := 1 # 16777216.
Definition tiny : Q := 1 # 1152921504606846976.
Definition after_rounding (m e0 : Q) : Q * Q := (Qred m, Qred (e0 + U * (m + e0) + tiny)).
Fixpoint an (env : list (Q * Q)) (e : fexp) : Q * Q :=
  match e with
  | EV i => nth i env (0%Q, 0%Q)
  | EA a b | ES a b =>
      let '(ma, ea) := an env a in let '(mb, eb) := an env b in after_rounding (ma + mb) (ea + eb)
  | EM a b =>
      let '(ma, ea) := an env a in let '(mb, eb) := an env b in
      after_rounding (ma * mb) (ma * eb + mb * ea + ea * eb)
  end.
Definition big : Q := inject_Z (2 ^ 90).
Fixpoint an_ok (env : list (Q * Q)) (e : fexp) : bool :=
  let '(m, er) := an env e in
  Qle_bool 0 m && Qle_bool 0 er && Qle_bool (m + er) big &&
  match e with
  | EV i => (i <? length env)%nat
  | EA a b | ES a b | EM a b => an_ok env a && an_ok env b
  end.

(** A float whose value is within the bounds. *)
Definition close (x : f32) (r : R) (b : Q * Q) : Prop :=
  exists v, fin x v /\ Rabs (v - r) <= Q2R (snd b) /\ Rabs r <= Q2R (fst b).

Lemma Q2R_U : Q2R U = / 16777216. Proof. unfold Q2R, U. cbn. lra. Qed.
Lemma tiny_R : bpow radix2 (-150) <= Q2R tiny.
Proof.
  replace (Q2R tiny) with (bpow radix2 (-60)) by (unfold Q2R, tiny; cbn; lra). apply bpow_le; lia.
Qed.
Lemma rnd_abs x : Rabs (rnd x - x) <= / 16777216 * Rabs x + bpow radix2 (-150).
Proof.
  destruct (rnd_err 0 0 x) as (d & e & Hd & He & ->).
  replace (x * (1 + d) + e - x) with (x * d + e) by ring.
  eapply Rle_trans; [apply Rabs_triang|]. rewrite Rabs_mult. pose proof (Rabs_pos x). nra.
Qed.

Lemma Q2R_red q : Q2R (Qred q) = Q2R q.
Proof. apply Qeq_eqR, Qred_correct. Qed.

Lemma round_step (z : f32) v r m e0 :
  fin z (rnd v) -> Rabs (v - r) <= Q2R e0 -> Rabs r <= Q2R m ->
  close z r (after_rounding m e0).
Proof.
  intros F H1 H2. exists (rnd v). split; [exact F|]. unfold after_rounding. cbn [fst snd].
  rewrite !Q2R_red. split; [|exact H2].
  rewrite !Q2R_plus, Q2R_mult, Q2R_plus, Q2R_U. pose proof tiny_R as T. pose proof (rnd_abs v) as A.
  assert (Rabs v <= Q2R m + Q2R e0).
  { replace v with ((v - r) + r) by ring. eapply Rle_trans; [apply Rabs_triang|]. lra. }
  replace (rnd v - r) with ((rnd v - v) + (v - r)) by ring.
  eapply Rle_trans; [apply Rabs_triang|]. lra.
Qed.

Lemma big_R m e : Qle_bool (m + e) big = true -> Q2R m + Q2R e <= IZR (2 ^ 90).
Proof.
  intros H. apply Qle_bool_iff in H. apply Qle_Rle in H. rewrite Q2R_plus in H.
  unfold big in H. replace (Q2R (inject_Z (2 ^ 90))) with (IZR (2 ^ 90)) in H; [exact H|].
  unfold Q2R, inject_Z. cbn [Qnum Qden]. field.
Qed.
Lemma nonneg_R q : Qle_bool 0 q = true -> 0 <= Q2R q.
Proof. intros H. apply Qle_bool_iff in H. apply Qle_Rle in H. replace (Q2R 0) with 0 in H by (unfold Q2R; cbn; lra). exact H. Qed.

Lemma P90_100 : IZR (2 ^ 90) + IZR (2 ^ 90) <= IZR (2 ^ 100).
Proof. rewrite <- plus_IZR. apply IZR_le. lia. Qed.

(** For products: both factors at most 2^40 (checked through the bound on the product
    node is not enough when one factor is small, so the moderate bound is derived from the
    errors of the node itself). *)
Theorem an_sound : forall fe re qe, Forall2 (fun x y => close x (fst y) (snd y)) fe (combine re qe) ->
  length re = length qe -> length fe = length qe ->
  forall e, an_ok qe e = true -> close (evF fe e) (evR re e) (an qe e).
Proof.
  intros fenv renv qenv H L1 L2.
  assert (NTH : forall i, (i < length qenv)%nat -> close (nth i fenv f0) (nth i renv 0) (nth i qenv (0%Q, 0%Q))).
  { clear -H L1 L2. revert renv qenv H L1 L2. induction fenv as [|f fenv IH]; intros renv qenv H L1 L2 i Hi.
    - cbn in L2. lia.
    - destruct qenv as [|q qenv]; [cbn in Hi; lia|]. destruct renv as [|r renv]; [cbn in L1; lia|].
      cbn [combine] in H. inversion H; subst. destruct i as [|i]; cbn [nth]; [assumption|].
      apply IH; auto; cbn in *; lia. }
  induction e as [i|a IHa b IHb|a IHa b IHb|a IHa b IHb]; intros OK; cbn [evF evR an].
  - cbn [an_ok] in OK. destruct (an qenv (EV i)). apply andb_prop in OK. destruct OK as [_ OK]. apply Nat.ltb_lt in OK. apply NTH; exact OK.
  - cbn [an_ok] in OK. destruct (an qenv (EA a b)) as [m er] eqn:E.
    apply andb_prop in OK. destruct OK as [OK OK2]. apply andb_prop in OK2. destruct OK2 as [Oa Ob].
    apply andb_prop in OK. destruct OK as [OK OK3]. apply andb_prop in OK. destruct OK as [OK4 OK5].
    cbn [an] in E. destruct (an qenv a) as [ma ea]. destruct (an qenv b) as [mb eb].
    destruct (IHa Oa) as (va & Fa & A1 & A2). destruct (IHb Ob) as (vb & Fb & B1 & B2). cbn [fst snd] in *.
    assert (D : Rabs (va + vb - (evR renv a + evR renv b)) <= Q2R (ea + eb)).
    { rewrite Q2R_plus. replace (va + vb - _) with ((va - evR renv a) + (vb - evR renv b)) by ring.
      eapply Rle_trans; [apply Rabs_triang|]. lra. }
    assert (M : Rabs (evR renv a + evR renv b) <= Q2R (ma + mb)).
    { rewrite Q2R_plus. eapply Rle_trans; [apply Rabs_triang|]. lra. }
    apply round_step with (v := va + vb); auto. apply fadd_fin; auto.
    unfold after_rounding in E. apply pair_equal_spec in E. destruct E as [<- <-]. apply big_R in OK3. rewrite !Q2R_red in OK3.
    apply nonneg_R in OK5. apply nonneg_R in OK4. rewrite !Q2R_red in OK5, OK4.
    rewrite !Q2R_plus, Q2R_mult, !Q2R_plus, Q2R_U in OK3. rewrite !Q2R_plus in D, M, OK4. rewrite !Q2R_plus, Q2R_mult, !Q2R_plus, Q2R_U in OK5.
    assert (T0 : 0 <= Q2R tiny) by (pose proof tiny_R; pose proof (bpow_ge_0 radix2 (-150)); lra).
    assert (T1 : Q2R tiny <= 1) by (unfold Q2R, tiny; cbn; lra).
    unfold moderate. replace (va + vb) with ((va + vb - (evR renv a + evR renv b)) + (evR renv a + evR renv b)) by ring.
    eapply Rle_trans; [apply Rabs_triang|]. pose proof P90_100. pose proof (Rabs_pos (va + vb - (evR renv a + evR renv b))). lra.
  - cbn [an_ok] in OK. destruct (an qenv (ES a b)) as [m er] eqn:E.
    apply andb_prop in OK. destruct OK as [OK OK2]. apply andb_prop in OK2. destruct OK2 as [Oa Ob].
    apply andb_prop in OK. destruct OK as [OK OK3]. apply andb_prop in OK. destruct OK as [OK4 OK5].
    cbn [an] in E. destruct (an qenv a) as [ma ea]. destruct (an qenv b) as [mb eb].
    destruct (IHa Oa) as (va & Fa & A1 & A2). destruct (IHb Ob) as (vb & Fb & B1 & B2). cbn [fst snd] in *.
    assert (D : Rabs (va - vb - (evR renv a - evR renv b)) <= Q2R (ea + eb)).
    { rewrite Q2R_plus. replace (va - vb - _) with ((va - evR renv a) - (vb - evR renv b)) by ring.
      eapply Rle_trans; [apply Rabs_triang|]. rewrite Rabs_Ropp. lra. }
    assert (M : Rabs (evR renv a - evR renv b) <= Q2R (ma + mb)).
    { rewrite Q2R_plus. eapply Rle_trans; [apply Rabs_triang|]. rewrite Rabs_Ropp. lra. }
    apply round_step with (v := va - vb); auto. apply fsub_fin; auto.
    unfold after_rounding in E. apply pair_equal_spec in E. destruct E as [<- <-]. apply big_R in OK3. rewrite !Q2R_red in OK3.
    apply nonneg_R in OK5. apply nonneg_R in OK4. rewrite !Q2R_red in OK5, OK4.
    rewrite !Q2R_plus, Q2R_mult, !Q2R_plus, Q2R_U in OK3. rewrite !Q2R_plus in D, M, OK4. rewrite !Q2R_plus, Q2R_mult, !Q2R_plus, Q2R_U in OK5.
    assert (T0 : 0 <= Q2R tiny) by (pose proof tiny_R; pose proof (bpow_ge_0 radix2 (-150)); lra).
    assert (T1 : Q2R tiny <= 1) by (unfold Q2R, tiny; cbn; lra).
    unfold moderate. replace (va - vb) with ((va - vb - (evR renv a - evR renv b)) + (evR renv a - evR renv b)) by ring.
    eapply Rle_trans; [apply Rabs_triang|]. pose proof P90_100. pose proof (Rabs_pos (va - vb - (evR renv a - evR renv b))). lra.
  - cbn [an_ok] in OK. destruct (an qenv (EM a b)) as [m er] eqn:E.
    apply andb_prop in OK. destruct OK as [OK OK2]. apply andb_prop in OK2. destruct OK2 as [Oa Ob].
    apply andb_prop in OK. destruct OK as [OK OK3]. apply andb_prop in OK. destruct OK as [OK4 OK5].
    cbn [an] in E. destruct (an qenv a) as [ma ea]. destruct (an qenv b) as [mb eb].
    destruct (IHa Oa) as (va & Fa & A1 & A2). destruct (IHb Ob) as (vb & Fb & B1 & B2). cbn [fst snd] in *.
    set (ra := evR renv a) in *. set (rb := evR renv b) in *.
    assert (D : Rabs (va * vb - ra * rb) <= Q2R (ma * eb + mb * ea + ea * eb)).
    { rewrite !Q2R_plus, !Q2R_mult.
      replace (va * vb - ra * rb) with (ra * (vb - rb) + rb * (va - ra) + (va - ra) * (vb - rb)) by ring.
      eapply Rle_trans; [apply Rabs_triang|].
      apply Rplus_le_compat; [eapply Rle_trans; [apply Rabs_triang|]; apply Rplus_le_compat|]; rewrite Rabs_mult;
        apply Rmult_le_compat; auto using Rabs_pos. }
    assert (M : Rabs (ra * rb) <= Q2R (ma * mb)).
    { rewrite Q2R_mult, Rabs_mult. apply Rmult_le_compat; auto using Rabs_pos. }
    apply round_step with (v := va * vb); auto. apply fmul_fin; auto.
    unfold after_rounding in E. apply pair_equal_spec in E. destruct E as [<- <-]. apply big_R in OK3. rewrite !Q2R_red in OK3.
    apply nonneg_R in OK5. apply nonneg_R in OK4. rewrite Q2R_red in OK5, OK4.
    revert D M OK3 OK4 OK5. generalize (ma * eb + mb * ea + ea * eb)%Q (ma * mb)%Q. intros e0 m0 D M OK3 OK4 OK5.
    rewrite !Q2R_plus, Q2R_mult, !Q2R_plus, Q2R_U in OK3.
    assert (T0 : 0 <= Q2R tiny) by (pose proof tiny_R; pose proof (bpow_ge_0 radix2 (-150)); lra).
    unfold moderate. replace (va * vb) with ((va * vb - ra * rb) + ra * rb) by ring.
    eapply Rle_trans; [apply Rabs_triang|]. pose proof P90_100. pose proof (Rabs_pos (va * vb - ra * rb)).
    assert (0 <= IZR (2 ^ 90)) by (apply IZR_le; lia). lra.
Qed.

(** Using a bound computed by the analyser. *)
Lemma close_weaken x r b tol : close x r b -> Qle_bool (snd b) tol = true -> exists v, fin x v /\ Rabs (v - r) <= Q2R tol.
Proof.
  intros (v & F & H & _) T. exists v. split; [exact F|]. apply Qle_bool_iff in T. apply Qle_Rle in T. lra.
Qed.
