(** A parallel loop over disjoint chunks has the same outcome, panic included, as
    the sequential loop, in whatever order the tasks run. *)
From Coq Require Import Permutation ZifyBool ZifyNat.
From Verif Require Import Base BaseProofs ImageStore FixedPoint Dispatch Resize NoFail.

Lemma zip_mut_Panic {A B} (f : A -> B -> outcome A) ds ss :
  (forall d s, nofail (f d s)) -> zip_mut f ds ss = Panic ->
  exists i d s, nth_error ds i = Some d /\ nth_error ss i = Some s /\ f d s = Panic.
Proof.
  intros NF. revert ss. induction ds as [|d ds IH]; intros [|s ss]; cbn [zip_mut]; try discriminate.
  destruct (f d s) as [d'|e|] eqn:E; cbn [bind].
  - destruct (zip_mut f ds ss) as [r|e|] eqn:Z; cbn [bind]; try discriminate.
    intros _. destruct (IH ss Z) as (i & d1 & s1 & H1 & H2 & H3). exists (S i), d1, s1. auto.
  - exfalso. now apply (NF d s e).
  - intros _. exists 0, d, s. auto.
Qed.

Lemma foldM_task_Panic {A B} (f : A -> B -> outcome A) ss order ds i d s :
  (forall d s, nofail (f d s)) -> NoDup order ->
  In i order -> nth_error ds i = Some d -> nth_error ss i = Some s -> f d s = Panic ->
  foldM (run_task f ss) order ds = Panic.
Proof.
  intros NF. revert ds. induction order as [|j order IH]; intros ds ND Hin Hd Hs Hf; [destruct Hin|].
  inversion ND as [|? ? Hj ND']; subst. cbn [foldM]. unfold run_task at 1.
  destruct (Nat.eq_dec j i) as [->|Hne].
  - rewrite Hd, Hs, Hf. reflexivity.
  - destruct (nth_error ds j) as [dj|] eqn:Ej; [|reflexivity].
    destruct (nth_error ss j) as [sj|]; [|reflexivity].
    destruct (f dj sj) as [d'|e|] eqn:Ef; cbn [bind]; [|exfalso; now apply (NF dj sj e)|reflexivity].
    apply IH; auto.
    + destruct Hin; [contradiction|assumption].
    + rewrite nth_error_upd. replace (i =? j) with false by lia. exact Hd.
Qed.

Theorem zip_sched_any {A B} (f : A -> B -> outcome A) order ds ss :
  (forall d s, nofail (f d s)) ->
  Permutation order (seq 0 (Nat.min (length ds) (length ss))) ->
  zip_sched order f ds ss = zip_mut f ds ss.
Proof.
  intros NF P. destruct (zip_mut f ds ss) as [r|e|] eqn:Z.
  - now apply zip_sched_perm.
  - exfalso. now apply (nofail_zip f ds ss NF e).
  - destruct (zip_mut_Panic f ds ss NF Z) as (i & d & s & H1 & H2 & H3).
    unfold zip_sched. eapply foldM_task_Panic; eauto.
    + apply (Permutation_NoDup (Permutation_sym P)). apply seq_NoDup.
    + apply (Permutation_in _ (Permutation_sym P)). apply in_seq.
      pose proof (nth_error_Some_lt _ _ _ H1). pose proof (nth_error_Some_lt _ _ _ H2). lia.
Qed.

Lemma for_each_any {A B} p label (f : A -> B -> outcome A) ds ss :
  (forall d s, nofail (f d s)) -> pool_ok p ->
  for_each p label f ds ss = for_each None label f ds ss.
Proof. intros NF HP. destruct p as [sched|]; [|reflexivity]. cbn. now apply zip_sched_any. Qed.

Lemma hpass_pool {F} (q : F -> Z) N maxv fw p im into :
  pool_ok p -> hpass q N maxv fw p im into = hpass q N maxv fw None im into.
Proof.
  intro HP. unfold hpass. destruct (numerical_approximation q 0 fw) as [a| |]; cbn [bind]; auto.
  unfold horizontal_dispatch.
  destruct (chunks_exact_o (stride_of N into * 4) (buf into)) as [d4| |]; cbn [bind]; auto.
  destruct (chunks_exact_o (stride_of N im * 4) (buf im)) as [s4| |]; cbn [bind]; auto.
  rewrite (for_each_any p) by (auto; intros; apply nf_row_handler_4).
  destruct (for_each None _ _ _ _) as [d4'| |]; cbn [bind]; auto.
  destruct (chunks_exact_o (stride_of N into) _) as [d1| |]; cbn [bind]; auto.
  destruct (chunks_exact_o (stride_of N im) _) as [s1| |]; cbn [bind]; auto.
  rewrite (for_each_any p) by (auto; intros; apply nf_row_handler). reflexivity.
Qed.

Lemma vpass_pool {F} (q : F -> Z) N maxv fw p im into :
  pool_ok p -> vpass q N maxv fw p im into = vpass q N maxv fw None im into.
Proof.
  intro HP. unfold vpass. destruct (numerical_approximation q 0 fw) as [a| |]; cbn [bind]; auto.
  unfold vertical_dispatch.
  destruct (chunks_exact_o _ _) as [rows| |]; cbn [bind]; auto.
  rewrite (for_each_any p); auto. intros d s.
  repeat first [apply nf_column_handler | progress nf].
Qed.

Lemma nearest_pool {T} N crd (src : list T) w h dst w' h' p :
  pool_ok p -> resize_nearest N crd src w h dst w' h' p = resize_nearest N crd src w h dst w' h' None.
Proof.
  intro HP. unfold resize_nearest.
  destruct (chunks_exact_o _ _) as [rows| |]; cbn [bind]; auto.
  rewrite (for_each_any p); auto. intros d s. unfold nearest_row, nearest_pixel. nf.
Qed.

(** An engine whose stages do not depend on the pool. *)
Record pool_blind {T F} (E : engine T F) : Prop := mkPB {
  pb_v : forall fw p a b, pool_ok p -> vconv E fw p a b = vconv E fw None a b;
  pb_h : forall fw p a b, pool_ok p -> hconv E fw p a b = hconv E fw None a b
}.
Record pool_blind_alpha {T F} (E : engine T F) : Prop := mkPBA {
  pba_pre : forall p a b, pool_ok p -> premul E p a b = premul E None a b;
  pba_un : forall p a, pool_ok p -> unpremul E p a = unpremul E None a
}.

Lemma try_ext {T A} (m : outcome A) (into : image T) k1 k2 :
  (forall a, k1 a = k2 a) -> try m into k1 = try m into k2.
Proof. intro H. destruct m; cbn; auto. Qed.
Lemma try_ext2 {T A} (m1 m2 : outcome A) (into : image T) k1 k2 :
  m1 = m2 -> (forall a, k1 a = k2 a) -> try m1 into k1 = try m2 into k2.
Proof. intros -> H. now apply try_ext. Qed.

Theorem generic_resize_pool {T F} N (E : engine T F) p store into :
  pool_blind E -> pool_ok p ->
  generic_resize N E p store into = generic_resize N E None store into.
Proof.
  intros [PV PH] HP. unfold generic_resize. apply try_ext. intros _.
  destruct (_ && _); [reflexivity|]. destruct (is_nearest E).
  { rewrite nearest_pool by assumption. reflexivity. }
  cbv zeta.
  repeat match goal with
  | |- (if ?b then _ else _) = _ => destruct b
  | |- try _ _ _ = try _ _ _ => apply try_ext2; [auto|intro]
  end; auto.
Qed.

Lemma premultiply_stage_pool {T F} N (E : engine T F) p r store into :
  pool_blind_alpha E -> pool_ok p ->
  premultiply_stage N E p r store into = premultiply_stage N E None r store into.
Proof.
  intros [A1 A2] HP. unfold premultiply_stage. destruct r; [|reflexivity].
  destruct (alpha_needed E store) as [[|]| |]; cbn [bind]; auto.
  destruct (from_slice _ _ _ _) as [ns| |]; cbn [bind]; auto. cbv zeta. rewrite A1 by assumption. reflexivity.
Qed.

Theorem generic_resize_with_alpha_pool {T F} N (E : engine T F) p r store into :
  pool_blind E -> pool_blind_alpha E -> pool_ok p ->
  generic_resize_with_alpha N E p r store into = generic_resize_with_alpha N E None r store into.
Proof.
  intros [PV PH] PA HP. unfold generic_resize_with_alpha. apply try_ext. intros _.
  destruct (_ && _); [reflexivity|]. destruct (is_nearest E).
  { rewrite nearest_pool by assumption. reflexivity. }
  unfold forward_resize_with_alpha, forward_resize_vertical_with_alpha, forward_resize_horizontal_with_alpha.
  cbv zeta. rewrite (premultiply_stage_pool N E p r store into PA HP).
  assert (U : forall has im, unpremultiply_stage E p r has im = unpremultiply_stage E None r has im).
  { intros. unfold unpremultiply_stage. destruct (r && has); auto. now rewrite (pba_un E PA p). }
  repeat match goal with
  | |- (if ?b then _ else _) = _ => destruct b
  | |- (let '(_, _) := ?x in _) = _ => destruct x
  | |- try _ _ _ = try _ _ _ => apply try_ext2; [auto|intro]
  end; auto.
Qed.
