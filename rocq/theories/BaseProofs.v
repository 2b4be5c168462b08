(** Lemmas about Base.v. *)
From Coq Require Import ZifyBool ZifyNat ZifyN Permutation.
From Verif Require Import Base.

(** ** option / list lookups *)

Lemma list_ext {A} (l1 l2 : list A) :
  (forall i, nth_error l1 i = nth_error l2 i) -> l1 = l2.
Proof.
  revert l2; induction l1 as [|a l1 IH]; intros [|b l2] H; auto.
  - specialize (H 0); discriminate.
  - specialize (H 0); discriminate.
  - assert (a = b) by (specialize (H 0); simpl in H; congruence); subst.
    f_equal. apply IH. intro i; exact (H (S i)).
Qed.

Lemma nth_error_Some_lt {A} (l : list A) i a : nth_error l i = Some a -> i < length l.
Proof. intro H; apply nth_error_Some; congruence. Qed.

Lemma nth_error_nth_lt {A} (l : list A) i d : i < length l -> nth_error l i = Some (nth i l d).
Proof. intro H; apply nth_error_nth'; exact H. Qed.

Lemma nth_error_None_ge {A} (l : list A) i : length l <= i -> nth_error l i = None.
Proof. intro H; apply nth_error_None; exact H. Qed.

Lemma nth_error_skipn {A} (l : list A) k i : nth_error (skipn k l) i = nth_error l (k + i).
Proof.
  revert l i; induction k as [|k IH]; intros [|a l] i; auto.
  - simpl. now destruct i.
  - simpl. apply IH.
Qed.

Lemma nth_error_firstn {A} (l : list A) k i :
  nth_error (firstn k l) i = if i <? k then nth_error l i else None.
Proof.
  revert l i; induction k as [|k IH]; intros [|a l] i.
  - simpl. now destruct i.
  - simpl. now destruct i.
  - simpl. destruct i; auto. now destruct (S i <? S k).
  - destruct i; [reflexivity|]. simpl. rewrite IH. reflexivity.
Qed.

Lemma nth_skipn {A} (l : list A) k i d : nth i (skipn k l) d = nth (k + i) l d.
Proof.
  revert l i; induction k as [|k IH]; intros [|a l] i; auto.
  - simpl; now destruct i.
  - simpl; apply IH.
Qed.

Lemma nth_firstn {A} (l : list A) k i d : i < k -> nth i (firstn k l) d = nth i l d.
Proof.
  revert l i; induction k as [|k IH]; intros [|a l] i H; try lia; auto.
  destruct i; auto. simpl; apply IH; lia.
Qed.

Lemma nth_error_map_seq {A} (f : nat -> A) s n i :
  nth_error (map f (seq s n)) i = if i <? n then Some (f (s + i)) else None.
Proof.
  revert s i; induction n as [|n IH]; intros s i.
  - simpl. now destruct i.
  - simpl. destruct i.
    + simpl. now rewrite Nat.add_0_r.
    + simpl. rewrite IH. destruct (i <? n) eqn:E.
      * replace (S i <? S n) with true by lia. f_equal. f_equal. lia.
      * replace (S i <? S n) with false by lia. reflexivity.
Qed.

Lemma nth_map_seq {A} (f : nat -> A) s n i d :
  i < n -> nth i (map f (seq s n)) d = f (s + i).
Proof.
  intro H. apply nth_error_nth. rewrite nth_error_map_seq.
  replace (i <? n) with true by lia. reflexivity.
Qed.

Lemma map_seq_ext {A} (f g : nat -> A) s n :
  (forall i, s <= i < s + n -> f i = g i) -> map f (seq s n) = map g (seq s n).
Proof. intro H. apply map_ext_in. intros a Ha. apply in_seq in Ha. apply H; lia. Qed.

Lemma list_as_map_nth {A} (l : list A) d : l = map (fun i => nth i l d) (seq 0 (length l)).
Proof.
  apply list_ext; intro i. rewrite nth_error_map_seq.
  destruct (i <? length l) eqn:E.
  - rewrite (nth_error_nth_lt l i d) by lia. reflexivity.
  - apply nth_error_None_ge; lia.
Qed.

Lemma nth_error_app_case {A} (l1 l2 : list A) i :
  nth_error (l1 ++ l2) i =
  if i <? length l1 then nth_error l1 i else nth_error l2 (i - length l1).
Proof.
  destruct (i <? length l1) eqn:E.
  - apply nth_error_app1; lia.
  - apply nth_error_app2; lia.
Qed.

Lemma nth_error_repeat_case {A} (a : A) n i :
  nth_error (repeat a n) i = if i <? n then Some a else None.
Proof.
  revert i; induction n as [|n IH]; intros [|i]; simpl; auto.
  rewrite IH. reflexivity.
Qed.

(** ** slices *)

Lemma slice_ok {A} (l : list A) a b :
  a <= b -> b <= length l -> slice l a b = Done (firstn (b - a) (skipn a l)).
Proof.
  intros H1 H2. unfold slice.
  replace ((a <=? b) && (b <=? length l)) with true by lia. reflexivity.
Qed.

Lemma slice_len {A} (l : list A) a b r :
  slice l a b = Done r -> length r = b - a /\ a <= b /\ b <= length l.
Proof.
  unfold slice. destruct ((a <=? b) && (b <=? length l)) eqn:E; [|discriminate].
  intro H; injection H as H; subst. rewrite firstn_length, skipn_length. lia.
Qed.

Lemma slice_from_ok {A} (l : list A) a :
  a <= length l -> slice_from l a = Done (skipn a l).
Proof. intro H. unfold slice_from. replace (a <=? length l) with true by lia. reflexivity. Qed.

Lemma idx_ok {A} (l : list A) i d : i < length l -> idx l i = Done (nth i l d).
Proof. intro H. unfold idx. rewrite (nth_error_nth_lt l i d H). reflexivity. Qed.

(** ** updates *)

Lemma upd_length {A} (l : list A) i v : length (upd l i v) = length l.
Proof.
  unfold upd. rewrite app_length, firstn_length.
  destruct (skipn i l) as [|a t] eqn:E.
  - apply (f_equal (@length A)) in E. rewrite skipn_length in E. simpl in *. lia.
  - apply (f_equal (@length A)) in E. rewrite skipn_length in E. simpl in *. lia.
Qed.

Lemma nth_error_upd {A} (l : list A) i v k :
  nth_error (upd l i v) k =
  if k =? i then (if i <? length l then Some v else None) else nth_error l k.
Proof.
  unfold upd. rewrite nth_error_app_case, firstn_length.
  destruct (skipn i l) as [|a t] eqn:E.
  - assert (L : length l <= i).
    { apply (f_equal (@length A)) in E. rewrite skipn_length in E. simpl in E. lia. }
    replace (i <? length l) with false by lia.
    replace (Nat.min i (length l)) with (length l) by lia.
    destruct (k <? length l) eqn:Ek.
    + rewrite nth_error_firstn. replace (k <? i) with true by lia.
      replace (k =? i) with false by lia. reflexivity.
    + rewrite (nth_error_None_ge []) by (simpl; lia).
      rewrite (nth_error_None_ge l) by lia. now destruct (k =? i).
  - assert (L : i < length l).
    { apply (f_equal (@length A)) in E. rewrite skipn_length in E. simpl in E. lia. }
    replace (i <? length l) with true by lia.
    replace (Nat.min i (length l)) with i by lia.
    destruct (k <? i) eqn:Ek.
    + rewrite nth_error_firstn. rewrite Ek. replace (k =? i) with false by lia. reflexivity.
    + destruct (k =? i) eqn:Ei.
      * replace (k - i) with 0 by lia. reflexivity.
      * replace (k - i) with (S (k - i - 1)) by lia. simpl.
        pose proof (nth_error_skipn l i (S (k - i - 1))) as K.
        rewrite E in K. simpl in K. rewrite K. f_equal. lia.
Qed.

Lemma splice_length {A} (l : list A) a v :
  a + length v <= length l -> length (splice l a v) = length l.
Proof.
  intro H. unfold splice. rewrite !app_length, firstn_length, skipn_length. lia.
Qed.

Lemma nth_error_splice {A} (l : list A) a v k :
  a + length v <= length l ->
  nth_error (splice l a v) k =
  if (a <=? k) && (k <? a + length v) then nth_error v (k - a) else nth_error l k.
Proof.
  intro H. unfold splice. rewrite nth_error_app_case, firstn_length.
  replace (Nat.min a (length l)) with a by lia.
  destruct (k <? a) eqn:E1.
  - rewrite nth_error_firstn, E1. replace (a <=? k) with false by lia. reflexivity.
  - rewrite nth_error_app_case. destruct (k - a <? length v) eqn:E2.
    + replace ((a <=? k) && (k <? a + length v)) with true by lia. reflexivity.
    + replace ((a <=? k) && (k <? a + length v)) with false by lia.
      rewrite nth_error_skipn. f_equal. lia.
Qed.

(** ** chunks *)

Lemma chunks_exact_length {A} k (l : list A) : length (chunks_exact k l) = length l / k.
Proof. unfold chunks_exact. now rewrite map_length, seq_length. Qed.

Lemma nth_error_chunks {A} k (l : list A) i :
  nth_error (chunks_exact k l) i = if i <? length l / k then Some (chunk k l i) else None.
Proof. unfold chunks_exact. rewrite nth_error_map_seq. reflexivity. Qed.

Lemma chunk_length {A} k (l : list A) i :
  i < length l / k -> length (chunk k l i) = k.
Proof.
  intro H. unfold chunk. rewrite firstn_length, skipn_length.
  destruct k as [|k]; [simpl in H; lia|].
  assert (S k * (i + 1) <= length l).
  { pose proof (Nat.div_mod (length l) (S k)). nia. }
  lia.
Qed.

Lemma nth_error_chunk {A} k (l : list A) i j :
  nth_error (chunk k l i) j = if j <? k then nth_error l (i * k + j) else None.
Proof. unfold chunk. rewrite nth_error_firstn, nth_error_skipn. reflexivity. Qed.

Lemma nth_chunk {A} k (l : list A) i j d : j < k -> nth j (chunk k l i) d = nth (i * k + j) l d.
Proof. intro H. unfold chunk. rewrite nth_firstn by lia. apply nth_skipn. Qed.

Lemma chunks_exact_Forall_len {A} k (l : list A) :
  Forall (fun c => length c = k) (chunks_exact k l).
Proof.
  unfold chunks_exact. apply Forall_forall. intros c Hc.
  apply in_map_iff in Hc. destruct Hc as (i & <- & Hi). apply in_seq in Hi.
  apply chunk_length; lia.
Qed.

Lemma nth_error_concat_uniform {A} k (L : list (list A)) i :
  0 < k -> Forall (fun c => length c = k) L ->
  nth_error (concat L) i =
  match nth_error L (i / k) with Some c => nth_error c (i mod k) | None => None end.
Proof.
  intros Hk H. revert i. induction H as [|c L Hc HL IH]; intro i.
  - simpl. rewrite (nth_error_None_ge (@nil (list A))) by (simpl; apply Nat.le_0_l).
    apply nth_error_None_ge; simpl; lia.
  - simpl. rewrite nth_error_app_case, Hc. destruct (i <? k) eqn:E.
    + rewrite Nat.div_small by lia. rewrite Nat.mod_small by lia. reflexivity.
    + rewrite IH. assert (E1 : i / k = S ((i - k) / k)).
      { replace i with ((i - k) + 1 * k) at 1 by lia. rewrite Nat.div_add by lia. lia. }
      assert (E2 : i mod k = (i - k) mod k).
      { replace i with ((i - k) + 1 * k) at 1 by lia. apply Nat.mod_add; lia. }
      rewrite E1, E2. reflexivity.
Qed.

Lemma concat_uniform_length {A} k (L : list (list A)) :
  Forall (fun c => length c = k) L -> length (concat L) = length L * k.
Proof.
  induction 1 as [|c L Hc HL IH]; auto. simpl. rewrite app_length, IH, Hc. lia.
Qed.

Lemma chunks_unchunk {A} k (l : list A) :
  0 < k -> unchunk (chunks_exact k l) (chunks_rem k l) = l.
Proof.
  intro Hk. unfold unchunk. apply list_ext; intro i.
  rewrite nth_error_app_case.
  rewrite (concat_uniform_length k) by apply chunks_exact_Forall_len.
  rewrite chunks_exact_length.
  destruct (i <? length l / k * k) eqn:E.
  - rewrite (nth_error_concat_uniform k) by (auto using chunks_exact_Forall_len).
    rewrite nth_error_chunks.
    assert (i / k < length l / k).
    { apply Nat.div_lt_upper_bound; lia. }
    replace (i / k <? length l / k) with true by lia.
    rewrite nth_error_chunk. pose proof (Nat.mod_upper_bound i k).
    replace (i mod k <? k) with true by lia.
    f_equal. pose proof (Nat.div_mod i k). lia.
  - unfold chunks_rem. rewrite nth_error_skipn. f_equal. lia.
Qed.

Lemma chunks_exact_o_ok {A} k (l : list A) : 0 < k -> chunks_exact_o k l = Done (chunks_exact k l).
Proof. intro H. unfold chunks_exact_o. replace (k =? 0) with false by lia. reflexivity. Qed.

Lemma chunks_rem_exact {A} k (l : list A) n :
  0 < k -> length l = n * k -> chunks_rem k l = [].
Proof.
  intros Hk H. unfold chunks_rem. apply skipn_all2.
  rewrite H. rewrite Nat.div_mul by lia. lia.
Qed.

(** ** zip_mut *)

Lemma zip_mut_spec {A B} (f : A -> B -> outcome A) (h : A -> B -> A) ds ss :
  (forall i d s, nth_error ds i = Some d -> nth_error ss i = Some s -> f d s = Done (h d s)) ->
  zip_mut f ds ss =
  Done (map (fun p => h (fst p) (snd p)) (combine ds ss) ++ skipn (length ss) ds).
Proof.
  revert ss; induction ds as [|d ds IH]; intros ss H.
  - destruct ss; reflexivity.
  - destruct ss as [|s ss].
    + reflexivity.
    + cbn [zip_mut]. rewrite (H 0 d s) by reflexivity. cbn [bind].
      rewrite (IH ss) by (intros i d' s' H1 H2; apply (H (S i)); auto).
      reflexivity.
Qed.

Lemma zip_mut_length {A B} (f : A -> B -> outcome A) ds ss r :
  zip_mut f ds ss = Done r -> length r = length ds.
Proof.
  revert ss r; induction ds as [|d ds IH]; intros ss r; destruct ss as [|s ss]; cbn [zip_mut];
    intro H; try (injection H as <-; reflexivity).
  destruct (f d s) as [d'| |]; try discriminate. cbn [bind] in H.
  destruct (zip_mut f ds ss) as [r'| |] eqn:E; try discriminate. cbn [bind] in H.
  injection H as <-. simpl. f_equal. eapply IH; eauto.
Qed.

Lemma nth_error_combine {A B} (l1 : list A) (l2 : list B) i :
  nth_error (combine l1 l2) i =
  match nth_error l1 i, nth_error l2 i with Some a, Some b => Some (a, b) | _, _ => None end.
Proof.
  revert l2 i; induction l1 as [|a l1 IH]; intros [|b l2] [|i]; simpl; auto.
  - now destruct (nth_error l1 i).
Qed.

Lemma nth_error_zip_result {A B} (h : A -> B -> A) (ds : list A) (ss : list B) i :
  nth_error (map (fun p => h (fst p) (snd p)) (combine ds ss) ++ skipn (length ss) ds) i =
  match nth_error ds i with
  | None => None
  | Some d => match nth_error ss i with Some s => Some (h d s) | None => Some d end
  end.
Proof.
  rewrite nth_error_app_case, map_length, combine_length.
  destruct (i <? Nat.min (length ds) (length ss)) eqn:E.
  - rewrite nth_error_map, nth_error_combine.
    destruct (nth_error ds i) as [d|] eqn:E1; [|reflexivity].
    destruct (nth_error ss i) as [s|] eqn:E2; [reflexivity|].
    apply nth_error_None in E2. lia.
  - rewrite nth_error_skipn.
    destruct (Nat.leb_spec (length ds) (length ss)) as [L|L].
    + rewrite (nth_error_None_ge ds (length ss + _)) by lia.
      rewrite (nth_error_None_ge ds i) by lia. reflexivity.
    + replace (length ss + (i - Nat.min (length ds) (length ss))) with i by lia.
      destruct (nth_error ds i) eqn:E1; [|reflexivity].
      rewrite (nth_error_None_ge ss i) by lia. reflexivity.
Qed.

(** ** scheduled loops *)

Lemma zip_mut_Done_inv {A B} (f : A -> B -> outcome A) ds ss r :
  zip_mut f ds ss = Done r ->
  forall i, nth_error r i =
    match nth_error ds i with
    | None => None
    | Some d => match nth_error ss i with
                | Some s => match f d s with Done d' => Some d' | _ => None end
                | None => Some d
                end
    end.
Proof.
  revert ss r; induction ds as [|d ds IH]; intros ss r H i; destruct ss as [|s ss].
  1,2: injection H as <-; now destruct i.
  - injection H as <-. destruct (nth_error (d :: ds) i) eqn:E; [|reflexivity]. now destruct i.
  - cbn [zip_mut] in H. destruct (f d s) as [d'| |] eqn:E; try discriminate. cbn [bind] in H.
    destruct (zip_mut f ds ss) as [r'| |] eqn:E'; try discriminate. injection H as <-.
    destruct i; simpl; [now rewrite E|]. eapply IH; eauto.
Qed.

Lemma zip_mut_Done_each {A B} (f : A -> B -> outcome A) ds ss r :
  zip_mut f ds ss = Done r ->
  forall i d s, nth_error ds i = Some d -> nth_error ss i = Some s -> exists d', f d s = Done d'.
Proof.
  revert ss r; induction ds as [|d ds IH]; intros ss r H i d0 s0 H1 H2; destruct ss as [|s ss].
  - destruct i; discriminate.
  - destruct i; discriminate.
  - destruct i; discriminate.
  - cbn [zip_mut] in H. destruct (f d s) as [d'| |] eqn:E; try discriminate. cbn [bind] in H.
    destruct (zip_mut f ds ss) as [r'| |] eqn:E'; try discriminate. injection H as <-.
    destruct i; simpl in *; [injection H1 as <-; injection H2 as <-; eauto|]. eapply IH; eauto.
Qed.

(** Running every task exactly once, in any order, gives the sequential result. *)
Lemma zip_sched_perm {A B} (f : A -> B -> outcome A) order ds ss r :
  Permutation order (seq 0 (Nat.min (length ds) (length ss))) ->
  zip_mut f ds ss = Done r ->
  zip_sched order f ds ss = Done r.
Proof.
  intros HP HZ. unfold zip_sched.
  assert (Each := zip_mut_Done_each f ds ss r HZ).
  assert (Res := zip_mut_Done_inv f ds ss r HZ).
  assert (ND : NoDup order).
  { eapply Permutation_NoDup; [apply Permutation_sym; exact HP|]. apply seq_NoDup. }
  assert (IN : forall i, In i order <-> i < Nat.min (length ds) (length ss)).
  { intro i. split; intro Hi.
    - apply (Permutation_in _ HP) in Hi. apply in_seq in Hi. lia.
    - apply (Permutation_in _ (Permutation_sym HP)). apply in_seq. lia. }
  (* invariant: run the remaining tasks from a state in which exactly the others are done *)
  assert (G : forall todo cur, NoDup todo ->
     (forall i, In i todo -> i < Nat.min (length ds) (length ss)) ->
     length cur = length ds ->
     (forall i, In i todo -> nth_error cur i = nth_error ds i) ->
     (forall i, ~ In i todo -> nth_error cur i = nth_error r i) ->
     foldM (run_task f ss) todo cur = Done r).
  { induction todo as [|t todo IH]; intros cur HND HB HL HT HD.
    - cbn [foldM]. f_equal. apply list_ext. intro i. apply HD. intros [].
    - cbn [foldM]. inversion HND as [|x l Hnt HND']; subst.
      assert (Bt := HB t (or_introl eq_refl)).
      destruct (nth_error ds t) as [d|] eqn:Ed; [|apply nth_error_None in Ed; lia].
      destruct (nth_error ss t) as [s|] eqn:Es; [|apply nth_error_None in Es; lia].
      unfold run_task at 1. rewrite (HT t) by (left; reflexivity). rewrite Ed, Es.
      destruct (Each t d s Ed Es) as [d' Hd']. rewrite Hd'. cbn [bind].
      apply IH; auto.
      + intros i Hi. apply HB; right; exact Hi.
      + rewrite upd_length. exact HL.
      + intros i Hi. rewrite nth_error_upd.
        replace (i =? t) with false.
        2:{ symmetry. apply Nat.eqb_neq. intro; subst. contradiction. }
        apply HT; right; exact Hi.
      + intros i Hi. rewrite nth_error_upd. destruct (i =? t) eqn:Eit.
        * apply Nat.eqb_eq in Eit. subst i. replace (t <? length cur) with true by lia.
          rewrite Res, Ed, Es, Hd'. reflexivity.
        * apply HD. intros [->|Hin]; [rewrite Nat.eqb_refl in Eit; discriminate|contradiction]. }
  apply G; auto.
  - intros i Hi. apply IN; exact Hi.
  - intros i Hi. rewrite Res.
    destruct (nth_error ds i) eqn:E1; [|reflexivity].
    destruct (nth_error ss i) eqn:E2; [|reflexivity].
    exfalso. apply Hi. apply IN.
    apply nth_error_Some_lt in E1. apply nth_error_Some_lt in E2. lia.
Qed.

(** A pool's schedules run every task exactly once. *)
Definition pool_ok (p : pool_t) : Prop :=
  match p with
  | None => True
  | Some sched => forall label n, Permutation (sched label n) (seq 0 n)
  end.

Lemma for_each_seq {A B} p label (f : A -> B -> outcome A) ds ss r :
  pool_ok p -> zip_mut f ds ss = Done r -> for_each p label f ds ss = Done r.
Proof.
  intros HP HZ. destruct p as [sched|]; [|exact HZ].
  unfold for_each. apply zip_sched_perm; auto.
Qed.

(** ** machine words *)

Lemma wmul_small a b : (N.of_nat a * N.of_nat b < usize_mod)%N -> wmul a b = a * b.
Proof. intro H. unfold wmul. rewrite N.mod_small by exact H. lia. Qed.

Lemma wrap32_range z : (- 2 ^ 31 <= wrap32 z < 2 ^ 31)%Z.
Proof. unfold wrap32. pose proof (Z.mod_pos_bound (z + 2 ^ 31) (2 ^ 32)). lia. Qed.

Lemma wrap32_small z : (- 2 ^ 31 <= z < 2 ^ 31)%Z -> wrap32 z = z.
Proof. intro H. unfold wrap32. rewrite Z.mod_small; lia. Qed.

Lemma wrap32_cong a : exists k, wrap32 a = (a + k * 2 ^ 32)%Z.
Proof.
  unfold wrap32. exists (- ((a + 2 ^ 31) / 2 ^ 32))%Z.
  pose proof (Z.div_mod (a + 2 ^ 31) (2 ^ 32)). lia.
Qed.

Lemma wrap32_shift a k : wrap32 (a + k * 2 ^ 32) = wrap32 a.
Proof.
  unfold wrap32. replace (a + k * 2 ^ 32 + 2 ^ 31)%Z with (a + 2 ^ 31 + k * 2 ^ 32)%Z by ring.
  rewrite Z.mod_add by lia. reflexivity.
Qed.

Lemma wrap32_idem a : wrap32 (wrap32 a) = wrap32 a.
Proof. apply wrap32_small, wrap32_range. Qed.

Lemma wrap32_add_l a b : wrap32 (wrap32 a + b) = wrap32 (a + b).
Proof.
  destruct (wrap32_cong a) as [k ->].
  replace (a + k * 2 ^ 32 + b)%Z with (a + b + k * 2 ^ 32)%Z by ring. apply wrap32_shift.
Qed.

Lemma wrap32_add_r a b : wrap32 (a + wrap32 b) = wrap32 (a + b).
Proof. rewrite Z.add_comm, wrap32_add_l. f_equal; ring. Qed.

Lemma add32_wrap a b : add32 (wrap32 a) (wrap32 b) = wrap32 (a + b).
Proof. unfold add32. now rewrite wrap32_add_l, wrap32_add_r. Qed.

Lemma wrap32_mul_l a b : wrap32 (wrap32 a * b) = wrap32 (a * b).
Proof.
  destruct (wrap32_cong a) as [k ->].
  replace ((a + k * 2 ^ 32) * b)%Z with (a * b + (k * b) * 2 ^ 32)%Z by ring. apply wrap32_shift.
Qed.
