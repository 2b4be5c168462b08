(** Closed forms of the portable floating point kernels of FloatConv.v. *)
From Coq Require Import ZifyBool ZifyNat.
From Verif Require Import Base BaseProofs ImageStore ColorGroup FixedPoint Dispatch Spec SpecFloat FloatConv
  KernelProofs Kernel4Proofs ColumnProofs DispatchProofs.

Section FloatProofs.
Context {T J : Type} (zero : J) (mul : J -> J -> J) (mlaf : J -> J -> J -> J)
        (as_ : T -> J) (mixed : J -> T) (d0 : T).

Notation wsum := (weighted zero mul mlaf).
Notation accf := (accumulate_from mlaf).

Lemma accf_S from n x w a : accf from (S n) x w a = accf (S from) n x w (mlaf a (x from) (w from)).
Proof. reflexivity. Qed.

Lemma accf_shift from n x w a :
  accf (S from) n x w a = accf from n (fun k => x (S k)) (fun k => w (S k)) a.
Proof.
  revert from a; induction n as [|n IH]; intros; [reflexivity|].
  rewrite !accf_S. apply IH.
Qed.

Lemma accf_ext from n x w x' w' a :
  (forall k, from <= k < from + n -> x k = x' k /\ w k = w' k) ->
  accf from n x w a = accf from n x' w' a.
Proof.
  revert from a; induction n as [|n IH]; intros from a E; [reflexivity|].
  rewrite !accf_S. destruct (E from ltac:(lia)) as [-> ->]. apply IH. intros k Hk. apply E. lia.
Qed.

Lemma weighted_ext n x w x' w' :
  (forall k, k < n -> x k = x' k /\ w k = w' k) -> wsum n x w = wsum n x' w'.
Proof.
  intro E. unfold weighted. destruct (starts_with_product n) eqn:Sp.
  - assert (0 < n) by (unfold starts_with_product in Sp; lia).
    destruct (E 0 ltac:(lia)) as [-> ->]. apply accf_ext. intros k Hk. apply E. lia.
  - apply accf_ext. intros k Hk. apply E. lia.
Qed.

(** ** lanes *)
Definition fholds (cn : nat) (g : cg J) (A : nat -> J) : Prop := forall c, c < cn -> lane c g = A c.

Lemma fload_ok cn (s : list T) off :
  cn_ok cn -> off + cn <= length s ->
  yields (load_cg as_ zero cn s off) (fun g => fholds cn g (fun c => as_ (nth (off + c) s d0))).
Proof.
  intros H L. unfold fholds. cases_cn cn H; cbn [load_cg];
    repeat (erewrite (idx_ok _ _ d0) by lia; cbn [bind]);
    (eexists; split; [reflexivity|]; intros c Hc; lanes c Hc; rewrite ?Nat.add_0_r; reflexivity).
Qed.

Lemma fmul_ok cn (g : cg J) A k :
  cn_ok cn -> fholds cn g A -> yields (cg_mul mul cn g k) (fun g' => fholds cn g' (fun c => mul (A c) k)).
Proof.
  intros H HA. unfold fholds in *. cases_cn cn H; cbn [cg_mul]; (eexists; split; [reflexivity|]);
    intros c Hc; pose proof (HA c Hc) as E; lanes c Hc; cbn in E; now rewrite E.
Qed.

Lemma fma_ok cn (g a : cg J) A B k :
  cn_ok cn -> fholds cn g A -> fholds cn a B ->
  yields (cg_mul_add mlaf cn g a k) (fun g' => fholds cn g' (fun c => mlaf (A c) (B c) k)).
Proof.
  intros H HA HB. unfold fholds, cg_mul_add in *. cases_cn cn H; cbn [cg_lanes2]; (eexists; split; [reflexivity|]);
    intros c Hc; pose proof (HA c Hc) as E; pose proof (HB c Hc) as E2; lanes c Hc; cbn in E, E2; now rewrite E, E2.
Qed.

Lemma fdup_ok cn v : fholds cn (cg_dup v) (fun _ => v).
Proof. intros [|[|[|c]]] _; reflexivity. Qed.

Lemma fholds_ext cn g A B : (forall c, c < cn -> A c = B c) -> fholds cn g A -> fholds cn g B.
Proof. intros E H c Hc. rewrite (H c Hc). auto. Qed.

Lemma fchain_ok cn p : cn_ok cn -> forall ws i acc A (w : nat -> J),
  fholds cn acc A -> cn * (i + length ws) <= length p ->
  (forall k, k < length ws -> nth_error ws k = Some (w (i + k))) ->
  yields (fchain zero mlaf as_ cn p i acc ws)
    (fun g => fholds cn g (fun c => accf i (length ws) (fun k => as_ (nth (cn * k + c) p d0)) w (A c))).
Proof.
  intros H ws; induction ws as [|w0 ws IH]; intros i acc A w HA L E.
  - exists acc. split; [reflexivity|]. exact HA.
  - cbn [fchain]. cbn [length] in L. eapply yields_bind; [apply fload_ok; auto; nia|]. intros g Hg; cbv beta in Hg.
    eapply yields_bind; [eapply fma_ok; eassumption|]. intros acc' Ha.
    eapply yields_weaken.
    { eapply (IH (S i) acc' _ w); [exact Ha|nia|].
      intros k Hk. specialize (E (S k) ltac:(cbn; lia)). cbn in E. rewrite E. f_equal. f_equal. lia. }
    intros g' Hg'. eapply fholds_ext; [|exact Hg']. intros c Hc. cbn [length].
    rewrite accf_S. cbv beta. specialize (E 0 ltac:(cbn; lia)). cbn in E. injection E as ->.
    now rewrite Nat.add_0_r.
Qed.

Lemma fixed_sum n cn src px (ws : list J) (dJ : J) :
  cn_ok cn -> starts_with_product n = true -> px + n * cn <= length src -> n <= length ws ->
  yields (ftaps_fixed zero mul mlaf as_ n cn src px ws)
    (fun g => fholds cn g (fun c => wsum n (fun k => as_ (nth (px + k * cn + c) src d0)) (fun k => nth k ws dJ))).
Proof.
  intros H Sp L Lw. assert (Hn : 0 < n) by (unfold starts_with_product in Sp; lia).
  unfold ftaps_fixed. rewrite !slice_ok by lia. cbn [bind].
  rewrite Nat.sub_0_r. cbn [skipn].
  replace (px + n * cn - px) with (n * cn) by lia.
  destruct ws as [|w0 ws]; [cbn in Lw; lia|]. destruct n as [|n]; [lia|]. cbn [firstn].
  assert (Lp : length (firstn (S n * cn) (skipn px src)) = S n * cn) by (rewrite firstn_length, skipn_length; lia).
  eapply yields_bind; [apply fload_ok; auto; nia|]. intros g0 G0; cbv beta in G0.
  eapply yields_bind; [eapply fmul_ok; eassumption|]. intros t0 T0; cbv beta in T0.
  cbn [length] in Lw.
  assert (Lf : length (firstn n ws) = n) by (rewrite firstn_length; lia).
  eapply yields_weaken.
  { eapply (fchain_ok cn _ H (firstn n ws) 1 t0 _ (fun k => nth k (w0 :: ws) dJ) T0).
    - rewrite Lf, Lp. lia.
    - rewrite Lf. intros k Hk. rewrite nth_error_firstn. replace (k <? n) with true by lia.
      cbn. apply nth_error_nth_lt. lia. }
  intros g Hg. eapply fholds_ext; [|exact Hg]. intros c Hc. rewrite Lf.
  unfold weighted. rewrite Sp. replace (S n - 1) with n by lia.
  assert (X : forall k, k <= n -> nth (cn * k + c) (firstn (S n * cn) (skipn px src)) d0 = nth (px + k * cn + c) src d0).
  { intros k Hk. rewrite nth_firstn by nia. rewrite nth_skipn. f_equal. lia. }
  cbn [nth]. rewrite <- (X 0) by lia. rewrite Nat.mul_0_r, !Nat.add_0_l.
  apply accf_ext. intros k Hk. rewrite X by lia. split; reflexivity.
Qed.

Lemma ffold_ok cn : cn_ok cn -> forall (l : list (J * list T)) sums A (dJ : J),
  (forall w p, In (w, p) l -> length p = cn) -> fholds cn sums A ->
  yields (foldM (ftap_step zero mlaf as_ cn) l sums)
   (fun g => fholds cn g (fun c => accf 0 (length l) (fun k => as_ (nth c (snd (nth k l (dJ, []))) d0))
                                     (fun k => fst (nth k l (dJ, []))) (A c))).
Proof.
  intros H l; induction l as [|[w p] l IH]; intros sums A dJ Hl HA.
  - exists sums. split; [reflexivity|exact HA].
  - cbn [foldM].
    assert (S1 : yields (ftap_step zero mlaf as_ cn sums (w, p)) (fun g => fholds cn g (fun c => mlaf (A c) (as_ (nth c p d0)) w))).
    { unfold ftap_step. eapply yields_bind; [apply fload_ok; auto; rewrite (Hl w p) by (left; auto); lia|].
      intros g Hg; cbv beta in Hg. eapply fma_ok; eassumption. }
    eapply yields_bind; [exact S1|]. intros g Hg; cbv beta in Hg.
    eapply yields_weaken; [eapply (IH g _ dJ); [|exact Hg]; intros; eapply Hl; right; eauto|].
    intros g' Hg'. eapply fholds_ext; [|exact Hg']. intros c Hc.
    cbn [length]. rewrite accf_S, accf_shift. reflexivity.
Qed.

Lemma slice_chunks_gen (cn : nat) (src : list T) px size :
  0 < cn -> px + size * cn <= length src ->
  let p := firstn (size * cn) (skipn px src) in
  length (chunks_exact cn p) = size /\
  (forall k, k < size -> nth k (chunks_exact cn p) [] = chunk cn p k) /\
  (forall k c, k < size -> c < cn -> nth c (chunk cn p k) d0 = nth (px + k * cn + c) src d0) /\
  (forall k, k < size -> length (chunk cn p k) = cn).
Proof.
  intros Hcn L p. assert (Lp : length p = size * cn) by (unfold p; rewrite firstn_length, skipn_length; lia).
  assert (Lc : length (chunks_exact cn p) = size) by (rewrite chunks_exact_length, Lp; now apply div_mul_exact).
  repeat split; auto.
  - intros k Hk. unfold chunks_exact. rewrite Lp, div_mul_exact by auto. rewrite nth_map_seq by auto. reflexivity.
  - intros k c Hk Hc. rewrite nth_chunk by auto. unfold p. rewrite nth_firstn by nia. rewrite nth_skipn. f_equal. lia.
  - intros k Hk. apply chunk_length. rewrite Lp, div_mul_exact by auto. auto.
Qed.

Lemma general_sum cn src px size ws (dJ : J) :
  cn_ok cn -> starts_with_product size = false -> px + size * cn <= length src -> size <= length ws ->
  yields (ftaps_general zero mlaf as_ cn src px size ws)
    (fun g => fholds cn g (fun c => wsum size (fun k => as_ (nth (px + k * cn + c) src d0)) (fun k => nth k ws dJ))).
Proof.
  intros H Sp L Lw. unfold ftaps_general. assert (H0 : 0 < cn) by (unfold cn_ok in H; lia).
  rewrite slice_ok by lia. cbn [bind]. rewrite chunks_exact_o_ok by auto. cbn [bind].
  replace (px + size * cn - px) with (size * cn) by lia.
  destruct (slice_chunks_gen cn src px size H0 L) as (C1 & C2 & C3 & C4).
  set (p := firstn (size * cn) (skipn px src)) in *.
  set (l := firstn size (combine ws (chunks_exact cn p))).
  assert (Ll : length l = size) by (unfold l; rewrite firstn_length, combine_length, C1; lia).
  assert (Nl : forall k, k < size -> nth k l (dJ, []) = (nth k ws dJ, chunk cn p k)).
  { intros k Hk. unfold l. rewrite nth_firstn by auto. rewrite nth_combine_lt by (rewrite ?C1; lia).
    f_equal. now apply C2. }
  eapply yields_weaken.
  { eapply (ffold_ok cn H l _ _ dJ); [|apply fdup_ok].
    intros w q Hin. apply (In_nth _ _ (dJ, [])) in Hin. destruct Hin as (k & Hk & E). rewrite Ll in Hk.
    rewrite Nl in E by auto. injection E as _ <-. auto. }
  intros g Hg. eapply fholds_ext; [|exact Hg]. intros c Hc. rewrite Ll. unfold weighted. rewrite Sp.
  apply accf_ext. intros k Hk. rewrite Nl by lia. cbn [fst snd]. rewrite C3 by lia. split; reflexivity.
Qed.

Lemma frow_pixel_ok cn src b ws (dJ : J) :
  cn_ok cn -> (bstart b + bsize b) * cn <= length src -> bsize b <= length ws ->
  yields (frow_pixel zero mul mlaf as_ cn src b ws)
    (fun g => fholds cn g (fun c => wsum (bsize b) (fun k => as_ (nth ((bstart b + k) * cn + c) src d0))
                                      (fun k => nth k ws dJ))).
Proof.
  intros H L Lw. unfold frow_pixel.
  assert (Fin : forall n m, n = bsize b ->
     yields m (fun g => fholds cn g (fun c => wsum n (fun k => as_ (nth (bstart b * cn + k * cn + c) src d0)) (fun k => nth k ws dJ))) ->
     yields m (fun g => fholds cn g (fun c => wsum (bsize b) (fun k => as_ (nth ((bstart b + k) * cn + c) src d0)) (fun k => nth k ws dJ)))).
  { intros n m -> Hm. eapply yields_weaken; [exact Hm|]. intros g Hg. eapply fholds_ext; [|exact Hg].
    intros c Hc. apply weighted_ext. intros k Hk. split; [|reflexivity]. f_equal. f_equal. lia. }
  remember (bsize b) as sz eqn:E.
  destruct sz as [|[|[|[|[|[|[|sz]]]]]]];
    (apply (Fin _ _ eq_refl);
     first [ apply fixed_sum; auto; nia | apply general_sum; auto; nia ]).
Qed.

(** Value of sample (pixel x, channel c) of a horizontally resampled row. *)
Definition fhval (cn : nat) (fw : fweights J) (dJ : J) (s : nat -> T) (x c : nat) : T :=
  let b := nth x (bounds fw) (mkBound 0 0) in
  mixed (wsum (bsize b) (fun k => as_ (s ((bstart b + k) * cn + c)))
              (fun k => nth (x * aligned_size fw + k) (weights fw) dJ)).

Lemma fnth_error_bw (fw : fweights J) i o x :
  wf_fw fw i o ->
  nth_error (combine (bounds fw) (chunks_exact (aligned_size fw) (weights fw))) x =
  if x <? o then Some (nth x (bounds fw) (mkBound 0 0), chunk (aligned_size fw) (weights fw) x) else None.
Proof.
  intro W. rewrite nth_error_combine, nth_error_chunks.
  rewrite (wf_wlen _ _ _ W), div_mul_exact by apply (wf_pos _ _ _ W).
  destruct (x <? o) eqn:E.
  - rewrite (nth_error_nth_lt _ _ (mkBound 0 0)) by (rewrite (wf_blen _ _ _ W); lia). reflexivity.
  - rewrite nth_error_None_ge by (rewrite (wf_blen _ _ _ W); lia). reflexivity.
Qed.
Lemma fbw_length (fw : fweights J) i o :
  wf_fw fw i o -> length (combine (bounds fw) (chunks_exact (aligned_size fw) (weights fw))) = o.
Proof.
  intro W. rewrite combine_length, chunks_exact_length, (wf_wlen _ _ _ W), (wf_blen _ _ _ W).
  rewrite div_mul_exact by apply (wf_pos _ _ _ W). lia.
Qed.
Lemma fchunk_w_length (fw : fweights J) i o x :
  wf_fw fw i o -> x < o -> length (chunk (aligned_size fw) (weights fw) x) = aligned_size fw.
Proof. intros W Hx. apply chunk_length. rewrite (wf_wlen _ _ _ W), div_mul_exact by apply (wf_pos _ _ _ W). auto. Qed.

Lemma fstore_ok cn g A (d : list T) :
  cn_ok cn -> length d = cn -> fholds cn g A ->
  fstore zero mixed cn g d = Done (map (fun c => mixed (A c)) (seq 0 cn)).
Proof.
  intros H L HA. unfold fstore. rewrite store_cg_ok by auto. f_equal. apply map_seq_ext. intros c Hc.
  rewrite cg_narrow_lane by (unfold cn_ok in H; lia). rewrite HA by lia. reflexivity.
Qed.

Theorem frow_handler_closed cn fw (dJ : J) insz outsz src dst :
  cn_ok cn -> wf_fw fw insz outsz ->
  insz * cn <= length src -> outsz * cn <= length dst ->
  frow_handler zero mul mlaf as_ mixed cn src dst fw =
  Done (rowmap (outsz * cn) (fun j => fhval cn fw dJ (fun i => nth i src d0) (j / cn) (j mod cn)) dst).
Proof.
  intros H W Ls Ld. assert (H0 : 0 < cn) by (unfold cn_ok in H; lia).
  unfold frow_handler. rewrite chunks_exact_o_ok by auto. cbn [bind].
  rewrite chunks_exact_o_ok by apply (wf_pos _ _ _ W). cbn [bind].
  assert (Lq : outsz <= length dst / cn) by (apply Nat.div_le_lower_bound; lia).
  rewrite (zip_mut_idx _ (fun x => map (fun c => fhval cn fw dJ (fun i => nth i src d0) x c) (seq 0 cn))).
  - cbn [bind]. rewrite (fbw_length fw insz outsz W). unfold unchunk.
    rewrite concat_app, <- app_assoc, concat_map_rows by auto.
    rewrite concat_app_rem_chunks by auto. reflexivity.
  - intros x d [b w] Hd Hbw. rewrite (fnth_error_bw fw insz outsz x W) in Hbw.
    destruct (x <? outsz) eqn:Ex; [|discriminate]. injection Hbw as <- <-. cbn [fst snd].
    pose proof (wf_nth fw insz outsz x W ltac:(lia)) as Wx. cbv zeta in Wx.
    set (b := nth x (bounds fw) (mkBound 0 0)) in *.
    assert (Lcw := fchunk_w_length fw insz outsz x W ltac:(lia)).
    destruct (frow_pixel_ok cn src b (chunk (aligned_size fw) (weights fw) x) dJ H ltac:(nia) ltac:(lia)) as (g & -> & Hg).
    cbn [bind]. rewrite nth_error_chunks in Hd. destruct (x <? length dst / cn) eqn:Ed; [|discriminate].
    injection Hd as <-.
    assert (Lx : length (chunk cn dst x) = cn) by (apply chunk_length; lia).
    rewrite (fstore_ok cn g _ _ H Lx Hg). f_equal. apply map_seq_ext. intros c Hc.
    unfold fhval. fold b. f_equal. apply weighted_ext. intros k Hk. split; [reflexivity|].
    rewrite nth_chunk by lia. reflexivity.
  - rewrite (fbw_length fw insz outsz W), chunks_exact_length. auto.
Qed.

(** ** four rows at once *)
Definition fholds4 (cn : nat) (g : fcg4 (J:=J)) (A0 A1 A2 A3 : nat -> J) : Prop :=
  let '(g0, g1, g2, g3) := g in
  fholds cn g0 A0 /\ fholds cn g1 A1 /\ fholds cn g2 A2 /\ fholds cn g3 A3.

Definition ftap (src : list T) (px cn n : nat) (ws : list J) (dJ : J) (c : nat) : J :=
  wsum n (fun k => as_ (nth (px + k * cn + c) src d0)) (fun k => nth k ws dJ).

Lemma ftaps_fixed_4_ok n cn src ss px ws dJ :
  cn_ok cn -> starts_with_product n = true -> px + ss * 3 + n * cn <= length src -> n <= length ws ->
  yields (ftaps_fixed_4 zero mul mlaf as_ n cn src ss px ws)
    (fun g => fholds4 cn g (ftap src px cn n ws dJ) (ftap src (px + ss) cn n ws dJ)
                (ftap src (px + ss * 2) cn n ws dJ) (ftap src (px + ss * 3) cn n ws dJ)).
Proof.
  intros H Sp L Lw. unfold ftaps_fixed_4.
  eapply yields_bind; [apply (fixed_sum n cn src px ws dJ); auto; nia|]. intros g0 G0; cbv beta in G0.
  eapply yields_bind; [apply (fixed_sum n cn src (px + ss) ws dJ); auto; nia|]. intros g1 G1; cbv beta in G1.
  eapply yields_bind; [apply (fixed_sum n cn src (px + ss * 2) ws dJ); auto; nia|]. intros g2 G2; cbv beta in G2.
  eapply yields_bind; [apply (fixed_sum n cn src (px + ss * 3) ws dJ); auto; nia|]. intros g3 G3; cbv beta in G3.
  eexists; split; [reflexivity|]. repeat split; assumption.
Qed.

Lemma ffold_4_ok cn (dJ : J) : cn_ok cn -> forall n (ws : list J) (c0 c1 c2 c3 : list (list T)) s A0 A1 A2 A3,
  length ws = n -> length c0 = n -> length c1 = n -> length c2 = n -> length c3 = n ->
  Forall (fun p => length p = cn) c0 -> Forall (fun p => length p = cn) c1 ->
  Forall (fun p => length p = cn) c2 -> Forall (fun p => length p = cn) c3 ->
  fholds4 cn s A0 A1 A2 A3 ->
  let add cs (A : nat -> J) := (fun c => accf 0 n (fun k => as_ (nth c (nth k cs []) d0)) (fun k => nth k ws dJ) (A c)) in
  yields (foldM (ftap_step_4 zero mlaf as_ cn) (combine (combine (combine (combine ws c0) c1) c2) c3) s)
    (fun g => fholds4 cn g (add c0 A0) (add c1 A1) (add c2 A2) (add c3 A3)).
Proof.
  intros H n. induction n as [|n IH]; intros ws c0 c1 c2 c3 s A0 A1 A2 A3 Lw L0 L1 L2 L3 F0 F1 F2 F3 HA add.
  - destruct ws; [|discriminate]. eexists; split; [reflexivity|]. exact HA.
  - destruct ws as [|w ws]; [discriminate|]. destruct c0 as [|p0 c0]; [discriminate|].
    destruct c1 as [|p1 c1]; [discriminate|]. destruct c2 as [|p2 c2]; [discriminate|].
    destruct c3 as [|p3 c3]; [discriminate|].
    cbn [combine foldM].
    inversion F0 as [|? ? E0 F0']; subst. inversion F1 as [|? ? E1 F1']; subst.
    inversion F2 as [|? ? E2 F2']; subst. inversion F3 as [|? ? E3 F3']; subst.
    destruct s as [[[s0 s1] s2] s3]. destruct HA as (H0 & H1 & H2 & H3).
    set (cn := length p0) in *.
    assert (S1 : yields (ftap_step_4 zero mlaf as_ cn (s0, s1, s2, s3) (w, p0, p1, p2, p3))
       (fun g => fholds4 cn g (fun c => mlaf (A0 c) (as_ (nth c p0 d0)) w) (fun c => mlaf (A1 c) (as_ (nth c p1 d0)) w)
                  (fun c => mlaf (A2 c) (as_ (nth c p2 d0)) w) (fun c => mlaf (A3 c) (as_ (nth c p3 d0)) w))).
    { unfold ftap_step_4.
      eapply yields_bind; [apply (fload_ok cn p0 0); [auto|lia]|]; intros g0 G0; cbv beta in G0.
      eapply yields_bind; [apply (fload_ok cn p1 0); [auto|lia]|]; intros g1 G1; cbv beta in G1.
      eapply yields_bind; [apply (fload_ok cn p2 0); [auto|lia]|]; intros g2 G2; cbv beta in G2.
      eapply yields_bind; [apply (fload_ok cn p3 0); [auto|lia]|]; intros g3 G3; cbv beta in G3.
      eapply yields_bind; [eapply (fma_ok cn s0 g0); eassumption|]; intros t0 T0; cbv beta in T0.
      eapply yields_bind; [eapply (fma_ok cn s1 g1); eassumption|]; intros t1 T1; cbv beta in T1.
      eapply yields_bind; [eapply (fma_ok cn s2 g2); eassumption|]; intros t2 T2; cbv beta in T2.
      eapply yields_bind; [eapply (fma_ok cn s3 g3); eassumption|]; intros t3 T3; cbv beta in T3.
      eexists; split; [reflexivity|]. repeat split; assumption. }
    eapply yields_bind; [exact S1|]. intros g Hg. cbv beta in Hg.
    eapply yields_weaken.
    { eapply (IH ws c0 c1 c2 c3 g); [..|exact Hg]; first [assumption | cbn in *; lia]. }
    intros [[[g0 g1] g2] g3] (G0 & G1 & G2 & G3). unfold add. clear add.
    repeat split; intros c Hc;
      first [rewrite (G0 c Hc)|rewrite (G1 c Hc)|rewrite (G2 c Hc)|rewrite (G3 c Hc)];
      rewrite accf_S, accf_shift; reflexivity.
Qed.

Lemma ftaps_general_4_ok n cn src ss px ws dJ :
  cn_ok cn -> starts_with_product n = false -> px + ss * 3 + n * cn <= length src -> n <= length ws ->
  yields (ftaps_general_4 zero mlaf as_ cn src ss px n ws)
    (fun g => fholds4 cn g (ftap src px cn n ws dJ) (ftap src (px + ss) cn n ws dJ)
                (ftap src (px + ss * 2) cn n ws dJ) (ftap src (px + ss * 3) cn n ws dJ)).
Proof.
  intros H Sp L Lw. unfold ftaps_general_4.
  assert (H0 : 0 < cn) by (unfold cn_ok in H; lia).
  rewrite !slice_ok by nia. cbn [bind].
  rewrite !chunks_exact_o_ok by auto. cbn [bind].
  rewrite !firstn_combine.
  assert (D : forall q, q + n * cn - q = n * cn) by (intros; lia). rewrite !D.
  destruct (slice_chunks_gen cn src px n H0 ltac:(nia)) as (C01 & C02 & C03 & C04).
  destruct (slice_chunks_gen cn src (px + ss) n H0 ltac:(nia)) as (C11 & C12 & C13 & C14).
  destruct (slice_chunks_gen cn src (px + ss * 2) n H0 ltac:(nia)) as (C21 & C22 & C23 & C24).
  destruct (slice_chunks_gen cn src (px + ss * 3) n H0 ltac:(nia)) as (C31 & C32 & C33 & C34).
  rewrite !(firstn_all2 (n:=n) (chunks_exact _ _)) by lia.
  eapply yields_weaken.
  { apply (ffold_4_ok cn dJ H n) with (A0 := fun _ => zero) (A1 := fun _ => zero) (A2 := fun _ => zero) (A3 := fun _ => zero);
      eauto using chunks_exact_Forall_len.
    - rewrite firstn_length. lia.
    - repeat split; apply fdup_ok. }
  intros [[[g0 g1] g2] g3] (G0 & G1 & G2 & G3). unfold ftap, weighted. rewrite Sp.
  repeat split; intros c Hc;
      first [rewrite (G0 c Hc)|rewrite (G1 c Hc)|rewrite (G2 c Hc)|rewrite (G3 c Hc)];
      apply accf_ext; intros k Hk; rewrite nth_firstn by lia; (split; [f_equal|reflexivity]).
  - rewrite C02, C03 by lia. reflexivity.
  - rewrite C12, C13 by lia. reflexivity.
  - rewrite C22, C23 by lia. reflexivity.
  - rewrite C32, C33 by lia. reflexivity.
Qed.

Definition frowA (src : list T) (off cn : nat) (b : fbound) (ws : list J) (dJ : J) (c : nat) : J :=
  wsum (bsize b) (fun k => as_ (nth (off + ((bstart b + k) * cn + c)) src d0)) (fun k => nth k ws dJ).

Lemma frow_pixel_4_ok cn src ss b ws dJ :
  cn_ok cn -> ss * 3 + (bstart b + bsize b) * cn <= length src -> bsize b <= length ws ->
  yields (frow_pixel_4 zero mul mlaf as_ cn src ss b ws)
    (fun g => fholds4 cn g (frowA src 0 cn b ws dJ) (frowA src ss cn b ws dJ)
                (frowA src (ss * 2) cn b ws dJ) (frowA src (ss * 3) cn b ws dJ)).
Proof.
  intros H L Lw. unfold frow_pixel_4.
  assert (Fin : forall n m, n = bsize b ->
     yields m (fun g => fholds4 cn g (ftap src (bstart b * cn) cn n ws dJ)
        (ftap src (bstart b * cn + ss) cn n ws dJ)
        (ftap src (bstart b * cn + ss * 2) cn n ws dJ)
        (ftap src (bstart b * cn + ss * 3) cn n ws dJ)) ->
     yields m (fun g => fholds4 cn g (frowA src 0 cn b ws dJ) (frowA src ss cn b ws dJ)
                (frowA src (ss * 2) cn b ws dJ) (frowA src (ss * 3) cn b ws dJ))).
  { intros n m -> Hm. eapply yields_weaken; [exact Hm|].
    intros [[[g0 g1] g2] g3] (G0 & G1 & G2 & G3). unfold frowA.
    repeat split; intros c Hc;
      first [rewrite (G0 c Hc)|rewrite (G1 c Hc)|rewrite (G2 c Hc)|rewrite (G3 c Hc)];
      unfold ftap; apply weighted_ext; intros k Hk; (split; [f_equal; f_equal; nia|reflexivity]). }
  remember (bsize b) as sz eqn:E.
  destruct sz as [|[|[|[|[|[|[|sz]]]]]]];
    (apply (Fin _ _ eq_refl);
     first [ apply ftaps_fixed_4_ok; auto; nia | apply ftaps_general_4_ok; auto; nia ]).
Qed.

Lemma nth_error_fzip4 (a b c d : list (list T)) i :
  nth_error (fzip4 a b c d) i =
  match nth_error a i, nth_error b i, nth_error c i, nth_error d i with
  | Some x, Some y, Some z, Some w => Some (x, y, z, w) | _, _, _, _ => None end.
Proof.
  revert b c d i; induction a as [|x a IH]; intros [|y b] [|z c] [|w d] [|i]; cbn; auto;
    repeat match goal with |- context [nth_error ?l i] => destruct (nth_error l i) end; auto.
Qed.

Lemma fzip4_length (a b c d : list (list T)) n :
  length a = n -> length b = n -> length c = n -> length d = n -> length (fzip4 a b c d) = n.
Proof.
  revert a b c d; induction n as [|n IH]; intros [|? a] [|? b] [|? c] [|? d]; intros; try discriminate; cbn; auto.
Qed.

Theorem frow_handler_4_closed cn fw (dJ : J) insz outsz src ss dst ds :
  cn_ok cn -> wf_fw fw insz outsz ->
  insz * cn <= ss -> outsz * cn <= ds ->
  length src = 4 * ss -> length dst = 4 * ds ->
  let row r := rowmap (outsz * cn)
       (fun j => fhval cn fw dJ (fun i => nth i (chunk ss src r) d0) (j / cn) (j mod cn)) (chunk ds dst r) in
  frow_handler_4 zero mul mlaf as_ mixed cn src ss dst ds fw = Done (row 0 ++ row 1 ++ row 2 ++ row 3).
Proof.
  intros H W Ls Ld Lsrc Ldst row. assert (H0 : 0 < cn) by (unfold cn_ok in H; lia).
  unfold frow_handler_4.
  rewrite split_at_ok by lia. cbn [bind].
  rewrite split_at_ok by (rewrite skipn_length; lia). cbn [bind].
  rewrite split_at_ok by (rewrite !skipn_length; lia). cbn [bind].
  rewrite !skipn_skipn_add.
  assert (R0 : firstn ds dst = chunk ds dst 0) by reflexivity.
  assert (R1 : firstn ds (skipn ds dst) = chunk ds dst 1) by (unfold chunk; now rewrite Nat.mul_1_l).
  assert (R2 : firstn ds (skipn (ds + ds) dst) = chunk ds dst 2) by (unfold chunk; do 2 f_equal; lia).
  assert (R3 : skipn (ds + ds + ds) dst = chunk ds dst 3).
  { unfold chunk. rewrite firstn_all2 by (rewrite skipn_length; lia). f_equal; lia. }
  rewrite R0, R1, R2, R3.
  rewrite !(chunks_exact_o_ok cn) by auto. cbn [bind].
  rewrite chunks_exact_o_ok by (apply (wf_pos _ _ _ W)). cbn [bind].
  assert (Lc : forall r, r < 4 -> length (chunk ds dst r) = ds).
  { intros r Hr. unfold chunk. rewrite firstn_length, skipn_length. nia. }
  assert (Lq : outsz <= ds / cn) by (apply Nat.div_le_lower_bound; lia).
  set (cols := fzip4 _ _ _ _).
  assert (Lcols : length cols = ds / cn).
  { apply fzip4_length; rewrite chunks_exact_length, Lc by lia; reflexivity. }
  rewrite (fbw_length fw insz outsz W), Lcols, Nat.min_r by lia.
  set (px r x := map (fun c => fhval cn fw dJ (fun i => nth i (chunk ss src r) d0) x c) (seq 0 cn)).
  rewrite (zip_mut_idx _ (fun x => (px 0 x, px 1 x, px 2 x, px 3 x))).
  - cbn [bind]. rewrite (fbw_length fw insz outsz W).
    rewrite (skipn_all2 (firstn outsz cols)) by (rewrite firstn_length; lia). rewrite app_nil_r.
    rewrite !map_map. unfold frebuild_row. rewrite !map_length, !seq_length.
    assert (C : forall r, concat (map (px r) (seq 0 outsz)) ++ skipn (outsz * cn) (chunk ds dst r) = row r).
    { intro r. unfold px, row, rowmap. rewrite concat_map_rows by auto. reflexivity. }
    f_equal. rewrite <- !C. reflexivity.
  - intros x [[[e0 e1] e2] e3] [b w] Hd Hbw. rewrite (fnth_error_bw fw insz outsz x W) in Hbw.
    destruct (x <? outsz) eqn:Ex; [|discriminate]. injection Hbw as <- <-. cbn [fst snd].
    pose proof (wf_nth fw insz outsz x W ltac:(lia)) as Wx. cbv zeta in Wx.
    set (b := nth x (bounds fw) (mkBound 0 0)) in *.
    assert (Lcw := fchunk_w_length fw insz outsz x W ltac:(lia)).
    destruct (frow_pixel_4_ok cn src ss b (chunk (aligned_size fw) (weights fw) x) dJ H ltac:(nia) ltac:(lia))
      as ([[[g0 g1] g2] g3] & -> & Hg0 & Hg1 & Hg2 & Hg3).
    cbn [bind].
    rewrite nth_error_firstn, Ex in Hd. unfold cols in Hd. rewrite nth_error_fzip4, !nth_error_chunks in Hd.
    rewrite !Lc in Hd by lia. replace (x <? ds / cn) with true in Hd by lia.
    injection Hd as <- <- <- <-.
    assert (Lx : forall r, r < 4 -> length (chunk cn (chunk ds dst r) x) = cn).
    { intros r Hr. apply chunk_length. rewrite Lc by lia. lia. }
    assert (V : forall r g, r < 4 -> fholds cn g (frowA src (ss * r) cn b (chunk (aligned_size fw) (weights fw) x) dJ) ->
        fstore zero mixed cn g (chunk cn (chunk ds dst r) x) = Done (px r x)).
    { intros r g Hr Hg. rewrite (fstore_ok cn g _ _ H (Lx r Hr) Hg). f_equal. unfold px. apply map_seq_ext. intros c Hc.
      unfold fhval, frowA. fold b. f_equal. apply weighted_ext. intros k Hk. split.
      - f_equal. rewrite nth_chunk by nia. f_equal. lia.
      - rewrite nth_chunk by lia. reflexivity. }
    rewrite (V 0 g0) by (try lia; rewrite Nat.mul_0_r; assumption). cbn [bind].
    rewrite (V 1 g1) by (try lia; rewrite Nat.mul_1_r; assumption). cbn [bind].
    rewrite (V 2 g2) by (try lia; assumption). cbn [bind].
    rewrite (V 3 g3) by (try lia; assumption). cbn [bind].
    reflexivity.
  - rewrite (fbw_length fw insz outsz W), firstn_length. lia.
Qed.

(** ** columns *)
Definition fvval (src : list T) (ss : nat) (ws : list J) (dJ : J) (b : fbound) (j : nat) : J :=
  wsum (bsize b) (fun k => as_ (nth (ss * (bstart b + k) + j) src d0)) (fun k => nth k ws dJ).

Lemma seqM_map {A B} (f : A -> outcome B) (P : A -> B -> Prop) l :
  (forall a, In a l -> yields (f a) (P a)) ->
  exists r, seqM (map f l) = Done r /\ Forall2 P l r.
Proof.
  induction l as [|a l IH]; intro H.
  - exists []. split; [reflexivity|constructor].
  - destruct (H a ltac:(left; auto)) as (b & E & Pb).
    destruct IH as (r & Er & F). { intros; apply H; right; auto. }
    exists (b :: r). split; [cbn; rewrite E; cbn [bind]; rewrite Er; reflexivity|]. now constructor.
Qed.

Lemma Forall2_len {A B} (P : A -> B -> Prop) l r : Forall2 P l r -> length l = length r.
Proof. induction 1; cbn; congruence. Qed.
Lemma Forall2_weaken {A B} (P Q : A -> B -> Prop) l r : (forall a b, P a b -> Q a b) -> Forall2 P l r -> Forall2 Q l r.
Proof. induction 2; constructor; auto. Qed.
Lemma Forall2_nth {A B} (P : A -> B -> Prop) l r i a b :
  Forall2 P l r -> nth_error l i = Some a -> nth_error r i = Some b -> P a b.
Proof. intro F; revert i; induction F; intros [|i]; cbn; intros; try discriminate; [congruence|eauto]. Qed.

Lemma fcol_chain_ok cn off : cn_ok cn -> forall (rws : list (list T * J)) acc A from (x : nat -> nat -> J) (w : nat -> J),
  fholds cn acc A ->
  (forall k r v, nth_error rws k = Some (r, v) ->
     off + cn <= length r /\ v = w (from + k) /\ forall c, c < cn -> as_ (nth (off + c) r d0) = x c (from + k)) ->
  yields (fcol_chain zero mlaf as_ cn off acc rws)
    (fun g => fholds cn g (fun c => accf from (length rws) (x c) w (A c))).
Proof.
  intros H rws; induction rws as [|[r v] rws IH]; intros acc A from x w HA E.
  - exists acc. split; [reflexivity|exact HA].
  - cbn [fcol_chain]. destruct (E 0 r v eq_refl) as (L & -> & X). rewrite Nat.add_0_r in *.
    eapply yields_bind; [apply fload_ok; auto|]. intros g Hg; cbv beta in Hg.
    eapply yields_bind; [eapply fma_ok; eassumption|]. intros acc' Ha.
    eapply yields_weaken.
    { eapply (IH acc' _ (S from) x w Ha). intros k r' v' Hk.
      destruct (E (S k) r' v' Hk) as (L' & V & X'). rewrite <- Nat.add_succ_comm in V, X'. auto. }
    intros g' Hg'. eapply fholds_ext; [|exact Hg']. intros c Hc. cbn [length]. rewrite accf_S. cbv beta.
    rewrite X by auto. reflexivity.
Qed.

Section Col.
Variables (m cn : nat) (src : list T) (ss : nat) (ws : list J) (dJ : J) (b : fbound) (x : nat).
Hypothesis Hcn : cn_ok cn.
Hypothesis Hm : 0 < m.
Hypothesis Hws : bsize b <= length ws.
Hypothesis Hsrc : forall k, k < bsize b -> ss * (bstart b + k) + x + cn * m <= length src.

Let rowp k := firstn (cn * m) (skipn (ss * (bstart b + k) + x) src).
Let val g c := fvval src ss ws dJ b (x + (cn * g + c)).

Lemma row_slice k : k < bsize b ->
  slice src (ss * (bstart b + k) + x) (ss * (bstart b + k) + x + cn * m) = Done (rowp k) /\ length (rowp k) = cn * m.
Proof.
  intro Hk. pose proof (Hsrc k Hk). rewrite slice_ok by lia. unfold rowp. split.
  - f_equal. f_equal. lia.
  - rewrite firstn_length, skipn_length. lia.
Qed.
Lemma row_nth k g c : k < bsize b -> g < m -> c < cn ->
  nth (cn * g + c) (rowp k) d0 = nth (ss * (bstart b + k) + (x + (cn * g + c))) src d0.
Proof. intros. unfold rowp. rewrite nth_firstn by nia. rewrite nth_skipn. f_equal. lia. Qed.

Lemma fcol_fixed_ok : starts_with_product (bsize b) = true ->
  exists r, fcol_fixed zero mul mlaf as_ (bsize b) m cn src ss ws b x = Done r /\
     Forall2 (fun g s => fholds cn s (val g)) (seq 0 m) r.
Proof.
  intro Sp. assert (Hn : 0 < bsize b) by (unfold starts_with_product in Sp; lia).
  unfold fcol_fixed. rewrite slice_ok by lia. cbn [bind]. rewrite Nat.sub_0_r. cbn [skipn].
  assert (Er : seqM (map (fun k => let o := ss * (bstart b + k) + x in slice src o (o + cn * m)) (seq 0 (bsize b))) =
               Done (map rowp (seq 0 (bsize b)))).
  { assert (G : forall l, (forall k, In k l -> k < bsize b) ->
       seqM (map (fun k => let o := ss * (bstart b + k) + x in slice src o (o + cn * m)) l) = Done (map rowp l)).
    { induction l as [|k l IHl]; intro Hl; [reflexivity|]. cbn [map seqM]. cbv zeta in IHl |- *.
      rewrite (proj1 (row_slice k (Hl k ltac:(left; auto)))). cbn [bind].
      rewrite IHl by (intros; apply Hl; right; auto). reflexivity. }
    apply G. intros k Hk. apply in_seq in Hk. lia. }
  cbv zeta in Er |- *. rewrite Er. cbn [bind].
  set (rws := combine (map rowp (seq 0 (bsize b))) (firstn (bsize b) ws)).
  assert (Nr : forall k, k < bsize b -> nth_error rws k = Some (rowp k, nth k ws dJ)).
  { intros k Hk. unfold rws. rewrite nth_error_combine, nth_error_map_seq, nth_error_firstn.
    replace (k <? bsize b) with true by lia. rewrite (nth_error_nth_lt ws k dJ) by lia. reflexivity. }
  assert (Lr : length rws = bsize b).
  { unfold rws. rewrite combine_length, map_length, seq_length, firstn_length. lia. }
  destruct rws as [|[r0 w0] rest] eqn:Erws; [cbn in Lr; lia|].
  pose proof (Nr 0 Hn) as N0. cbn in N0. injection N0 as -> ->.
  cbn [length] in Lr.
  apply seqM_map. intros g Hg. apply in_seq in Hg.
  eapply yields_bind; [apply fload_ok; auto; rewrite (proj2 (row_slice 0 Hn)); nia|]. intros g0 G0; cbv beta in G0.
  eapply yields_bind; [eapply fmul_ok; eassumption|]. intros t0 T0; cbv beta in T0.
  eapply yields_weaken.
  { eapply (fcol_chain_ok cn (cn * g) Hcn rest t0 _ 1
       (fun c k => as_ (nth (ss * (bstart b + k) + (x + (cn * g + c))) src d0)) (fun k => nth k ws dJ) T0).
    intros k r v Hk. assert (Hk' : S k < bsize b) by (apply nth_error_Some_lt in Hk; lia).
    pose proof (Nr (S k) Hk') as N1. cbn in N1. rewrite Hk in N1. injection N1 as -> ->.
    split; [rewrite (proj2 (row_slice (S k) Hk')); nia|]. split; [reflexivity|].
    intros c Hc. rewrite row_nth by lia. reflexivity. }
  intros s Hs. eapply fholds_ext; [|exact Hs]. intros c Hc. cbv beta.
  unfold val, fvval, weighted. rewrite Sp. replace (length rest) with (bsize b - 1) by lia.
  rewrite row_nth by lia. reflexivity.
Qed.

Lemma Forall2_combine_seq {B} (P : nat -> B -> Prop) n (r : list B) :
  Forall2 P (seq 0 n) r -> length r = n /\ forall g s, In (g, s) (combine (seq 0 n) r) -> P g s /\ g < n.
Proof.
  intro F. split; [rewrite <- (Forall2_len _ _ _ F); apply seq_length|].
  intros g s Hin. split.
  - apply (In_nth_error) in Hin. destruct Hin as (i & Hi). rewrite nth_error_combine in Hi.
    destruct (nth_error (seq 0 n) i) eqn:E1; [|discriminate]. destruct (nth_error r i) eqn:E2; [|discriminate].
    injection Hi as <- <-. eapply Forall2_nth; eauto.
  - apply in_combine_l in Hin. apply in_seq in Hin. lia.
Qed.

Lemma fcol_general_ok : starts_with_product (bsize b) = false ->
  exists r, fcol_general zero mlaf as_ m cn src ss ws b x = Done r /\
     Forall2 (fun g s => fholds cn s (val g)) (seq 0 m) r.
Proof.
  intro Sp. unfold fcol_general. cbv zeta.
  set (fw := firstn (bsize b) ws). assert (Lf : length fw = bsize b) by (unfold fw; rewrite firstn_length; lia).
  rewrite Lf.
  set (X g c k := as_ (nth (ss * (bstart b + k) + (x + (cn * g + c))) src d0)).
  set (body := fun (sums : list (cg J)) (jw : nat * J) => _).
  assert (G : forall n from sums A, from + n = bsize b ->
     Forall2 (fun g s => fholds cn s (A g)) (seq 0 m) sums ->
     exists r, foldM body (combine (seq from n) (skipn from fw)) sums = Done r /\
       Forall2 (fun g s => fholds cn s (fun c => accf from n (X g c) (fun k => nth k ws dJ) (A g c))) (seq 0 m) r).
  { induction n as [|n IH]; intros from sums A En F.
    - exists sums. split; [reflexivity|exact F].
    - cbn [seq].
      assert (Es : skipn from fw = nth from ws dJ :: skipn (S from) fw).
      { apply list_ext. intro i. rewrite nth_error_skipn. destruct i.
        - rewrite Nat.add_0_r. cbn. unfold fw. rewrite nth_error_firstn. replace (from <? bsize b) with true by lia.
          apply nth_error_nth_lt. lia.
        - change (nth_error (nth from ws dJ :: skipn (S from) fw) (S i)) with (nth_error (skipn (S from) fw) i). rewrite nth_error_skipn. f_equal. lia. }
      rewrite Es. cbn [combine foldM].
      assert (Hb : exists r1, body sums (from, nth from ws dJ) = Done r1 /\
         Forall2 (fun g s => fholds cn s (fun c => mlaf (A g c) (X g c from) (nth from ws dJ))) (seq 0 m) r1).
      { unfold body. cbv beta iota zeta. rewrite (proj1 (row_slice from ltac:(lia))). cbn [bind].
        destruct (Forall2_combine_seq _ _ _ F) as (Ls & Hs).
        edestruct (seqM_map (fun gs : nat * cg J => let '(g, s) := gs in
            px <- load_cg as_ zero cn (rowp from) (cn * g);; cg_mul_add mlaf cn s px (nth from ws dJ))
            (fun gs s' => fholds cn s' (fun c => mlaf (A (fst gs) c) (X (fst gs) c from) (nth from ws dJ)))
            (combine (seq 0 m) sums)) as (r1 & E1 & F1).
        { intros [g s] Hin. destruct (Hs g s Hin) as [Hh Hg].
          eapply yields_bind; [apply fload_ok; auto; rewrite (proj2 (row_slice from ltac:(lia))); nia|]. intros px Hpx; cbv beta in Hpx.
          eapply yields_weaken; [eapply fma_ok; eassumption|]. intros s' Hs'. eapply fholds_ext; [|exact Hs'].
          intros c Hc. cbn [fst]. unfold X. rewrite row_nth by lia. reflexivity. }
        exists r1. split; [exact E1|].
        clear E1 Es. revert F1. generalize 0 as st.
        assert (Gz : forall l (ss' : list (cg J)) r1, length ss' = length l ->
           Forall2 (fun gs s' => fholds cn s' (fun c => mlaf (A (fst gs) c) (X (fst gs) c from) (nth from ws dJ))) (combine l ss') r1 ->
           Forall2 (fun g s => fholds cn s (fun c => mlaf (A g c) (X g c from) (nth from ws dJ))) l r1).
        { induction l as [|g l IHl]; intros [|s0 ss'] r2 Ll Fl; try discriminate; cbn [combine] in Fl; inversion Fl; subst; constructor; auto.
          eapply IHl; [|eassumption]. cbn in Ll. lia. }
        intros st F1. eapply Gz; [|exact F1]. rewrite seq_length. exact Ls. }
      destruct Hb as (r1 & E1 & F1). rewrite E1. cbn [bind].
      destruct (IH (S from) r1 _ ltac:(lia) F1) as (r & Er & Fr).
      exists r. split; [exact Er|]. exact Fr. }
  destruct (G (bsize b) 0 (repeat (cg_dup zero) m) (fun _ _ => zero) eq_refl) as (r & Er & Fr).
  - clear. generalize 0. induction m as [|m' IH]; intro st; cbn; constructor; auto. apply fdup_ok.
  - exists r. split; [exact Er|]. eapply Forall2_weaken; [|exact Fr]. intros g s Hs. eapply fholds_ext; [|exact Hs].
    intros c Hc. unfold val, fvval, weighted. rewrite Sp. reflexivity.
Qed.

Lemma fcol_sums_ok :
  exists r, fcol_sums zero mul mlaf as_ m cn src ss ws b x = Done r /\
     Forall2 (fun g s => fholds cn s (val g)) (seq 0 m) r.
Proof.
  unfold fcol_sums.
  assert (Fx : forall n, n = bsize b -> starts_with_product n = true ->
     exists r, fcol_fixed zero mul mlaf as_ n m cn src ss ws b x = Done r /\
       Forall2 (fun g s => fholds cn s (val g)) (seq 0 m) r).
  { intros n -> Hn. now apply fcol_fixed_ok. }
  assert (Gn : starts_with_product (bsize b) = false ->
     exists r, fcol_general zero mlaf as_ m cn src ss ws b x = Done r /\
       Forall2 (fun g s => fholds cn s (val g)) (seq 0 m) r) by apply fcol_general_ok.
  clearbody val. clear Hws Hsrc rowp.
  destruct (bsize b) as [|[|[|[|[|[|[|sz]]]]]]];
    first [ apply Fx; reflexivity | apply Gn; reflexivity ].
Qed.

Lemma fcolumn_ok (dst : list T) :
  x + cn * m <= length dst ->
  fcolumn zero mul mlaf as_ mixed m cn src ss dst ws b x =
  Done (splice dst x (map (fun i => mixed (fvval src ss ws dJ b (x + i))) (seq 0 (cn * m)))).
Proof.
  intro L. assert (H0 : 0 < cn) by (unfold cn_ok in Hcn; lia).
  unfold fcolumn. destruct fcol_sums_ok as (r & -> & F). cbn [bind].
  rewrite slice_ok by lia. cbn [bind]. rewrite chunks_exact_o_ok by auto. cbn [bind].
  replace (x + cn * m - x) with (m * cn) by lia.
  assert (Lp : length (firstn (m * cn) (skipn x dst)) = m * cn) by (rewrite firstn_length, skipn_length; lia).
  assert (Lr : length r = m) by (rewrite <- (Forall2_len _ _ _ F); apply seq_length).
  rewrite (zip_mut_idx _ (fun g => map (fun c => mixed (val g c)) (seq 0 cn))).
  - cbn [bind]. rewrite skipn_all2 by (rewrite chunks_exact_length, Lp, div_mul_exact; lia).
    rewrite app_nil_r, Lr, concat_map_rows by auto. f_equal. f_equal.
    rewrite (Nat.mul_comm m cn). apply map_seq_ext. intros i Hi. unfold val. do 2 f_equal.
    pose proof (Nat.div_mod i cn ltac:(lia)). lia.
  - intros g d s Hd Hs. rewrite nth_error_chunks, Lp, div_mul_exact in Hd by auto.
    destruct (g <? m) eqn:Eg; [|discriminate]. injection Hd as <-.
    apply fstore_ok; auto.
    + apply chunk_length. rewrite Lp, div_mul_exact; lia.
    + eapply (Forall2_nth _ _ _ g g s F); [|exact Hs]. rewrite (nth_error_nth_lt _ _ 0) by (rewrite seq_length; lia).
      rewrite seq_nth by lia. reflexivity.
  - rewrite chunks_exact_length, Lp, div_mul_exact, Lr by auto. lia.
Qed.
End Col.

(** column_handler_floating_point: every sample of the row is the weighted sum of its
    window, whatever the tile that computes it. *)
Theorem fcolumn_handler_closed src ss ws dJ b dst :
  bsize b <= length ws ->
  (forall k, k < bsize b -> ss * (bstart b + k) + length dst <= length src) ->
  fcolumn_handler zero mul mlaf as_ mixed b src dst ss ws =
  Done (map (fun j => mixed (fvval src ss ws dJ b j)) (seq 0 (length dst))).
Proof.
  intros Hws Hsrc. set (val j := mixed (fvval src ss ws dJ b j)).
  set (P cx := rowmap cx val dst).
  assert (LP : forall cx, cx <= length dst -> length (P cx) = length dst).
  { intros cx Hc. unfold P. now apply rowmap_length. }
  assert (Step : forall m cn cx, cn_ok cn -> 0 < m -> cx + cn * m <= length dst ->
     fcolumn zero mul mlaf as_ mixed m cn src ss (P cx) ws b cx = Done (P (cx + cn * m))).
  { intros m cn cx Hcn Hm Hc. rewrite (fcolumn_ok m cn src ss ws dJ b cx Hcn Hm Hws).
    - f_equal. unfold P. apply rowmap_step. exact Hc.
    - intros k Hk. specialize (Hsrc k Hk). lia.
    - rewrite LP; lia. }
  assert (P0 : dst = P 0) by (unfold P, rowmap; reflexivity).
  unfold fcolumn_handler. cbv zeta.
  destruct (while_tiles_ok P 16 16 (length dst) (fun d cx => fcolumn zero mul mlaf as_ mixed 4 4 src ss d ws b cx)
     ltac:(lia) ltac:(left; lia)) with (fuel := length dst) (cx := 0) as (c1 & E1 & B1 & S1); [|lia|lia|].
  { intros cx Hc. apply (Step 4 4 cx); unfold cn_ok; lia. }
  rewrite <- P0 in E1. rewrite E1. cbn [bind].
  destruct (while_tiles_ok P 4 4 (length dst) (fun d cx => fcolumn zero mul mlaf as_ mixed 1 4 src ss d ws b cx)
     ltac:(lia) ltac:(left; lia)) with (fuel := length dst) (cx := c1) as (c2 & E2 & B2 & S2); [|lia|lia|].
  { intros cx Hc. apply (Step 1 4 cx); unfold cn_ok; lia. }
  rewrite E2. cbn [bind].
  destruct (while_tiles_ok P 1 0 (length dst) (fun d cx => fcolumn zero mul mlaf as_ mixed 1 1 src ss d ws b cx)
     ltac:(lia) ltac:(right; lia)) with (fuel := length dst) (cx := c2) as (c3 & E3 & B3 & S3); [|lia|lia|].
  { intros cx Hc. apply (Step 1 1 cx); unfold cn_ok; lia. }
  rewrite E3. cbn [bind]. f_equal. replace c3 with (length dst) by lia.
  unfold P, rowmap. rewrite skipn_all, app_nil_r. reflexivity.
Qed.

(** ** the two passes *)
Theorem fhpass_closed N (fw : fweights J) dJ pool im into :
  cn_ok N -> pool_ok pool -> good N im -> good N into -> height im = height into ->
  wf_fw fw (width im) (width into) ->
  fhpass zero mul mlaf as_ mixed N fw pool im into =
  Done (set_buf into (pixmap d0 (height into) (stride into) (width into * N)
     (fun y j => fhval N fw dJ (fun i => nth (y * stride im + i) (buf im) d0) (j / N) (j mod N)) (buf into))).
Proof.
  intros HN PO Gi Go Hh W. assert (N0 : 0 < N) by (unfold cn_ok in HN; lia).
  pose proof (good_stride_pos N im N0 Gi) as Si. pose proof (good_stride_pos N into N0 Go) as So.
  unfold fhpass.
  rewrite (horizontal_dispatch_closed N _ _
     (fun s d => rowmap (width into * N) (fun j => fhval N fw dJ (fun i => nth i s d0) (j / N) (j mod N)) d)
     pool im into (stride im) (stride into) (height into)); auto using good_stride_of.
  - f_equal. apply set_buf_ext.
    rewrite <- (pixmap_rows d0 (height into) (stride into) (width into * N)) by
      (try apply (g_stride _ _ Go); try apply (g_len _ _ Go); lia).
    f_equal. apply map_seq_ext. intros y Hy. apply rowmap_ext. intros j Hj.
    unfold fhval. f_equal. apply weighted_ext. intros k Hk. split; [|reflexivity]. f_equal.
    pose proof (wf_nth fw _ _ (j / N) W ltac:(apply Nat.div_lt_upper_bound; lia)) as Wx. cbv zeta in Wx.
    apply nth_chunk. pose proof (g_stride _ _ Gi). pose proof (Nat.mod_upper_bound j N ltac:(lia)). nia.
  - rewrite (g_len _ _ Gi). now rewrite Hh.
  - apply (g_len _ _ Go).
  - intros s d Ls Ld. apply (frow_handler_closed N fw dJ (width im) (width into)); auto.
    + rewrite Ls. apply (g_stride _ _ Gi).
    + rewrite Ld. apply (g_stride _ _ Go).
  - intros s d Ls Ld. rewrite (frow_handler_4_closed N fw dJ (width im) (width into)); auto.
    + apply (g_stride _ _ Gi).
    + apply (g_stride _ _ Go).
Qed.

Theorem fvpass_closed N (fw : fweights J) dJ pool im into :
  cn_ok N -> pool_ok pool -> good N im -> good N into -> width im = width into ->
  wf_fw fw (height im) (height into) ->
  fvpass zero mul mlaf as_ mixed N fw pool im into =
  Done (set_buf into (pixmap d0 (height into) (stride into) (width into * N)
     (fun y j => mixed (fvval (buf im) (stride im) (skipn (y * aligned_size fw) (weights fw)) dJ
                      (nth y (bounds fw) (mkBound 0 0)) j)) (buf into))).
Proof.
  intros HN PO Gi Go Hw W. assert (N0 : 0 < N) by (unfold cn_ok in HN; lia).
  pose proof (good_stride_pos N im N0 Gi) as Si. pose proof (good_stride_pos N into N0 Go) as So.
  unfold fvpass.
  rewrite (vertical_dispatch_closed N _ (bounds fw) (aligned_size fw) (weights fw)
    (fun y => map (fun j => mixed (fvval (buf im) (stride im) (skipn (y * aligned_size fw) (weights fw)) dJ
                      (nth y (bounds fw) (mkBound 0 0)) j)) (seq 0 (width into * N)))
    pool im into (stride into) (height into)); auto using good_stride_of.
  - f_equal. apply set_buf_ext. rewrite <- (pixmap_rows d0 (height into) (stride into) (width into * N)) by
      (try apply (g_stride _ _ Go); try apply (g_len _ _ Go); lia).
    reflexivity.
  - apply (g_stride _ _ Go).
  - apply (g_len _ _ Go).
  - apply (wf_blen _ _ _ W).
  - rewrite (wf_wlen _ _ _ W). lia.
  - intros y b d Hb Hy Ld.
    assert (Eb : nth y (bounds fw) (mkBound 0 0) = b) by (now apply nth_error_nth).
    destruct (wf_win _ _ _ W y b Hb) as (B1 & B2 & B3).
    rewrite Eb. split; [|now rewrite map_length, seq_length].
    rewrite (good_stride_of N im N0 Gi). rewrite (fcolumn_handler_closed _ _ _ dJ); [now rewrite Ld| |].
    + rewrite skipn_length, (wf_wlen _ _ _ W). nia.
    + intros k Hk. rewrite Ld, <- Hw, (g_len _ _ Gi). pose proof (g_stride _ _ Gi). nia.
Qed.

End FloatProofs.
