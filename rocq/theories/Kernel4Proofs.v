(** The 4-row kernel of FixedPoint.v equals the 1-row kernel on each row. *)
From Coq Require Import ZifyBool ZifyNat.
From Verif Require Import Base BaseProofs ColorGroup FixedPoint Spec KernelProofs.
Local Open Scope Z_scope.

Definition holds4 (cn : nat) (g : cg4) (A0 A1 A2 A3 : nat -> Z) : Prop :=
  let '(g0, g1, g2, g3) := g in
  holds cn g0 A0 /\ holds cn g1 A1 /\ holds cn g2 A2 /\ holds cn g3 A3.

Definition tapA (src : list Z) (px cn n : nat) (ws : list Z) (A : nat -> Z) (c : nat) : Z :=
  A c + zsum n (fun k => nth (px + k * cn + c) src 0 * nth k ws 0).

Lemma taps_fixed_4_ok n cn src ss px ws s A0 A1 A2 A3 :
  cn_ok cn -> (0 < n)%nat -> (px + ss * 3 + n * cn <= length src)%nat -> (n <= length ws)%nat ->
  holds4 cn s A0 A1 A2 A3 ->
  yields (taps_fixed_4 n cn src ss px ws s)
    (fun g => holds4 cn g (tapA src px cn n ws A0) (tapA src (px + ss) cn n ws A1)
                (tapA src (px + ss * 2) cn n ws A2) (tapA src (px + ss * 3) cn n ws A3)).
Proof.
  intros H Hn L Lw HA. destruct s as [[[s0 s1] s2] s3]. destruct HA as (H0 & H1 & H2 & H3).
  unfold taps_fixed_4.
  eapply yields_bind; [eapply taps_fixed_ok; eauto; nia|]. intros g0 G0.
  eapply yields_bind; [eapply taps_fixed_ok; eauto; nia|]. intros g1 G1.
  eapply yields_bind; [eapply taps_fixed_ok; eauto; nia|]. intros g2 G2.
  eapply yields_bind; [eapply taps_fixed_ok; eauto; nia|]. intros g3 G3.
  eexists; split; [reflexivity|]. repeat split; assumption.
Qed.

Lemma fold_taps_4_ok cn : cn_ok cn -> forall n (ws : list Z) (c0 c1 c2 c3 : list (list Z)) s A0 A1 A2 A3,
  length ws = n -> length c0 = n -> length c1 = n -> length c2 = n -> length c3 = n ->
  Forall (fun p => length p = cn) c0 -> Forall (fun p => length p = cn) c1 ->
  Forall (fun p => length p = cn) c2 -> Forall (fun p => length p = cn) c3 ->
  holds4 cn s A0 A1 A2 A3 ->
  let add cs A := (fun c => A c + zsum n (fun k => nth c (nth k cs []) 0 * nth k ws 0)) in
  yields (foldM (tap_step_4 cn) (combine (combine (combine (combine ws c0) c1) c2) c3) s)
    (fun g => holds4 cn g (add c0 A0) (add c1 A1) (add c2 A2) (add c3 A3)).
Proof.
  intros H n. induction n as [|n IH]; intros ws c0 c1 c2 c3 s A0 A1 A2 A3 Lw L0 L1 L2 L3 F0 F1 F2 F3 HA add.
  - destruct ws; [|discriminate]. eexists; split; [reflexivity|].
    destruct s as [[[s0 s1] s2] s3]. destruct HA as (H0 & H1 & H2 & H3).
    unfold holds4, add. cbn [zsum].
    repeat split; intros c Hc; rewrite Z.add_0_r; auto.
  - destruct ws as [|w ws]; [discriminate|]. destruct c0 as [|p0 c0]; [discriminate|].
    destruct c1 as [|p1 c1]; [discriminate|]. destruct c2 as [|p2 c2]; [discriminate|].
    destruct c3 as [|p3 c3]; [discriminate|].
    cbn [combine foldM].
    inversion F0 as [|? ? E0 F0']; subst. inversion F1 as [|? ? E1 F1']; subst.
    inversion F2 as [|? ? E2 F2']; subst. inversion F3 as [|? ? E3 F3']; subst.
    destruct s as [[[s0 s1] s2] s3]. destruct HA as (H0 & H1 & H2 & H3).
    set (cn := length p0) in *.
    assert (S1 : yields (tap_step_4 cn (s0, s1, s2, s3) (w, p0, p1, p2, p3))
       (fun g => holds4 cn g (fun c => A0 c + nth c p0 0 * w) (fun c => A1 c + nth c p1 0 * w)
                  (fun c => A2 c + nth c p2 0 * w) (fun c => A3 c + nth c p3 0 * w))).
    { unfold tap_step_4.
      do 4 (eapply yields_bind; [apply load_cg_ok; [auto|lia]|]; intros ? ?).
      do 4 (eapply yields_bind; [apply cg_mul_ok; auto|]; intros ? ?;
            eapply yields_bind; [apply cg_lanes2_ok; auto|]; intros ? ?).
      eexists; split; [reflexivity|]. cbv beta in *.
      repeat split; intros c Hc;
        repeat match goal with X : forall c, (c < cn)%nat -> lane c ?g = _ |- context [lane _ ?g] => rewrite (X c Hc) end;
        repeat match goal with X : holds cn ?g _ |- context [lane _ ?g] => rewrite (X c Hc) end;
        cbn [Nat.add]; apply mul_add_lane. }
    eapply yields_bind; [exact S1|]. intros g Hg. cbv beta in Hg.
    eapply yields_weaken.
    { eapply (IH ws c0 c1 c2 c3 g); [..|exact Hg]; first [assumption | cbn in *; lia]. }
    intros [[[g0 g1] g2] g3] (G0 & G1 & G2 & G3). unfold add. clear add.
    repeat split; intros c Hc;
      first [rewrite (G0 c Hc)|rewrite (G1 c Hc)|rewrite (G2 c Hc)|rewrite (G3 c Hc)];
      f_equal; rewrite zsum_S_l; cbn [nth]; ring.
Qed.

Lemma firstn_combine {A B} n (l1 : list A) (l2 : list B) :
  firstn n (combine l1 l2) = combine (firstn n l1) (firstn n l2).
Proof.
  revert l1 l2; induction n as [|n IH]; intros [|a l1] [|b l2]; auto.
  cbn. f_equal. apply IH.
Qed.

Lemma taps_general_4_ok n cn src ss px ws s A0 A1 A2 A3 :
  cn_ok cn -> (px + ss * 3 + n * cn <= length src)%nat -> (n <= length ws)%nat ->
  holds4 cn s A0 A1 A2 A3 ->
  yields (taps_general_4 cn src ss px n ws s)
    (fun g => holds4 cn g (tapA src px cn n ws A0) (tapA src (px + ss) cn n ws A1)
                (tapA src (px + ss * 2) cn n ws A2) (tapA src (px + ss * 3) cn n ws A3)).
Proof.
  intros H L Lw HA. unfold taps_general_4.
  assert (H0 : (0 < cn)%nat) by (unfold cn_ok in H; lia).
  rewrite !slice_ok by nia. cbn [bind].
  rewrite !chunks_exact_o_ok by auto. cbn [bind].
  rewrite !firstn_combine.
  assert (D : forall q, (q + n * cn - q = n * cn)%nat) by (intros; lia). rewrite !D.
  destruct (slice_chunks_ok cn src px n H0 ltac:(nia)) as (C01 & C02 & C03 & C04).
  destruct (slice_chunks_ok cn src (px + ss) n H0 ltac:(nia)) as (C11 & C12 & C13 & C14).
  destruct (slice_chunks_ok cn src (px + ss * 2) n H0 ltac:(nia)) as (C21 & C22 & C23 & C24).
  destruct (slice_chunks_ok cn src (px + ss * 3) n H0 ltac:(nia)) as (C31 & C32 & C33 & C34).
  rewrite !(firstn_all2 (n:=n) (chunks_exact _ _)) by lia.
  eapply yields_weaken.
  { apply (fold_taps_4_ok cn H n); eauto using chunks_exact_Forall_len.
    rewrite firstn_length. lia. }
  intros [[[g0 g1] g2] g3] (G0 & G1 & G2 & G3). unfold tapA.
  repeat split; intros c Hc;
      first [rewrite (G0 c Hc)|rewrite (G1 c Hc)|rewrite (G2 c Hc)|rewrite (G3 c Hc)];
      f_equal; f_equal; apply zsum_ext; intros k Hk; rewrite nth_firstn by lia; f_equal.
  - rewrite C02, C03 by lia. reflexivity.
  - rewrite C12, C13 by lia. reflexivity.
  - rewrite C22, C23 by lia. reflexivity.
  - rewrite C32, C33 by lia. reflexivity.
Qed.

Definition rowA (src : list Z) (off cn : nat) (b : fbound) (ws : list Z) (c : nat) : Z :=
  ROUNDING_CONST + zsum (bsize b) (fun k => nth (off + ((bstart b + k) * cn + c)) src 0 * nth k ws 0).

Lemma row_pixel_4_ok cn src ss b ws :
  cn_ok cn -> (ss * 3 + (bstart b + bsize b) * cn <= length src)%nat -> (bsize b <= length ws)%nat ->
  yields (row_pixel_4 cn src ss b ws)
    (fun g => holds4 cn g (rowA src 0 cn b ws) (rowA src ss cn b ws)
                (rowA src (ss * 2) cn b ws) (rowA src (ss * 3) cn b ws)).
Proof.
  intros H L Lw. unfold row_pixel_4.
  set (r := cg_dup ROUNDING_CONST).
  assert (Hr : holds cn r (fun _ => ROUNDING_CONST)).
  { intros c Hc. cases_cn cn H; lanes c Hc; reflexivity. }
  assert (HA : holds4 cn (r, r, r, r) (fun _ => ROUNDING_CONST) (fun _ => ROUNDING_CONST)
                 (fun _ => ROUNDING_CONST) (fun _ => ROUNDING_CONST)) by (repeat split; auto).
  assert (Fin : forall n m, n = bsize b ->
     yields m (fun g => holds4 cn g (tapA src (bstart b * cn) cn n ws (fun _ => ROUNDING_CONST))
        (tapA src (bstart b * cn + ss) cn n ws (fun _ => ROUNDING_CONST))
        (tapA src (bstart b * cn + ss * 2) cn n ws (fun _ => ROUNDING_CONST))
        (tapA src (bstart b * cn + ss * 3) cn n ws (fun _ => ROUNDING_CONST))) ->
     yields m (fun g => holds4 cn g (rowA src 0 cn b ws) (rowA src ss cn b ws)
                (rowA src (ss * 2) cn b ws) (rowA src (ss * 3) cn b ws))).
  { intros n m -> Hm. eapply yields_weaken; [exact Hm|].
    intros [[[g0 g1] g2] g3] (G0 & G1 & G2 & G3). unfold rowA.
    repeat split; intros c Hc;
      first [rewrite (G0 c Hc)|rewrite (G1 c Hc)|rewrite (G2 c Hc)|rewrite (G3 c Hc)];
      unfold tapA; f_equal; f_equal; apply zsum_ext; intros k Hk; f_equal; f_equal; nia. }
  remember (bsize b) as sz eqn:E.
  destruct sz as [|[|[|[|[|[|[|sz]]]]]]];
    (apply (Fin _ _ eq_refl);
     first [ apply taps_fixed_4_ok; auto; nia | apply taps_general_4_ok; auto; nia ]).
Qed.

Lemma nth_error_zip4 a b c d i :
  nth_error (zip4 a b c d) i =
  match nth_error a i, nth_error b i, nth_error c i, nth_error d i with
  | Some x, Some y, Some z, Some w => Some (x, y, z, w) | _, _, _, _ => None end.
Proof.
  revert b c d i; induction a as [|x a IH]; intros [|y b] [|z c] [|w d] [|i]; cbn; auto;
    repeat match goal with |- context [nth_error ?l i] => destruct (nth_error l i) end; auto.
Qed.

Lemma zip4_length a b c d n :
  length a = n -> length b = n -> length c = n -> length d = n -> length (zip4 a b c d) = n.
Proof.
  revert a b c d; induction n as [|n IH]; intros [|? a] [|? b] [|? c] [|? d]; intros; try discriminate; cbn; auto.
Qed.

Lemma split_at_ok {A} k (l : list A) : (k <= length l)%nat -> split_at k l = Done (firstn k l, skipn k l).
Proof. intro H. unfold split_at. replace (k <=? length l)%nat with true by lia. reflexivity. Qed.

Lemma firstn_skipn_chunk0 {A} k (l : list A) : firstn k l = chunk k l 0.
Proof. reflexivity. Qed.

Lemma skipn_skipn_add {A} i j (l : list A) : skipn i (skipn j l) = skipn (j + i) l.
Proof. apply list_ext. intro n. rewrite !nth_error_skipn. f_equal. lia. Qed.

(** convolve_row_handler_fixed_point_4 is four applications of [hval]. *)
Theorem row_handler_4_closed cn maxv fw insz outsz src ss dst ds :
  cn_ok cn -> wf_fw fw insz outsz ->
  (insz * cn <= ss)%nat -> (outsz * cn <= ds)%nat ->
  length src = (4 * ss)%nat -> length dst = (4 * ds)%nat ->
  let row r := rowmap (outsz * cn)
       (fun j => hval cn maxv fw (fun i => nth i (chunk ss src r) 0) (j / cn) (j mod cn)) (chunk ds dst r) in
  row_handler_4 cn maxv src ss dst ds fw = Done (row 0%nat ++ row 1%nat ++ row 2%nat ++ row 3%nat).
Proof.
  intros H W Ls Ld Lsrc Ldst row. assert (H0 : (0 < cn)%nat) by (unfold cn_ok in H; lia).
  unfold row_handler_4.
  rewrite split_at_ok by lia. cbn [bind].
  rewrite split_at_ok by (rewrite skipn_length; lia). cbn [bind].
  rewrite split_at_ok by (rewrite !skipn_length; lia). cbn [bind].
  rewrite !skipn_skipn_add.
  assert (R0 : firstn ds dst = chunk ds dst 0) by reflexivity.
  assert (R1 : firstn ds (skipn ds dst) = chunk ds dst 1) by (unfold chunk; now rewrite Nat.mul_1_l).
  assert (R2 : firstn ds (skipn (ds + ds) dst) = chunk ds dst 2) by (unfold chunk; do 2 f_equal; lia).
  assert (R3 : skipn (ds + ds + ds) dst = chunk ds dst 3).
  { unfold chunk. rewrite firstn_all2 by (rewrite skipn_length; lia). f_equal; lia. }
  rewrite R0, R1, R2, R3.
  rewrite !(chunks_exact_o_ok cn) by auto. cbn [bind].
  rewrite chunks_exact_o_ok by (apply (wf_pos _ _ _ W)). cbn [bind].
  assert (Lc : forall r, (r < 4)%nat -> length (chunk ds dst r) = ds).
  { intros r Hr. unfold chunk. rewrite firstn_length, skipn_length. nia. }
  assert (Lq : (outsz <= ds / cn)%nat) by (apply Nat.div_le_lower_bound; lia).
  set (cols := zip4 _ _ _ _).
  assert (Lcols : length cols = (ds / cn)%nat).
  { apply zip4_length; rewrite chunks_exact_length, Lc by lia; reflexivity. }
  rewrite (bw_length fw insz outsz W), Lcols, Nat.min_r by lia.
  set (px r x := map (fun c => hval cn maxv fw (fun i => nth i (chunk ss src r) 0) x c) (seq 0 cn)).
  rewrite (zip_mut_idx _ (fun x => (px 0 x, px 1 x, px 2 x, px 3 x)%nat)).
  - cbn [bind]. rewrite (bw_length fw insz outsz W).
    rewrite (skipn_all2 (firstn outsz cols)) by (rewrite firstn_length; lia). rewrite app_nil_r.
    rewrite !map_map. unfold rebuild_row. rewrite !map_length, !seq_length.
    assert (C : forall r, concat (map (px r) (seq 0 outsz)) ++ skipn (outsz * cn) (chunk ds dst r) = row r).
    { intro r. unfold px, row, rowmap. rewrite concat_map_rows by auto. reflexivity. }
    f_equal. rewrite <- !C. reflexivity.
  - intros x [[[d0 d1] d2] d3] [b w] Hd Hbw. rewrite (nth_error_bw fw insz outsz x W) in Hbw.
    destruct (x <? outsz)%nat eqn:Ex; [|discriminate]. injection Hbw as <- <-. cbn [fst snd].
    pose proof (wf_nth fw insz outsz x W ltac:(lia)) as Wx. cbv zeta in Wx.
    set (b := nth x (bounds fw) (mkBound 0 0)) in *.
    assert (Lcw := chunk_weights_length fw insz outsz x W ltac:(lia)).
    destruct (row_pixel_4_ok cn src ss b (chunk (aligned_size fw) (weights fw) x) H ltac:(nia) ltac:(lia))
      as ([[[g0 g1] g2] g3] & -> & Hg0 & Hg1 & Hg2 & Hg3).
    cbn [bind].
    rewrite nth_error_firstn, Ex in Hd. unfold cols in Hd. rewrite nth_error_zip4, !nth_error_chunks in Hd.
    rewrite !Lc in Hd by lia. replace (x <? ds / cn)%nat with true in Hd by lia.
    injection Hd as <- <- <- <-.
    assert (Lx : forall r, (r < 4)%nat -> length (chunk cn (chunk ds dst r) x) = cn).
    { intros r Hr. apply chunk_length. rewrite Lc by lia. lia. }
    rewrite !store_cg_ok by first [exact H | apply Lx; lia]. cbn [bind].
    assert (V : forall r g, (r < 4)%nat -> holds cn g (rowA src (ss * r) cn b (chunk (aligned_size fw) (weights fw) x)) ->
        map (fun c => lane c (cg_narrow (saturate_narrow maxv) 0 cn g)) (seq 0 cn) = px r x).
    { intros r g Hr Hg. unfold px. apply map_seq_ext. intros c Hc.
      rewrite cg_narrow_lane by (unfold cn_ok in H; lia). rewrite (Hg c) by lia.
      unfold hval, rowA. fold b. f_equal. f_equal. f_equal. apply zsum_ext. intros k Hk.
      rewrite nth_chunk by lia. f_equal.
      rewrite nth_chunk by nia. f_equal. lia. }
    rewrite (V 0%nat g0) by (try lia; rewrite Nat.mul_0_r; assumption).
    rewrite (V 1%nat g1) by (try lia; rewrite Nat.mul_1_r; assumption).
    rewrite (V 2%nat g2) by (try lia; assumption).
    rewrite (V 3%nat g3) by (try lia; assumption).
    reflexivity.
  - rewrite (bw_length fw insz outsz W), firstn_length. lia.
Qed.
