(** Closed forms of the packed 30-bit kernels of Ar30.v. *)
From Coq Require Import ZifyBool ZifyNat.
From Verif Require Import Base BaseProofs ImageStore ColorGroup FixedPoint Dispatch Spec KernelProofs Kernel4Proofs ColumnProofs DispatchProofs Ar30.
Import ListNotations.
Local Open Scope Z_scope.

Lemma cn4 : cn_ok 4. Proof. unfold cn_ok; lia. Qed.

Section Kernels.
Variables (t : rgb30) (o : byte_order).

(** Component c of the pixel whose four bytes start at [off]. *)
Definition comp (s : list Z) (off c : nat) : Z :=
  lane c (unpack t o (word_of_bytes (nth off s 0) (nth (off + 1) s 0) (nth (off + 2) s 0) (nth (off + 3) s 0))).

Lemma load_ar30_ok s k : (k * 4 + 4 <= length s)%nat ->
  load_ar30 t o s k = Done (unpack t o (word_of_bytes (nth (k * 4) s 0) (nth (k * 4 + 1) s 0) (nth (k * 4 + 2) s 0) (nth (k * 4 + 3) s 0))).
Proof. intro H. unfold load_ar30. rewrite !(idx_ok s _ 0) by lia. reflexivity. Qed.

Lemma load_ar30_comp s k : (k * 4 + 4 <= length s)%nat ->
  yields (load_ar30 t o s k) (fun g => forall c, lane c g = comp s (k * 4) c).
Proof. intro H. rewrite load_ar30_ok by auto. eexists; split; [reflexivity|]. reflexivity. Qed.

Lemma comp_ext s s' a b c : (forall i, (i < 4)%nat -> nth (a + i) s 0 = nth (b + i) s' 0) -> comp s a c = comp s' b c.
Proof.
  intro H. unfold comp. pose proof (H 0%nat ltac:(lia)) as H0. rewrite !Nat.add_0_r in H0.
  rewrite H0, (H 1%nat), (H 2%nat), (H 3%nat) by lia. reflexivity.
Qed.

Definition comps (src : list Z) (px n : nat) (ws : list Z) (c : nat) : Z :=
  zsum n (fun k => comp src (px + k * 4) c * nth k ws 0).

Lemma ar_unrolled_ok p : forall ws i acc A,
  holds 4 acc A -> (4 * (i + length ws) <= length p)%nat ->
  yields (ar_unrolled t o p i acc ws)
         (fun g => holds 4 g (fun c => A c + comps p (i * 4) (length ws) ws c)).
Proof.
  intros ws. induction ws as [|w ws IH]; intros i acc A HA L.
  - eexists; split; [reflexivity|]. intros c Hc. unfold comps. cbn. rewrite Z.add_0_r. apply HA; auto.
  - cbn [length] in L. cbn [ar_unrolled].
    eapply yields_bind; [apply load_ar30_comp; lia|]. intros g0 Hg0. cbv beta in Hg0.
    eapply yields_bind; [apply (cg_mul_ok 4); apply cn4|]. intros m Hm. cbv beta in Hm.
    eapply yields_bind; [apply (cg_lanes2_ok 4); apply cn4|]. intros acc' Hacc. cbv beta in Hacc.
    eapply yields_weaken; [apply (IH (S i) acc' (fun c => A c + comp p (i * 4) c * w)); [|lia]|].
    + intros c Hc. rewrite Hacc, Hm, Hg0 by auto. rewrite (HA c Hc). apply mul_add_lane.
    + intros g Hg c Hc. rewrite (Hg c Hc). f_equal. unfold comps. cbn [length]. rewrite zsum_S_l.
      cbn [nth]. rewrite Nat.mul_0_l, Nat.add_0_r. rewrite Z.add_assoc. f_equal.
      apply zsum_ext. intros k Hk. do 2 f_equal. lia.
Qed.

Lemma slice_nth (src : list Z) px n : (px + n <= length src)%nat ->
  length (firstn n (skipn px src)) = n /\ forall j, (j < n)%nat -> nth j (firstn n (skipn px src)) 0 = nth (px + j) src 0.
Proof.
  intro H. split.
  - rewrite firstn_length, skipn_length. lia.
  - intros j Hj. rewrite nth_firstn by lia. apply nth_skipn.
Qed.

Lemma ar_taps_fixed_ok n src px ws sums A :
  (0 < n)%nat -> (px + n * 4 <= length src)%nat -> (n <= length ws)%nat ->
  holds 4 sums A ->
  yields (ar_taps_fixed t o n src px ws sums) (fun g => holds 4 g (fun c => A c + comps src px n ws c)).
Proof.
  intros Hn L Lw HA. unfold ar_taps_fixed.
  rewrite slice_ok by lia. cbn [bind]. rewrite slice_ok by lia. cbn [bind].
  replace (px + n * 4 - px)%nat with (n * 4)%nat by lia. rewrite Nat.sub_0_r. cbn [skipn].
  destruct ws as [|w0 ws]; [cbn in Lw; lia|]. destruct n as [|n]; [lia|]. cbn [firstn].
  destruct (slice_nth src px (S n * 4) ltac:(lia)) as [Lp Np].
  change (firstn (S n * 4) (skipn px src)) with (firstn (S n * 4) (skipn px src)) in *.
  set (p := firstn (S n * 4) (skipn px src)) in *.
  eapply yields_bind; [apply load_ar30_comp; lia|]. intros g0 Hg0. cbv beta in Hg0.
  eapply yields_bind; [apply (cg_mul_ok 4); apply cn4|]. intros t0 Ht0. cbv beta in Ht0.
  cbn [length] in Lw.
  eapply yields_bind.
  { apply (ar_unrolled_ok p (firstn n ws) 1 t0 (fun c => comp p 0 c * w0)).
    - intros c Hc. rewrite Ht0, Hg0 by auto. reflexivity.
    - rewrite firstn_length. lia. }
  intros g1 Hg1. cbv beta in Hg1.
  eapply yields_weaken; [apply (cg_lanes2_ok 4); apply cn4|].
  intros g Hg c Hc. rewrite (Hg c Hc), (HA c Hc), (Hg1 c Hc), add32_wrap.
  f_equal. f_equal. unfold comps. rewrite zsum_S_l.
  rewrite firstn_length, Nat.min_l by lia. cbn [nth]. f_equal.
  - f_equal. apply comp_ext. intros i Hi. rewrite Np by lia. f_equal. lia.
  - apply zsum_ext. intros k Hk. rewrite nth_firstn by lia. f_equal.
    apply comp_ext. intros i Hi. rewrite Np by lia. f_equal. lia.
Qed.

Lemma ar_fold_taps_ok : forall (l : list (Z * list Z)) sums A,
  (forall w p, In (w, p) l -> length p = 4%nat) ->
  holds 4 sums A ->
  yields (foldM (ar_tap_step t o) l sums)
   (fun g => holds 4 g (fun c => A c + zsum (length l) (fun k => comp (snd (nth k l (0, []))) 0 c * fst (nth k l (0, []))))).
Proof.
  intros l. induction l as [|[w p] l IH]; intros sums A Hl HA.
  - eexists; split; [reflexivity|]. intros c Hc. cbn. rewrite Z.add_0_r. apply HA; auto.
  - cbn [foldM]. assert (Lp : length p = 4%nat) by (apply (Hl w p); left; reflexivity).
    assert (yields (ar_tap_step t o sums (w, p)) (fun g => holds 4 g (fun c => A c + comp p 0 c * w))).
    { unfold ar_tap_step.
      eapply yields_bind; [apply load_ar30_comp; lia|]. intros g0 Hg0. cbv beta in Hg0.
      eapply yields_bind; [apply (cg_mul_ok 4); apply cn4|]. intros m Hm. cbv beta in Hm.
      eapply yields_weaken; [apply (cg_lanes2_ok 4); apply cn4|].
      intros g Hg c Hc. rewrite (Hg c Hc), (HA c Hc), Hm, Hg0 by auto. apply mul_add_lane. }
    eapply yields_bind; [eassumption|]. intros g Hg.
    eapply yields_weaken; [apply (IH g _ (fun w' p' Hin => Hl w' p' (or_intror Hin)) Hg)|].
    intros g' Hg' c Hc. rewrite (Hg' c Hc). f_equal. cbn [length]. rewrite zsum_S_l. cbn [nth fst snd].
    ring_simplify. reflexivity.
Qed.

Lemma slice_chunks4 (src : list Z) px bytes : (px + bytes <= length src)%nat ->
  let p := firstn bytes (skipn px src) in
  length (chunks_exact 4 p) = (bytes / 4)%nat /\
  (forall k, (k < bytes / 4)%nat -> nth k (chunks_exact 4 p) [] = chunk 4 p k) /\
  (forall k c, (k < bytes / 4)%nat -> comp (chunk 4 p k) 0 c = comp src (px + k * 4) c) /\
  (forall k, (k < bytes / 4)%nat -> length (chunk 4 p k) = 4%nat).
Proof.
  intros L p. destruct (slice_nth src px bytes L) as [Lp Np]. fold p in Lp, Np.
  assert (B : forall k, (k < bytes / 4)%nat -> (k * 4 + 4 <= bytes)%nat).
  { intros k Hk. pose proof (Nat.mul_div_le bytes 4). lia. }
  repeat split.
  - rewrite chunks_exact_length, Lp. reflexivity.
  - intros k Hk. apply nth_error_nth. rewrite nth_error_chunks, Lp.
    replace (k <? bytes / 4)%nat with true by lia. reflexivity.
  - intros k c Hk. apply comp_ext. intros i Hi. specialize (B k Hk). rewrite nth_chunk by lia.
    rewrite Np by lia. f_equal. lia.
  - intros k Hk. apply chunk_length. rewrite Lp. exact Hk.
Qed.

(** The one-row kernel looks at [bytes] / 4 pixels only. *)
Lemma ar_general_ok src px bytes taps ws sums A :
  (px + bytes <= length src)%nat -> (bytes / 4 <= taps)%nat -> (taps <= length ws)%nat ->
  holds 4 sums A ->
  yields (foldM (ar_tap_step t o) (firstn taps (combine ws (chunks_exact 4 (firstn bytes (skipn px src))))) sums)
    (fun g => holds 4 g (fun c => A c + comps src px (bytes / 4) ws c)).
Proof.
  intros L Lt Lw HA.
  destruct (slice_chunks4 src px bytes L) as (C1 & C2 & C3 & C4).
  set (p := firstn bytes (skipn px src)) in *.
  set (l := firstn taps (combine ws (chunks_exact 4 p))).
  assert (Ll : length l = (bytes / 4)%nat).
  { unfold l. rewrite firstn_length, combine_length, C1. lia. }
  assert (Nl : forall k, (k < bytes / 4)%nat -> nth k l (0, []) = (nth k ws 0, chunk 4 p k)).
  { intros k Hk. unfold l. rewrite nth_firstn by lia. rewrite nth_combine_lt by lia.
    rewrite C2 by lia. reflexivity. }
  eapply yields_weaken; [apply (ar_fold_taps_ok l sums A); [|exact HA]|].
  - intros w q Hin. apply (In_nth _ _ (0, [])) in Hin. destruct Hin as (k & Hk & E).
    rewrite Ll in Hk. rewrite Nl in E by lia. injection E as _ <-. auto.
  - intros g Hg c Hc. rewrite (Hg c Hc), Ll. do 2 f_equal. unfold comps.
    apply zsum_ext. intros k Hk. rewrite Nl by lia. cbn [fst snd]. rewrite C3 by lia. reflexivity.
Qed.

(** Taps the one-row kernel takes from a window of n pixels. *)
Definition short_taps (n : nat) : nat :=
  match n with 2%nat => 2%nat | 3%nat => 3%nat | 4%nat => 4%nat | 6%nat => 6%nat | _ => (n / 4)%nat end.

Lemma short_taps_le n : (short_taps n <= n)%nat.
Proof.
  assert (n / 4 <= n)%nat by (apply Nat.div_le_upper_bound; lia).
  unfold short_taps. destruct n as [|[|[|[|[|[|[|n]]]]]]]; lia.
Qed.

Lemma dup_holds : holds 4 (cg_dup ROUNDING_CONST) (fun _ => ROUNDING_CONST).
Proof. intros c Hc. lanes c Hc; reflexivity. Qed.

Lemma ar_row_pixel_ok src b ws :
  ((bstart b + bsize b) * 4 <= length src)%nat -> (bsize b <= length ws)%nat ->
  yields (ar_row_pixel t o src b ws)
    (fun g => holds 4 g (fun c => ROUNDING_CONST + comps src (bstart b * 4) (short_taps (bsize b)) ws c)).
Proof.
  intros L Lw. unfold ar_row_pixel. pose proof dup_holds as HA.
  assert (G : forall n, (bstart b * 4 + n * 4 <= length src)%nat -> (n <= length ws)%nat ->
    yields (ar_taps_general t o src (bstart b * 4) n ws (cg_dup ROUNDING_CONST))
      (fun g => holds 4 g (fun c => ROUNDING_CONST + comps src (bstart b * 4) (n / 4) ws c))).
  { intros n Ln Lwn. unfold ar_taps_general. rewrite slice_ok by lia. cbn [bind].
    replace (bstart b * 4 + n - bstart b * 4)%nat with n by lia.
    rewrite chunks_exact_o_ok by lia. cbn [bind].
    apply (ar_general_ok src (bstart b * 4) n n ws _ (fun _ => ROUNDING_CONST)); auto; lia. }
  remember (bsize b) as sz eqn:E.
  destruct sz as [|[|[|[|[|[|[|sz]]]]]]];
    first [ apply (ar_taps_fixed_ok _ _ _ _ _ (fun _ => ROUNDING_CONST)); auto; lia | apply G; lia ].
Qed.

(** ** The four-row kernel *)
Lemma ar_taps_fixed_4_ok n src ss px ws s A0 A1 A2 A3 :
  (0 < n)%nat -> (px + ss * 3 + n * 4 <= length src)%nat -> (n <= length ws)%nat ->
  holds4 4 s A0 A1 A2 A3 ->
  yields (ar_taps_fixed_4 t o n src ss px ws s)
    (fun g => holds4 4 g (fun c => A0 c + comps src px n ws c) (fun c => A1 c + comps src (px + ss) n ws c)
                (fun c => A2 c + comps src (px + ss * 2) n ws c) (fun c => A3 c + comps src (px + ss * 3) n ws c)).
Proof.
  intros Hn L Lw HA. destruct s as [[[s0 s1] s2] s3]. destruct HA as (H0 & H1 & H2 & H3).
  unfold ar_taps_fixed_4.
  eapply yields_bind; [eapply ar_taps_fixed_ok; eauto; nia|]. intros g0 G0.
  eapply yields_bind; [eapply ar_taps_fixed_ok; eauto; nia|]. intros g1 G1.
  eapply yields_bind; [eapply ar_taps_fixed_ok; eauto; nia|]. intros g2 G2.
  eapply yields_bind; [eapply ar_taps_fixed_ok; eauto; nia|]. intros g3 G3.
  eexists; split; [reflexivity|]. repeat split; assumption.
Qed.

Lemma ar_fold_taps_4_ok : forall n (ws : list Z) (c0 c1 c2 c3 : list (list Z)) s A0 A1 A2 A3,
  length ws = n -> length c0 = n -> length c1 = n -> length c2 = n -> length c3 = n ->
  Forall (fun p => length p = 4%nat) c0 -> Forall (fun p => length p = 4%nat) c1 ->
  Forall (fun p => length p = 4%nat) c2 -> Forall (fun p => length p = 4%nat) c3 ->
  holds4 4 s A0 A1 A2 A3 ->
  let add cs A := (fun c => A c + zsum n (fun k => comp (nth k cs []) 0 c * nth k ws 0)) in
  yields (foldM (ar_tap_step_4 t o) (combine (combine (combine (combine ws c0) c1) c2) c3) s)
    (fun g => holds4 4 g (add c0 A0) (add c1 A1) (add c2 A2) (add c3 A3)).
Proof.
  intros n. induction n as [|n IH]; intros ws c0 c1 c2 c3 s A0 A1 A2 A3 Lw L0 L1 L2 L3 F0 F1 F2 F3 HA add.
  - destruct ws; [|discriminate]. eexists; split; [reflexivity|].
    destruct s as [[[s0 s1] s2] s3]. destruct HA as (H0 & H1 & H2 & H3).
    unfold holds4, add. cbn [zsum].
    repeat split; intros c Hc; rewrite Z.add_0_r; auto.
  - destruct ws as [|w ws]; [discriminate|]. destruct c0 as [|p0 c0]; [discriminate|].
    destruct c1 as [|p1 c1]; [discriminate|]. destruct c2 as [|p2 c2]; [discriminate|].
    destruct c3 as [|p3 c3]; [discriminate|].
    cbn [combine foldM].
    inversion F0 as [|? ? E0 F0']; subst. inversion F1 as [|? ? E1 F1']; subst.
    inversion F2 as [|? ? E2 F2']; subst. inversion F3 as [|? ? E3 F3']; subst.
    destruct s as [[[s0 s1] s2] s3]. destruct HA as (H0 & H1 & H2 & H3).
    assert (S1 : yields (ar_tap_step_4 t o (s0, s1, s2, s3) (w, p0, p1, p2, p3))
       (fun g => holds4 4 g (fun c => A0 c + comp p0 0 c * w) (fun c => A1 c + comp p1 0 c * w)
                  (fun c => A2 c + comp p2 0 c * w) (fun c => A3 c + comp p3 0 c * w))).
    { unfold ar_tap_step_4.
      do 4 (eapply yields_bind; [apply load_ar30_comp; lia|]; intros ? ?).
      do 4 (eapply yields_bind; [apply (cg_mul_ok 4); apply cn4|]; intros ? ?;
            eapply yields_bind; [apply (cg_lanes2_ok 4); apply cn4|]; intros ? ?).
      eexists; split; [reflexivity|]. cbv beta in *.
      repeat split; intros c Hc;
        repeat match goal with X : forall c, (c < 4)%nat -> lane c ?g = _ |- context [lane _ ?g] => rewrite (X c Hc) end;
        repeat match goal with X : forall c, lane c ?g = _ |- context [lane _ ?g] => rewrite (X c) end;
        repeat match goal with X : holds 4 ?g _ |- context [lane _ ?g] => rewrite (X c Hc) end;
        apply mul_add_lane. }
    eapply yields_bind; [exact S1|]. intros g Hg. cbv beta in Hg.
    eapply yields_weaken.
    { eapply (IH ws c0 c1 c2 c3 g); [..|exact Hg]; first [assumption | cbn in *; lia]. }
    intros [[[g0 g1] g2] g3] (G0 & G1 & G2 & G3). unfold add. clear add.
    repeat split; intros c Hc;
      first [rewrite (G0 c Hc)|rewrite (G1 c Hc)|rewrite (G2 c Hc)|rewrite (G3 c Hc)];
      f_equal; rewrite zsum_S_l; cbn [nth]; ring.
Qed.

Lemma ar_taps_general_4_ok n src ss px ws s A0 A1 A2 A3 :
  (px + ss * 3 + n * 4 <= length src)%nat -> (n <= length ws)%nat ->
  holds4 4 s A0 A1 A2 A3 ->
  yields (ar_taps_general_4 t o src ss px n ws s)
    (fun g => holds4 4 g (fun c => A0 c + comps src px n ws c) (fun c => A1 c + comps src (px + ss) n ws c)
                (fun c => A2 c + comps src (px + ss * 2) n ws c) (fun c => A3 c + comps src (px + ss * 3) n ws c)).
Proof.
  intros L Lw HA. unfold ar_taps_general_4.
  rewrite !slice_ok by nia. cbn [bind].
  rewrite !chunks_exact_o_ok by lia. cbn [bind].
  rewrite !firstn_combine.
  assert (D : forall q, (q + n * 4 - q = n * 4)%nat) by (intros; lia). rewrite !D.
  assert (D4 : (n * 4 / 4 = n)%nat) by (apply Nat.div_mul; lia).
  destruct (slice_chunks4 src px (n * 4) ltac:(nia)) as (C01 & C02 & C03 & C04).
  destruct (slice_chunks4 src (px + ss) (n * 4) ltac:(nia)) as (C11 & C12 & C13 & C14).
  destruct (slice_chunks4 src (px + ss * 2) (n * 4) ltac:(nia)) as (C21 & C22 & C23 & C24).
  destruct (slice_chunks4 src (px + ss * 3) (n * 4) ltac:(nia)) as (C31 & C32 & C33 & C34).
  rewrite D4 in *.
  rewrite !(firstn_all2 (n:=n) (chunks_exact _ _)) by lia.
  eapply yields_weaken.
  { apply (ar_fold_taps_4_ok n); eauto using chunks_exact_Forall_len.
    rewrite firstn_length. lia. }
  intros [[[g0 g1] g2] g3] (G0 & G1 & G2 & G3). unfold comps.
  repeat split; intros c Hc;
      first [rewrite (G0 c Hc)|rewrite (G1 c Hc)|rewrite (G2 c Hc)|rewrite (G3 c Hc)];
      f_equal; f_equal; apply zsum_ext; intros k Hk; rewrite nth_firstn by lia; f_equal.
  - rewrite C02, C03 by lia. reflexivity.
  - rewrite C12, C13 by lia. reflexivity.
  - rewrite C22, C23 by lia. reflexivity.
  - rewrite C32, C33 by lia. reflexivity.
Qed.

Lemma ar_row_pixel_4_ok src ss b ws :
  (ss * 3 + (bstart b + bsize b) * 4 <= length src)%nat -> (bsize b <= length ws)%nat ->
  let A off := (fun c => ROUNDING_CONST + comps src (bstart b * 4 + off) (bsize b) ws c) in
  yields (ar_row_pixel_4 t o src ss b ws)
    (fun g => holds4 4 g (A 0%nat) (A ss) (A (ss * 2)%nat) (A (ss * 3)%nat)).
Proof.
  intros L Lw A. unfold ar_row_pixel_4.
  set (r := cg_dup ROUNDING_CONST).
  assert (HA : holds4 4 (r, r, r, r) (fun _ => ROUNDING_CONST) (fun _ => ROUNDING_CONST)
                 (fun _ => ROUNDING_CONST) (fun _ => ROUNDING_CONST)) by (pose proof dup_holds; repeat split; auto).
  unfold A. rewrite Nat.add_0_r.
  remember (bsize b) as sz eqn:E.
  destruct sz as [|[|[|[|[|[|[|sz]]]]]]];
    first [ apply (ar_taps_fixed_4_ok _ _ _ _ _ _ (fun _ => ROUNDING_CONST) (fun _ => ROUNDING_CONST) (fun _ => ROUNDING_CONST) (fun _ => ROUNDING_CONST)); auto; nia
          | apply (ar_taps_general_4_ok _ _ _ _ _ _ (fun _ => ROUNDING_CONST) (fun _ => ROUNDING_CONST) (fun _ => ROUNDING_CONST) (fun _ => ROUNDING_CONST)); auto; nia ].
Qed.

(** ** Storing *)
(** The four bytes of a pixel with the given accumulators. *)
Definition packed (A : nat -> Z) : list Z :=
  bytes_of_word (pack_w_a t o (clamp10 (wrap32 (A 0%nat))) (clamp10 (wrap32 (A 1%nat))) (clamp10 (wrap32 (A 2%nat)))).
Lemma packed_length A : length (packed A) = 4%nat. Proof. reflexivity. Qed.
Lemma packed_ext A B : (forall c, (c < 3)%nat -> A c = B c) -> packed A = packed B.
Proof. intro H. unfold packed. rewrite !H by lia. reflexivity. Qed.

Lemma store_ar30_ok g A d : holds 4 g A -> length d = 4%nat -> store_ar30 t o g d = Done (packed A).
Proof.
  intros H L. unfold store_ar30, bytes_ar30.
  change (cr g) with (lane 0 g). change (cgr g) with (lane 1 g). change (cb g) with (lane 2 g).
  rewrite !H by lia.
  do 5 (destruct d as [|? d]; [try discriminate L|]); try discriminate L. reflexivity.
Qed.

(** ** Rows *)
(** Accumulators of output pixel x of a row [s], [taps] telling how much of a window is used. *)
Definition hacc (taps : nat -> nat) (fw : fweights Z) (s : list Z) (x c : nat) : Z :=
  let b := nth x (bounds fw) (mkBound 0 0) in
  ROUNDING_CONST + comps s (bstart b * 4) (taps (bsize b)) (skipn (x * aligned_size fw) (weights fw)) c.
Definition hrow (taps : nat -> nat) (fw : fweights Z) (outsz : nat) (s d : list Z) : list Z :=
  rowmap (outsz * 4) (fun j => nth (j mod 4) (packed (hacc taps fw s (j / 4))) 0) d.

Lemma concat_packed (P : nat -> list Z) n : (forall x, length (P x) = 4%nat) ->
  concat (map P (seq 0 n)) = map (fun j => nth (j mod 4) (P (j / 4)%nat) 0) (seq 0 (n * 4)).
Proof.
  intro H. rewrite <- (concat_map_rows 4 n (fun x c => nth c (P x) 0)) by lia.
  f_equal. apply map_seq_ext. intros x _. rewrite (list_as_map_nth (P x) 0) at 1. now rewrite H.
Qed.

Theorem ar_row_handler_closed fw insz outsz src dst :
  wf_fw fw insz outsz -> (insz * 4 <= length src)%nat -> (outsz * 4 <= length dst)%nat ->
  ar_row_handler t o src dst fw = Done (hrow short_taps fw outsz src dst).
Proof.
  intros W Ls Ld.
  unfold ar_row_handler. rewrite chunks_exact_o_ok by lia. cbn [bind].
  rewrite chunks_exact_o_ok by (apply (wf_pos _ _ _ W)). cbn [bind].
  rewrite (zip_mut_idx _ (fun x => packed (hacc short_taps fw src x))).
  - cbn [bind]. f_equal. rewrite (bw_length fw insz outsz W). unfold unchunk.
    rewrite concat_app, <- app_assoc, concat_app_rem_chunks by lia.
    unfold hrow, rowmap. rewrite concat_packed by reflexivity. reflexivity.
  - intros x d [b w] Hd Hbw. rewrite (nth_error_bw fw insz outsz x W) in Hbw.
    destruct (x <? outsz)%nat eqn:Ex; [|discriminate]. injection Hbw as <- <-. cbn [fst snd].
    pose proof (wf_nth fw insz outsz x W ltac:(lia)) as Wx. cbv zeta in Wx.
    set (b := nth x (bounds fw) (mkBound 0 0)) in *.
    assert (Lc := chunk_weights_length fw insz outsz x W ltac:(lia)).
    destruct (ar_row_pixel_ok src b (chunk (aligned_size fw) (weights fw) x) ltac:(nia) ltac:(lia)) as (g & -> & Hg).
    cbn [bind]. rewrite nth_error_chunks in Hd.
    destruct (x <? length dst / 4)%nat eqn:Exd; [|discriminate]. injection Hd as <-.
    rewrite (store_ar30_ok g _ _ Hg) by (apply chunk_length; lia).
    f_equal. apply packed_ext. intros c Hc. unfold hacc. fold b. f_equal. unfold comps. apply zsum_ext. intros k Hk.
    pose proof (short_taps_le (bsize b)).
    rewrite nth_chunk by lia. rewrite nth_skipn. reflexivity.
  - rewrite (bw_length fw insz outsz W), chunks_exact_length. apply Nat.div_le_lower_bound; lia.
Qed.

Theorem ar_row_handler_4_closed fw insz outsz src ss dst ds :
  wf_fw fw insz outsz -> (insz * 4 <= ss)%nat -> (outsz * 4 <= ds)%nat ->
  length src = (4 * ss)%nat -> length dst = (4 * ds)%nat ->
  let row r := hrow (fun n => n) fw outsz (chunk ss src r) (chunk ds dst r) in
  ar_row_handler_4 t o src ss dst ds fw = Done (row 0%nat ++ row 1%nat ++ row 2%nat ++ row 3%nat).
Proof.
  intros W Ls Ld Lsrc Ldst row.
  unfold ar_row_handler_4.
  rewrite split_at_ok by lia. cbn [bind].
  rewrite split_at_ok by (rewrite skipn_length; lia). cbn [bind].
  rewrite split_at_ok by (rewrite !skipn_length; lia). cbn [bind].
  rewrite !skipn_skipn_add.
  assert (R0 : firstn ds dst = chunk ds dst 0) by reflexivity.
  assert (R1 : firstn ds (skipn ds dst) = chunk ds dst 1) by (unfold chunk; now rewrite Nat.mul_1_l).
  assert (R2 : firstn ds (skipn (ds + ds) dst) = chunk ds dst 2) by (unfold chunk; do 2 f_equal; lia).
  assert (R3 : skipn (ds + ds + ds) dst = chunk ds dst 3).
  { unfold chunk. rewrite firstn_all2 by (rewrite skipn_length; lia). f_equal; lia. }
  rewrite R0, R1, R2, R3.
  rewrite !(chunks_exact_o_ok 4) by lia. cbn [bind].
  rewrite chunks_exact_o_ok by (apply (wf_pos _ _ _ W)). cbn [bind].
  assert (Lc : forall r, (r < 4)%nat -> length (chunk ds dst r) = ds).
  { intros r Hr. unfold chunk. rewrite firstn_length, skipn_length. nia. }
  assert (Lq : (outsz <= ds / 4)%nat) by (apply Nat.div_le_lower_bound; lia).
  set (cols := zip4 _ _ _ _).
  assert (Lcols : length cols = (ds / 4)%nat).
  { apply zip4_length; rewrite chunks_exact_length, Lc by lia; reflexivity. }
  rewrite (bw_length fw insz outsz W), Lcols, Nat.min_r by lia.
  set (px r x := packed (hacc (fun n => n) fw (chunk ss src r) x)).
  rewrite (zip_mut_idx _ (fun x => (px 0 x, px 1 x, px 2 x, px 3 x)%nat)).
  - cbn [bind]. rewrite (bw_length fw insz outsz W).
    rewrite (skipn_all2 (firstn outsz cols)) by (rewrite firstn_length; lia). rewrite app_nil_r.
    rewrite !map_map. unfold rebuild_row. rewrite !map_length, !seq_length.
    assert (C : forall r, concat (map (px r) (seq 0 outsz)) ++ skipn (outsz * 4) (chunk ds dst r) = row r).
    { intro r. unfold px, row, hrow, rowmap. rewrite concat_packed by reflexivity. reflexivity. }
    f_equal. rewrite <- !C. reflexivity.
  - intros x [[[d0 d1] d2] d3] [b w] Hd Hbw. rewrite (nth_error_bw fw insz outsz x W) in Hbw.
    destruct (x <? outsz)%nat eqn:Ex; [|discriminate]. injection Hbw as <- <-. cbn [fst snd].
    pose proof (wf_nth fw insz outsz x W ltac:(lia)) as Wx. cbv zeta in Wx.
    set (b := nth x (bounds fw) (mkBound 0 0)) in *.
    assert (Lcw := chunk_weights_length fw insz outsz x W ltac:(lia)).
    destruct (ar_row_pixel_4_ok src ss b (chunk (aligned_size fw) (weights fw) x) ltac:(nia) ltac:(lia))
      as ([[[g0 g1] g2] g3] & -> & Hg0 & Hg1 & Hg2 & Hg3).
    cbn [bind].
    rewrite nth_error_firstn, Ex in Hd. unfold cols in Hd. rewrite nth_error_zip4, !nth_error_chunks in Hd.
    rewrite !Lc in Hd by lia. replace (x <? ds / 4)%nat with true in Hd by lia.
    injection Hd as <- <- <- <-.
    assert (Lx : forall r, (r < 4)%nat -> length (chunk 4 (chunk ds dst r) x) = 4%nat).
    { intros r Hr. apply chunk_length. rewrite Lc by lia. lia. }
    rewrite (store_ar30_ok g0 _ _ Hg0), (store_ar30_ok g1 _ _ Hg1), (store_ar30_ok g2 _ _ Hg2), (store_ar30_ok g3 _ _ Hg3)
      by (apply Lx; lia). cbn [bind].
    assert (V : forall r off, (r < 4)%nat -> off = (ss * r)%nat ->
       packed (fun c => ROUNDING_CONST + comps src (bstart b * 4 + off) (bsize b) (chunk (aligned_size fw) (weights fw) x) c) = px r x).
    { intros r off Hr ->. unfold px. apply packed_ext. intros c Hc. unfold hacc. fold b. f_equal. unfold comps.
      apply zsum_ext. intros k Hk.
      rewrite nth_chunk by lia. rewrite nth_skipn. f_equal. apply comp_ext. intros i Hi.
      rewrite nth_chunk by nia. f_equal. lia. }
    rewrite (V 0%nat) by lia. rewrite (V 1%nat) by lia. rewrite (V 2%nat) by lia. rewrite (V 3%nat) by lia.
    reflexivity.
  - rewrite (bw_length fw insz outsz W), firstn_length. lia.
Qed.

(** ** Columns *)
Definition vacc (src : list Z) (ss : nat) (ws : list Z) (b : fbound) (x c : nat) : Z :=
  ROUNDING_CONST + zsum (bsize b) (fun k => comp src (ss * (bstart b + k) + x * 4) c * nth k ws 0).

(** A block of accumulators: every entry holds its value. *)
Definition block (n : nat) (A : nat -> nat -> Z) (st : list (cg Z)) : Prop :=
  length st = n /\ forall i g, nth_error st i = Some g -> holds 4 g (A i).

Lemma ar_accumulate_ok w n A st p : block n A st -> length p = (n * 4)%nat ->
  yields (ar_accumulate t o w st p) (block n (fun i c => A i c + comp p (i * 4) c * w)).
Proof.
  intros [Ls Hs] Lp. unfold ar_accumulate. rewrite chunks_exact_o_ok by lia. cbn [bind].
  assert (Lc : length (chunks_exact 4 p) = n) by (rewrite chunks_exact_length, Lp; apply Nat.div_mul; lia).
  assert (Step : forall i s px, nth_error st i = Some s -> nth_error (chunks_exact 4 p) i = Some px ->
    yields (g <- load_ar30 t o px 0 ;; m <- cg_mul mul32 4 g w ;; cg_add_assign add32 4 s m)
      (fun g => holds 4 g (fun c => A i c + comp p (i * 4) c * w))).
  { intros i s px Es Ep. rewrite nth_error_chunks in Ep. destruct (i <? length p / 4)%nat eqn:Ei; [|discriminate].
    injection Ep as <-. assert (Li : length (chunk 4 p i) = 4%nat) by (apply chunk_length; lia).
    eapply yields_bind; [apply load_ar30_comp; lia|]. intros g0 Hg0. cbv beta in Hg0.
    eapply yields_bind; [apply (cg_mul_ok 4); apply cn4|]. intros m Hm. cbv beta in Hm.
    eapply yields_weaken; [apply (cg_lanes2_ok 4); apply cn4|].
    intros g Hg c Hc. rewrite (Hg c Hc), (Hs i s Es c Hc), Hm, Hg0 by auto.
    rewrite mul_add_lane. do 3 f_equal. apply comp_ext. intros k Hk. rewrite nth_chunk by lia. f_equal. }
  revert Ls Lc Step. generalize (chunks_exact 4 p). clear Hs Lp.
  intros cs Ls Lc Step.
  assert (G : forall st cs k, length st = length cs ->
     (forall i s px, nth_error st i = Some s -> nth_error cs i = Some px ->
        yields (g <- load_ar30 t o px 0 ;; m <- cg_mul mul32 4 g w ;; cg_add_assign add32 4 s m)
          (fun g => holds 4 g (fun c => A (k + i)%nat c + comp p ((k + i) * 4) c * w))) ->
     yields (zip_mut (fun s px => g <- load_ar30 t o px 0 ;; m <- cg_mul mul32 4 g w ;; cg_add_assign add32 4 s m) st cs)
       (fun r => length r = length st /\ forall i g, nth_error r i = Some g -> holds 4 g (fun c => A (k + i)%nat c + comp p ((k + i) * 4) c * w))).
  { clear. induction st as [|s st IH]; intros [|px cs] k L H; try discriminate.
    - eexists; split; [reflexivity|]. split; [reflexivity|]. intros [|i] g E; discriminate.
    - cbn [zip_mut]. eapply yields_bind; [apply (H 0%nat s px eq_refl eq_refl)|]. intros g Hg. cbv beta in Hg.
      eapply yields_bind; [apply (IH cs (S k)); [cbn in L; lia|]|].
      + intros i s' px' E1 E2. replace (S k + i)%nat with (k + S i)%nat by lia. apply (H (S i)); assumption.
      + intros r [Lr Hr]. eexists; split; [reflexivity|]. split; [cbn; lia|].
        intros [|i] g' E.
        * cbn in E. injection E as <-. exact Hg.
        * cbn in E. replace (k + S i)%nat with (S k + i)%nat by lia. apply (Hr i g' E). }
  eapply yields_weaken; [apply (G st cs 0%nat); [lia|exact Step]|].
  intros r [Lr Hr]. split; [lia|]. exact Hr.
Qed.

Lemma block_ext n A B st : (forall i c, (i < n)%nat -> (c < 4)%nat -> A i c = B i c) -> block n A st -> block n B st.
Proof.
  intros H [L Hs]. split; [exact L|]. intros i g E c Hc. rewrite (Hs i g E c Hc).
  rewrite H; auto. pose proof (nth_error_Some_lt _ _ _ E). lia.
Qed.

Lemma ar_column_block_ok n src ss filter b x :
  (1 <= bsize b)%nat -> (bsize b <= length filter)%nat ->
  (forall k, (k < bsize b)%nat -> (ss * (bstart b + k) + x * 4 + n * 4 <= length src)%nat) ->
  yields (ar_column_block t o n src ss filter b x) (block n (fun i c => vacc src ss filter b (x + i) c)).
Proof.
  intros H1 Hf Hs. unfold ar_column_block.
  rewrite (idx_ok filter 0 0) by lia. cbn [bind].
  assert (S0 := Hs 0%nat ltac:(lia)). rewrite Nat.add_0_r in S0.
  rewrite slice_ok by lia. cbn [bind].
  set (P y := firstn (n * 4) (skipn (ss * y + x * 4) src)).
  assert (LP : forall k, (k < bsize b)%nat -> length (P (bstart b + k)%nat) = (n * 4)%nat).
  { intros k Hk. unfold P. rewrite firstn_length, skipn_length. specialize (Hs k Hk). lia. }
  assert (NP : forall y i c, (i < n)%nat -> comp (P y) (i * 4) c = comp src (ss * y + (x + i) * 4) c).
  { intros y i c Hi. apply comp_ext. intros m Hm. unfold P. rewrite nth_firstn by lia. rewrite nth_skipn. f_equal. lia. }
  replace (ss * bstart b + x * 4 + n * 4 - (ss * bstart b + x * 4))%nat with (n * 4)%nat by lia.
  fold (P (bstart b)).
  assert (I0 : block n (fun _ _ => ROUNDING_CONST) (repeat (cg_dup ROUNDING_CONST) n)).
  { split; [apply repeat_length|]. intros i g E. rewrite nth_error_repeat_case in E.
    destruct (i <? n)%nat; [|discriminate]. injection E as <-. apply dup_holds. }
  eapply yields_bind; [apply (ar_accumulate_ok _ n _ _ _ I0)|].
  { specialize (LP 0%nat ltac:(lia)). rewrite Nat.add_0_r in LP. exact LP. }
  intros st0 B0. cbv beta in B0.
  assert (G : forall ws j A st, (j + length ws + 1 = bsize b)%nat -> block n A st ->
    yields (foldM (fun st jw => let '(j, w) := jw in
             let py := (bstart b + j + 1)%nat in
             p <- slice src (ss * py + x * 4) (ss * py + x * 4 + n * 4) ;;
             ar_accumulate t o w st p)
      (combine (seq j (length ws)) ws) st)
     (block n (fun i c => A i c + zsum (length ws) (fun k => comp src (ss * (bstart b + (j + 1 + k)) + (x + i) * 4) c * nth k ws 0)))).
  { induction ws as [|w ws IH]; intros j A st Hj Hst.
    - eexists; split; [reflexivity|]. eapply block_ext; [|exact Hst]. intros. cbn. now rewrite Z.add_0_r.
    - cbn [length] in Hj. cbn [length seq combine foldM]. cbv beta iota zeta.
      assert (Sj := Hs (j + 1)%nat ltac:(lia)).
      rewrite slice_ok by lia. cbn [bind].
      replace (bstart b + j + 1)%nat with (bstart b + (j + 1))%nat by lia.
      replace (ss * (bstart b + (j + 1)) + x * 4 + n * 4 - (ss * (bstart b + (j + 1)) + x * 4))%nat with (n * 4)%nat by lia.
      fold (P (bstart b + (j + 1))%nat).
      eapply yields_bind; [apply (ar_accumulate_ok w n A st); [exact Hst|apply LP; lia]|].
      intros st1 B1. cbv beta in B1.
      eapply yields_weaken; [apply (IH (S j) _ st1 ltac:(lia) B1)|].
      intros st2 B2. eapply block_ext; [|exact B2]. intros i c Hi Hc. cbv beta.
      rewrite zsum_S_l. cbn [nth]. rewrite NP by lia. rewrite Nat.add_0_r.
      rewrite Z.add_assoc. f_equal. apply zsum_ext. intros k Hk. do 2 f_equal. f_equal. f_equal. lia. }
  set (ws := skipn 1 (firstn (bsize b) filter)).
  assert (Lws : length ws = (bsize b - 1)%nat).
  { unfold ws. rewrite skipn_length, firstn_length. lia. }
  cbv zeta in G |- *. fold ws.
  eapply yields_weaken; [apply (G ws 0%nat _ st0 ltac:(lia) B0)|].
  intros st B. eapply block_ext; [|exact B]. intros i c Hi Hc. cbv beta. rewrite NP by lia. unfold vacc.
  rewrite <- Z.add_assoc. f_equal.
  destruct (bsize b) as [|sz] eqn:Esz; [lia|]. rewrite zsum_S_l, Nat.add_0_r. f_equal.
  rewrite Lws. replace (S sz - 1)%nat with sz by lia.
  apply zsum_ext. intros k Hk. f_equal.
  unfold ws. rewrite nth_skipn. rewrite nth_firstn by lia. reflexivity.
Qed.

Section Column.
Variables (src : list Z) (ss : nat) (ws : list Z) (b : fbound) (dst : list Z) (total : nat).
Hypothesis Hlen : length dst = (total * 4)%nat.
Hypothesis Hsz : (1 <= bsize b)%nat.
Hypothesis Hws : (bsize b <= length ws)%nat.
Hypothesis Hsrc : forall k, (k < bsize b)%nat -> (ss * (bstart b + k) + total * 4 <= length src)%nat.

Definition vbyte (j : nat) : Z := nth (j mod 4) (packed (vacc src ss ws b (j / 4))) 0.
Let P cx := rowmap (cx * 4) vbyte dst.

Lemma ar_filter_nonempty {X} (A B : X) : match ws with [] => A | _ => B end = B.
Proof. destruct ws; [cbn in Hws; lia|reflexivity]. Qed.

Lemma ar_block_at n x : (x + n <= total)%nat ->
  yields (ar_column_block t o n src ss ws b x) (block n (fun i c => vacc src ss ws b (x + i) c)).
Proof. intro H. apply ar_column_block_ok; auto. intros k Hk. specialize (Hsrc k Hk). lia. Qed.

Lemma ar_store_at n cx st : (cx + n <= total)%nat -> block n (fun i c => vacc src ss ws b (cx + i) c) st ->
  ar_store_block t o (P cx) cx st = Done (P (cx + n)%nat).
Proof.
  intros H [Ls Hs]. unfold ar_store_block.
  assert (LP : length (P cx) = (total * 4)%nat) by (unfold P; rewrite rowmap_length; lia).
  rewrite slice_ok by lia. cbn [bind].
  rewrite chunks_exact_o_ok by lia. cbn [bind].
  set (v := firstn _ _). assert (Lv : length v = (n * 4)%nat).
  { unfold v. rewrite firstn_length, skipn_length. lia. }
  rewrite (zip_mut_idx _ (fun i => packed (vacc src ss ws b (cx + i)))).
  - cbn [bind]. rewrite Ls, (skipn_all2 (chunks_exact 4 v)), app_nil_r.
    2:{ rewrite chunks_exact_length, Lv, Nat.div_mul by lia. lia. }
    f_equal. rewrite concat_packed by reflexivity. unfold P.
    replace ((cx + n) * 4)%nat with (cx * 4 + n * 4)%nat by lia.
    rewrite <- rowmap_step by lia. f_equal.
    apply map_seq_ext. intros j Hj. unfold vbyte.
    replace (cx * 4 + j)%nat with (j + cx * 4)%nat by lia.
    rewrite Nat.mod_add, Nat.div_add by lia. do 3 f_equal. lia.
  - intros i d s Hd Hst. rewrite nth_error_chunks in Hd. destruct (i <? length v / 4)%nat eqn:Ei; [|discriminate].
    injection Hd as <-. apply (store_ar30_ok s _ _ (Hs i s Hst)). apply chunk_length. lia.
  - rewrite Ls, chunks_exact_length, Lv, Nat.div_mul by lia. lia.
Qed.

Lemma ar_direct_at n cx : (cx + n <= total)%nat ->
  ar_column_direct t o n src ss (P cx) ws b cx = Done (P (cx + n)%nat).
Proof.
  intro H. unfold ar_column_direct. rewrite ar_filter_nonempty.
  destruct (ar_block_at n cx H) as (st & -> & B). cbn [bind]. apply ar_store_at; auto.
Qed.

Lemma ar_double_at n cx : (cx + 2 * n <= total)%nat ->
  ar_column_double t o n src ss (P cx) ws b cx = Done (P (cx + 2 * n)%nat).
Proof.
  intro H. unfold ar_column_double. rewrite ar_filter_nonempty.
  destruct (ar_block_at n cx ltac:(lia)) as (st0 & -> & B0). cbn [bind].
  destruct (ar_block_at n (cx + n) ltac:(lia)) as (st1 & -> & B1). cbn [bind].
  rewrite (ar_store_at n) by (auto; lia). cbn [bind].
  rewrite (ar_store_at n) by (auto; lia). do 2 f_equal. lia.
Qed.

Lemma ar_four_at n cx : (cx + 4 * n <= total)%nat ->
  ar_column_four t o n src ss (P cx) ws b cx = Done (P (cx + 4 * n)%nat).
Proof.
  intro H. unfold ar_column_four. rewrite ar_filter_nonempty.
  replace (cx + n * 2)%nat with (cx + n + n)%nat by lia.
  replace (cx + n * 3)%nat with (cx + n + n + n)%nat by lia.
  destruct (ar_block_at n cx ltac:(lia)) as (st0 & -> & B0). cbn [bind].
  destruct (ar_block_at n (cx + n) ltac:(lia)) as (st1 & -> & B1). cbn [bind].
  destruct (ar_block_at n (cx + n + n) ltac:(lia)) as (st2 & -> & B2). cbn [bind].
  destruct (ar_block_at n (cx + n + n + n) ltac:(lia)) as (st3 & -> & B3). cbn [bind].
  rewrite (ar_store_at n) by (auto; lia). cbn [bind].
  rewrite (ar_store_at n) by (auto; lia). cbn [bind].
  rewrite (ar_store_at n) by (auto; lia). cbn [bind].
  rewrite (ar_store_at n) by (auto; lia). do 2 f_equal. lia.
Qed.

Theorem ar_column_handler_closed :
  ar_column_handler t o b src dst ss ws = Done (map vbyte (seq 0 (length dst))).
Proof.
  unfold ar_column_handler.
  assert (P0 : dst = P 0%nat) by reflexivity.
  replace (length dst / 4)%nat with total by (rewrite Hlen, Nat.div_mul; lia).
  destruct (while_tiles_ok P 64 64 total
     (fun d cx => ar_column_four t o 16 src ss d ws b cx)) with (fuel := total) (cx := 0%nat)
     as (c1 & E1 & B1 & _); try lia.
  { intros cx Hcx. rewrite ar_four_at by lia. reflexivity. }
  rewrite <- P0 in E1. rewrite E1. cbn [bind].
  destruct (while_tiles_ok P 32 32 total
     (fun d cx => ar_column_double t o 16 src ss d ws b cx)) with (fuel := total) (cx := c1)
     as (c2 & E2 & B2 & _); try lia.
  { intros cx Hcx. rewrite ar_double_at by lia. reflexivity. }
  rewrite E2. cbn [bind].
  destruct (while_tiles_ok P 16 16 total
     (fun d cx => ar_column_direct t o 16 src ss d ws b cx)) with (fuel := total) (cx := c2)
     as (c3 & E3 & B3 & _); try lia.
  { intros cx Hcx. rewrite ar_direct_at by lia. reflexivity. }
  rewrite E3. cbn [bind].
  destruct (while_tiles_ok P 8 8 total
     (fun d cx => ar_column_direct t o 8 src ss d ws b cx)) with (fuel := total) (cx := c3)
     as (c4 & E4 & B4 & _); try lia.
  { intros cx Hcx. rewrite ar_direct_at by lia. reflexivity. }
  rewrite E4. cbn [bind].
  destruct (while_tiles_ok P 1 0 total
     (fun d cx => ar_column_direct t o 1 src ss d ws b cx)) with (fuel := total) (cx := c4)
     as (c5 & E5 & B5 & F5); try lia.
  { intros cx Hcx. rewrite ar_direct_at by lia. reflexivity. }
  rewrite E5. cbn [bind]. f_equal. assert (c5 = total) by lia. subst c5.
  unfold P, rowmap. rewrite <- Hlen, skipn_all. apply app_nil_r.
Qed.
End Column.
End Kernels.
