(** Closed forms of the portable fixed point kernels of FixedPoint.v. *)
From Coq Require Import ZifyBool ZifyNat.
From Verif Require Import Base BaseProofs ColorGroup FixedPoint Spec.
Local Open Scope Z_scope.

(** ** zsum *)
Lemma zsum_ext n f g : (forall k, (k < n)%nat -> f k = g k) -> zsum n f = zsum n g.
Proof.
  induction n as [|n IH]; intro H; [reflexivity|].
  cbn [zsum]. rewrite IH by (intros; apply H; lia). rewrite (H n) by lia. reflexivity.
Qed.

Lemma zsum_S_l n f : zsum (S n) f = f O + zsum n (fun k => f (S k)).
Proof. induction n as [|n IH]; [cbn; ring|]. cbn [zsum] in *. rewrite IH. ring. Qed.

Lemma zsum_add n f g : zsum n (fun k => f k + g k) = zsum n f + zsum n g.
Proof. induction n as [|n IH]; [reflexivity|]. cbn [zsum]. rewrite IH. ring. Qed.

Lemma zsum_scale n c f : zsum n (fun k => c * f k) = c * zsum n f.
Proof. induction n as [|n IH]; [cbn; ring|]. cbn [zsum]. rewrite IH. ring. Qed.

Lemma zsum_le n f g : (forall k, (k < n)%nat -> f k <= g k) -> zsum n f <= zsum n g.
Proof.
  induction n as [|n IH]; intro H; [cbn; lia|]. cbn [zsum].
  assert (zsum n f <= zsum n g) by (apply IH; intros; apply H; lia).
  specialize (H n ltac:(lia)). lia.
Qed.

Lemma zsum_abs n f : Z.abs (zsum n f) <= zsum n (fun k => Z.abs (f k)).
Proof. induction n as [|n IH]; [cbn; lia|]. cbn [zsum]. lia. Qed.

Lemma zsum_0 n : zsum n (fun _ => 0) = 0.
Proof. induction n as [|n IH]; [reflexivity|]. cbn [zsum]. lia. Qed.

(** ** a tiny program logic for [outcome] *)
Definition yields {A} (m : outcome A) (P : A -> Prop) : Prop := exists a, m = Done a /\ P a.

Lemma yields_bind {A B} (m : outcome A) (k : A -> outcome B) P Q :
  yields m P -> (forall a, P a -> yields (k a) Q) -> yields (bind m k) Q.
Proof. intros (a & -> & Ha) H. exact (H a Ha). Qed.

Lemma yields_weaken {A} (m : outcome A) (P Q : A -> Prop) :
  yields m P -> (forall a, P a -> Q a) -> yields m Q.
Proof. intros (a & -> & Ha) H. exists a; auto. Qed.

(** ** colour groups, lane by lane *)
Definition lane {J} (c : nat) (g : cg J) : J :=
  match c with O => cr g | 1%nat => cgr g | 2%nat => cb g | _ => ca g end.

Definition cn_ok (cn : nat) : Prop := (1 <= cn <= 4)%nat.

Ltac cases_cn cn H :=
  destruct cn as [|[|[|[|[|cn]]]]]; [exfalso; unfold cn_ok in H; lia| | | | |exfalso; unfold cn_ok in H; lia].
Ltac lanes c Hc := destruct c as [|[|[|[|c]]]]; try (exfalso; lia); cbn.

Lemma load_cg_ok cn (s : list Z) off :
  cn_ok cn -> (off + cn <= length s)%nat ->
  yields (load_cg (fun x => x) 0 cn s off)
         (fun g => forall c, (c < cn)%nat -> lane c g = nth (off + c) s 0).
Proof.
  intros H L. cases_cn cn H; cbn [load_cg];
    repeat (erewrite (idx_ok s _ 0) by lia; cbn [bind]);
    (eexists; split; [reflexivity|]; intros c Hc; lanes c Hc; f_equal; lia).
Qed.

Lemma cg_mul_ok cn f (g : cg Z) k :
  cn_ok cn ->
  yields (cg_mul f cn g k) (fun g' => forall c, (c < cn)%nat -> lane c g' = f (lane c g) k).
Proof.
  intro H. cases_cn cn H; cbn [cg_mul]; eexists; (split; [reflexivity|]);
    intros c Hc; lanes c Hc; reflexivity.
Qed.

Lemma cg_lanes2_ok cn f (g h : cg Z) :
  cn_ok cn ->
  yields (cg_lanes2 cn f g h) (fun g' => forall c, (c < cn)%nat -> lane c g' = f (lane c g) (lane c h)).
Proof.
  intro H. cases_cn cn H; cbn [cg_lanes2]; eexists; (split; [reflexivity|]);
    intros c Hc; lanes c Hc; reflexivity.
Qed.

Lemma cg_narrow_lane {J V} (sat : J -> V) d cn (g : cg J) c :
  (c < cn)%nat -> (cn <= 4)%nat -> lane c (cg_narrow sat d cn g) = sat (lane c g).
Proof. intros H L. destruct cn as [|[|[|[|[|cn]]]]]; try lia; lanes c H; reflexivity. Qed.

Lemma store_cg_ok {T} cn (g : cg T) (d : list T) :
  cn_ok cn -> length d = cn ->
  store_cg cn g d = Done (map (fun c => lane c g) (seq 0 cn)).
Proof.
  intros H L. cases_cn cn H;
    do 5 (try (destruct d as [|? d]; [try discriminate L|])); try discriminate L; reflexivity.
Qed.

(** [acc] holds [A c] (mod 2^32) in lane c. *)
Definition holds (cn : nat) (g : cg Z) (A : nat -> Z) : Prop :=
  forall c, (c < cn)%nat -> lane c g = wrap32 (A c).

Lemma mul_add_lane a x w : add32 (wrap32 a) (mul32 x w) = wrap32 (a + x * w).
Proof. unfold mul32. apply add32_wrap. Qed.

Lemma unrolled_ok cn p : cn_ok cn -> forall ws i acc A,
  holds cn acc A -> (cn * (i + length ws) <= length p)%nat ->
  yields (unrolled cn p i acc ws)
         (fun g => holds cn g (fun c => A c + zsum (length ws) (fun k => nth (cn * (i + k) + c) p 0 * nth k ws 0))).
Proof.
  intros H ws. induction ws as [|w ws IH]; intros i acc A HA L.
  - eexists; split; [reflexivity|]. intros c Hc. cbn. rewrite Z.add_0_r. apply HA; auto.
  - cbn [length] in L. cbn [unrolled].
    eapply yields_bind; [apply load_cg_ok; [auto|nia]|]. intros g0 Hg0. cbv beta in Hg0.
    eapply yields_bind; [apply cg_mul_ok; auto|]. intros t Ht. cbv beta in Ht.
    eapply yields_bind; [apply cg_lanes2_ok; auto|]. intros acc' Hacc. cbv beta in Hacc.
    eapply yields_weaken; [apply (IH (S i) acc' (fun c => A c + nth (cn * i + c) p 0 * w)); [|nia]|].
    + intros c Hc. rewrite Hacc, Ht, Hg0 by auto. rewrite (HA c Hc). apply mul_add_lane.
    + intros g Hg c Hc. rewrite (Hg c Hc). f_equal. cbn [length]. rewrite zsum_S_l.
      cbn [nth]. rewrite Nat.add_0_r. rewrite Z.add_assoc. f_equal.
      apply zsum_ext. intros k Hk. do 2 f_equal. f_equal. lia.
Qed.

Lemma taps_fixed_ok n cn src px ws sums A :
  cn_ok cn -> (0 < n)%nat -> (px + n * cn <= length src)%nat -> (n <= length ws)%nat ->
  holds cn sums A ->
  yields (taps_fixed n cn src px ws sums)
    (fun g => holds cn g (fun c => A c + zsum n (fun k => nth (px + k * cn + c) src 0 * nth k ws 0))).
Proof.
  intros H Hn L Lw HA. unfold taps_fixed.
  rewrite slice_ok by lia. cbn [bind]. rewrite slice_ok by lia. cbn [bind].
  replace (px + n * cn - px)%nat with (n * cn)%nat by lia. rewrite Nat.sub_0_r. cbn [skipn].
  destruct ws as [|w0 ws]; [cbn in Lw; lia|]. destruct n as [|n]; [lia|]. cbn [firstn].
  set (p := firstn (S n * cn) (skipn px src)).
  assert (Lp : length p = (S n * cn)%nat).
  { unfold p. rewrite firstn_length, skipn_length. lia. }
  assert (Np : forall j, (j < S n * cn)%nat -> nth j p 0 = nth (px + j) src 0).
  { intros j Hj. unfold p. rewrite nth_firstn by lia. apply nth_skipn. }
  eapply yields_bind; [apply load_cg_ok; [auto|nia]|]. intros g0 Hg0. cbv beta in Hg0.
  eapply yields_bind; [apply cg_mul_ok; auto|]. intros t0 Ht0. cbv beta in Ht0.
  eapply yields_bind.
  { apply (unrolled_ok cn p H (firstn n ws) 1 t0 (fun c => nth c p 0 * w0)).
    - intros c Hc. rewrite Ht0, Hg0 by auto. reflexivity.
    - cbn in Lw. rewrite firstn_length. nia. }
  intros t Ht. cbv beta in Ht.
  eapply yields_weaken; [apply cg_lanes2_ok; auto|].
  intros g Hg c Hc. rewrite (Hg c Hc), (HA c Hc), (Ht c Hc), add32_wrap.
  f_equal. f_equal. rewrite zsum_S_l. cbn [length] in Lw.
  rewrite firstn_length, Nat.min_l by lia.
  cbn [nth]. f_equal.
  - rewrite Np by nia. f_equal. f_equal. lia.
  - apply zsum_ext. intros k Hk. rewrite Np by nia. rewrite nth_firstn by lia. f_equal. f_equal. nia.
Qed.

Lemma fold_taps_ok cn : cn_ok cn -> forall (l : list (Z * list Z)) sums A,
  (forall w p, In (w, p) l -> length p = cn) ->
  holds cn sums A ->
  yields (foldM (tap_step cn) l sums)
   (fun g => holds cn g (fun c => A c + zsum (length l) (fun k => nth c (snd (nth k l (0, []))) 0 * fst (nth k l (0, []))))).
Proof.
  intros H l. induction l as [|[w p] l IH]; intros sums A Hl HA.
  - eexists; split; [reflexivity|]. intros c Hc. cbn. rewrite Z.add_0_r. apply HA; auto.
  - cbn [foldM]. assert (Lp : length p = cn) by (apply (Hl w p); left; reflexivity).
    assert (yields (tap_step cn sums (w, p)) (fun g => holds cn g (fun c => A c + nth c p 0 * w))).
    { unfold tap_step.
      eapply yields_bind; [apply load_cg_ok; [auto|lia]|]. intros g0 Hg0. cbv beta in Hg0.
      eapply yields_bind; [apply cg_mul_ok; auto|]. intros t Ht. cbv beta in Ht.
      eapply yields_weaken; [apply cg_lanes2_ok; auto|].
      intros g Hg c Hc. rewrite (Hg c Hc), (HA c Hc), Ht, Hg0 by auto. apply mul_add_lane. }
    eapply yields_bind; [eassumption|]. intros g Hg.
    eapply yields_weaken; [apply (IH g _ (fun w' p' Hin => Hl w' p' (or_intror Hin)) Hg)|].
    intros g' Hg' c Hc. rewrite (Hg' c Hc). f_equal. cbn [length]. rewrite zsum_S_l. cbn [nth fst snd].
    ring_simplify. reflexivity.
Qed.

Lemma nth_combine_lt {A B} (l1 : list A) (l2 : list B) k d1 d2 :
  (k < length l1)%nat -> (k < length l2)%nat ->
  nth k (combine l1 l2) (d1, d2) = (nth k l1 d1, nth k l2 d2).
Proof.
  intros H1 H2. apply nth_error_nth. rewrite nth_error_combine.
  rewrite (nth_error_nth_lt l1 k d1), (nth_error_nth_lt l2 k d2) by lia. reflexivity.
Qed.

Lemma div_mul_exact n k : (0 < k)%nat -> (n * k / k = n)%nat.
Proof. intro. apply Nat.div_mul. lia. Qed.

Lemma slice_chunks_ok (cn : nat) (src : list Z) px size :
  (0 < cn)%nat -> (px + size * cn <= length src)%nat ->
  let p := firstn (size * cn) (skipn px src) in
  length (chunks_exact cn p) = size /\
  (forall k, (k < size)%nat -> nth k (chunks_exact cn p) [] = chunk cn p k) /\
  (forall k c, (k < size)%nat -> (c < cn)%nat -> nth c (chunk cn p k) 0 = nth (px + k * cn + c) src 0) /\
  (forall k, (k < size)%nat -> length (chunk cn p k) = cn).
Proof.
  intros H L p.
  assert (Lp : length p = (size * cn)%nat) by (unfold p; rewrite firstn_length, skipn_length; lia).
  assert (E : (length p / cn = size)%nat) by (rewrite Lp; apply div_mul_exact; auto).
  repeat split.
  - rewrite chunks_exact_length. exact E.
  - intros k Hk. apply nth_error_nth. rewrite nth_error_chunks, E.
    replace (k <? size)%nat with true by lia. reflexivity.
  - intros k c Hk Hc. rewrite nth_chunk by lia. unfold p. rewrite nth_firstn by nia.
    rewrite nth_skipn. f_equal. lia.
  - intros k Hk. apply chunk_length. lia.
Qed.

Lemma taps_general_ok cn src px size ws sums A :
  cn_ok cn -> (px + size * cn <= length src)%nat -> (size <= length ws)%nat ->
  holds cn sums A ->
  yields (taps_general cn src px size ws sums)
    (fun g => holds cn g (fun c => A c + zsum size (fun k => nth (px + k * cn + c) src 0 * nth k ws 0))).
Proof.
  intros H L Lw HA. unfold taps_general.
  assert (H0 : (0 < cn)%nat) by (unfold cn_ok in H; lia).
  rewrite slice_ok by lia. cbn [bind].
  replace (px + size * cn - px)%nat with (size * cn)%nat by lia.
  rewrite chunks_exact_o_ok by auto. cbn [bind].
  destruct (slice_chunks_ok cn src px size H0 L) as (C1 & C2 & C3 & C4).
  set (p := firstn (size * cn) (skipn px src)) in *.
  set (l := firstn size (combine ws (chunks_exact cn p))).
  assert (Ll : length l = size).
  { unfold l. rewrite firstn_length, combine_length, C1. lia. }
  assert (Nl : forall k, (k < size)%nat -> nth k l (0, []) = (nth k ws 0, chunk cn p k)).
  { intros k Hk. unfold l. rewrite nth_firstn by lia. rewrite nth_combine_lt by lia.
    rewrite C2 by lia. reflexivity. }
  eapply yields_weaken; [apply (fold_taps_ok cn H l sums A); [|exact HA]|].
  - intros w q Hin. apply (In_nth _ _ (0, [])) in Hin. destruct Hin as (k & Hk & E).
    rewrite Ll in Hk. rewrite Nl in E by lia. injection E as _ <-. auto.
  - intros g Hg c Hc. rewrite (Hg c Hc), Ll. do 2 f_equal.
    apply zsum_ext. intros k Hk. rewrite Nl by lia. cbn [fst snd]. rewrite C3 by lia. reflexivity.
Qed.

(** One output pixel of the one-row kernel. *)
Lemma row_pixel_ok cn src b ws :
  cn_ok cn -> ((bstart b + bsize b) * cn <= length src)%nat -> (bsize b <= length ws)%nat ->
  yields (row_pixel cn src b ws)
    (fun g => holds cn g (fun c => ROUNDING_CONST +
       zsum (bsize b) (fun k => nth ((bstart b + k) * cn + c) src 0 * nth k ws 0))).
Proof.
  intros H L Lw. unfold row_pixel.
  assert (HA : holds cn (cg_dup ROUNDING_CONST) (fun _ => ROUNDING_CONST)).
  { intros c Hc. cases_cn cn H; lanes c Hc; reflexivity. }
  assert (Fin : forall n m, n = bsize b ->
     yields m (fun g => holds cn g (fun c => ROUNDING_CONST +
        zsum n (fun k => nth (bstart b * cn + k * cn + c) src 0 * nth k ws 0))) ->
     yields m (fun g => holds cn g (fun c => ROUNDING_CONST +
       zsum (bsize b) (fun k => nth ((bstart b + k) * cn + c) src 0 * nth k ws 0)))).
  { intros n m -> Hm. eapply yields_weaken; [exact Hm|]. intros g Hg c Hc. rewrite (Hg c Hc).
    do 2 f_equal. apply zsum_ext. intros. do 2 f_equal. nia. }
  remember (bsize b) as sz eqn:E.
  destruct sz as [|[|[|[|[|[|[|sz]]]]]]];
    (apply (Fin _ _ eq_refl);
     first [ apply taps_fixed_ok; auto; nia | apply taps_general_ok; auto; nia ]).
Qed.

Lemma ROUNDING_CONST_val : ROUNDING_CONST = 2 ^ 14.
Proof. reflexivity. Qed.

Lemma saturate_narrow_spec maxv v : 0 <= maxv -> saturate_narrow maxv v = floor_q15 maxv v.
Proof.
  intro H. unfold saturate_narrow, floor_q15, clampZ, PRECISION.
  rewrite Z.shiftr_div_pow2 by lia. lia.
Qed.

(** ** rows *)

(** Value of sample (pixel x, channel c) produced by the one-row kernel. *)
Definition hval (cn : nat) (maxv : Z) (fw : fweights Z) (s : nat -> Z) (x c : nat) : Z :=
  let b := nth x (bounds fw) (mkBound 0 0) in
  saturate_narrow maxv (wrap32 (ROUNDING_CONST +
    zsum (bsize b) (fun k => s ((bstart b + k) * cn + c)%nat * nth (x * aligned_size fw + k) (weights fw) 0))).

(** A row whose first n samples are [val], the rest kept. *)
Definition rowmap {T} (n : nat) (val : nat -> T) (d : list T) : list T :=
  map val (seq 0 n) ++ skipn n d.

Lemma rowmap_length {T} n (val : nat -> T) d : (n <= length d)%nat -> length (rowmap n val d) = length d.
Proof. intro H. unfold rowmap. rewrite app_length, map_length, seq_length, skipn_length. lia. Qed.

Lemma nth_error_rowmap {T} n (val : nat -> T) d j :
  (n <= length d)%nat ->
  nth_error (rowmap n val d) j = if (j <? n)%nat then Some (val j) else nth_error d j.
Proof.
  intro H. unfold rowmap. rewrite nth_error_app_case, map_length, seq_length.
  destruct (j <? n)%nat eqn:E.
  - rewrite nth_error_map_seq, E. reflexivity.
  - rewrite nth_error_skipn. f_equal. lia.
Qed.

Lemma rowmap_ext {T} n (v1 v2 : nat -> T) d :
  (forall j, (j < n)%nat -> v1 j = v2 j) -> rowmap n v1 d = rowmap n v2 d.
Proof. intro H. unfold rowmap. f_equal. apply map_seq_ext. intros; apply H; lia. Qed.

Lemma zip_mut_idx {A B} (f : A -> B -> outcome A) (h : nat -> A) ds ss :
  (forall i d s, nth_error ds i = Some d -> nth_error ss i = Some s -> f d s = Done (h i)) ->
  (length ss <= length ds)%nat ->
  zip_mut f ds ss = Done (map h (seq 0 (length ss)) ++ skipn (length ss) ds).
Proof.
  intros H L.
  assert (G : forall ss ds k, (length ss <= length ds)%nat ->
     (forall i d s, nth_error ds i = Some d -> nth_error ss i = Some s -> f d s = Done (h (k + i)%nat)) ->
     zip_mut f ds ss = Done (map h (seq k (length ss)) ++ skipn (length ss) ds)).
  { clear. induction ss as [|s ss IH]; intros ds k L H.
    - destruct ds; reflexivity.
    - destruct ds as [|d ds]; [cbn in L; lia|]. cbn [zip_mut].
      rewrite (H 0%nat d s eq_refl eq_refl). cbn [bind]. cbn [length] in L.
      rewrite (IH ds (S k)); [|lia|].
      + cbn [bind length seq map skipn app]. rewrite Nat.add_0_r. reflexivity.
      + intros i d' s' H1 H2. rewrite (H (S i) d' s' H1 H2). f_equal. f_equal. lia. }
  apply (G ss ds 0%nat L H).
Qed.

Lemma concat_map_rows {T} cn n (val : nat -> nat -> T) :
  (0 < cn)%nat ->
  concat (map (fun x => map (fun c => val x c) (seq 0 cn)) (seq 0 n)) =
  map (fun j => val (j / cn) (j mod cn))%nat (seq 0 (n * cn)).
Proof.
  intro H. apply list_ext. intro i.
  rewrite (nth_error_concat_uniform cn _ _ H).
  2:{ apply Forall_forall. intros l Hl. apply in_map_iff in Hl. destruct Hl as (x & <- & _).
      now rewrite map_length, seq_length. }
  rewrite !nth_error_map_seq. cbn [Nat.add].
  destruct (i <? n * cn)%nat eqn:E.
  - assert (i / cn < n)%nat by (apply Nat.div_lt_upper_bound; lia).
    replace (i / cn <? n)%nat with true by lia. rewrite nth_error_map_seq.
    pose proof (Nat.mod_upper_bound i cn). replace (i mod cn <? cn)%nat with true by lia. reflexivity.
  - assert (n <= i / cn)%nat by (apply Nat.div_le_lower_bound; lia).
    replace (i / cn <? n)%nat with false by lia. reflexivity.
Qed.

Lemma concat_app_rem_chunks {T} cn (d : list T) n :
  (0 < cn)%nat -> (n * cn <= length d)%nat ->
  concat (skipn n (chunks_exact cn d)) ++ chunks_rem cn d = skipn (n * cn) d.
Proof.
  intros H L. pose proof (chunks_unchunk cn d H) as E. unfold unchunk in E.
  rewrite <- E at 3.
  assert (Ln : (n <= length d / cn)%nat) by (apply Nat.div_le_lower_bound; lia).
  rewrite <- (firstn_skipn n (chunks_exact cn d)) at 2. rewrite concat_app, <- app_assoc.
  assert (Lf : length (concat (firstn n (chunks_exact cn d))) = (n * cn)%nat).
  { rewrite (concat_uniform_length cn).
    - rewrite firstn_length, chunks_exact_length. f_equal. lia.
    - apply Forall_forall. intros x Hx. pose proof (chunks_exact_Forall_len cn d) as F.
      rewrite Forall_forall in F. apply F. rewrite <- (firstn_skipn n). apply in_or_app. left; exact Hx. }
  rewrite skipn_app, Lf, Nat.sub_diag. rewrite (skipn_all2 (concat (firstn n (chunks_exact cn d)))) by lia.
  reflexivity.
Qed.

(** Well-formed converted weights for a resize of [insz] to [outsz] samples: the
    windows lie inside the source and inside the weight row. *)
Record wf_fw {W} (fw : fweights W) (insz outsz : nat) : Prop := mkWF {
  wf_pos : (0 < aligned_size fw)%nat;
  wf_ker : kernel_size fw = aligned_size fw;
  wf_dist : distinct_elements fw = outsz;
  wf_wlen : length (weights fw) = (outsz * aligned_size fw)%nat;
  wf_blen : length (bounds fw) = outsz;
  wf_win : forall x b, nth_error (bounds fw) x = Some b ->
     (1 <= bsize b /\ bsize b <= aligned_size fw /\ bstart b + bsize b <= insz)%nat
}.

Lemma wf_nth {W} (fw : fweights W) i o x :
  wf_fw fw i o -> (x < o)%nat ->
  let b := nth x (bounds fw) (mkBound 0 0) in
  (1 <= bsize b /\ bsize b <= aligned_size fw /\ bstart b + bsize b <= i)%nat.
Proof.
  intros W1 Hx b. apply (wf_win _ _ _ W1 x). apply nth_error_nth_lt.
  rewrite (wf_blen _ _ _ W1). exact Hx.
Qed.

Lemma nth_error_bw (fw : fweights Z) i o x :
  wf_fw fw i o ->
  nth_error (combine (bounds fw) (chunks_exact (aligned_size fw) (weights fw))) x =
  if (x <? o)%nat then Some (nth x (bounds fw) (mkBound 0 0), chunk (aligned_size fw) (weights fw) x) else None.
Proof.
  intro W. rewrite nth_error_combine, nth_error_chunks, (wf_wlen _ _ _ W).
  rewrite Nat.div_mul by (pose proof (wf_pos _ _ _ W); lia).
  destruct (x <? o)%nat eqn:E.
  - rewrite (nth_error_nth_lt (bounds fw) x (mkBound 0 0)) by (rewrite (wf_blen _ _ _ W); lia). reflexivity.
  - rewrite (nth_error_None_ge (bounds fw)) by (rewrite (wf_blen _ _ _ W); lia). reflexivity.
Qed.

Lemma bw_length (fw : fweights Z) i o :
  wf_fw fw i o -> length (combine (bounds fw) (chunks_exact (aligned_size fw) (weights fw))) = o.
Proof.
  intro W. rewrite combine_length, chunks_exact_length, (wf_wlen _ _ _ W), (wf_blen _ _ _ W).
  rewrite Nat.div_mul by (pose proof (wf_pos _ _ _ W); lia). lia.
Qed.

Lemma chunk_weights_length (fw : fweights Z) i o x :
  wf_fw fw i o -> (x < o)%nat -> length (chunk (aligned_size fw) (weights fw) x) = aligned_size fw.
Proof.
  intros W H. apply chunk_length. rewrite (wf_wlen _ _ _ W).
  rewrite Nat.div_mul by (pose proof (wf_pos _ _ _ W); lia). exact H.
Qed.

(** convolve_row_handler_fixed_point computes [hval] at every output sample. *)
Theorem row_handler_closed cn maxv fw insz outsz src dst :
  cn_ok cn -> wf_fw fw insz outsz ->
  (insz * cn <= length src)%nat -> (outsz * cn <= length dst)%nat ->
  row_handler cn maxv src dst fw =
  Done (rowmap (outsz * cn) (fun j => hval cn maxv fw (fun i => nth i src 0) (j / cn) (j mod cn)) dst).
Proof.
  intros H W Ls Ld. assert (H0 : (0 < cn)%nat) by (unfold cn_ok in H; lia).
  unfold row_handler. rewrite chunks_exact_o_ok by auto. cbn [bind].
  rewrite chunks_exact_o_ok by (apply (wf_pos _ _ _ W)). cbn [bind].
  rewrite (zip_mut_idx _ (fun x => map (fun c => hval cn maxv fw (fun i => nth i src 0) x c) (seq 0 cn))).
  - cbn [bind]. f_equal. rewrite (bw_length fw insz outsz W). unfold unchunk.
    rewrite concat_app, <- app_assoc, concat_app_rem_chunks by auto.
    unfold rowmap. rewrite concat_map_rows by auto. reflexivity.
  - intros x d [b w] Hd Hbw. rewrite (nth_error_bw fw insz outsz x W) in Hbw.
    destruct (x <? outsz)%nat eqn:Ex; [|discriminate]. injection Hbw as <- <-. cbn [fst snd].
    pose proof (wf_nth fw insz outsz x W ltac:(lia)) as Wx. cbv zeta in Wx.
    set (b := nth x (bounds fw) (mkBound 0 0)) in *.
    assert (Lc := chunk_weights_length fw insz outsz x W ltac:(lia)).
    destruct (row_pixel_ok cn src b (chunk (aligned_size fw) (weights fw) x) H ltac:(nia) ltac:(lia)) as (g & -> & Hg).
    cbn [bind]. rewrite nth_error_chunks in Hd.
    destruct (x <? length dst / cn)%nat eqn:Exd; [|discriminate]. injection Hd as <-.
    rewrite store_cg_ok; [|exact H|apply chunk_length; lia].
    f_equal. apply map_seq_ext. intros c Hc.
    rewrite cg_narrow_lane by (unfold cn_ok in H; lia). rewrite (Hg c) by lia.
    unfold hval. fold b. f_equal. f_equal. f_equal. apply zsum_ext. intros k Hk.
    rewrite nth_chunk by lia. reflexivity.
  - rewrite (bw_length fw insz outsz W), chunks_exact_length. apply Nat.div_le_lower_bound; lia.
Qed.
