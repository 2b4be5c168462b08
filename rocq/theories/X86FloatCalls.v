(** The f32 passes on x86-64 in closed form, and the engine built from them. *)
From Coq Require Import ZArith List Lia Bool Permutation ZifyBool ZifyNat ZifyN.
From Verif Require Import Base BaseProofs ImageStore ColorGroup FixedPoint Dispatch FloatConv Resize Spec SpecApi SpecFloat F32 Weights Sampler
  KernelProofs Kernel4Proofs ColumnProofs DispatchProofs FloatConvProofs ResizeProofs NoFail ImageProofs PoolProofs NearestProofs PortableProofs
  Api ApiFloat Alpha ApiProofs DriverProofs FloatApiProofs SimdProofs X86HorizontalProofs X86Dispatch X86NoFail
  X86Float SpecX86Float X86FloatKernels X86FloatRows.
Import ListNotations.
Local Open Scope nat_scope.

(** ** Vertical *)
Lemma seqM_done {A B} (f : A -> outcome B) (g : A -> B) l : (forall a, In a l -> f a = Done (g a)) -> seqM (map f l) = Done (map g l).
Proof.
  induction l as [|a l IH]; intro H; cbn [map seqM]; [reflexivity|]. rewrite H by now left. cbn [bind].
  rewrite IH by (intros; apply H; now right). reflexivity.
Qed.
Lemma combine_maps {A B C} (f : A -> B) (g : A -> C) l : combine (map f l) (map g l) = map (fun a => (f a, g a)) l.
Proof. induction l; cbn; congruence. Qed.
Lemma combine_map_r {A C} (g : A -> C) l : combine l (map g l) = map (fun a => (a, g a)) l.
Proof. induction l; cbn; congruence. Qed.
Lemma foldM_map {A B S} (f : S -> B -> outcome S) (g : A -> B) l s : foldM f (map g l) s = foldM (fun s a => f s (g a)) l s.
Proof. revert s. induction l as [|a l IH]; intro s; cbn [map foldM]; [reflexivity|]. destruct (f s (g a)); cbn [bind]; auto. Qed.

Section VPart.
Variables (fma : bool) (src : list f32) (ss : nat) (ws : list f32) (b : fbound) (dst : list f32).
Hypothesis Hws : bsize b <= length ws.
Hypothesis Hsrc : forall k, k < bsize b -> ss * (bstart b + k) + length dst <= length src.

Definition vacc (j p : nat) : f32 :=
  accumulate_from (prefer_fma fma) 0 j (fun k => nth (ss * (bstart b + k) + p) src f0) (fun k => nth k ws f0) f0.
Let val p := vacc (bsize b) p.

Lemma vpart_closed lanes m cx : cx + lanes * m <= length dst ->
  vpart fma src ss ws b lanes m (rowmap cx val dst) cx = Done (rowmap (cx + lanes * m) val dst).
Proof using Hws Hsrc.
  intro Hcx. unfold vpart.
  set (St := fun j => map (fun i => map (fun l => vacc j (cx + lanes * i + l)) (seq 0 lanes)) (seq 0 m)).
  match goal with |- bind (foldM ?B _ _) _ = _ => set (body := B) end.
  destruct (foldM_seq_inv (fun j s => s = St j) body (bsize b) 0 (repeat (zero_ps lanes) m)) as (r & E & Hr).
  { intros j s Hj ->. unfold body. rewrite idx_f by lia. cbn [bind].
    rewrite (seqM_done _ (fun i => firstn lanes (skipn (ss * (bstart b + j) + cx + lanes * i) src))).
    - cbn [bind]. eexists. split; [reflexivity|]. unfold St. rewrite combine_maps, map_map.
      apply map_ext_in. intros i Hi. apply in_seq in Hi. cbn [fst snd]. specialize (Hsrc j ltac:(lia)).
      assert (Hb : ss * (bstart b + j) + cx + lanes * i + lanes <= length src) by nia.
      apply nth_ext with (d := f0) (d' := f0).
      + unfold vfma. rewrite fzip3_length; rewrite ?loaded_length by lia; unfold set1_ps; rewrite ?repeat_length, !map_length, !seq_length; reflexivity.
      + intros l Hl. unfold vfma in *. rewrite fzip3_length in Hl by (rewrite ?loaded_length by lia; unfold set1_ps; rewrite ?repeat_length, !map_length, !seq_length; reflexivity).
        rewrite map_length, seq_length in Hl.
        rewrite fzip3_nth by (rewrite ?loaded_length by lia; unfold set1_ps; rewrite ?repeat_length, ?map_length, ?seq_length; lia).
        rewrite !map_seq_nth by lia. rewrite loaded_nth by lia. rewrite set1_nth by lia.
        unfold vacc. rewrite Nat.add_1_r, accf_snoc. cbn [Nat.add]. f_equal. f_equal. lia.
    - intros i Hi. apply in_seq in Hi. specialize (Hsrc j ltac:(lia)). apply loadf_ok. nia. }
  { unfold St. apply nth_ext with (d := []) (d' := []).
    - now rewrite repeat_length, map_length, seq_length.
    - intros i Hi. rewrite repeat_length in Hi. rewrite nth_indep with (d' := zero_ps lanes) by now rewrite repeat_length.
      rewrite nth_repeat. rewrite (nth_indep _ [] (map (fun l => vacc 0 (cx + lanes * 0 + l)) (seq 0 lanes))) by now rewrite map_length, seq_length.
      rewrite (map_nth (fun i => map (fun l => vacc 0 (cx + lanes * i + l)) (seq 0 lanes))).
      unfold vacc, accumulate_from, zero_ps. cbn [seq fold_left]. clear. induction lanes as [|n IH]; [reflexivity|].
      cbn [repeat seq map]. f_equal. rewrite IH. rewrite <- seq_shift, map_map. reflexivity. }
  cbv beta in Hr. subst r.
  match goal with |- bind ?m _ = _ => replace m with (Done (St (bsize b))) by (symmetry; exact E) end.
  cbn [bind]. unfold St. cbn [Nat.add]. rewrite combine_map_r, foldM_map. cbn [fst snd].
  match goal with |- foldM ?B _ _ = _ => set (body2 := B) end.
  destruct (foldM_seq_inv (fun i d => d = rowmap (cx + lanes * i) val dst) body2 m 0 (rowmap cx val dst)) as (r & E2 & Hr).
  { intros i d Hi ->. unfold body2. eexists. split.
    - apply storef_ok. rewrite map_length, seq_length, rowmap_length by nia. nia.
    - cbv beta. change (fun l => vacc (bsize b) (cx + lanes * i + l)) with (fun l => val (cx + lanes * i + l)).
      rewrite rowmap_step by nia. f_equal. lia. }
  { f_equal. lia. }
  rewrite E2. cbv beta in Hr. now rewrite Hr.
Qed.

Lemma rowmap_all {T} (v : nat -> T) d : rowmap (length d) v d = map v (seq 0 (length d)).
Proof. unfold rowmap. rewrite skipn_all. apply app_nil_r. Qed.

Ltac tile P lanes m step slack a c E B :=
  destruct (while_tiles_ok P step slack (length dst) (fun d x => vpart fma src ss ws b lanes m d x) ltac:(lia) ltac:(lia)
    ltac:(intros; apply (vpart_closed lanes m); lia) (length dst) a ltac:(lia) ltac:(lia)) as (c & E & B & ?); rewrite E; cbn [bind].

Lemma vertical_sse_f32_closed : vertical_sse_f32 fma b src dst ss ws = Done (map val (seq 0 (length dst))).
Proof using Hws Hsrc.
  unfold vertical_sse_f32. cbv zeta. set (P := fun cx => rowmap cx val dst).
  change (while_tiles (length dst) 24 24 (length dst) (fun d cx => vpart fma src ss ws b 4 6 d cx) 0 dst)
    with (while_tiles (length dst) 24 24 (length dst) (fun d cx => vpart fma src ss ws b 4 6 d cx) 0 (P 0)).
  tile P 4 6 24 24 0 c1 E1 B1. tile P 4 4 16 16 c1 c2 E2 B2. tile P 4 2 8 8 c2 c3 E3 B3. tile P 4 1 4 4 c3 c4 E4 B4.
  tile P 1 1 1 0 c4 c5 E5 B5.
  replace c5 with (length dst) by lia. f_equal. apply rowmap_all.
Qed.
Lemma vertical_avx_f32_closed : vertical_avx_f32 fma b src dst ss ws = Done (map val (seq 0 (length dst))).
Proof using Hws Hsrc.
  unfold vertical_avx_f32. cbv zeta. set (P := fun cx => rowmap cx val dst).
  change (while_tiles (length dst) 32 32 (length dst) (fun d cx => vpart fma src ss ws b 8 4 d cx) 0 dst)
    with (while_tiles (length dst) 32 32 (length dst) (fun d cx => vpart fma src ss ws b 8 4 d cx) 0 (P 0)).
  tile P 8 4 32 32 0 c1 E1 B1. tile P 8 2 16 16 c1 c2 E2 B2. tile P 8 1 8 8 c2 c3 E3 B3.
  tile P 1 1 1 0 c3 c5 E5 B5.
  replace c5 with (length dst) by lia. f_equal. apply rowmap_all.
Qed.
End VPart.

(** ** Two kinds of rows *)
Theorem horizontal_dispatch_two {T} N k4 k1 (rowf4 rowf1 : list T -> list T -> list T)
  pool (im into : image T) ss ds h :
  pool_ok pool ->
  stride_of N im = ss -> stride_of N into = ds -> 0 < ss -> 0 < ds ->
  length (buf im) = h * ss -> length (buf into) = h * ds ->
  (forall s d, length s = ss -> length d = ds -> k1 s d = Done (rowf1 s d)) ->
  (forall s d, length s = 4 * ss -> length d = 4 * ds ->
     k4 s ss d ds = Done (rowf4 (chunk ss s 0) (chunk ds d 0) ++ rowf4 (chunk ss s 1) (chunk ds d 1) ++
                          rowf4 (chunk ss s 2) (chunk ds d 2) ++ rowf4 (chunk ss s 3) (chunk ds d 3))) ->
  horizontal_dispatch N k4 k1 pool im into =
  Done (set_buf into (concat (map (fun y => (if y <? 4 * (h / 4) then rowf4 else rowf1) (chunk ss (buf im) y) (chunk ds (buf into) y)) (seq 0 h)))).
Proof.
  intros HP Ess Eds Hss Hds Lsrc Ldst K1 K4. unfold horizontal_dispatch. rewrite Ess, Eds.
  set (src := buf im) in *. set (dst := buf into) in *.
  assert (Qs : length src / (ss * 4) = h / 4) by (rewrite Lsrc; apply div_div_4; auto).
  assert (Qd : length dst / (ds * 4) = h / 4) by (rewrite Ldst; apply div_div_4; auto).
  pose proof (Nat.div_mod h 4 ltac:(lia)) as DM. pose proof (Nat.mod_upper_bound h 4 ltac:(lia)) as MB.
  set (q := h / 4) in *. set (r := h mod 4) in *.
  rewrite !chunks_exact_o_ok by lia. cbn [bind].
  set (f y := (if y <? 4 * q then rowf4 else rowf1) (chunk ss src y) (chunk ds dst y)).
  rewrite (for_each_seq pool lbl_rows4 _ _ _
      (map (fun i => f (4 * i) ++ f (4 * i + 1) ++ f (4 * i + 2) ++ f (4 * i + 3)) (seq 0 q))); [| auto |].
  2:{ rewrite (zip_mut_idx _ (fun i => f (4 * i) ++ f (4 * i + 1) ++ f (4 * i + 2) ++ f (4 * i + 3))).
      - rewrite chunks_exact_length, Qs. f_equal. rewrite skipn_all2; [apply app_nil_r|].
        rewrite chunks_exact_length, Qd. lia.
      - intros i d s Hd Hs. rewrite nth_error_chunks, Qd in Hd. rewrite nth_error_chunks, Qs in Hs.
        destruct (i <? q) eqn:E; [|discriminate]. injection Hd as <-. injection Hs as <-.
        rewrite K4.
        + rewrite !chunk_chunk by lia. rewrite Nat.add_0_r. unfold f.
          replace (4 * i <? 4 * q) with true by lia. replace (4 * i + 1 <? 4 * q) with true by lia.
          replace (4 * i + 2 <? 4 * q) with true by lia. replace (4 * i + 3 <? 4 * q) with true by lia. reflexivity.
        + rewrite chunk_length; lia.
        + rewrite chunk_length; lia.
      - rewrite !chunks_exact_length, Qs, Qd. lia. }
  cbn [bind].
  assert (Rs : length (chunks_rem (ss * 4) src) = r * ss).
  { unfold chunks_rem. rewrite skipn_length, Qs. nia. }
  assert (Rd : length (chunks_rem (ds * 4) dst) = r * ds).
  { unfold chunks_rem. rewrite skipn_length, Qd. nia. }
  rewrite (for_each_seq pool lbl_rows1 _ _ _ (map (fun i => f (4 * q + i)) (seq 0 r))); [| auto |].
  2:{ rewrite (zip_mut_idx _ (fun i => f (4 * q + i))).
      - rewrite chunks_exact_length, Rs, Nat.div_mul by lia. f_equal.
        rewrite skipn_all2; [apply app_nil_r|].
        rewrite chunks_exact_length, Rd, Nat.div_mul by lia. lia.
      - intros i d s Hd Hs. rewrite nth_error_chunks, Rd, Nat.div_mul in Hd by lia.
        rewrite nth_error_chunks, Rs, Nat.div_mul in Hs by lia.
        destruct (i <? r) eqn:E; [|discriminate]. injection Hd as <-. injection Hs as <-.
        rewrite K1.
        + rewrite !chunk_rem, Qs, Qd. unfold f. replace (4 * q + i <? 4 * q) with false by lia. reflexivity.
        + apply chunk_length. rewrite Rs, Nat.div_mul by lia. lia.
        + apply chunk_length. rewrite Rd, Nat.div_mul by lia. lia.
      - rewrite !chunks_exact_length, Rs, Rd, !Nat.div_mul by lia. lia. }
  cbn [bind]. f_equal. apply set_buf_ext. unfold unchunk.
  rewrite (chunks_rem_exact ds (chunks_rem (ds * 4) dst) r) by auto. rewrite app_nil_r.
  replace (seq 0 h) with (seq 0 (4 * q + r)) by (f_equal; lia). rewrite concat_split4. reflexivity.
Qed.

(** ** The kernels that are selected *)
(** What a kernel for [N] channels guarantees of each sample. *)
Record kernel_ok (N : nat) (px : fpixel) (P : nat -> (nat -> f32) -> (nat -> f32) -> f32 -> Prop) : Prop := mkKO {
  ko_gives : pixel_gives N px P;
  ko_local : pixel_local N px;
  ko_resp : respects P
}.
Lemma summed_ext n x w x' w' l v : (forall k, k < n -> x k = x' k) -> (forall k, k < n -> w k = w' k) ->
  summed n x w l v -> summed n x' w' l v.
Proof.
  intros Hx Hw H. induction H.
  - constructor.
  - rewrite Hx, Hw by assumption. now constructor.
  - rewrite Hx, Hw by assumption. now constructor.
  - rewrite Hx, Hw by assumption. now constructor.
  - rewrite Hx, Hw by assumption. now constructor.
  - apply sum_zero_fused; [|assumption]. destruct H as [->|(k & Hk & ->)]; [now left|right; exists k; split; auto].
  - apply sum_zero_unfused; [|assumption]. destruct H as [->|(k & Hk & ->)]; [now left|right; exists k; split; auto].
  - now constructor.
Qed.
Lemma sums_respects E : respects (sums_taps E).
Proof. intros n x w x' w' v Hx Hw (l & P & S). exists l. split; [exact P|]. eapply summed_ext; eauto. Qed.

Lemma pixel_gives_weaken N px (P Q : nat -> (nat -> f32) -> (nat -> f32) -> f32 -> Prop) :
  (forall n x w v, P n x w v -> Q n x w v) -> pixel_gives N px P -> pixel_gives N px Q.
Proof.
  intros H G src b ws Hb Hs Hw. eapply yields_weaken; [apply G; auto|]. intros l (Ll & Hl). split; [exact Ll|]. intros c Hc. apply H, Hl, Hc.
Qed.

Definition leftover (N : nat) : nat -> list nat := if N =? 1 then twice_taps else no_extra.

Lemma kernel_4_ok c N px : f32_pixel_4 c N = Some px -> kernel_ok N px (sums_taps no_extra).
Proof.
  intro H. destruct N as [|[|[|[|[|N]]]]]; cbn [f32_pixel_4] in H; try discriminate.
  - destruct (sse41 _); [|discriminate]. injection H as <-.
    constructor; [apply plane4_value|apply plane_local|apply sums_respects].
  - destruct (sse41 _); [|discriminate]. injection H as <-.
    constructor; [eapply pixel_gives_weaken; [apply in_order_sums|apply rgb_sse_value]|apply rgb_sse_local|apply sums_respects].
  - destruct (avx2 _); [|destruct (sse41 _); [|discriminate]]; injection H as <-.
    + constructor; [apply rgba_avx_value|apply rgba_avx_local|apply sums_respects].
    + constructor; [eapply pixel_gives_weaken; [apply in_order_sums|apply rgba_sse_value]|apply rgba_sse_local|apply sums_respects].
Qed.
Lemma kernel_1_ok c N px : f32_pixel_1 c N = Some px -> kernel_ok N px (sums_taps (leftover N)).
Proof.
  intro H. destruct N as [|[|[|[|[|N]]]]]; cbn [f32_pixel_1] in H; try discriminate.
  - destruct (sse41 _); [|discriminate]. injection H as <-.
    constructor; [apply plane1_value|apply plane_local|apply sums_respects].
  - destruct (sse41 _); [|discriminate]. injection H as <-.
    constructor; [eapply pixel_gives_weaken; [apply in_order_sums|apply rgb_sse_value]|apply rgb_sse_local|apply sums_respects].
  - destruct (avx2 _); [|destruct (sse41 _); [|discriminate]]; injection H as <-.
    + constructor; [apply rgba_avx_value|apply rgba_avx_local|apply sums_respects].
    + constructor; [eapply pixel_gives_weaken; [apply in_order_sums|apply rgba_sse_value]|apply rgba_sse_local|apply sums_respects].
Qed.
Lemma kernels_together c N : f32_pixel_4 c N = None <-> f32_pixel_1 c N = None.
Proof. destruct N as [|[|[|[|[|N]]]]]; cbn; try tauto; destruct (sse41 _); try destruct (avx2 _); split; intro; congruence. Qed.

(** ** The passes as functions on pictures *)
Definition kernel_pass (k : mlaf_kind) (N : nat) (px : option fpixel) (fw : fweights f32) (p : nat -> nat -> nat -> f32) : nat -> nat -> nat -> f32 :=
  fun y x c => match px with
  | Some px => px_val N px (tsize (taps_of f0 fw) x) (fun k => p y (tstart (taps_of f0 fw) x + k) c) (tweight (taps_of f0 fw) x) c
  | None => float_h f0 fmul (mlaf k) (fun v => v) (fun v => v) (taps_of f0 fw) p y x c
  end.
(** [h]: rows of the picture; the rows of the last incomplete group of four are the
    leftover ones. *)
Definition x86f_h (k : mlaf_kind) (c : fcpu) (N h : nat) (fw : fweights f32) (p : nat -> nat -> nat -> f32) : nat -> nat -> nat -> f32 :=
  fun y x ch => kernel_pass k N (if y <? 4 * (h / 4) then f32_pixel_4 c N else f32_pixel_1 c N) fw p y x ch.
Definition x86f_v (k : mlaf_kind) (c : fcpu) (fw : fweights f32) (p : nat -> nat -> nat -> f32) : nat -> nat -> nat -> f32 :=
  fun y x ch =>
  let n := tsize (taps_of f0 fw) y in let xs := (fun j => p (tstart (taps_of f0 fw) y + j) x ch) in let w := tweight (taps_of f0 fw) y in
  if avx2 (base_cpu c) then accumulate_from (prefer_fma (has_fma c)) 0 n xs w f0
  else if sse41 (base_cpu c) then accumulate_from (prefer_fma false) 0 n xs w f0
  else weighted f0 fmul (mlaf k) n xs w.

Lemma x86_fhpass_painted k c N fw pool im into :
  cn_ok N -> pool_ok pool -> good N im -> good N into -> height im = height into -> wf_fw fw (width im) (width into) ->
  x86_fhpass k c N fw pool im into = Done (painted f0 N (x86f_h k c N (height into) fw (shown f0 N im)) into).
Proof.
  intros HN HP Gi Go Hh W. assert (N0 : 0 < N) by (unfold cn_ok in HN; lia).
  pose proof (good_stride_pos N im N0 Gi) as Si. pose proof (good_stride_pos N into N0 Go) as So.
  unfold x86_fhpass.
  set (rowk := fun (px : option fpixel) (s d : list f32) =>
    rowmap (width into * N) (fun j => match px with
      | Some px => fxval N px fw (fun i => nth i s f0) (j / N) (j mod N)
      | None => fhval f0 fmul (mlaf k) ident ident N fw f0 (fun i => nth i s f0) (j / N) (j mod N) end) d).
  rewrite (horizontal_dispatch_two N _ _ (rowk (f32_pixel_4 c N)) (rowk (f32_pixel_1 c N)) pool im into (stride im) (stride into) (height into));
    auto using good_stride_of.
  - f_equal. unfold painted. apply set_buf_ext.
    rewrite <- (pixmap_rows f0 (height into) (stride into) (width into * N)) by
      (try apply (g_stride _ _ Go); try apply (g_len _ _ Go); lia).
    f_equal. apply map_seq_ext. intros y Hy. unfold x86f_h.
    assert (R : forall px, rowk px (chunk (stride im) (buf im) y) (chunk (stride into) (buf into) y) =
      rowmap (width into * N) (fun j => kernel_pass k N px fw (shown f0 N im) y (j / N) (j mod N)) (chunk (stride into) (buf into) y)).
    { intro px. unfold rowk. apply rowmap_ext. intros j Hj.
      pose proof (wf_nth fw _ _ (j / N) W ltac:(apply Nat.div_lt_upper_bound; lia)) as Wx. cbv zeta in Wx.
      pose proof (Nat.mod_upper_bound j N ltac:(lia)). pose proof (g_stride _ _ Gi).
      assert (Ch : forall i, i < bsize (nth (j / N) (bounds fw) (mkBound 0 0)) ->
        nth ((bstart (nth (j / N) (bounds fw) (mkBound 0 0)) + i) * N + j mod N) (chunk (stride im) (buf im) y) f0 =
        shown f0 N im y (bstart (nth (j / N) (bounds fw) (mkBound 0 0)) + i) (j mod N)).
      { intros i Hi. unfold shown. rewrite nth_chunk by nia. reflexivity. }
      unfold kernel_pass. destruct px as [px|].
      - unfold fxval. apply px_val_ext; [exact Ch|reflexivity].
      - unfold fhval, float_h, ident. cbn [taps_of tsize tstart tweight].
        apply (weighted_ext f0 fmul (mlaf k) (fun v : f32 => v) (fun v : f32 => v) f0). intros i Hi. split; [apply Ch; exact Hi|reflexivity]. }
    rewrite <- (R (if y <? 4 * (height into / 4) then f32_pixel_4 c N else f32_pixel_1 c N)).
    now destruct (y <? 4 * (height into / 4)).
  - rewrite (g_len _ _ Gi). now rewrite Hh.
  - apply (g_len _ _ Go).
  - intros s d Ls Ld. unfold rowk. destruct (f32_pixel_1 c N) as [px|] eqn:Ep.
    + destruct (kernel_1_ok c N px Ep) as [KG KL KR]. apply (fhrow_closed N px _ N0 KG KL KR fw (width im) (width into) W).
      * rewrite Ls. apply (g_stride _ _ Gi).
      * rewrite Ld. apply (g_stride _ _ Go).
    + apply (frow_handler_closed f0 fmul (mlaf k) ident ident f0 N fw f0 (width im) (width into)); auto.
      * rewrite Ls. apply (g_stride _ _ Gi).
      * rewrite Ld. apply (g_stride _ _ Go).
  - intros s d Ls Ld. unfold rowk. destruct (f32_pixel_4 c N) as [px|] eqn:Ep.
    + destruct (kernel_4_ok c N px Ep) as [KG KL KR]. apply (fhrow4_closed N px _ N0 KG KL KR fw (width im) (width into) W); auto.
      * apply (g_stride _ _ Gi).
      * apply (g_stride _ _ Go).
    + apply (frow_handler_4_closed f0 fmul (mlaf k) ident ident f0 N fw f0 (width im) (width into)); auto.
      * apply (g_stride _ _ Gi).
      * apply (g_stride _ _ Go).
Qed.

Lemma f32_column_closed k c b src dst ss ws : bsize b <= length ws ->
  (forall j, j < bsize b -> ss * (bstart b + j) + length dst <= length src) ->
  f32_column k c b src dst ss ws = Done (map (fun p =>
    let xs := fun j => nth (ss * (bstart b + j) + p) src f0 in let w := fun j => nth j ws f0 in
    if avx2 (base_cpu c) then accumulate_from (prefer_fma (has_fma c)) 0 (bsize b) xs w f0
    else if sse41 (base_cpu c) then accumulate_from (prefer_fma false) 0 (bsize b) xs w f0
    else weighted f0 fmul (mlaf k) (bsize b) xs w) (seq 0 (length dst))).
Proof.
  intros Hw Hs. unfold f32_column. destruct (avx2 (base_cpu c)); [|destruct (sse41 (base_cpu c))].
  - apply vertical_avx_f32_closed; auto.
  - apply vertical_sse_f32_closed; auto.
  - apply (fcolumn_handler_closed f0 fmul (mlaf k) ident ident f0 src ss ws f0 b dst); auto.
Qed.

Lemma x86_fvpass_painted k c N fw pool im into :
  cn_ok N -> pool_ok pool -> good N im -> good N into -> width im = width into -> wf_fw fw (height im) (height into) ->
  x86_fvpass k c N fw pool im into = Done (painted f0 N (x86f_v k c fw (shown f0 N im)) into).
Proof.
  intros HN PO Gi Go Hw W. assert (N0 : 0 < N) by (unfold cn_ok in HN; lia).
  pose proof (good_stride_pos N im N0 Gi) as Si. pose proof (good_stride_pos N into N0 Go) as So.
  unfold x86_fvpass.
  rewrite (vertical_dispatch_closed N _ (bounds fw) (aligned_size fw) (weights fw)
    (fun y => map (fun j => x86f_v k c fw (shown f0 N im) y (j / N) (j mod N)) (seq 0 (width into * N)))
    pool im into (stride into) (height into)); auto using good_stride_of.
  - f_equal. unfold painted. apply set_buf_ext. rewrite <- (pixmap_rows f0 (height into) (stride into) (width into * N)) by
      (try apply (g_stride _ _ Go); try apply (g_len _ _ Go); lia).
    reflexivity.
  - apply (g_stride _ _ Go).
  - apply (g_len _ _ Go).
  - apply (wf_blen _ _ _ W).
  - rewrite (wf_wlen _ _ _ W). lia.
  - intros y b d Hb Hy Ld.
    assert (Eb : nth y (bounds fw) (mkBound 0 0) = b) by (now apply nth_error_nth).
    destruct (wf_win _ _ _ W y b Hb) as (B1 & B2 & B3).
    split; [|now rewrite map_length, seq_length].
    rewrite (good_stride_of N im N0 Gi). rewrite f32_column_closed.
    + rewrite Ld. f_equal. apply map_ext_in. intros j Hj. apply in_seq in Hj. unfold x86f_v. cbn [taps_of tsize tstart tweight]. rewrite Eb. cbv zeta.
      assert (X : forall i, nth (stride im * (bstart b + i) + j) (buf im) f0 = shown f0 N im (bstart b + i) (j / N) (j mod N)).
      { intro i. unfold shown. f_equal. pose proof (Nat.div_mod j N ltac:(lia)). lia. }
      assert (Y : forall i, nth i (skipn (y * aligned_size fw) (weights fw)) f0 = nth (y * aligned_size fw + i) (weights fw) f0) by (intro; apply nth_skipn).
      destruct (avx2 _); [|destruct (sse41 _)].
      * eapply in_order_ext; [| |reflexivity|reflexivity]; intros; [apply X|apply Y].
      * eapply in_order_ext; [| |reflexivity|reflexivity]; intros; [apply X|apply Y].
      * apply (weighted_ext f0 fmul (mlaf k) (fun v : f32 => v) (fun v : f32 => v) f0). intros i Hi. split; [apply X|apply Y].
    + rewrite skipn_length, (wf_wlen _ _ _ W). nia.
    + intros i Hi. rewrite Ld, <- Hw, (g_len _ _ Gi). pose proof (g_stride _ _ Gi). nia.
Qed.

(** ** Errors and thread pools *)
Lemma nf_loadf n m o : nofail (loadf n m o). Proof. unfold loadf. destruct (_ <=? _); nfx. Qed.
Lemma nf_storef d o v : nofail (storef d o v). Proof. unfold storef. destruct (_ <=? _); nfx. Qed.
Lemma nf_seqM {A} (l : list (outcome A)) : Forall nofail l -> nofail (seqM l).
Proof. induction 1; cbn [seqM]; nfx; auto. Qed.
Lemma nf_ftaps {S} b st sl (body : S -> nat -> outcome S) jx s : (forall s x, nofail (body s x)) -> nofail (ftaps b st sl body jx s).
Proof. intros. unfold ftaps. nfx. auto. Qed.
Ltac nff := repeat first [ apply nf_loadf | apply nf_storef | apply nf_ftaps; intros | progress nfx ].

Lemma nf_vpart fma src ss ws b lanes m dst cx : nofail (vpart fma src ss ws b lanes m dst cx).
Proof.
  unfold vpart. nff. apply nf_seqM. apply Forall_forall. intros o Ho. apply in_map_iff in Ho. destruct Ho as (i & <- & _). apply nf_loadf.
Qed.
Lemma nf_vsse_f fma b src dst ss ws : nofail (vertical_sse_f32 fma b src dst ss ws).
Proof. unfold vertical_sse_f32. cbv zeta. nff; apply nf_vpart. Qed.
Lemma nf_vavx_f fma b src dst ss ws : nofail (vertical_avx_f32 fma b src dst ss ws).
Proof. unfold vertical_avx_f32. cbv zeta. nff; apply nf_vpart. Qed.
Lemma nf_column k c b src dst ss ws : nofail (f32_column k c b src dst ss ws).
Proof. unfold f32_column. destruct (avx2 _); [apply nf_vavx_f|]. destruct (sse41 _); [apply nf_vsse_f|]. apply nf_fcolumn_handler. Qed.

Lemma nf_rgba_sse fma s b w : nofail (rgba_sse_f32 fma s b w).
Proof. unfold rgba_sse_f32. cbv zeta. nff. Qed.
Lemma nf_rgb_sse fma s b w : nofail (rgb_sse_f32 fma s b w).
Proof. unfold rgb_sse_f32. cbv zeta. nff. Qed.
Lemma nf_plane_sse fma st s b w : nofail (plane_sse_f32 fma st s b w).
Proof. unfold plane_sse_f32. cbv zeta. nff. Qed.
Lemma nf_rgba_avx fma s b w : nofail (rgba_avx_f32 fma s b w).
Proof. unfold rgba_avx_f32. cbv zeta. nff. Qed.
Lemma nf_pixel_4 c N px : f32_pixel_4 c N = Some px -> forall s b w, nofail (px s b w).
Proof.
  intros H s b w. destruct N as [|[|[|[|[|N]]]]]; cbn [f32_pixel_4] in H; try discriminate.
  - destruct (sse41 _); [|discriminate]. injection H as <-. apply nf_plane_sse.
  - destruct (sse41 _); [|discriminate]. injection H as <-. apply nf_rgb_sse.
  - destruct (avx2 _); [|destruct (sse41 _); [|discriminate]]; injection H as <-; [apply nf_rgba_avx|apply nf_rgba_sse].
Qed.
Lemma nf_pixel_1 c N px : f32_pixel_1 c N = Some px -> forall s b w, nofail (px s b w).
Proof.
  intros H s b w. destruct N as [|[|[|[|[|N]]]]]; cbn [f32_pixel_1] in H; try discriminate.
  - destruct (sse41 _); [|discriminate]. injection H as <-. apply nf_plane_sse.
  - destruct (sse41 _); [|discriminate]. injection H as <-. apply nf_rgb_sse.
  - destruct (avx2 _); [|destruct (sse41 _); [|discriminate]]; injection H as <-; [apply nf_rgba_avx|apply nf_rgba_sse].
Qed.
Lemma nf_slice_from {A} (l : list A) a : nofail (slice_from l a).
Proof. unfold slice_from. destruct (_ <=? _); nfx. Qed.
Lemma nf_fhrow cn px dw s d fw : (forall s b w, nofail (px s b w)) -> nofail (fhrow cn px dw s d fw).
Proof. intro H. unfold fhrow. repeat first [apply H | apply nf_slice_from | progress nff]. Qed.
Lemma nf_fhrow4 cn px dw s ss d ds fw : (forall s b w, nofail (px s b w)) -> nofail (fhrow4 cn px dw s ss d ds fw).
Proof. intro H. unfold fhrow4. repeat first [apply H | apply nf_slice_from | progress nff]. Qed.

Section Engine.
Variables (k : mlaf_kind) (c : fcpu) (N : nat).
Let row4 (dw : nat) (fw : fweights f32) (src : list f32) (ss : nat) (dst : list f32) (ds : nat) :=
  match f32_pixel_4 c N with Some px => fhrow4 N px dw src ss dst ds fw | None => frow_handler_4 f0 fmul (mlaf k) ident ident N src ss dst ds fw end.
Let row1 (dw : nat) (fw : fweights f32) (src dst : list f32) :=
  match f32_pixel_1 c N with Some px => fhrow N px dw src dst fw | None => frow_handler f0 fmul (mlaf k) ident ident N src dst fw end.
Lemma nf_row4 dw fw s ss d ds : nofail (row4 dw fw s ss d ds).
Proof. unfold row4. destruct (f32_pixel_4 c N) eqn:E; [apply nf_fhrow4; eapply nf_pixel_4; eauto|apply nf_frow_handler_4]. Qed.
Lemma nf_row1 dw fw s d : nofail (row1 dw fw s d).
Proof. unfold row1. destruct (f32_pixel_1 c N) eqn:E; [apply nf_fhrow; eapply nf_pixel_1; eauto|apply nf_frow_handler]. Qed.

Lemma nf_x86_fhpass fw pool im into : nofail (x86_fhpass k c N fw pool im into).
Proof.
  change (x86_fhpass k c N fw pool im into) with (horizontal_dispatch N (row4 (width into) fw) (row1 (width into) fw) pool im into).
  unfold horizontal_dispatch. repeat first [apply nf_row4 | apply nf_row1 | progress nf].
Qed.
Lemma nf_x86_fvpass fw pool im into : nofail (x86_fvpass k c N fw pool im into).
Proof. unfold x86_fvpass, vertical_dispatch. repeat first [apply nf_column | progress nf]. Qed.
Lemma x86_fhpass_pool fw p im into : pool_ok p -> x86_fhpass k c N fw p im into = x86_fhpass k c N fw None im into.
Proof.
  intro HP.
  change (horizontal_dispatch N (row4 (width into) fw) (row1 (width into) fw) p im into =
          horizontal_dispatch N (row4 (width into) fw) (row1 (width into) fw) None im into).
  unfold horizontal_dispatch.
  destruct (chunks_exact_o (stride_of N into * 4) (buf into)) as [d4| |]; cbn [bind]; auto.
  destruct (chunks_exact_o (stride_of N im * 4) (buf im)) as [s4| |]; cbn [bind]; auto.
  rewrite (for_each_any p) by (auto; intros; apply nf_row4).
  destruct (for_each None _ _ _ _) as [d4'| |]; cbn [bind]; auto.
  destruct (chunks_exact_o (stride_of N into) _) as [d1| |]; cbn [bind]; auto.
  destruct (chunks_exact_o (stride_of N im) _) as [s1| |]; cbn [bind]; auto.
  rewrite (for_each_any p) by (auto; intros; apply nf_row1). reflexivity.
Qed.
Lemma x86_fvpass_pool fw p im into : pool_ok p -> x86_fvpass k c N fw p im into = x86_fvpass k c N fw None im into.
Proof.
  intro HP. unfold x86_fvpass, vertical_dispatch.
  destruct (chunks_exact_o _ _) as [rows| |]; cbn [bind]; auto.
  rewrite (for_each_any p); auto. intros d y.
  repeat first [apply nf_column | progress nf].
Qed.

Variables (L : libm) (f : resampling_function).
Variables (pre : pool_t -> image f32 -> image f32 -> outcome (image f32))
  (un : pool_t -> image f32 -> outcome (image f32)) (need : image f32 -> outcome bool).
Notation EN := (x86_engine_f32 k c L f N pre un need).
Lemma x86f_passes_nofail : passes_nofail EN.
Proof. constructor; intros; [apply nf_x86_fvpass|apply nf_x86_fhpass]. Qed.
Lemma x86f_pool_blind : pool_blind EN.
Proof. constructor; intros; [now apply x86_fvpass_pool|now apply x86_fhpass_pool]. Qed.

(** The engine restricted to destinations of [h] rows: what it does elsewhere is
    irrelevant for a call whose destination has [h] rows. *)
Definition engine_h (h : nat) : engine f32 f32 :=
  mkEngine f0 false (wants_nearest f) nearest_coord (generate_weights (resampling_filter L f))
    (x86_fvpass k c N)
    (fun fw pool im into => if height into =? h then x86_fhpass k c N fw pool im into
                            else Done (painted f0 N (x86f_h k c N h fw (shown f0 N im)) into))
    pre un need.

Lemma engine_h_same pool store into : generic_resize N EN pool store into = generic_resize N (engine_h (height into)) pool store into.
Proof.
  unfold generic_resize. cbn [needs_depth is_nearest coord gen dflt vconv hconv EN engine_h x86_engine_f32].
  apply try_ext. intros _. destruct (_ && _); [reflexivity|]. destruct (wants_nearest f); [reflexivity|].
  destruct (_ && _).
  - destruct (from_slice _ _ _ _) as [nv| |] eqn:En; cbn [try]; [|reflexivity|reflexivity].
    apply try_ext. intro nv'. rewrite Nat.eqb_refl. reflexivity.
  - destruct (negb _); [reflexivity|]. destruct (negb _); [|reflexivity]. rewrite Nat.eqb_refl. reflexivity.
Qed.

Lemma engine_h_conv h : conv_engine L f N false (engine_h h) (fun _ => x86f_v k c) (fun _ => x86f_h k c N h).
Proof.
  constructor; try reflexivity.
  - intros d HN. constructor.
    + intros. cbn [vconv engine_h dflt]. now apply x86_fvpass_painted.
    + intros fw pool im into P Gi Go E W Bd. cbn [hconv engine_h dflt]. destruct (Nat.eqb_spec (height into) h) as [<-|]; [|reflexivity].
      now apply x86_fhpass_painted.
    + intros fw p q y x ch H. unfold x86f_v. cbn [taps_of tsize tstart tweight]. cbv zeta.
      assert (X : forall i, i < bsize (nth y (bounds fw) (mkBound 0 0)) -> p (bstart (nth y (bounds fw) (mkBound 0 0)) + i) x ch = q (bstart (nth y (bounds fw) (mkBound 0 0)) + i) x ch).
      { intros i Hi. apply H. lia. }
      destruct (avx2 _); [|destruct (sse41 _)].
      * eapply in_order_ext; [| |reflexivity|reflexivity]; intros; [now apply X|reflexivity].
      * eapply in_order_ext; [| |reflexivity|reflexivity]; intros; [now apply X|reflexivity].
      * apply (weighted_ext f0 fmul (mlaf k) (fun v : f32 => v) (fun v : f32 => v) f0). intros i Hi. split; [now apply X|reflexivity].
    + intros fw p q y x ch H. unfold x86f_h, kernel_pass. cbn [taps_of tsize tstart tweight].
      assert (X : forall i, i < bsize (nth x (bounds fw) (mkBound 0 0)) -> p y (bstart (nth x (bounds fw) (mkBound 0 0)) + i) ch = q y (bstart (nth x (bounds fw) (mkBound 0 0)) + i) ch).
      { intros i Hi. apply H. lia. }
      destruct (if y <? 4 * (h / 4) then f32_pixel_4 c N else f32_pixel_1 c N) as [px|]; [apply px_val_ext; [exact X|reflexivity]|].
      unfold float_h. cbn [taps_of tsize tstart tweight].
      apply (weighted_ext f0 fmul (mlaf k) (fun v : f32 => v) (fun v : f32 => v) f0). intros i Hi. split; [now apply X|reflexivity].
  - constructor; intros; cbn [vconv hconv engine_h]; [apply nf_x86_fvpass|]. destruct (_ =? _); [apply nf_x86_fhpass|apply nofail_Done].
  - constructor; intros; cbn [vconv hconv engine_h]; [now apply x86_fvpass_pool|]. destruct (_ =? _); [now apply x86_fhpass_pool|reflexivity].
Qed.
End Engine.

Lemma resize_f32_x86_is k c L f N pool store into :
  resize_f32_x86 k c L f N pool store into =
  generic_resize N (engine_h k c N L f (fun _ _ _ => Panic) (fun _ _ => Panic) (fun _ => Panic) (height into)) pool store into.
Proof.
  unfold resize_f32_x86. rewrite <- engine_h_same. destruct (N =? 4); [apply with_alpha_off|reflexivity].
Qed.
