(** f32 kernels on x86-64: one channel of a pixel depends on that channel of the window
    only; closed forms of the iterations over a row and over four rows. *)
From Coq Require Import ZArith List Lia Bool Permutation ZifyBool ZifyNat.
From Verif Require Import Base BaseProofs ImageStore ColorGroup FixedPoint Dispatch FloatConv Resize SpecFloat F32 Weights
  KernelProofs ColumnProofs SimdProofs FloatConvProofs X86HorizontalProofs Kernel4Proofs X86Float SpecX86Float X86FloatKernels.
Import ListNotations.
Local Open Scope nat_scope.

Definition pixel_local (cn : nat) (px : fpixel) : Prop := forall src src' b b' ws ws' c l l',
  1 <= bsize b -> bsize b' = bsize b -> (bstart b + bsize b) * cn <= length src -> (bstart b' + bsize b) * cn <= length src' ->
  bsize b <= length ws -> bsize b <= length ws' -> c < cn ->
  (forall k, k < bsize b -> nth ((bstart b + k) * cn + c) src f0 = nth ((bstart b' + k) * cn + c) src' f0) ->
  (forall k, k < bsize b -> nth k ws f0 = nth k ws' f0) ->
  px src b ws = Done l -> px src' b' ws' = Done l' -> nth c l f0 = nth c l' f0.

Lemma in_order_ext fma n x w x' w' v v' :
  (forall k, k < n -> x k = x' k) -> (forall k, k < n -> w k = w' k) ->
  in_order fma n x w v -> in_order fma n x' w' v' -> v = v'.
Proof.
  intros Hx Hw -> ->. unfold accumulate_from.
  assert (H : forall l a, Forall (fun k => k < n) l -> fold_left (fun a k => prefer_fma fma a (x k) (w k)) l a = fold_left (fun a k => prefer_fma fma a (x' k) (w' k)) l a).
  { induction l as [|k l IH]; intros a Hl; [reflexivity|]. inversion_clear Hl. cbn [fold_left]. rewrite Hx, Hw by assumption. now apply IH. }
  apply H. apply Forall_forall. intros k Hk. apply in_seq in Hk. lia.
Qed.

Lemma in_order_local cn px fma : pixel_gives cn px (in_order fma) -> pixel_local cn px.
Proof.
  intros G src src' b b' ws ws' c l l' Hb Eb Hs Hs' Hw Hw' Hc Hx HW E E'.
  destruct (G src b ws Hb Hs Hw) as (r & Er & _ & Hr). destruct (G src' b' ws' ltac:(lia) ltac:(rewrite Eb; lia) ltac:(lia)) as (r' & Er' & _ & Hr').
  rewrite E in Er. rewrite E' in Er'. injection Er as <-. injection Er' as <-. specialize (Hr c Hc). specialize (Hr' c Hc). rewrite Eb in Hr'.
  eapply in_order_ext; [exact Hx|exact HW|exact Hr|exact Hr'].
Qed.
Lemma rgba_sse_local fma : pixel_local 4 (rgba_sse_f32 fma).
Proof. exact (in_order_local _ _ fma (rgba_sse_value fma)). Qed.
Lemma rgb_sse_local fma : pixel_local 3 (rgb_sse_f32 fma).
Proof. exact (in_order_local _ _ fma (rgb_sse_value fma)). Qed.

Lemma plane_local fma step : pixel_local 1 (plane_sse_f32 fma step).
Proof.
  intros src src' b b' ws ws' c l l' Hb Eb Hs Hs' Hw Hw' Hc Hx HW E E'. replace c with 0 in * by lia.
  rewrite plane_sse_window in E by assumption. rewrite plane_sse_window in E' by (rewrite ?Eb; assumption).
  replace (window 1 src' b') with (window 1 src b) in E'.
  - replace (firstn (bsize b') ws') with (firstn (bsize b) ws) in E'; [rewrite Eb in E'; congruence|].
    rewrite Eb. apply nth_ext with (d := f0) (d' := f0); [rewrite !firstn_length; lia|]. intros i Hi. rewrite firstn_length in Hi.
    rewrite !nth_firstn by lia. apply HW. lia.
  - unfold window. rewrite Eb. apply nth_ext with (d := f0) (d' := f0); [rewrite !loaded_length; lia|].
    intros i Hi. rewrite loaded_length in Hi by lia. rewrite !loaded_nth by lia.
    specialize (Hx i ltac:(lia)). replace (bstart b * 1 + i) with ((bstart b + i) * 1 + 0) by lia. rewrite Hx. f_equal. lia.
Qed.

(** AVX2: two runs in lock step. *)
Lemma while_tiles_rel {S} (R : nat -> S -> S -> Prop) step slack total (body body' : S -> nat -> outcome S) :
  (forall cx s s', cx + slack < total -> R cx s s' -> exists t t', body s cx = Done t /\ body' s' cx = Done t' /\ R (cx + step) t t') ->
  forall fuel cx s s', total <= cx + fuel -> 1 <= step -> R cx s s' -> exists cx' t t',
    while_tiles fuel step slack total body cx s = Done (cx', t) /\ while_tiles fuel step slack total body' cx s' = Done (cx', t') /\
    R cx' t t' /\ (cx' = cx \/ cx' + slack < total + step).
Proof.
  intros Hb. induction fuel as [|fuel IH]; intros cx s s' Hf H1 HR; cbn [while_tiles].
  - replace (cx + slack <? total) with false by lia. exists cx, s, s'. auto.
  - destruct (Nat.ltb_spec (cx + slack) total) as [H|H].
    + destruct (Hb cx s s' H HR) as (t & t' & -> & -> & HR'). cbn [bind].
      destruct (IH (cx + step) t t' ltac:(lia) H1 HR') as (cx' & u & u' & E & E' & HU & D). exists cx', u, u'. repeat split; auto. lia.
    + exists cx, s, s'. auto.
Qed.

Section AvxLocal.
Variables (fma : bool) (c : nat).
Hypothesis Hc : c < 4.
Definition agree8 (s s' : mf) : Prop :=
  length s = 8 /\ length s' = 8 /\ nth c s f0 = nth c s' f0 /\ nth (4 + c) s f0 = nth (4 + c) s' f0.
Lemma agree_vfma s s' p p' v v' : agree8 s s' -> agree8 p p' -> agree8 v v' -> agree8 (vfma fma s p v) (vfma fma s' p' v').
Proof.
  intros (L & L' & H0 & H1) (Lp & Lp' & P0 & P1) (Lv & Lv' & V0 & V1). unfold agree8, vfma.
  rewrite !fzip3_length, !fzip3_nth by lia. rewrite H0, H1, P0, P1, V0, V1. auto.
Qed.
Lemma agree_refl v : length v = 8 -> agree8 v v.
Proof. intro. unfold agree8. auto. Qed.
End AvxLocal.

Lemma rgba_avx_local fma : pixel_local 4 (rgba_avx_f32 fma).
Proof.
  intros src src' b b' ws ws' c l l' Hb Eb Hs Hs' Hw Hw' Hc Hx HW E E'.
  unfold rgba_avx_f32 in E, E'. cbv zeta in E, E'. unfold ftaps in E, E'. rewrite Eb in E'.
  set (n := bsize b) in *. set (st := bstart b) in *. set (st' := bstart b') in *.
  set (R := fun (cx : nat) s s' => cx <= n /\ agree8 c s s').
  assert (LD : forall o o' k, k + 2 <= n -> o = (st + k) * 4 -> o' = (st' + k) * 4 -> agree8 c (firstn 8 (skipn o src)) (firstn 8 (skipn o' src'))).
  { intros o o' k Hk -> ->. unfold agree8. rewrite !loaded_length by nia. rewrite !loaded_nth by lia. split; [auto|]. split; [auto|].
    split; [apply Hx; lia|]. replace ((st + k) * 4 + (4 + c)) with ((st + (k + 1)) * 4 + c) by lia.
    replace ((st' + k) * 4 + (4 + c)) with ((st' + (k + 1)) * 4 + c) by lia. apply Hx; lia. }
  assert (LW : forall o m i, o + m <= n -> i < m -> nth i (firstn m (skipn o ws)) f0 = nth i (firstn m (skipn o ws')) f0).
  { intros o m i Ho Hi. rewrite !loaded_nth by lia. apply HW. lia. }
  assert (R0 : R 0 (zero_ps 8) (zero_ps 8)) by (split; [lia|]; apply agree_refl; auto).
  destruct (while_tiles_rel R 8 8 n
    (fun s jx => u <- loadf 4 ws jx ;; v <- loadf 4 ws (jx + 4) ;;
      p0 <- loadf 8 src ((st + jx) * 4) ;; p1 <- loadf 8 src ((st + jx) * 4 + 8) ;;
      p2 <- loadf 8 src ((st + jx) * 4 + 16) ;; p3 <- loadf 8 src ((st + jx) * 4 + 24) ;;
      Done (vfma fma (vfma fma (vfma fma (vfma fma s p0 (pair_ps (nth 0 u f0) (nth 1 u f0))) p1 (pair_ps (nth 2 u f0) (nth 3 u f0)))
        p2 (pair_ps (nth 0 v f0) (nth 1 v f0))) p3 (pair_ps (nth 2 v f0) (nth 3 v f0))))
    (fun s jx => u <- loadf 4 ws' jx ;; v <- loadf 4 ws' (jx + 4) ;;
      p0 <- loadf 8 src' ((st' + jx) * 4) ;; p1 <- loadf 8 src' ((st' + jx) * 4 + 8) ;;
      p2 <- loadf 8 src' ((st' + jx) * 4 + 16) ;; p3 <- loadf 8 src' ((st' + jx) * 4 + 24) ;;
      Done (vfma fma (vfma fma (vfma fma (vfma fma s p0 (pair_ps (nth 0 u f0) (nth 1 u f0))) p1 (pair_ps (nth 2 u f0) (nth 3 u f0)))
        p2 (pair_ps (nth 0 v f0) (nth 1 v f0))) p3 (pair_ps (nth 2 v f0) (nth 3 v f0)))))
    with (fuel := n) (cx := 0) (s := zero_ps 8) (s' := zero_ps 8) as (jx & s & s' & D & D' & (HL & HR) & _); [|lia|lia|exact R0|].
  { intros cx s s' Hcx (HL & HR). repeat (rewrite loadf_ok by nia; cbn [bind]). eexists. eexists. split; [reflexivity|]. split; [reflexivity|].
    split; [lia|].
    rewrite !(LW cx 4) by lia. rewrite !(LW (cx + 4) 4) by lia.
    apply agree_vfma; [exact Hc| |apply (LD _ _ (cx + 6)); lia|apply agree_refl; reflexivity].
    apply agree_vfma; [exact Hc| |apply (LD _ _ (cx + 4)); lia|apply agree_refl; reflexivity].
    apply agree_vfma; [exact Hc| |apply (LD _ _ (cx + 2)); lia|apply agree_refl; reflexivity].
    apply agree_vfma; [exact Hc|exact HR|apply (LD _ _ cx); lia|apply agree_refl; reflexivity]. }
  rewrite D in E. rewrite D' in E'. cbn [bind] in E, E'. clear D D' R0.
  destruct (while_tiles_rel R 4 4 n
    (fun s jx => u <- loadf 4 ws jx ;; 
      p0 <- loadf 8 src ((st + jx) * 4) ;; p1 <- loadf 8 src ((st + jx) * 4 + 8) ;;
      Done (vfma fma (vfma fma s p0 (pair_ps (nth 0 u f0) (nth 1 u f0))) p1 (pair_ps (nth 2 u f0) (nth 3 u f0))))
    (fun s jx => u <- loadf 4 ws' jx ;; 
      p0 <- loadf 8 src' ((st' + jx) * 4) ;; p1 <- loadf 8 src' ((st' + jx) * 4 + 8) ;;
      Done (vfma fma (vfma fma s p0 (pair_ps (nth 0 u f0) (nth 1 u f0))) p1 (pair_ps (nth 2 u f0) (nth 3 u f0))))
    ) with (fuel := n) (cx := jx) (s := s) (s' := s') as (jx2 & s2 & s2' & D & D' & (HL2 & HR2) & _); [|lia|lia|split; assumption|].
  { intros cx t t' Hcx (HL' & HRt). repeat (rewrite loadf_ok by nia; cbn [bind]). eexists. eexists. split; [reflexivity|]. split; [reflexivity|].
    split; [lia|].
    rewrite !(LW cx 4) by lia.
    apply agree_vfma; [exact Hc| |apply (LD _ _ (cx + 2)); lia|apply agree_refl; reflexivity].
    apply agree_vfma; [exact Hc|exact HRt|apply (LD _ _ cx); lia|apply agree_refl; reflexivity]. }
  rewrite D in E. rewrite D' in E'. cbn [bind] in E, E'. clear D D'.
  destruct (while_tiles_rel R 2 2 n
    (fun s jx => w0 <- idx ws jx ;; w1 <- idx ws (jx + 1) ;; 
      p0 <- loadf 8 src ((st + jx) * 4) ;; 
      Done (vfma fma s p0 (pair_ps w0 w1)))
    (fun s jx => w0 <- idx ws' jx ;; w1 <- idx ws' (jx + 1) ;; 
      p0 <- loadf 8 src' ((st' + jx) * 4) ;; 
      Done (vfma fma s p0 (pair_ps w0 w1)))
    ) with (fuel := n) (cx := jx2) (s := s2) (s' := s2') as (jx3 & s3 & s3' & D & D' & (HL3 & HR3) & _); [|lia|lia|split; assumption|].
  { intros cx t t' Hcx (HL' & HRt). repeat (first [rewrite loadf_ok by nia | rewrite idx_f by lia]; cbn [bind]). eexists. eexists. split; [reflexivity|]. split; [reflexivity|].
    split; [lia|].
    rewrite !HW by lia.
    apply agree_vfma; [exact Hc|exact HRt|apply (LD _ _ cx); lia|apply agree_refl; reflexivity]. }
  rewrite D in E. rewrite D' in E'. cbn [bind] in E, E'. clear D D'.
  destruct (while_tiles_rel R 1 0 n
    (fun s jx => w0 <- idx ws jx ;; 
      p0 <- loadf 4 src ((st + jx) * 4) ;; 
      Done (vfma fma s (p0 ++ zero_ps 4) (set1_ps 8 w0)))
    (fun s jx => w0 <- idx ws' jx ;; 
      p0 <- loadf 4 src' ((st' + jx) * 4) ;; 
      Done (vfma fma s (p0 ++ zero_ps 4) (set1_ps 8 w0)))
    ) with (fuel := n) (cx := jx3) (s := s3) (s' := s3') as (jx4 & s4 & s4' & D & D' & (HL4 & HR4) & _); [|lia|lia|split; assumption|].
  { intros cx t t' Hcx (HL' & HRt). repeat (first [rewrite loadf_ok by nia | rewrite idx_f by lia]; cbn [bind]). eexists. eexists. split; [reflexivity|]. split; [reflexivity|].
    split; [lia|].
    rewrite !HW by lia.
    apply agree_vfma; [exact Hc|exact HRt| |apply agree_refl; reflexivity].
    unfold agree8. rewrite !app_length, !loaded_length by nia. split; [reflexivity|]. split; [reflexivity|].
    rewrite !app_nth1, !loaded_nth by (rewrite ?loaded_length; nia). split; [apply Hx; lia|].
    rewrite !app_nth2 by (rewrite ?loaded_length; nia). rewrite !loaded_length by nia. reflexivity. }
  rewrite D in E. rewrite D' in E'. cbn [bind] in E, E'.
  assert (l = add_ps (firstn 4 s4) (skipn 4 s4)) as -> by congruence. assert (l' = add_ps (firstn 4 s4') (skipn 4 s4')) as -> by congruence.
  destruct HR4 as (L & L' & H0 & H1). unfold add_ps.
  rewrite !fzip_nth by (rewrite ?firstn_length, ?skipn_length; lia). rewrite !nth_firstn by lia. rewrite !nth_skipn. now rewrite H0, H1.
Qed.

(** ** One channel of one pixel, as a function *)
Definition px_val (cn : nat) (px : fpixel) (n : nat) (x w : nat -> f32) (c : nat) : f32 :=
  match px (flat_map (fun k => repeat (x k) cn) (seq 0 n)) (mkBound 0 n) (map w (seq 0 n)) with Done l => nth c l f0 | _ => f0 end.

Lemma flat_repeat_length {A} (x : nat -> A) cn n a : length (flat_map (fun k => repeat (x k) cn) (seq a n)) = n * cn.
Proof. revert a. induction n as [|n IH]; intro a; cbn [seq flat_map]; [reflexivity|]. rewrite app_length, repeat_length, IH. lia. Qed.
Lemma flat_repeat_nth (x : nat -> f32) cn n a k c : k < n -> c < cn ->
  nth (k * cn + c) (flat_map (fun k => repeat (x k) cn) (seq a n)) f0 = x (a + k).
Proof.
  revert a k. induction n as [|n IH]; intros a k Hk Hc; [lia|]. cbn [seq flat_map]. destruct k as [|k].
  - rewrite app_nth1 by (rewrite repeat_length; lia). cbn [Nat.mul Nat.add].
    rewrite nth_indep with (d' := x a) by (rewrite repeat_length; lia). rewrite nth_repeat. f_equal. lia.
  - rewrite app_nth2 by (rewrite repeat_length; lia). rewrite repeat_length.
    replace (S k * cn + c - cn) with (k * cn + c) by lia. rewrite IH by lia. f_equal. lia.
Qed.
Lemma map_seq_nth (w : nat -> f32) n k : k < n -> nth k (map w (seq 0 n)) f0 = w k.
Proof. intro H. rewrite nth_indep with (d' := w 0) by (rewrite map_length, seq_length; lia). rewrite map_nth, seq_nth by lia. reflexivity. Qed.

Definition respects (P : nat -> (nat -> f32) -> (nat -> f32) -> f32 -> Prop) : Prop := forall n x w x' w' v,
  (forall k, k < n -> x k = x' k) -> (forall k, k < n -> w k = w' k) -> P n x w v -> P n x' w' v.

Section Pixel.
Variables (cn : nat) (px : fpixel) (P : nat -> (nat -> f32) -> (nat -> f32) -> f32 -> Prop).
Hypothesis HG : pixel_gives cn px P.
Hypothesis HL : pixel_local cn px.
Hypothesis HR : respects P.

Lemma px_val_run n x w : 1 <= n -> yields (px (flat_map (fun k => repeat (x k) cn) (seq 0 n)) (mkBound 0 n) (map w (seq 0 n)))
  (fun l => length l = cn /\ forall c, c < cn -> nth c l f0 = px_val cn px n x w c /\ P n x w (nth c l f0)).
Proof using HG HR.
  intro Hn.
  destruct (HG (flat_map (fun k => repeat (x k) cn) (seq 0 n)) (mkBound 0 n) (map w (seq 0 n))) as (l & E & Ll & Hl); cbn [bsize bstart].
  - exact Hn.
  - rewrite flat_repeat_length. lia.
  - rewrite map_length, seq_length. lia.
  - exists l. split; [exact E|]. split; [exact Ll|]. intros c Hc. split; [unfold px_val; rewrite E; reflexivity|].
    eapply HR; [| |apply Hl; exact Hc]; cbn [bsize bstart]; intros k Hk; cbv beta.
    + rewrite Nat.add_0_l. apply flat_repeat_nth; auto.
    + apply map_seq_nth; auto.
Qed.

Lemma px_val_is n x w c : 1 <= n -> c < cn -> P n x w (px_val cn px n x w c).
Proof using HG HR. intros Hn Hc. destruct (px_val_run n x w Hn) as (l & _ & _ & H). destruct (H c Hc) as (<- & HP). exact HP. Qed.

Lemma px_val_ext n x w x' w' c : (forall k, k < n -> x k = x' k) -> (forall k, k < n -> w k = w' k) ->
  px_val cn px n x w c = px_val cn px n x' w' c.
Proof using.
  intros Hx Hw. unfold px_val.
  replace (flat_map (fun k => repeat (x' k) cn) (seq 0 n)) with (flat_map (fun k => repeat (x k) cn) (seq 0 n)).
  - replace (map w' (seq 0 n)) with (map w (seq 0 n)); [reflexivity|]. apply map_ext_in. intros k Hk. apply in_seq in Hk. apply Hw. lia.
  - rewrite !flat_map_concat_map. f_equal. apply map_ext_in. intros k Hk. apply in_seq in Hk. now rewrite Hx by lia.
Qed.

Lemma px_at src b ws : 1 <= bsize b -> (bstart b + bsize b) * cn <= length src -> bsize b <= length ws ->
  px src b ws = Done (map (fun c => px_val cn px (bsize b) (fun k => nth ((bstart b + k) * cn + c) src f0) (fun k => nth k ws f0) c) (seq 0 cn)).
Proof using HG HL HR.
  intros Hb Hs Hw. destruct (HG src b ws Hb Hs Hw) as (l & E & Ll & Hl). rewrite E. f_equal.
  apply nth_ext with (d := f0) (d' := f0); [rewrite map_length, seq_length; exact Ll|].
  intros c Hc. rewrite Ll in Hc. rewrite map_seq_nth by exact Hc.
  set (x := fun k => nth ((bstart b + k) * cn + c) src f0). set (w := fun k => nth k ws f0).
  destruct (px_val_run (bsize b) x w Hb) as (l' & E' & Ll' & Hl'). destruct (Hl' c Hc) as (<- & _).
  eapply (HL src _ b (mkBound 0 (bsize b)) ws _ c l l' Hb); try exact E; try exact E'; cbn [bsize bstart]; auto.
  - rewrite flat_repeat_length. lia.
  - rewrite map_length, seq_length. lia.
  - intros k Hk. rewrite Nat.add_0_l, flat_repeat_nth by auto. reflexivity.
  - intros k Hk. rewrite map_seq_nth by auto. reflexivity.
Qed.
End Pixel.

(** ** Rows *)
Lemma storef_ok dst off v : off + length v <= length dst -> storef dst off v = Done (splice dst off v).
Proof. intro H. unfold storef. replace (off + length v <=? length dst) with true by lia. reflexivity. Qed.
Lemma splice_app_l {A} (a b v : list A) o : o + length v <= length a -> splice (a ++ b) o v = splice a o v ++ b.
Proof.
  intro H. unfold splice. rewrite firstn_app, skipn_app. replace (o - length a) with 0 by lia.
  replace (o + length v - length a) with 0 by lia. cbn [firstn skipn]. now rewrite app_nil_r, !app_assoc.
Qed.
Lemma splice_app_r {A} (a b v : list A) o n : length a = n -> splice (a ++ b) (n + o) v = a ++ splice b o v.
Proof.
  intros <-. unfold splice. rewrite firstn_app, skipn_app. rewrite firstn_all2 by lia.
  replace (length a + o - length a) with o by lia. rewrite (skipn_all2 a) by lia.
  replace (length a + o + length v - length a) with (o + length v) by lia. cbn [app]. now rewrite !app_assoc.
Qed.

(** Value of sample (pixel x, channel c) of a row resampled with kernel [px]. *)
Definition fxval (cn : nat) (px : fpixel) (fw : fweights f32) (s : nat -> f32) (x c : nat) : f32 :=
  let b := nth x (bounds fw) (mkBound 0 0) in
  px_val cn px (bsize b) (fun k => s ((bstart b + k) * cn + c)) (fun k => nth (x * aligned_size fw + k) (weights fw) f0) c.

Section Rows.
Variables (cn : nat) (px : fpixel) (P : nat -> (nat -> f32) -> (nat -> f32) -> f32 -> Prop).
Hypothesis Hcn : 0 < cn.
Hypothesis HG : pixel_gives cn px P.
Hypothesis HL : pixel_local cn px.
Hypothesis HR : respects P.
Variables (fw : fweights f32) (insz outsz : nat).
Hypothesis WF : wf_fw fw insz outsz.

Lemma fx_at src x : x < outsz -> insz * cn <= length src ->
  px src (nth x (bounds fw) (mkBound 0 0)) (skipn (x * aligned_size fw) (weights fw)) =
  Done (map (fxval cn px fw (fun i => nth i src f0) x) (seq 0 cn)).
Proof using HG HL HR WF Hcn.
  intros Hx Hs. pose proof (wf_nth fw insz outsz x WF Hx) as Wx. cbv zeta in Wx. pose proof (wf_wlen _ _ _ WF) as LW.
  rewrite (px_at cn px P HG HL HR).
  - f_equal. apply map_ext_in. intros c Hc. unfold fxval. apply px_val_ext; [reflexivity|]. intros k Hk. apply nth_skipn.
  - lia.
  - nia.
  - rewrite skipn_length. nia.
Qed.

Let val src (j : nat) : f32 := fxval cn px fw (fun i => nth i src f0) (j / cn) (j mod cn).

Lemma val_pixel src x : map (fxval cn px fw (fun i => nth i src f0) x) (seq 0 cn) = map (fun i => val src (x * cn + i)) (seq 0 cn).
Proof using Hcn.
  clear - Hcn. apply map_ext_in. intros c Hc. apply in_seq in Hc. unfold val.
  replace ((x * cn + c) / cn) with x by (apply Nat.div_unique with (r := c); lia).
  replace ((x * cn + c) mod cn) with c by (apply Nat.mod_unique with (q := x); lia). reflexivity.
Qed.

Lemma bound_at x : x < outsz -> idx (bounds fw) x = Done (nth x (bounds fw) (mkBound 0 0)).
Proof using WF.
  clear val Hcn. intro H. unfold idx. rewrite (nth_error_nth' _ (mkBound 0 0)) by (rewrite (wf_blen _ _ _ WF); lia). reflexivity.
Qed.
Lemma weights_at x : x < outsz -> slice_from (weights fw) (x * aligned_size fw) = Done (skipn (x * aligned_size fw) (weights fw)).
Proof using WF. clear val Hcn HG HL HR P. intro H. unfold slice_from. pose proof (wf_wlen _ _ _ WF). replace (_ <=? _) with true by nia. reflexivity. Qed.

Theorem fhrow_closed src dst : insz * cn <= length src -> outsz * cn <= length dst ->
  fhrow cn px outsz src dst fw = Done (rowmap (outsz * cn) (val src) dst).
Proof using HG HL HR WF Hcn.
  intros Hs Hd. unfold fhrow.
  destruct (foldM_seq_inv (fun x s => s = rowmap (x * cn) (val src) dst)
    (fun dst x => b <- idx (bounds fw) x ;; w <- slice_from (weights fw) (x * aligned_size fw) ;; v <- px src b w ;; storef dst (x * cn) v)
    outsz 0 dst) as (r & E & Hr).
  - intros x s Hx ->. rewrite bound_at, weights_at by lia. cbn [bind]. rewrite fx_at by lia. cbn [bind].
    rewrite val_pixel. eexists. split.
    + apply storef_ok. rewrite map_length, seq_length, rowmap_length by nia. nia.
    + cbv beta. rewrite rowmap_step by nia. f_equal. lia.
  - reflexivity.
  - rewrite E. f_equal. rewrite Hr. reflexivity.
Qed.

Theorem fhrow4_closed src ss dst ds : insz * cn <= ss -> outsz * cn <= ds ->
  length src = 4 * ss -> length dst = 4 * ds ->
  let row r := rowmap (outsz * cn) (val (chunk ss src r)) (chunk ds dst r) in
  fhrow4 cn px outsz src ss dst ds fw = Done (row 0 ++ row 1 ++ row 2 ++ row 3).
Proof using HG HL HR WF Hcn.
  intros Hs Hd Ls Ld row. unfold fhrow4.
  assert (Lc : forall r, r < 4 -> length (chunk ds dst r) = ds).
  { intros r Hr. unfold chunk. rewrite firstn_length, skipn_length. nia. }
  set (R := fun x r => rowmap (x * cn) (val (chunk ss src r)) (chunk ds dst r)).
  assert (LR : forall x r, x <= outsz -> r < 4 -> length (R x r) = ds).
  { intros x r Hx Hr. unfold R. rewrite rowmap_length; rewrite Lc; nia. }
  assert (V : forall x r k, x < outsz -> r < 4 -> k = r * ss ->
    px (skipn k src) (nth x (bounds fw) (mkBound 0 0)) (skipn (x * aligned_size fw) (weights fw)) =
    Done (map (fun i => val (chunk ss src r) (x * cn + i)) (seq 0 cn))).
  { intros x r k Hx Hr ->. rewrite fx_at by (rewrite ?skipn_length; nia). f_equal. rewrite <- val_pixel.
    apply map_ext_in. intros c Hc. apply in_seq in Hc. unfold fxval. apply px_val_ext; [|reflexivity]. intros i Hi.
    pose proof (wf_nth fw insz outsz x WF Hx) as Wx. cbv zeta in Wx.
    rewrite nth_skipn, nth_chunk by nia. reflexivity. }
  destruct (foldM_seq_inv (fun x s => s = R x 0 ++ R x 1 ++ R x 2 ++ R x 3)
    (fun dst x =>
      b <- idx (bounds fw) x ;; w <- slice_from (weights fw) (x * aligned_size fw) ;;
      src1 <- slice_from src ss ;; src2 <- slice_from src (ss * 2) ;; src3 <- slice_from src (ss * 3) ;;
      v0 <- px src b w ;; v1 <- px src1 b w ;; v2 <- px src2 b w ;; v3 <- px src3 b w ;;
      dst <- storef dst (x * cn) v0 ;;
      dst <- storef dst (x * cn + ds) v1 ;;
      dst <- storef dst (x * cn + ds * 2) v2 ;;
      storef dst (x * cn + ds * 3) v3)
    outsz 0 dst) as (r & E & Hr).
  - intros x s Hx ->. rewrite bound_at, weights_at by lia. cbn [bind].
    unfold slice_from. replace (ss <=? length src) with true by lia. replace (ss * 2 <=? length src) with true by lia.
    replace (ss * 3 <=? length src) with true by lia. cbn [bind].
    change src with (skipn 0 src) at 1.
    rewrite (V x 0 0), (V x 1 ss), (V x 2 (ss * 2)), (V x 3 (ss * 3)) by lia. cbn [bind].
    set (v := fun r => map (fun i => val (chunk ss src r) (x * cn + i)) (seq 0 cn)).
    change (map (fun i => val (chunk ss src 0) (x * cn + i)) (seq 0 cn)) with (v 0).
    change (map (fun i => val (chunk ss src 1) (x * cn + i)) (seq 0 cn)) with (v 1).
    change (map (fun i => val (chunk ss src 2) (x * cn + i)) (seq 0 cn)) with (v 2).
    change (map (fun i => val (chunk ss src 3) (x * cn + i)) (seq 0 cn)) with (v 3).
    assert (Lv : forall r, length (v r) = cn) by (intro; unfold v; now rewrite map_length, seq_length).
    assert (St : forall r, r < 4 -> splice (R x r) (x * cn) (v r) = R (x + 1) r).
    { intros r Hr. unfold R, v. rewrite rowmap_step by (rewrite Lc; nia). f_equal. lia. }
    assert (Hxc : x * cn + cn <= ds) by nia.
    pose proof (LR x 0 ltac:(lia) ltac:(lia)) as L0. pose proof (LR x 1 ltac:(lia) ltac:(lia)) as L1.
    pose proof (LR x 2 ltac:(lia) ltac:(lia)) as L2. pose proof (LR x 3 ltac:(lia) ltac:(lia)) as L3.
    pose proof (LR (x + 1) 0 ltac:(lia) ltac:(lia)) as L0'. pose proof (LR (x + 1) 1 ltac:(lia) ltac:(lia)) as L1'.
    pose proof (LR (x + 1) 2 ltac:(lia) ltac:(lia)) as L2'.
    rewrite storef_ok by (rewrite !app_length, Lv; lia). cbn [bind].
    rewrite splice_app_l by (rewrite Lv; lia). rewrite St by lia.
    rewrite storef_ok by (rewrite !app_length, Lv; lia). cbn [bind].
    replace (x * cn + ds) with (ds + x * cn) by lia. rewrite splice_app_r by exact L0'.
    rewrite splice_app_l by (rewrite Lv; lia). rewrite St by lia.
    rewrite storef_ok by (rewrite !app_length, Lv; lia). cbn [bind].
    replace (x * cn + ds * 2) with (ds + (ds + x * cn)) by lia. rewrite splice_app_r by exact L0'. rewrite splice_app_r by exact L1'.
    rewrite splice_app_l by (rewrite Lv; lia). rewrite St by lia.
    rewrite storef_ok by (rewrite !app_length, Lv; lia).
    replace (x * cn + ds * 3) with (ds + (ds + (ds + x * cn))) by lia.
    rewrite splice_app_r by exact L0'. rewrite splice_app_r by exact L1'. rewrite splice_app_r by exact L2'.
    rewrite St by lia. eexists. split; reflexivity.
  - unfold R, rowmap. cbn [Nat.mul seq map app skipn]. unfold chunk. cbn [Nat.mul skipn]. rewrite !Nat.add_0_r.
    rewrite (firstn_all2 (skipn (ds + (ds + ds)) dst)) by (rewrite skipn_length; lia).
    replace (ds + (ds + ds)) with (ds + ds + ds) by lia.
    rewrite <- (skipn_skipn_add ds (ds + ds)), (firstn_skipn ds (skipn (ds + ds) dst)).
    rewrite <- (skipn_skipn_add ds ds), (firstn_skipn ds (skipn ds dst)), firstn_skipn. reflexivity.
  - rewrite E. f_equal. rewrite Hr. reflexivity.
Qed.
End Rows.
