(** The f32 kernels of X86Float.v: no out-of-range access, dependence on the window only,
    and which taps each result sums. *)
From Coq Require Import ZArith List Lia Bool Permutation ZifyBool ZifyNat.
From Verif Require Import Base BaseProofs ImageStore ColorGroup FixedPoint Dispatch FloatConv Resize SpecFloat F32 Weights
  KernelProofs ColumnProofs SimdProofs FloatConvProofs X86HorizontalProofs Kernel4Proofs X86Float SpecX86Float.
Import ListNotations.
Local Open Scope nat_scope.

(** ** Lanes *)
Lemma fzip3_nth f a b c i : i < length a -> i < length b -> i < length c ->
  nth i (fzip3 f a b c) f0 = f (nth i a f0) (nth i b f0) (nth i c f0).
Proof.
  revert b c i. induction a as [|x a IH]; intros [|y b] [|z c] [|i] Ha Hb Hc; cbn in *; try lia; auto.
  apply IH; lia.
Qed.
Lemma fzip3_length f a b c : length b = length a -> length c = length a -> length (fzip3 f a b c) = length a.
Proof.
  revert b c. induction a as [|x a IH]; intros [|y b] [|z c] Hb Hc; cbn in *; try lia. rewrite IH; lia.
Qed.
Lemma fzip_nth f a b i : i < length a -> i < length b -> nth i (fzip f a b) f0 = f (nth i a f0) (nth i b f0).
Proof.
  revert b i. induction a as [|x a IH]; intros [|y b] [|i] Ha Hb; cbn in *; try lia; auto. apply IH; lia.
Qed.
Lemma fzip_length f a b : length b = length a -> length (fzip f a b) = length a.
Proof. revert b. induction a as [|x a IH]; intros [|y b] Hb; cbn in *; try lia. rewrite IH; lia. Qed.

Lemma loadf_ok n mem off : off + n <= length mem -> loadf n mem off = Done (firstn n (skipn off mem)).
Proof. intro H. unfold loadf. replace (off + n <=? length mem) with true by lia. reflexivity. Qed.
Lemma loaded_nth n mem off i : i < n -> nth i (firstn n (skipn off mem)) f0 = nth (off + i) mem f0.
Proof. intro H. rewrite nth_firstn by lia. apply nth_skipn. Qed.
Lemma loaded_length n (mem : list f32) off : off + n <= length mem -> length (firstn n (skipn off mem)) = n.
Proof. intro H. rewrite firstn_length, skipn_length. lia. Qed.
Lemma idx_f ws i : i < length ws -> idx ws i = Done (nth i ws f0).
Proof. intro H. unfold idx. destruct (nth_error ws i) eqn:E; [|apply nth_error_None in E; lia]. f_equal. symmetry. now apply nth_error_nth. Qed.

(** ** Dependence on the window *)
(** The samples of the window of [b] and its weights. *)
Definition window (cn : nat) (src : list f32) (b : fbound) : list f32 := firstn (bsize b * cn) (skipn (bstart b * cn) src).

Section Local.
Variables (cn : nat) (src ws : list f32) (b : fbound).

Lemma window_length (Hs : (bstart b + bsize b) * cn <= length src) : length (window cn src b) = bsize b * cn.
Proof. unfold window. rewrite firstn_length, skipn_length. lia. Qed.
Lemma load_window (Hs : (bstart b + bsize b) * cn <= length src) m o : o + m <= bsize b * cn -> loadf m src (bstart b * cn + o) = loadf m (window cn src b) o.
Proof.
  intro H. rewrite !loadf_ok by (rewrite ?window_length; lia). f_equal. unfold window.
  rewrite skipn_firstn_comm, firstn_firstn, Nat.min_l by lia. f_equal. rewrite skipn_skipn_add. f_equal. 
Qed.
Lemma load_weights (Hw : bsize b <= length ws) m o : o + m <= bsize b -> loadf m ws o = loadf m (firstn (bsize b) ws) o.
Proof.
  intro H. rewrite !loadf_ok by (rewrite ?firstn_length; lia). f_equal.
  rewrite skipn_firstn_comm, firstn_firstn, Nat.min_l by lia. reflexivity.
Qed.
Lemma idx_weights (Hw : bsize b <= length ws) o : o < bsize b -> idx ws o = idx (firstn (bsize b) ws) o.
Proof. intro H. unfold idx. rewrite nth_error_firstn. replace (o <? bsize b) with true by lia. reflexivity. Qed.
Lemma idx_window (Hs : (bstart b + bsize b) * cn <= length src) o : cn = 1 -> o < bsize b -> idx src (bstart b + o) = idx (window cn src b) o.
Proof.
  intros E H. unfold idx, window. rewrite nth_error_firstn. replace (o <? bsize b * cn) with true by nia.
  rewrite nth_error_skipn. replace (bstart b * cn) with (bstart b) by nia. reflexivity.
Qed.
End Local.

Lemma while_tiles_ext {S} step slack total (body body' : S -> nat -> outcome S) :
  (forall s cx, cx + slack < total -> body s cx = body' s cx) ->
  forall fuel cx s, while_tiles fuel step slack total body cx s = while_tiles fuel step slack total body' cx s.
Proof.
  intro H. induction fuel as [|fuel IH]; intros cx s; cbn [while_tiles]; destruct (cx + slack <? total) eqn:E; auto.
  rewrite H by lia. destruct (body' s cx); cbn [bind]; auto.
Qed.

Definition window_only (cn : nat) (px : fpixel) : Prop := forall src b ws,
  (bstart b + bsize b) * cn <= length src -> bsize b <= length ws ->
  px src b ws = px (window cn src b) (mkBound 0 (bsize b)) (firstn (bsize b) ws).

Lemma bind_ext {A B} (m m' : outcome A) (k k' : A -> outcome B) :
  m = m' -> (forall a, k a = k' a) -> bind m k = bind m' k'.
Proof. intros -> H. destruct m'; cbn; auto. Qed.

Ltac win cn src ws b Hs Hw :=
  match goal with
  | |- bind ?m ?k = bind ?m' ?k' => apply bind_ext; [|let a := fresh "a" in intro a]
  | |- (let '(_, _) := ?p in _) = _ => destruct p
  | |- ftaps _ _ _ _ _ _ = ftaps _ _ _ _ _ _ => unfold ftaps; cbn [bsize bstart]; apply while_tiles_ext; intros
  | |- idx ws _ = idx _ _ => apply (idx_weights ws b Hw); lia
  | |- loadf _ ws _ = loadf _ (firstn _ ws) _ => apply (load_weights ws b Hw); lia
  | |- loadf _ src ?o = loadf _ _ ?o' =>
      replace o with (bstart b * cn + o') by nia; apply (load_window cn src b Hs); nia
  | |- idx src ?o = idx _ ?o' => replace o with (bstart b + o') by lia; apply (idx_window cn src b Hs _ eq_refl); lia
  | |- _ => reflexivity
  end.

Lemma rgba_sse_window fma : window_only 4 (rgba_sse_f32 fma).
Proof. intros src b ws Hs Hw. unfold rgba_sse_f32. cbv zeta. cbn [bsize bstart]. repeat win 4 src ws b Hs Hw. Qed.
Lemma rgb_sse_window fma : window_only 3 (rgb_sse_f32 fma).
Proof. intros src b ws Hs Hw. unfold rgb_sse_f32. cbv zeta. cbn [bsize bstart]. repeat win 3 src ws b Hs Hw. Qed.
Lemma plane_sse_window fma step : window_only 1 (plane_sse_f32 fma step).
Proof. intros src b ws Hs Hw. unfold plane_sse_f32. cbv zeta. cbn [bsize bstart]. repeat win 1 src ws b Hs Hw. Qed.
Lemma rgba_avx_window fma : window_only 4 (rgba_avx_f32 fma).
Proof. intros src b ws Hs Hw. unfold rgba_avx_f32. cbv zeta. cbn [bsize bstart]. repeat win 4 src ws b Hs Hw. Qed.

(** ** Values *)
Lemma accf_snoc {J} (madd : J -> J -> J -> J) from n x w a :
  accumulate_from madd from (S n) x w a = madd (accumulate_from madd from n x w a) (x (from + n)) (w (from + n)).
Proof. unfold accumulate_from. rewrite seq_S, fold_left_app. reflexivity. Qed.

Lemma set1_nth m v i : i < m -> nth i (set1_ps m v) f0 = v.
Proof. intro H. unfold set1_ps. rewrite nth_indep with (d' := v) by (rewrite repeat_length; lia). apply nth_repeat. Qed.

(** What a pixel kernel must deliver. *)
Definition pixel_gives (cn : nat) (px : fpixel) (P : nat -> (nat -> f32) -> (nat -> f32) -> f32 -> Prop) : Prop :=
  forall src b ws, 1 <= bsize b -> (bstart b + bsize b) * cn <= length src -> bsize b <= length ws ->
  yields (px src b ws) (fun l => length l = cn /\ forall c, c < cn ->
    P (bsize b) (fun k => nth ((bstart b + k) * cn + c) src f0) (fun k => nth k ws f0) (nth c l f0)).

(** Left to right, starting from zero. *)
Definition in_order (fma : bool) (n : nat) (x w : nat -> f32) (v : f32) : Prop :=
  v = accumulate_from (prefer_fma fma) 0 n x w f0.

Section InOrder.
Variables (fma : bool) (m cn n : nat) (X : nat -> nat -> f32) (W : nat -> f32).
Hypothesis Hcm : cn <= m.
Definition inorder_inv (cx : nat) (s : mf) : Prop :=
  cx <= n /\ length s = m /\ forall c, c < cn ->
  nth c s f0 = accumulate_from (prefer_fma fma) 0 cx (fun k => X k c) W f0.
Lemma inorder_0 : inorder_inv 0 (zero_ps m).
Proof. split; [lia|]. split; [apply repeat_length|]. intros c Hc. unfold zero_ps. rewrite nth_repeat. reflexivity. Qed.
Lemma inorder_tap cx s p v : inorder_inv cx s -> cx < n -> length p = m -> v = W cx ->
  (forall c, c < cn -> nth c p f0 = X cx c) -> inorder_inv (S cx) (vfma fma s p (set1_ps m v)).
Proof.
  intros (H & Ls & Hc) Hn Lp -> Hp. split; [lia|]. unfold vfma. split.
  - rewrite fzip3_length; auto; [lia|]. unfold set1_ps. rewrite repeat_length. lia.
  - intros c Hcc. rewrite fzip3_nth by (unfold set1_ps; rewrite ?repeat_length; lia).
    rewrite accf_snoc, <- Hc by lia. cbn [Nat.add]. rewrite set1_nth by lia. rewrite Hp by lia. reflexivity.
Qed.
End InOrder.

Ltac lds := repeat (rewrite loadf_ok by nia; cbn [bind]); repeat (rewrite idx_f by lia; cbn [bind]).
Ltac lds2 := repeat first [rewrite loadf_ok by nia | rewrite idx_f by lia]; cbn [bind].

Lemma rgba_sse_value fma : pixel_gives 4 (rgba_sse_f32 fma) (in_order fma).
Proof.
  intros src b ws Hb Hs Hw. unfold rgba_sse_f32. cbv zeta. unfold ftaps.
  set (n := bsize b) in *. set (st := bstart b) in *.
  set (I := inorder_inv fma 4 4 n (fun k c => nth ((st + k) * 4 + c) src f0) (fun k => nth k ws f0)).
  assert (T : forall cx s o v, I cx s -> cx < n -> o = (st + cx) * 4 -> v = nth cx ws f0 ->
     I (S cx) (vfma fma s (firstn 4 (skipn o src)) (set1_ps 4 v))).
  { intros cx s o v HI Hc -> ->. apply inorder_tap; auto; [apply loaded_length; nia|].
    intros c Hcc. rewrite loaded_nth by lia. reflexivity. }
  eapply yields_bind.
  { apply (while_tiles_inv I); [lia| |lia|apply inorder_0; lia]. intros cx s Hc HI.
    repeat (first [rewrite loadf_ok by nia | rewrite idx_f by lia]; cbn [bind]). eexists. split; [reflexivity|].
    replace (cx + 4) with (S (S (S (S cx)))) by lia.
    repeat (apply T; [|lia|lia|f_equal; lia]). exact HI. }
  intros [jx s] (HI & _). cbn [fst snd] in HI. cbv beta.
  eapply yields_bind.
  { apply (while_tiles_inv I); [lia| |destruct HI; lia|exact HI]. clear jx s HI. intros cx s Hc HI.
    repeat (first [rewrite loadf_ok by nia | rewrite idx_f by lia]; cbn [bind]). eexists. split; [reflexivity|].
    replace (cx + 2) with (S (S cx)) by lia.
    repeat (apply T; [|lia|lia|f_equal; lia]). exact HI. }
  intros [jx2 s2] (HI2 & _). clear jx s HI. rename jx2 into jx, s2 into s, HI2 into HI. cbn [fst snd] in HI. cbv beta.
  eapply yields_bind.
  { apply (while_tiles_inv I); [lia| |destruct HI; lia|exact HI]. clear jx s HI. intros cx s Hc HI.
    repeat (first [rewrite loadf_ok by nia | rewrite idx_f by lia]; cbn [bind]). eexists. split; [reflexivity|].
    replace (cx + 1) with (S cx) by lia. apply T; [exact HI|lia|lia|reflexivity]. }
  intros [jx2 s2] (HI2 & Hn & _ & _). clear jx s HI. rename jx2 into jx, s2 into s, HI2 into HI. cbn [fst snd] in HI, Hn. cbv beta.
  destruct HI as (Hle & Ls & Hc). replace jx with n in * by lia.
  eexists. split; [reflexivity|]. split; [exact Ls|]. intros c Hcc. apply Hc. exact Hcc.
Qed.

Lemma rgb_sse_value fma : pixel_gives 3 (rgb_sse_f32 fma) (in_order fma).
Proof.
  intros src b ws Hb Hs Hw. unfold rgb_sse_f32. cbv zeta. unfold ftaps.
  set (n := bsize b) in *. set (st := bstart b) in *.
  set (I := inorder_inv fma 4 3 n (fun k c => nth ((st + k) * 3 + c) src f0) (fun k => nth k ws f0)).
  assert (T : forall cx s o v, I cx s -> cx + 1 < n -> o = (st + cx) * 3 -> v = nth cx ws f0 ->
     I (S cx) (vfma fma s (firstn 4 (skipn o src)) (set1_ps 4 v))).
  { intros cx s o v HI Hc -> ->. apply inorder_tap; auto; try lia; [apply loaded_length; nia|].
    intros c Hcc. rewrite loaded_nth by lia. reflexivity. }
  assert (T3 : forall cx s o v, I cx s -> cx < n -> o = (st + cx) * 3 -> v = nth cx ws f0 ->
     I (S cx) (vfma fma s (firstn 3 (skipn o src) ++ [f0]) (set1_ps 4 v))).
  { intros cx s o v HI Hc -> ->. apply inorder_tap; auto; try lia.
    - rewrite app_length, loaded_length by nia. reflexivity.
    - intros c Hcc. rewrite app_nth1 by (rewrite loaded_length; nia). rewrite loaded_nth by lia. reflexivity. }
  eapply yields_bind.
  { apply (while_tiles_inv I); [lia| |lia|apply inorder_0; lia]. intros cx s Hc HI.
    repeat (first [rewrite loadf_ok by nia | rewrite idx_f by lia]; cbn [bind]). eexists. split; [reflexivity|].
    replace (cx + 4) with (S (S (S (S cx)))) by lia. apply T3; [|lia|lia|f_equal; lia].
    repeat (apply T; [|lia|lia|f_equal; lia]). exact HI. }
  intros [jx s] (HI & _). cbn [fst snd] in HI. cbv beta.
  eapply yields_bind.
  { apply (while_tiles_inv I); [lia| |destruct HI; lia|exact HI]. clear jx s HI. intros cx s Hc HI.
    repeat (first [rewrite loadf_ok by nia | rewrite idx_f by lia]; cbn [bind]). eexists. split; [reflexivity|].
    replace (cx + 2) with (S (S cx)) by lia. apply T3; [|lia|lia|f_equal; lia].
    repeat (apply T; [|lia|lia|f_equal; lia]). exact HI. }
  intros [jx2 s2] (HI2 & _). clear jx s HI. rename jx2 into jx, s2 into s, HI2 into HI. cbn [fst snd] in HI. cbv beta.
  eapply yields_bind.
  { apply (while_tiles_inv I); [lia| |destruct HI; lia|exact HI]. clear jx s HI. intros cx s Hc HI.
    repeat (first [rewrite loadf_ok by nia | rewrite idx_f by lia]; cbn [bind]). eexists. split; [reflexivity|].
    replace (cx + 1) with (S cx) by lia. apply T3; [exact HI|lia|lia|reflexivity]. }
  intros [jx2 s2] (HI2 & Hn & _ & _). clear jx s HI. rename jx2 into jx, s2 into s, HI2 into HI. cbn [fst snd] in HI, Hn. cbv beta.
  destruct HI as (Hle & Ls & Hc). replace jx with n in * by lia.
  eexists. split; [reflexivity|]. split; [rewrite firstn_length; lia|]. intros c Hcc. rewrite nth_firstn by lia. apply Hc. exact Hcc.
Qed.

(** *** One channel *)
(** All taps once, then the taps of [extra] again, in some order. *)
Definition sums_taps (extra : nat -> list nat) (n : nat) (x w : nat -> f32) (v : f32) : Prop :=
  exists l, Permutation l (seq 0 n ++ extra n) /\ summed n x w l v.
Definition no_extra (n : nat) : list nat := [].
(** The one-row kernel for one channel: taps 8 .. 8q+7 again, q = (n - 9) / 8. *)
Definition twice_taps (n : nat) : list nat := seq 8 (8 * ((n - 9) / 8)).

Lemma loaded4 (l : list f32) o : o + 4 <= length l ->
  firstn 4 (skipn o l) = [nth o l f0; nth (o + 1) l f0; nth (o + 2) l f0; nth (o + 3) l f0].
Proof.
  intro H. apply nth_ext with (d := f0) (d' := f0).
  - rewrite loaded_length; auto.
  - intros i Hi. rewrite loaded_length in Hi by lia. rewrite loaded_nth by lia.
    destruct i as [|[|[|[|i]]]]; cbn [nth]; [f_equal; lia|reflexivity|reflexivity|reflexivity|lia].
Qed.
Lemma loaded2 (l : list f32) o : o + 2 <= length l -> firstn 2 (skipn o l) = [nth o l f0; nth (o + 1) l f0].
Proof.
  intro H. apply nth_ext with (d := f0) (d' := f0).
  - rewrite loaded_length; auto.
  - intros i Hi. rewrite loaded_length in Hi by lia. rewrite loaded_nth by lia.
    destruct i as [|[|i]]; cbn [nth]; [f_equal; lia|reflexivity|lia].
Qed.

Section Sums.
Variables (fma : bool) (n : nat) (x w : nat -> f32).
Notation sm := (summed n x w).
Lemma sm_tap l a k : k < n -> sm l a -> sm (k :: l) (prefer_fma fma a (x k) (w k)).
Proof. intros. unfold prefer_fma. destruct fma; [now apply sum_fused|now apply sum_unfused]. Qed.
Lemma sm_pad l a z : (z = f0 \/ exists k, k < n /\ z = w k) -> sm l a -> sm l (prefer_fma fma a f0 z).
Proof. intros. unfold prefer_fma. destruct fma; [now apply sum_zero_fused|now apply sum_zero_unfused]. Qed.

Definition quad (T : list nat) (s : mf) : Prop :=
  exists a0 a1 a2 a3 l0 l1 l2 l3, s = [a0; a1; a2; a3] /\ sm l0 a0 /\ sm l1 a1 /\ sm l2 a2 /\ sm l3 a3 /\
    Permutation (l0 ++ l1 ++ l2 ++ l3) T.
Lemma quad_0 : quad [] (zero_ps 4).
Proof. exists f0, f0, f0, f0, [], [], [], []. repeat split; try constructor. Qed.
Lemma quad_perm T T' s : Permutation T T' -> quad T s -> quad T' s.
Proof.
  intros HP (a0 & a1 & a2 & a3 & l0 & l1 & l2 & l3 & E & H0 & H1 & H2 & H3 & P).
  exists a0, a1, a2, a3, l0, l1, l2, l3. repeat split; auto. now transitivity T.
Qed.
Lemma quad_4 T s k : k + 4 <= n -> quad T s ->
  quad (T ++ seq k 4) (vfma fma s [x k; x (k + 1); x (k + 2); x (k + 3)] [w k; w (k + 1); w (k + 2); w (k + 3)]).
Proof.
  intros Hk (a0 & a1 & a2 & a3 & l0 & l1 & l2 & l3 & -> & H0 & H1 & H2 & H3 & P).
  do 4 eexists. exists (k :: l0), (k + 1 :: l1), (k + 2 :: l2), (k + 3 :: l3).
  split; [reflexivity|]. split; [apply sm_tap; [lia|exact H0]|]. split; [apply sm_tap; [lia|exact H1]|].
  split; [apply sm_tap; [lia|exact H2]|]. split; [apply sm_tap; [lia|exact H3]|].
  rewrite <- P. etransitivity; [|apply Permutation_app_comm]. cbn [seq app].
  replace (S (S (S k))) with (k + 3) by lia. replace (S (S k)) with (k + 2) by lia. replace (S k) with (k + 1) by lia.
  apply perm_skip. etransitivity; [symmetry; apply Permutation_middle|]. apply perm_skip.
  rewrite (app_assoc l0). etransitivity; [symmetry; apply Permutation_middle|]. apply perm_skip.
  rewrite (app_assoc (l0 ++ l1)). etransitivity; [symmetry; apply Permutation_middle|]. apply perm_skip.
  rewrite <- !app_assoc. reflexivity.
Qed.
Lemma quad_2 T s k : k + 2 <= n -> quad T s ->
  quad (T ++ seq k 2) (vfma fma s [x k; x (k + 1); f0; f0] [w k; w (k + 1); f0; f0]).
Proof.
  intros Hk (a0 & a1 & a2 & a3 & l0 & l1 & l2 & l3 & -> & H0 & H1 & H2 & H3 & P).
  do 4 eexists. exists (k :: l0), (k + 1 :: l1), l2, l3.
  split; [reflexivity|]. split; [apply sm_tap; [lia|exact H0]|]. split; [apply sm_tap; [lia|exact H1]|].
  split; [apply sm_pad; [auto|exact H2]|]. split; [apply sm_pad; [auto|exact H3]|].
  rewrite <- P. etransitivity; [|apply Permutation_app_comm]. cbn [seq app].
  replace (S k) with (k + 1) by lia.
  apply perm_skip. symmetry; apply Permutation_middle.
Qed.
Lemma quad_1 T s k : k < n -> quad T s ->
  quad (T ++ [k]) (vfma fma s [x k; f0; f0; f0] (set1_ps 4 (w k))).
Proof.
  intros Hk (a0 & a1 & a2 & a3 & l0 & l1 & l2 & l3 & -> & H0 & H1 & H2 & H3 & P).
  do 4 eexists. exists (k :: l0), l1, l2, l3.
  split; [reflexivity|]. split; [apply sm_tap; [lia|exact H0]|]. split; [apply sm_pad; [eauto|exact H1]|].
  split; [apply sm_pad; [eauto|exact H2]|]. split; [apply sm_pad; [eauto|exact H3]|].
  rewrite <- P. etransitivity; [|apply Permutation_app_comm]. reflexivity.
Qed.
Lemma quad_sum T s : quad T s -> exists l, Permutation l T /\ sm l (hsum_ps s).
Proof.
  intros (a0 & a1 & a2 & a3 & l0 & l1 & l2 & l3 & -> & H0 & H1 & H2 & H3 & P).
  exists ((l0 ++ l1) ++ (l2 ++ l3)). split; [now rewrite <- app_assoc|].
  change (hsum_ps [a0; a1; a2; a3]) with (fadd (fadd a0 a1) (fadd a2 a3)).
  now repeat apply sum_join.
Qed.
End Sums.

Lemma seq_snoc_perm cx m (E : list nat) : Permutation ((seq 0 cx ++ E) ++ seq cx m) (seq 0 (cx + m) ++ E).
Proof.
  rewrite seq_app, Nat.add_0_l, <- !app_assoc. apply Permutation_app_head. apply Permutation_app_comm.
Qed.

Section Plane.
Variables (fma : bool) (src ws : list f32) (b : fbound).
Hypothesis Hs : bstart b + bsize b <= length src.
Hypothesis Hw : bsize b <= length ws.
Notation n := (bsize b).
Let x k := nth ((bstart b + k) * 1 + 0) src f0.
Let w k := nth k ws f0.
Let Q (E : list nat) (cx : nat) (s : mf) : Prop := cx <= n /\ quad n x w (seq 0 cx ++ E) s.

Lemma x_at k : x k = nth (bstart b + k) src f0.
Proof. unfold x. f_equal. lia. Qed.

Lemma pload4 T s k o o' : k + 4 <= n -> o = bstart b + k -> o' = k -> quad n x w T s ->
  quad n x w (T ++ seq k 4) (vfma fma s (firstn 4 (skipn o src)) (firstn 4 (skipn o' ws))).
Proof.
  intros Hk -> -> HQ. rewrite !loaded4 by lia.
  replace [nth (bstart b + k) src f0; nth (bstart b + k + 1) src f0; nth (bstart b + k + 2) src f0; nth (bstart b + k + 3) src f0]
    with [x k; x (k + 1); x (k + 2); x (k + 3)].
  2:{ rewrite !x_at, !Nat.add_assoc. reflexivity. }
  change [nth k ws f0; nth (k + 1) ws f0; nth (k + 2) ws f0; nth (k + 3) ws f0] with [w k; w (k + 1); w (k + 2); w (k + 3)].
  apply quad_4; auto.
Qed.

Lemma plane_rest E (jx : nat) (s : mf) (HI : Q E jx s) :
  yields ('(jx, s) <- while_tiles n 8 8 n (fun s jx =>
     w0 <- loadf 4 ws jx ;; w1 <- loadf 4 ws (jx + 4) ;;
     p0 <- loadf 4 src (bstart b + jx) ;; p1 <- loadf 4 src (bstart b + jx + 4) ;;
     Done (vfma fma (vfma fma s p0 w0) p1 w1)) jx s ;;
  '(jx, s) <- while_tiles n 4 4 n (fun s jx =>
     w0 <- loadf 4 ws jx ;;
     p0 <- loadf 4 src (bstart b + jx) ;;
     Done (vfma fma s p0 w0)) jx s ;;
  '(jx, s) <- while_tiles n 2 2 n (fun s jx =>
     w0 <- loadf 2 ws jx ;;
     p0 <- loadf 2 src (bstart b + jx) ;;
     Done (vfma fma s (p0 ++ [f0; f0]) (w0 ++ [f0; f0]))) jx s ;;
  '(_, s) <- while_tiles n 1 0 n (fun s jx =>
     w0 <- idx ws jx ;;
     p0 <- idx src (bstart b + jx) ;;
     Done (vfma fma s [p0; f0; f0; f0] (set1_ps 4 w0))) jx s ;;
  Done [hsum_ps s]) (fun l => length l = 1 /\ forall c, c < 1 ->
    exists l', Permutation l' (seq 0 n ++ E) /\ summed n x w l' (nth c l f0)).
Proof using Hs Hw.
  eapply yields_bind.
  { apply (while_tiles_inv (Q E)); [lia| |destruct HI; lia|exact HI]. clear jx s HI. intros cx s Hc (HL & HI).
    repeat (rewrite loadf_ok by lia; cbn [bind]). eexists. split; [reflexivity|]. split; [lia|].
    eapply quad_perm; [apply seq_snoc_perm|]. change 8 with (4 + 4). rewrite seq_app, app_assoc.
    apply pload4; [lia|lia|lia|]. apply pload4; [lia|lia|lia|]. exact HI. }
  intros [jx2 s2] (HI2 & _). clear jx s HI. rename jx2 into jx, s2 into s, HI2 into HI. cbn [fst snd] in HI. cbv beta.
  eapply yields_bind.
  { apply (while_tiles_inv (Q E)); [lia| |destruct HI; lia|exact HI]. clear jx s HI. intros cx s Hc (HL & HI).
    repeat (rewrite loadf_ok by lia; cbn [bind]). eexists. split; [reflexivity|]. split; [lia|].
    eapply quad_perm; [apply seq_snoc_perm|]. apply pload4; [lia|lia|lia|]. exact HI. }
  intros [jx2 s2] (HI2 & _). clear jx s HI. rename jx2 into jx, s2 into s, HI2 into HI. cbn [fst snd] in HI. cbv beta.
  eapply yields_bind.
  { apply (while_tiles_inv (Q E)); [lia| |destruct HI; lia|exact HI]. clear jx s HI. intros cx s Hc (HL & HI).
    repeat (rewrite loadf_ok by lia; cbn [bind]). eexists. split; [reflexivity|]. split; [lia|].
    eapply quad_perm; [apply seq_snoc_perm|]. rewrite !loaded2 by lia. cbn [app].
    replace (nth (bstart b + cx) src f0) with (x cx) by apply x_at.
    replace (nth (bstart b + cx + 1) src f0) with (x (cx + 1)) by (rewrite x_at; f_equal; lia).
    apply (quad_2 fma n x w); [lia|exact HI]. }
  intros [jx2 s2] (HI2 & _). clear jx s HI. rename jx2 into jx, s2 into s, HI2 into HI. cbn [fst snd] in HI. cbv beta.
  eapply yields_bind.
  { apply (while_tiles_inv (Q E)); [lia| |destruct HI; lia|exact HI]. clear jx s HI. intros cx s Hc (HL & HI).
    repeat (rewrite idx_f by lia; cbn [bind]). eexists. split; [reflexivity|]. split; [lia|].
    eapply quad_perm; [apply seq_snoc_perm|].
    replace (nth (bstart b + cx) src f0) with (x cx) by apply x_at. 
    apply (quad_1 fma n x w); [lia|exact HI]. }
  intros [jx2 s2] (HI2 & Hn & _ & _). clear jx s HI. rename jx2 into jx, s2 into s, HI2 into HI. cbn [fst snd] in HI, Hn. cbv beta.
  destruct HI as (Hle & HQ). replace jx with n in * by lia.
  eexists. split; [reflexivity|]. split; [reflexivity|]. intros c Hc. replace c with 0 by lia. cbn [nth].
  destruct (quad_sum _ _ _ _ _ HQ) as (l & P & S). exists l. auto.
Qed.
End Plane.

Lemma plane4_value fma : pixel_gives 1 (plane_sse_f32 fma 16) (sums_taps no_extra).
Proof.
  intros src b ws Hb Hs Hw. unfold plane_sse_f32. cbv zeta. unfold ftaps.
  set (x := fun k => nth ((bstart b + k) * 1 + 0) src f0). set (w := fun k => nth k ws f0).
  eapply yields_bind.
  { apply (while_tiles_inv (fun cx s => cx <= bsize b /\ quad (bsize b) x w (seq 0 cx ++ []) s)); [lia| |lia|].
    2:{ split; [lia|]. apply quad_0. }
    intros cx s Hc (HL & HI).
    repeat (rewrite loadf_ok by lia; cbn [bind]). eexists. split; [reflexivity|]. split; [lia|].
    eapply quad_perm; [apply seq_snoc_perm|]. change 16 with (4 + (4 + (4 + 4))). rewrite !seq_app, !app_assoc.
    repeat (apply pload4; [lia|lia|lia|lia|lia|]). exact HI. }
  intros [jx s] (HI & _). cbn [fst snd] in HI. cbv beta.
  eapply yields_weaken; [apply (plane_rest fma src ws b ltac:(lia) Hw [] jx s HI)|].
  intros l (Ll & H). split; [exact Ll|]. intros c Hc. destruct (H c Hc) as (l' & P & S).
  replace c with 0 in * by lia. exists l'. auto.
Qed.

Lemma plane1_value fma : pixel_gives 1 (plane_sse_f32 fma 8) (sums_taps twice_taps).
Proof.
  intros src b ws Hb Hs Hw. unfold plane_sse_f32. cbv zeta. unfold ftaps.
  set (x := fun k => nth ((bstart b + k) * 1 + 0) src f0). set (w := fun k => nth k ws f0).
  eapply yields_bind.
  { apply (while_tiles_inv (fun cx s => (exists q, cx = 8 * q) /\ cx <= bsize b /\ quad (bsize b) x w (seq 0 cx ++ seq 8 cx) s)); [lia| |lia|].
    2:{ split; [exists 0; lia|]. split; [lia|]. apply quad_0. }
    intros cx s Hc ((q & Hq) & HL & HI).
    repeat (rewrite loadf_ok by lia; cbn [bind]). eexists. split; [reflexivity|]. split; [exists (S q); lia|]. split; [lia|].
    assert (P : Permutation ((seq 0 cx ++ seq 8 cx) ++ seq cx 16) (seq 0 (cx + 8) ++ seq 8 (cx + 8))).
    { change 16 with (8 + 8). rewrite (seq_app cx 8 0), (seq_app cx 8 8), (seq_app 8 8 cx), !app_assoc. cbn [Nat.add].
      rewrite (Nat.add_comm cx 8). cbn [Nat.add]. apply Permutation_app_tail. rewrite <- !app_assoc. apply Permutation_app_head, Permutation_app_comm. }
    eapply quad_perm; [exact P|]. change 16 with (4 + (4 + (4 + 4))). rewrite !seq_app, !app_assoc.
    repeat (apply pload4; [lia|lia|lia|lia|lia|]). exact HI. }
  intros [jx s] (((q & Hq) & HL & HI) & Hn & _ & Hor). cbn [fst snd] in *. cbv beta.
  eapply yields_weaken; [apply (plane_rest fma src ws b ltac:(lia) Hw (seq 8 jx) jx s (conj HL HI))|].
  intros l (Ll & H). split; [exact Ll|]. intros c Hc. destruct (H c Hc) as (l' & P & S).
  replace c with 0 in * by lia. exists l'. split; [|exact S]. unfold twice_taps.
  replace (8 * ((bsize b - 9) / 8)) with jx; [exact P|].
  replace ((bsize b - 9) / 8) with q; [lia|]. apply Nat.div_unique with (r := bsize b - 9 - 8 * q); lia.
Qed.

(** *** RGBA, AVX2 *)
Section Avx.
Variables (fma : bool) (n : nat) (X : nat -> nat -> f32) (W : nat -> f32).
Definition halves (cx : nat) (s : mf) : Prop :=
  cx <= n /\ length s = 8 /\ forall c, c < 4 -> exists l0 l1,
    summed n (fun k => X k c) W l0 (nth c s f0) /\ summed n (fun k => X k c) W l1 (nth (4 + c) s f0) /\
    Permutation (l0 ++ l1) (seq 0 cx).
Lemma halves_0 : halves 0 (zero_ps 8).
Proof.
  split; [lia|]. split; [reflexivity|]. intros c Hc. exists [], [].
  unfold zero_ps. rewrite !nth_repeat. repeat split; constructor.
Qed.
Lemma pair_nth a b c : c < 4 -> nth c (pair_ps a b) f0 = a /\ nth (4 + c) (pair_ps a b) f0 = b.
Proof.
  intro H. unfold pair_ps, set1_ps. rewrite app_nth1 by (rewrite repeat_length; lia).
  rewrite app_nth2 by (rewrite repeat_length; lia). rewrite repeat_length. replace (4 + c - 4) with c by lia.
  split; apply (set1_nth 4); lia.
Qed.
Lemma halves_2 cx s p a b : halves cx s -> cx + 2 <= n -> length p = 8 -> a = W cx -> b = W (S cx) ->
  (forall c, c < 4 -> nth c p f0 = X cx c /\ nth (4 + c) p f0 = X (S cx) c) -> halves (S (S cx)) (vfma fma s p (pair_ps a b)).
Proof.
  intros (H & Ls & Hc) Hn Lp -> -> Hp. split; [lia|]. unfold vfma. split.
  - rewrite fzip3_length; auto; lia.
  - intros c Hcc. destruct (Hc c Hcc) as (l0 & l1 & H0 & H1 & P). exists (cx :: l0), (S cx :: l1).
    destruct (pair_nth (W cx) (W (S cx)) c Hcc) as (E0 & E1). destruct (Hp c Hcc) as (P0 & P1).
    assert (length (pair_ps (W cx) (W (S cx))) = 8) as Lw by reflexivity.
    rewrite !fzip3_nth by lia. rewrite E0, E1, P0, P1.
    split; [apply (sm_tap fma n (fun k => X k c) W l0 _ cx); [lia|exact H0]|].
    split; [apply (sm_tap fma n (fun k => X k c) W l1 _ (S cx)); [lia|exact H1]|].
    rewrite !seq_S, Nat.add_0_l, <- !app_assoc. cbn [app Nat.add]. rewrite <- P.
    etransitivity; [|apply Permutation_app_comm]. cbn [app]. apply perm_skip. symmetry. apply Permutation_middle.
Qed.
Lemma halves_1 cx s p a : halves cx s -> cx < n -> length p = 4 -> a = W cx ->
  (forall c, c < 4 -> nth c p f0 = X cx c) -> halves (S cx) (vfma fma s (p ++ zero_ps 4) (set1_ps 8 a)).
Proof.
  intros (H & Ls & Hc) Hn Lp -> Hp. split; [lia|]. unfold vfma.
  assert (L8 : length (p ++ zero_ps 4) = 8) by (rewrite app_length, Lp; reflexivity).
  assert (length (set1_ps 8 (W cx)) = 8) as Lw by reflexivity.
  split.
  - rewrite fzip3_length; auto; lia.
  - intros c Hcc. destruct (Hc c Hcc) as (l0 & l1 & H0 & H1 & P). exists (cx :: l0), l1.
    rewrite !fzip3_nth by lia. rewrite !set1_nth by lia. rewrite app_nth1, Hp by lia. rewrite app_nth2 by lia.
    replace (nth (4 + c - length p) (zero_ps 4) f0) with f0 by (unfold zero_ps; now rewrite nth_repeat).
    split; [apply (sm_tap fma n (fun k => X k c) W l0 _ cx); [lia|exact H0]|].
    split; [apply (sm_pad fma n (fun k => X k c) W l1); [eauto|exact H1]|].
    rewrite seq_S, Nat.add_0_l. rewrite <- P. etransitivity; [|apply Permutation_app_comm]. reflexivity.
Qed.
End Avx.

Lemma rgba_avx_value fma : pixel_gives 4 (rgba_avx_f32 fma) (sums_taps no_extra).
Proof.
  intros src b ws Hb Hs Hw. unfold rgba_avx_f32. cbv zeta. unfold ftaps.
  set (n := bsize b) in *. set (st := bstart b) in *.
  set (I := halves n (fun k c => nth ((st + k) * 4 + c) src f0) (fun k => nth k ws f0)).
  assert (T : forall cx s o a d, I cx s -> cx + 2 <= n -> o = (st + cx) * 4 -> a = nth cx ws f0 -> d = nth (S cx) ws f0 ->
     I (S (S cx)) (vfma fma s (firstn 8 (skipn o src)) (pair_ps a d))).
  { intros cx s o a d HI Hc -> -> ->. apply halves_2; auto; [apply loaded_length; nia|].
    intros c Hcc. rewrite !loaded_nth by lia. split; f_equal; lia. }
  eapply yields_bind.
  { apply (while_tiles_inv I); [lia| |lia|apply halves_0]. intros cx s Hc HI.
    repeat (rewrite loadf_ok by nia; cbn [bind]). eexists. split; [reflexivity|].
    replace (cx + 8) with (S (S (S (S (S (S (S (S cx)))))))) by lia.
    repeat (apply T; [|lia|lia|rewrite loaded_nth by lia; f_equal; lia|rewrite loaded_nth by lia; f_equal; lia]). exact HI. }
  intros [jx s] (HI & _). cbn [fst snd] in HI. cbv beta.
  eapply yields_bind.
  { apply (while_tiles_inv I); [lia| |destruct HI; lia|exact HI]. clear jx s HI. intros cx s Hc HI.
    repeat (rewrite loadf_ok by nia; cbn [bind]). eexists. split; [reflexivity|].
    replace (cx + 4) with (S (S (S (S cx)))) by lia.
    repeat (apply T; [|lia|lia|rewrite loaded_nth by lia; f_equal; lia|rewrite loaded_nth by lia; f_equal; lia]). exact HI. }
  intros [jx2 s2] (HI2 & _). clear jx s HI. rename jx2 into jx, s2 into s, HI2 into HI. cbn [fst snd] in HI. cbv beta.
  eapply yields_bind.
  { apply (while_tiles_inv I); [lia| |destruct HI; lia|exact HI]. clear jx s HI. intros cx s Hc HI.
    repeat (first [rewrite loadf_ok by nia | rewrite idx_f by lia]; cbn [bind]). eexists. split; [reflexivity|].
    replace (cx + 2) with (S (S cx)) by lia. apply T; [exact HI|lia|lia|reflexivity|f_equal; lia]. }
  intros [jx2 s2] (HI2 & _). clear jx s HI. rename jx2 into jx, s2 into s, HI2 into HI. cbn [fst snd] in HI. cbv beta.
  eapply yields_bind.
  { apply (while_tiles_inv I); [lia| |destruct HI; lia|exact HI]. clear jx s HI. intros cx s Hc HI.
    repeat (first [rewrite loadf_ok by nia | rewrite idx_f by lia]; cbn [bind]). eexists. split; [reflexivity|].
    replace (cx + 1) with (S cx) by lia. apply halves_1; auto; [lia|apply loaded_length; nia|].
    intros c Hcc. rewrite loaded_nth by lia. reflexivity. }
  intros [jx2 s2] (HI2 & Hn & _ & _). clear jx s HI. rename jx2 into jx, s2 into s, HI2 into HI. cbn [fst snd] in HI, Hn. cbv beta.
  destruct HI as (Hle & Ls & Hc). replace jx with n in * by lia.
  assert (L0 : length (firstn 4 s) = 4) by (rewrite firstn_length; lia).
  assert (L1 : length (skipn 4 s) = 4) by (rewrite skipn_length; lia).
  eexists. split; [reflexivity|]. split; [unfold add_ps; rewrite fzip_length; lia|]. intros c Hcc.
  destruct (Hc c Hcc) as (l0 & l1 & H0 & H1 & P). exists (l0 ++ l1). unfold no_extra. rewrite app_nil_r. split; [exact P|].
  unfold add_ps. rewrite fzip_nth by lia. rewrite nth_firstn by lia. rewrite nth_skipn. now apply sum_join.
Qed.

(** The left to right sums are sums. *)
Lemma in_order_sums fma n x w v : in_order fma n x w v -> sums_taps no_extra n x w v.
Proof.
  intros ->. exists (rev (seq 0 n)). unfold no_extra. rewrite app_nil_r. split; [symmetry; apply Permutation_rev|].
  assert (H : forall m, m <= n -> summed n x w (rev (seq 0 m)) (accumulate_from (prefer_fma fma) 0 m x w f0)).
  { induction m as [|m IH]; intro H; [constructor|].
    rewrite accf_snoc, seq_S, rev_app_distr. cbn [rev app Nat.add]. apply sm_tap; [lia|]. apply IH. lia. }
  apply H. lia.
Qed.
