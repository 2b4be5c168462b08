(** The convolution passes return no error value: they complete or panic. *)
From Verif Require Import Base ImageStore ColorGroup FixedPoint Dispatch Resize.

Definition nofail {A} (m : outcome A) : Prop := forall e, m <> Fail e.

Lemma nofail_Done {A} (a : A) : nofail (Done a). Proof. discriminate. Qed.
Lemma nofail_Panic {A} : nofail (@Panic A). Proof. discriminate. Qed.
Lemma nofail_bind {A B} (m : outcome A) (f : A -> outcome B) :
  nofail m -> (forall a, nofail (f a)) -> nofail (bind m f).
Proof. intros H1 H2 e. destruct m as [a|e'|]; cbn; [apply H2|exfalso; now apply (H1 e')|discriminate]. Qed.
Lemma nofail_idx {A} (l : list A) i : nofail (idx l i).
Proof. unfold idx. destruct (nth_error l i); discriminate. Qed.
Lemma nofail_slice {A} (l : list A) a b : nofail (slice l a b).
Proof. unfold slice. destruct (_ && _); discriminate. Qed.
Lemma nofail_slice_from {A} (l : list A) a : nofail (slice_from l a).
Proof. unfold slice_from. destruct (_ <=? _); discriminate. Qed.
Lemma nofail_set_idx {A} (l : list A) i v : nofail (set_idx l i v).
Proof. unfold set_idx. destruct (_ <? _); discriminate. Qed.
Lemma nofail_chunks {A} k (l : list A) : nofail (chunks_exact_o k l).
Proof. unfold chunks_exact_o. destruct (k =? 0); discriminate. Qed.
Lemma nofail_zip {A B} (f : A -> B -> outcome A) ds ss :
  (forall d s, nofail (f d s)) -> nofail (zip_mut f ds ss).
Proof.
  intro H. revert ss. induction ds as [|d ds IH]; intros [|s ss]; cbn [zip_mut]; try apply nofail_Done.
  apply nofail_bind; [apply H|]. intro d'. apply nofail_bind; [apply IH|]. intro. apply nofail_Done.
Qed.
Lemma nofail_foldM {A S} (f : S -> A -> outcome S) l s :
  (forall s a, nofail (f s a)) -> nofail (foldM f l s).
Proof.
  intro H. revert s. induction l as [|a l IH]; intro s; cbn [foldM]; [apply nofail_Done|].
  apply nofail_bind; auto.
Qed.
Lemma nofail_for_each {A B} pool lbl (f : A -> B -> outcome A) ds ss :
  (forall d s, nofail (f d s)) -> nofail (for_each pool lbl f ds ss).
Proof.
  intro H. unfold for_each. destruct pool as [sched|]; [|now apply nofail_zip].
  unfold zip_sched. apply nofail_foldM. intros s i. unfold run_task.
  destruct (nth_error s i); [|apply nofail_Panic]. destruct (nth_error ss i); [|apply nofail_Panic].
  apply nofail_bind; [apply H|]. intro. apply nofail_Done.
Qed.
Lemma nofail_seqM {A} (ms : list (outcome A)) : Forall nofail ms -> nofail (seqM ms).
Proof.
  induction 1 as [|m ms Hm _ IH]; cbn [seqM]; [apply nofail_Done|].
  apply nofail_bind; [exact Hm|]. intro. apply nofail_bind; [exact IH|]. intro. apply nofail_Done.
Qed.
Lemma nofail_while {S} fuel step slack total (body : S -> nat -> outcome S) cx s :
  (forall s x, nofail (body s x)) -> nofail (while_tiles fuel step slack total body cx s).
Proof.
  intro H. revert cx s. induction fuel as [|fuel IH]; intros cx s; cbn [while_tiles];
    destruct (_ <? _); try apply nofail_Done; try apply nofail_Panic.
  apply nofail_bind; [apply H|]. intro. apply IH.
Qed.

Ltac nf := repeat first
  [ apply nofail_Done | apply nofail_Panic | apply nofail_idx | apply nofail_slice | apply nofail_slice_from
  | apply nofail_set_idx | apply nofail_chunks
  | match goal with
    | |- nofail (for_each _ _ _ _ _) => apply nofail_for_each; intros
    | |- nofail (zip_mut _ _ _) => apply nofail_zip; intros
    | |- nofail (foldM _ _ _) => apply nofail_foldM; intros
    | |- nofail (while_tiles _ _ _ _ _ _ _) => apply nofail_while; intros
    end
  | match goal with
    | |- nofail (bind _ _) => apply nofail_bind; [|intros]; cbv beta
    | |- nofail (match ?x with _ => _ end) => destruct x
    | |- nofail (if ?x then _ else _) => destruct x
    | |- nofail (let '(_, _) := ?x in _) => destruct x
    end ].

Lemma nf_mul {J} (m : J -> J -> J) c s k : nofail (cg_mul m c s k).
Proof. unfold cg_mul. nf. Qed.
Lemma nf_lanes2 {J} (m : J -> J -> J) c s k : nofail (cg_lanes2 c m s k).
Proof. unfold cg_lanes2. nf. Qed.
Lemma nf_load {T J} (a : T -> J) z c s o : nofail (load_cg a z c s o).
Proof. unfold load_cg. nf. Qed.
Lemma nf_store {T} c (g : cg T) s : nofail (store_cg c g s).
Proof. unfold store_cg. nf. Qed.

Ltac nf1 := repeat first [ apply nf_mul | apply nf_lanes2 | apply nf_load | apply nf_store | progress nf ].

Lemma nf_unrolled cn p i acc ws : nofail (unrolled cn p i acc ws).
Proof.
  revert i acc. induction ws as [|w ws IH]; intros i acc; cbn [unrolled]; [apply nofail_Done|].
  unfold cg_add. nf1. apply IH.
Qed.
Lemma nf_taps_fixed n cn src px ws s : nofail (taps_fixed n cn src px ws s).
Proof. unfold taps_fixed, cg_add_assign. nf1. all: apply nf_unrolled. Qed.
Lemma nf_tap_step cn s wp : nofail (tap_step cn s wp).
Proof. unfold tap_step, cg_add_assign. nf1. Qed.
Lemma nf_taps_general cn src px n ws s : nofail (taps_general cn src px n ws s).
Proof. unfold taps_general. nf. apply nf_tap_step. Qed.
Lemma nf_row_pixel cn src b ws : nofail (row_pixel cn src b ws).
Proof.
  unfold row_pixel.
  do 7 (destruct (bsize b) as [|?]; try apply nf_taps_fixed; try apply nf_taps_general).
  all: repeat match goal with |- nofail (match ?x with _ => _ end) => destruct x end;
    try apply nf_taps_fixed; try apply nf_taps_general.
Qed.
Lemma nf_row_handler cn maxv src dst fw : nofail (row_handler cn maxv src dst fw).
Proof. unfold row_handler. nf. all: try apply nf_row_pixel; try apply nf_store. Qed.

Lemma nf_taps_fixed_4 n cn src ss px ws s : nofail (taps_fixed_4 n cn src ss px ws s).
Proof. unfold taps_fixed_4. destruct s as [[[s0 s1] s2] s3]. repeat (apply nofail_bind; [apply nf_taps_fixed|intros]). nf. Qed.
Lemma nf_tap_step_4 cn s wp : nofail (tap_step_4 cn s wp).
Proof. unfold tap_step_4, cg_add_assign. destruct wp as [[[[w p0] p1] p2] p3], s as [[[s0 s1] s2] s3]. nf1. Qed.
Lemma nf_taps_general_4 cn src ss px n ws s : nofail (taps_general_4 cn src ss px n ws s).
Proof. unfold taps_general_4. nf. apply nf_tap_step_4. Qed.
Lemma nf_row_pixel_4 cn src ss b ws : nofail (row_pixel_4 cn src ss b ws).
Proof.
  unfold row_pixel_4.
  do 7 (destruct (bsize b) as [|?]; try apply nf_taps_fixed_4; try apply nf_taps_general_4).
  all: repeat match goal with |- nofail (match ?x with _ => _ end) => destruct x end;
    try apply nf_taps_fixed_4; try apply nf_taps_general_4.
Qed.
Lemma nf_split {A} k (l : list A) : nofail (split_at k l).
Proof. unfold split_at. nf. Qed.
Lemma nf_row_handler_4 cn maxv src ss dst ds fw : nofail (row_handler_4 cn maxv src ss dst ds fw).
Proof.
  unfold row_handler_4.
  repeat first [apply nf_split | apply nf_row_pixel_4 | apply nf_store | progress nf].
Qed.

Lemma nf_column_block n src ss f b x : nofail (column_block n src ss f b x).
Proof. unfold column_block. nf. Qed.
Lemma nf_store_block maxv d x st : nofail (store_block maxv d x st).
Proof. unfold store_block. nf. Qed.
Lemma nf_column_handler maxv b src dst ss w : nofail (column_handler maxv b src dst ss w).
Proof.
  unfold column_handler, column_four, column_double, column_direct.
  repeat first [apply nf_column_block | apply nf_store_block | progress nf].
Qed.

Lemma nf_numapprox {F} (q : F -> Z) a fw : nofail (numerical_approximation q a fw).
Proof. unfold numerical_approximation. nf. Qed.
Lemma nf_hpass {F} (q : F -> Z) N maxv fw pool im into : nofail (hpass q N maxv fw pool im into).
Proof.
  unfold hpass, horizontal_dispatch.
  repeat first [apply nf_numapprox | apply nf_row_handler_4 | apply nf_row_handler | progress nf].
Qed.
Lemma nf_vpass {F} (q : F -> Z) N maxv fw pool im into : nofail (vpass q N maxv fw pool im into).
Proof.
  unfold vpass, vertical_dispatch.
  repeat first [apply nf_numapprox | apply nf_column_handler | progress nf].
Qed.
Lemma nf_nearest {T} N crd (src : list T) w h dst w' h' pool : nofail (resize_nearest N crd src w h dst w' h' pool).
Proof. unfold resize_nearest, nearest_row, nearest_pixel. nf. Qed.
Lemma nf_copied_to_mut {T} N (a b : image T) : nofail (copied_to_mut N a b).
Proof. unfold copied_to_mut. nf. Qed.
