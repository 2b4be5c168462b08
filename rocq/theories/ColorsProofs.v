(** Proofs about the colour space scalers. *)
From Coq Require Import ZArith List Lia Bool ZifyBool ZifyNat ZifyN.
From Verif Require Import Base BaseProofs ImageStore FixedPoint Dispatch Resize Spec F32 Weights Sampler Api Alpha ApiRgba ApiFloat
  SpecApi SpecAlpha ImageProofs PoolProofs DispatchProofs ResizeProofs PortableProofs SamplerProofs ApiProofs DriverProofs FloatApiProofs RgbaProofs RgbaFloat
  Properties1 Properties2 Properties3 Properties4 Colors SpecColors.
Import ListNotations.
Local Open Scope nat_scope.

(** ** Pixel lists *)
Definition recode {A B} (N : nat) (px : list A -> list B) (n : nat) (src : list A) : list B :=
  concat (map px (map (chunk N src) (seq 0 n))).

Lemma chunk_len_in {A} N (l : list A) i : (i + 1) * N <= length l -> length (chunk N l i) = N.
Proof. intro H. unfold chunk. rewrite firstn_length, skipn_length. lia. Qed.

Lemma recode_length {A B} N (px : list A -> list B) n src : keeps_arity N px -> n * N <= length src ->
  length (recode N px n src) = n * N.
Proof.
  intros K H. unfold recode. rewrite (concat_uniform_length N).
  - rewrite !map_length, seq_length. reflexivity.
  - rewrite Forall_forall. intros c Hc. apply in_map_iff in Hc. destruct Hc as (p & <- & Hp).
    apply in_map_iff in Hp. destruct Hp as (i & <- & Hi). apply in_seq in Hi. apply K, chunk_len_in. nia.
Qed.

Lemma recode_S {A B} N (px : list A -> list B) n m src :
  recode N px (n + m) src = recode N px n src ++ concat (map px (map (chunk N src) (seq n m))).
Proof. unfold recode. rewrite seq_app, !map_app, concat_app. reflexivity. Qed.

Lemma chunk_recode {A B} N (px : list A -> list B) n src tail i :
  0 < N -> keeps_arity N px -> n * N <= length src -> i < n ->
  chunk N (recode N px n src ++ tail) i = px (chunk N src i).
Proof.
  intros HN K H Hi. apply list_ext. intro j. rewrite nth_error_chunk.
  assert (Lp : length (px (chunk N src i)) = N) by (apply K, chunk_len_in; nia).
  destruct (j <? N) eqn:Ej; [apply Nat.ltb_lt in Ej|apply Nat.ltb_ge in Ej; symmetry; apply nth_error_None; lia].
  rewrite nth_error_app_case, recode_length by auto.
  replace (i * N + j <? n * N) with true by (symmetry; apply Nat.ltb_lt; nia).
  unfold recode. rewrite (nth_error_concat_uniform N).
  - rewrite Nat.div_add_l, Nat.div_small, Nat.add_0_r by lia.
    rewrite Nat.add_comm, Nat.mod_add, Nat.mod_small by lia.
    rewrite map_map, nth_error_map_seq. cbn [Nat.add]. replace (i <? n) with true by (symmetry; now apply Nat.ltb_lt). reflexivity.
  - exact HN.
  - rewrite Forall_forall. intros c Hc. apply in_map_iff in Hc. destruct Hc as (p & <- & Hp).
    apply in_map_iff in Hp. destruct Hp as (i' & <- & Hi'). apply in_seq in Hi'. apply K, chunk_len_in. nia.
Qed.

Lemma chunk_firstn {A} N n (l : list A) i : i < n -> chunk N (firstn (n * N) l) i = chunk N l i.
Proof.
  intro Hi. apply list_ext. intro j. rewrite !nth_error_chunk. destruct (j <? N) eqn:E; [|reflexivity].
  rewrite nth_error_firstn. apply Nat.ltb_lt in E. replace (i * N + j <? n * N) with true by (symmetry; apply Nat.ltb_lt; nia). reflexivity.
Qed.
Lemma recode_firstn {A B} N (px : list A -> list B) n m src : n <= m -> recode N px n (firstn (m * N) src) = recode N px n src.
Proof.
  intro H. unfold recode. f_equal. f_equal. apply map_ext_in. intros i Hi. apply in_seq in Hi. apply chunk_firstn. lia.
Qed.

Lemma foldM_app {A S} (g : S -> A -> outcome S) l1 l2 s : foldM g (l1 ++ l2) s = bind (foldM g l1 s) (foldM g l2).
Proof. revert s. induction l1; intro s; cbn; [reflexivity|]. destruct (g s a); cbn; auto. Qed.

Lemma skipn_skipn' {A} a b (l : list A) : skipn a (skipn b l) = skipn (b + a) l.
Proof. apply list_ext. intro i. rewrite !nth_error_skipn. f_equal. lia. Qed.

Lemma convert_dense {A B} N (px : list A -> list B) src dst w h :
  0 < N -> 0 < w -> keeps_arity N px -> w * h * N <= length src -> w * h * N <= length dst ->
  convert N px src (w * N) dst (w * N) w h = Done (recode N px (w * h) src ++ skipn (w * h * N) dst).
Proof.
  intros HN Hw K. unfold convert. induction h; intros Hs Hd.
  - rewrite Nat.mul_0_r. cbn [Nat.mul seq foldM recode map concat app skipn]. reflexivity.
  - rewrite seq_S, foldM_app, IHh by nia. cbn [bind foldM Nat.add].
    rewrite slice_ok by nia. cbn [bind].
    assert (Lr : length (recode N px (w * h) src) = w * h * N) by (apply recode_length; [auto|nia]).
    rewrite slice_ok by (rewrite ?app_length, ?skipn_length, ?Lr; nia). cbn [bind]. f_equal.
    replace (h * (w * N) + w * N - h * (w * N)) with (w * N) by lia.
    assert (E : concat (map px (chunks_exact N (firstn (w * N) (skipn (h * (w * N)) src)))) =
                concat (map px (map (chunk N src) (seq (w * h) w)))).
    { unfold chunks_exact. rewrite firstn_length, skipn_length.
      replace (Nat.min (w * N) (length src - h * (w * N)) / N) with w
        by (rewrite Nat.min_l by nia; now rewrite Nat.div_mul by lia).
      f_equal. f_equal. apply list_ext. intro i. rewrite !nth_error_map_seq. destruct (i <? w) eqn:Ei; [|reflexivity].
      apply Nat.ltb_lt in Ei. f_equal. apply list_ext. intro j. rewrite !nth_error_chunk, nth_error_firstn, nth_error_skipn.
      destruct (j <? N) eqn:Ej; [|reflexivity]. apply Nat.ltb_lt in Ej.
      replace ((0 + i) * N + j <? w * N) with true by (symmetry; apply Nat.ltb_lt; nia). f_equal. nia. }
    rewrite E.
    replace (w * S h) with (w * h + w) by lia. rewrite recode_S.
    set (v := concat (map px (map (chunk N src) (seq (w * h) w)))).
    assert (Lv : length v = w * N).
    { assert (Q : length (recode N px (w * h + w) src) = (w * h + w) * N) by (apply recode_length; [auto|nia]).
      rewrite recode_S, app_length, Lr in Q. fold v in Q. nia. }
    unfold splice. rewrite Lv. replace (h * (w * N)) with (w * h * N) by nia.
    rewrite firstn_app, Lr, Nat.sub_diag, firstn_O, app_nil_r, firstn_all2 by lia.
    rewrite skipn_app, Lr, skipn_all2 by lia. cbn [app].
    rewrite skipn_skipn', <- app_assoc. f_equal. f_equal. f_equal. nia.
Qed.

(** ** 32-bit strides *)
Lemma as_u32_small a : (Z.of_nat a < 2 ^ 32)%Z -> as_u32 a = a.
Proof. intro H. unfold as_u32. rewrite N.mod_small by lia. apply Nat2N.id. Qed.
Lemma byte_stride_small N w : N <= 4 -> (Z.of_nat w < 2 ^ 28)%Z -> byte_stride N w = w * N.
Proof.
  intros HN H. unfold byte_stride. rewrite as_u32_small by lia. unfold u32_mul.
  rewrite N.mod_small by nia. lia.
Qed.
Lemma float_stride_small N w : N <= 4 -> (Z.of_nat w < 2 ^ 28)%Z -> float_stride N w = w * N.
Proof.
  intros HN H. unfold float_stride. fold (byte_stride N w). change (u32_mul (as_u32 w) N) with (byte_stride N w).
  rewrite byte_stride_small by assumption. unfold u32_mul.
  rewrite N.mod_small by nia. replace (N.to_nat (N.of_nat (w * N) * N.of_nat 4)) with (w * N * 4) by lia. apply Nat.div_mul. lia.
Qed.

(** ** The shape of a successful call *)
Definition mid_image {M} N (fwd : list Z -> list M) depth (store : image Z) : image M :=
  mkImage (recode N fwd (width store * height store) (buf store)) N (width store) (height store) (width store * N) depth.

Section Call.
Context {M : Type}.
Variables (N : nat) (zero : M) (mstride : nat -> nat) (fwd : list Z -> list M) (bwd : list M -> list Z)
  (inner : image M -> image M -> callres M) (f : resampling_function) (store into : image Z).
Hypothesis V : valid_call N false f store into.
Hypothesis D : changes_size store into.
Hypothesis F : fits_u32 into.
Hypothesis MS : forall w, (Z.of_nat w < 2 ^ 28)%Z -> mstride w = w * N.
Hypothesis KF : keeps_arity N fwd.
Hypothesis KB : keeps_arity N bwd.

Local Lemma sizes : width store * height store * N <= length (buf store) /\ width into * height into * N <= length (buf into).
Proof using V. clear MS mstride inner. destruct V as [HN [S1 [S2 [S3 S4]]] [D1 [D2 [D3 D4]]] _ _ _ _ _]. split; nia. Qed.

Local Lemma swm : wmul (wmul (width store) (height store)) N = width store * height store * N /\
  wmul (wmul N (width store)) (height store) = width store * height store * N /\ wmul (width store) N = width store * N.
Proof using V.
  clear MS mstride inner. pose proof sizes as [A B]. destruct V as [HN [S1 [S2 [S3 S4]]] _ _ [U1 [U2 U3]] _ _ _]. unfold fits_usize in U1.
  rewrite (wmul_small (width store) (height store)) by nia. rewrite (wmul_small N (width store)) by nia.
  rewrite !wmul_small by nia. split; [reflexivity|split; nia].
Qed.
Local Lemma iwm : alloc_with_depth zero N (width into) (height into) 0 = blank zero N (width into) (height into).
Proof using V.
  clear MS mstride inner. pose proof sizes as [A B]. destruct V as [HN _ [D1 [D2 [D3 D4]]] _ [U1 [U2 U3]] _ _ _]. unfold fits_usize in U2.
  unfold alloc_with_depth, blank. rewrite (wmul_small (width into) N) by nia. rewrite wmul_small by nia. do 2 f_equal. nia.
Qed.

Lemma mid_valid depth : valid_call N false f (mid_image N fwd depth store) (blank zero N (width into) (height into)) /\
  changes_size (mid_image N fwd depth store) (blank zero N (width into) (height into)).
Proof using V D KF.
  clear MS mstride inner. pose proof sizes as [A B]. destruct V as [HN [S1 [S2 [S3 S4]]] [D1 [D2 [D3 D4]]] HC [U1 [U2 U3]] HD HS HA].
  assert (L1 : length (recode N fwd (width store * height store) (buf store)) = width store * height store * N)
    by (apply recode_length; [auto|nia]).
  unfold fits_usize in *. split; [|exact D].
  constructor; cbn [mid_image blank width height stride buf channels bit_depth]; auto.
  - rewrite L1. repeat split; try lia; nia.
  - rewrite repeat_length. repeat split; try lia; nia.
  - unfold fits_usize. rewrite L1, repeat_length. split; [|split]; lia.
  - discriminate.
Qed.

Definition finish (sc : image M) : image Z :=
  set_buf into (recode N bwd (width into * height into) (buf sc) ++ skipn (width into * height into * N) (buf into)).

Lemma checks_pass : checks N false store into = Done tt /\ (width store =? width into) && (height store =? height into) = false.
Proof using V D.
  clear MS mstride inner. split; [exact (sane_checks (valid_sane (mkLibm (fun x => x) (fun x => x) (fun x => x) (fun x => x) (fun x => x)) V))|]. destruct D as [H|H]; apply Nat.eqb_neq in H; rewrite H; auto using andb_false_r.
Qed.

Lemma colour_resize_form sc :
  inner (mid_image N fwd (bit_depth into) store) (blank zero N (width into) (height into)) = Returned Ok sc ->
  width sc = width into -> height sc = height into -> length (buf sc) = width into * height into * N ->
  colour_resize N zero mstride fwd bwd inner store into = Returned Ok (finish sc).
Proof using V D F MS KF KB.
  intros I Hw Hh HL. pose proof sizes as [A B]. destruct swm as (W1 & W2 & W3). destruct checks_pass as [Ck Ne].
  unfold colour_resize. rewrite Ck. cbn [try]. rewrite Ne, W1.
  unfold from_slice. rewrite repeat_length, W1, Nat.eqb_refl. cbn [negb try].
  destruct V as [HN [S1 [S2 [S3 S4]]] [D1 [D2 [D3 D4]]] HC U HD [HS HS'] HA]. destruct F as [F1 F2].
  cbn [buf width height]. rewrite !as_u32_small by lia.
  rewrite byte_stride_small, MS by lia.
  rewrite convert_dense by (rewrite ?repeat_length; auto; lia). cbn [try].
  rewrite skipn_all2, app_nil_r, W3 by (rewrite repeat_length; lia).
  rewrite iwm. unfold mid_image in I. rewrite I.
  rewrite Hw, Hh, !as_u32_small, byte_stride_small, MS by lia.
  rewrite convert_dense by (auto; lia). reflexivity.
Qed.

Lemma colour_helper_form sc :
  inner (mid_image N fwd (bit_depth store) store) (blank zero N (width into) (height into)) = Returned Ok sc ->
  width sc = width into -> height sc = height into -> length (buf sc) = width into * height into * N ->
  colour_resize_helper N zero mstride fwd bwd inner store into = Returned Ok (finish sc).
Proof using V D F MS KF KB.
  intros I Hw Hh HL. pose proof sizes as [A B]. destruct swm as (W1 & W2 & W3). destruct checks_pass as [Ck Ne].
  unfold colour_resize_helper. rewrite Ck. cbn [try]. rewrite Ne, W2.
  destruct V as [HN [S1 [S2 [S3 S4]]] [D1 [D2 [D3 D4]]] HC U HD [HS HS'] HA]. destruct F as [F1 F2].
  cbn [buf width height]. rewrite !as_u32_small by lia.
  rewrite byte_stride_small, MS by lia.
  rewrite convert_dense by (rewrite ?repeat_length; auto; lia). cbn [try].
  rewrite skipn_all2, app_nil_r, W3 by (rewrite repeat_length; lia).
  rewrite iwm. unfold mid_image in I. rewrite I.
  rewrite Hw, Hh, !as_u32_small, byte_stride_small, MS by lia.
  rewrite convert_dense by (auto; lia). reflexivity.
Qed.

(** Pictures. *)
Lemma pixel_dense {T} n (im : image T) x y : stride im = width im * n -> pixel_at n im x y = chunk n (buf im) (y * width im + x).
Proof using. clear MS mstride inner. intro H. unfold pixel_at, chunk. rewrite H. do 2 f_equal. nia. Qed.

Lemma mid_recoloured depth : stride store = width store * N -> recoloured N fwd store (mid_image N fwd depth store).
Proof using V KF.
  clear MS mstride inner. intro Ds. pose proof sizes as [A B]. pose proof (vc_N _ _ _ _ _ V).
  split; [reflexivity|split; [reflexivity|]]. intros x y Hx Hy. rewrite !pixel_dense by (auto; reflexivity).
  cbn [mid_image buf width]. rewrite <- (app_nil_r (recode _ _ _ _)). apply chunk_recode; try lia; auto. nia.
Qed.
Lemma finish_recoloured sc : stride into = width into * N -> stride sc = width into * N ->
  width sc = width into -> height sc = height into -> length (buf sc) = width into * height into * N ->
  recoloured N bwd sc (finish sc).
Proof using V KB.
  clear MS mstride inner. intros Di Dc Hw Hh HL. pose proof (vc_N _ _ _ _ _ V).
  split; [now rewrite Hw|split; [now rewrite Hh|]]. intros x y Hx Hy. rewrite Hw in Hx. rewrite Hh in Hy. rewrite !pixel_dense by (cbn; congruence).
  cbn [finish set_buf buf width]. rewrite Hw. apply chunk_recode; try lia; auto. nia.
Qed.
Lemma finish_length sc : length (buf sc) = width into * height into * N -> length (buf (finish sc)) = length (buf into).
Proof using V KB.
  clear MS mstride inner. intro HL. pose proof sizes as [A B]. cbn [finish set_buf buf]. rewrite app_length, recode_length, skipn_length by (auto; lia). lia.
Qed.
Lemma finish_tail sc i : length (buf sc) = width into * height into * N -> width into * height into * N <= i ->
  nth_error (buf (finish sc)) i = nth_error (buf into) i.
Proof using V KB.
  clear MS mstride inner. intros HL Hi. cbn [finish set_buf buf]. rewrite nth_error_app_case, recode_length by (auto; lia).
  replace (i <? width into * height into * N) with false by (symmetry; apply Nat.ltb_ge; lia). rewrite nth_error_skipn. f_equal. lia.
Qed.
Lemma finish_opd sc : stride into = width into * N -> length (buf sc) = width into * height into * N -> only_pixels_differ N into (finish sc).
Proof using V KB.
  clear MS mstride inner. intros Di HL. pose proof (finish_length sc HL) as Q.
  constructor; try reflexivity; auto. intros i Hi. exfalso. rewrite <- Di in Hi.
  pose proof (vc_N _ _ _ _ _ V). pose proof (vc_dst _ _ _ _ _ V).
  pose proof (Nat.mod_upper_bound i (stride into)). nia.
Qed.
End Call.

(** ** The inner calls succeed *)
Definition succeeds {M} (N : nat) (P : list M -> Prop) (f : resampling_function) (inner : image M -> image M -> callres M) : Prop :=
  forall src dst, valid_call N false f src dst -> changes_size src dst -> dense N src -> dense N dst -> P (buf src) ->
    exists sc, inner src dst = Returned Ok sc /\ only_pixels_differ N dst sc.

Lemma nearest_dec f : f = Nearest \/ f <> Nearest.
Proof. destruct f; try (now left); right; discriminate. Qed.

Lemma inner_f32 k L f N pool : pool_ok pool -> succeeds N (fun _ => True) f (resize_f32 k L f N pool).
Proof.
  intros HP src dst V D D1 D2 _. destruct (nearest_dec f) as [->|Hf].
  - destruct (C08_nearest_f32_partial k L N pool src dst V D HP D1 D2) as (cx & cy & out & R & O & _). eauto.
  - destruct (C10_valid_calls_succeed_f32 k L f N pool src dst Hf V HP) as [out R]. exists out. split; auto.
    eapply C14_padding_f32_partial; eauto.
Qed.
Lemma inner_rgba_f32 k L f pool pre : pool_ok pool -> succeeds 4 (fun _ => True) f (resize_rgba_f32 k L f pool pre).
Proof.
  intros HP src dst V D D1 D2 _. destruct pre.
  - destruct (nearest_dec f) as [->|Hf].
    + unfold resize_rgba_f32. rewrite with_alpha_nearest by reflexivity.
      destruct (C08_nearest_f32_partial k L 4 pool src dst V D HP D1 D2) as (cx & cy & out & R & O & _). now exists out.
    + destruct (C43_alpha_pipeline_f32 k L f pool src dst V D Hf HP) as (s' & mid & out & H). exists out. tauto.
  - rewrite C41_flag_off_is_plain_f32. apply inner_f32; auto.
Qed.
Lemma inner_u8 L f N pool : pool_ok pool -> succeeds N (fun _ => True) f (resize_u8 L f N pool).
Proof.
  intros HP src dst V D D1 D2 _. destruct (nearest_dec f) as [->|Hf].
  - destruct (C08_nearest_partial L N pool src dst V D HP D1 D2) as (cx & cy & out & R & O & _). eauto.
  - destruct (C10_valid_calls_succeed_partial L f N pool src dst Hf V HP) as [out R]. exists out. split; auto.
    eapply C14_padding_partial; eauto.
Qed.
Lemma inner_rgba_u8 L f pool pre : pool_ok pool -> succeeds 4 (samples_in 255) f (resize_rgba_u8 L f pool pre).
Proof.
  intros HP src dst V D D1 D2 S. destruct pre.
  - destruct (nearest_dec f) as [->|Hf].
    + unfold resize_rgba_u8. rewrite with_alpha_nearest by reflexivity.
      destruct (C08_nearest_partial L 4 pool src dst V D HP D1 D2) as (cx & cy & out & R & O & _). now exists out.
    + destruct (C43_alpha_pipeline L f pool src dst V D Hf HP S) as (s' & mid & out & H). exists out. tauto.
  - rewrite C41_flag_off_is_plain. apply inner_u8; auto.
Qed.

(** ** One call, whichever body it has *)
Definition is_colour_call {M} N (zero : M) mstride fwd bwd inner (call : image Z -> image Z -> callres Z) : Prop :=
  call = colour_resize N zero mstride fwd bwd inner \/ call = colour_resize_helper N zero mstride fwd bwd inner.

Section Generic.
Context {M : Type}.
Variables (N : nat) (zero : M) (mstride : nat -> nat) (fwd : list Z -> list M) (bwd : list M -> list Z)
  (inner : image M -> image M -> callres M) (call : image Z -> image Z -> callres Z) (f : resampling_function) (P : list M -> Prop).
Hypothesis CC : is_colour_call N zero mstride fwd bwd inner call.
Hypothesis MS : forall w, (Z.of_nat w < 2 ^ 28)%Z -> mstride w = w * N.
Hypothesis KF : keeps_arity N fwd.
Hypothesis KB : keeps_arity N bwd.
Hypothesis IN : succeeds N P f inner.
Hypothesis PP : forall n src, P (recode N fwd n src).

Lemma call_form (store into : image Z) : valid_call N false f store into -> changes_size store into -> fits_u32 into ->
  exists depth sc, inner (mid_image N fwd depth store) (blank zero N (width into) (height into)) = Returned Ok sc /\
    (depth = bit_depth store \/ depth = bit_depth into) /\
    only_pixels_differ N (blank zero N (width into) (height into)) sc /\
    call store into = Returned Ok (finish N bwd into sc).
Proof using CC MS KF KB IN PP.
  intros V D Fi.
  assert (Q : forall depth, exists sc, inner (mid_image N fwd depth store) (blank zero N (width into) (height into)) = Returned Ok sc /\
    only_pixels_differ N (blank zero N (width into) (height into)) sc).
  { intro depth. destruct (mid_valid N zero fwd f store into V D KF depth) as [V' D']. apply IN; auto; try reflexivity. apply PP. }
  destruct CC as [->| ->].
  - destruct (Q (bit_depth into)) as (sc & I & O). exists (bit_depth into), sc. split; [exact I|]. split; [now right|]. split; [exact O|].
    destruct O. cbn [blank width height buf] in *. rewrite repeat_length in *. eapply colour_resize_form; eauto.
  - destruct (Q (bit_depth store)) as (sc & I & O). exists (bit_depth store), sc. split; [exact I|]. split; [now left|]. split; [exact O|].
    destruct O. cbn [blank width height buf] in *. rewrite repeat_length in *. eapply colour_helper_form; eauto.
Qed.

Lemma call_pipeline (store into : image Z) : valid_call N false f store into -> changes_size store into -> fits_u32 into ->
  dense N store -> dense N into ->
  exists conv scaled out,
    recoloured N fwd store conv /\ dense N conv /\ valid_call N false f conv (blank zero N (width into) (height into)) /\
    inner conv (blank zero N (width into) (height into)) = Returned Ok scaled /\
    only_pixels_differ N (blank zero N (width into) (height into)) scaled /\
    call store into = Returned Ok out /\ recoloured N bwd scaled out /\ only_pixels_differ N into out.
Proof using CC MS KF KB IN PP.
  intros V D Fi D1 D2. destruct (call_form store into V D Fi) as (depth & sc & I & _ & O & R).
  exists (mid_image N fwd depth store), sc, (finish N bwd into sc).
  pose proof O as [O1 O2 O3 _ _ O6 _]. cbn [blank width height stride buf] in O1, O2, O3, O6. rewrite repeat_length in O6.
  split; [eapply mid_recoloured; eauto|]. split; [reflexivity|].
  split; [apply (mid_valid N zero fwd f store into V D KF depth)|]. split; [exact I|]. split; [exact O|]. split; [exact R|].
  split; [eapply finish_recoloured; eauto|]. eapply finish_opd; eauto.
Qed.

Lemma first_bytes_valid (store into : image Z) : valid_call N false f store into ->
  valid_call N false f (first_bytes N store) (first_bytes N into).
Proof using.
  clear. intro V. pose proof (sizes N f store into V) as [A B].
  destruct V as [HN [S1 [S2 [S3 S4]]] [D1 [D2 [D3 D4]]] HC [U1 [U2 U3]] HD HS HA]. unfold fits_usize in *.
  constructor; cbn [first_bytes width height stride buf channels bit_depth]; auto.
  - rewrite firstn_length. repeat split; try lia; nia.
  - rewrite firstn_length. repeat split; try lia; nia.
  - unfold fits_usize. rewrite !firstn_length. split; [|split]; lia.
Qed.

Lemma call_as_dense (store into : image Z) : valid_call N false f store into -> changes_size store into -> fits_u32 into ->
  exists out, call (first_bytes N store) (first_bytes N into) = Returned Ok out /\
    call store into = Returned Ok (set_buf into (buf out ++ skipn (width into * height into * N) (buf into))).
Proof using CC MS KF KB IN PP.
  intros V D Fi. pose proof (first_bytes_valid store into V) as V'.
  destruct (call_form store into V D Fi) as (depth & sc & I & X & O & R).
  pose proof (sizes N f store into V) as [A B].
  assert (Q : forall dp, mid_image N fwd dp (first_bytes N store) = mid_image N fwd dp store).
  { intro dp. unfold mid_image. cbn [first_bytes width height buf]. rewrite recode_firstn by lia. reflexivity. }
  pose proof O as [O1 O2 O3 _ _ O6 _]. cbn [blank width height stride buf] in O1, O2, O3, O6. rewrite repeat_length in O6.
  exists (finish N bwd (first_bytes N into) sc). split.
  - assert (R' : call (first_bytes N store) (first_bytes N into) = Returned Ok (finish N bwd (first_bytes N into) sc)).
    { destruct CC as [->| ->].
      - destruct (mid_valid N zero fwd f store into V D KF (bit_depth into)) as [V1 D1].
        destruct (IN (mid_image N fwd (bit_depth into) store) _ V1 D1 eq_refl eq_refl (PP _ _)) as (sc' & I' & O').
        pose proof O' as [P1 P2 P3 _ _ P6 _]. cbn [blank width height stride buf] in P1, P2, P3, P6. rewrite repeat_length in P6.
        rewrite (colour_resize_form N zero mstride fwd bwd inner f store into V D Fi MS KF KB sc' I' P1 P2 P6) in R.
        injection R as R. rewrite (colour_resize_form N zero mstride fwd bwd inner f (first_bytes N store) (first_bytes N into) V' D Fi MS KF KB sc').
        + f_equal. unfold finish, set_buf. f_equal. cbn [first_bytes width height buf] in *.
          apply (f_equal (firstn (width into * height into * N))) in R.
          rewrite !firstn_app, !recode_length, !Nat.sub_diag, !firstn_O, !app_nil_r in R by (auto; lia).
          rewrite !firstn_all2 in R by (rewrite recode_length by (auto; lia); lia). now rewrite R.
        + rewrite Q. exact I'.
        + exact P1.
        + exact P2.
        + exact P6.
      - destruct (mid_valid N zero fwd f store into V D KF (bit_depth store)) as [V1 D1].
        destruct (IN (mid_image N fwd (bit_depth store) store) _ V1 D1 eq_refl eq_refl (PP _ _)) as (sc' & I' & O').
        pose proof O' as [P1 P2 P3 _ _ P6 _]. cbn [blank width height stride buf] in P1, P2, P3, P6. rewrite repeat_length in P6.
        rewrite (colour_helper_form N zero mstride fwd bwd inner f store into V D Fi MS KF KB sc' I' P1 P2 P6) in R.
        injection R as R. rewrite (colour_helper_form N zero mstride fwd bwd inner f (first_bytes N store) (first_bytes N into) V' D Fi MS KF KB sc').
        + f_equal. unfold finish, set_buf. f_equal. cbn [first_bytes width height buf] in *.
          apply (f_equal (firstn (width into * height into * N))) in R.
          rewrite !firstn_app, !recode_length, !Nat.sub_diag, !firstn_O, !app_nil_r in R by (auto; lia).
          rewrite !firstn_all2 in R by (rewrite recode_length by (auto; lia); lia). now rewrite R.
        + rewrite Q. exact I'.
        + exact P1.
        + exact P2.
        + exact P6. }
    exact R'.
  - rewrite R. unfold finish, set_buf. cbn [first_bytes width height buf]. do 3 f_equal.
    rewrite <- app_nil_r at 1. f_equal. rewrite skipn_all2; [reflexivity|]. rewrite firstn_length. lia.
Qed.
End Generic.

(** ** Refusals *)
Lemma convert_length {A B} N (px : list A -> list B) src ss dst ds w h d :
  0 < N -> keeps_arity N px -> convert N px src ss dst ds w h = Done d -> length d = length dst.
Proof.
  intros HN K. unfold convert. revert dst. generalize (seq 0 h) as l. induction l as [|y l IH]; intros dst H; cbn [foldM] in H.
  - now injection H as <-.
  - destruct (slice src (y * ss) (y * ss + w * N)) as [row| |] eqn:E1; cbn [bind] in H; try discriminate.
    destruct (slice dst (y * ds) (y * ds + w * N)) as [row'| |] eqn:E2; cbn [bind] in H; try discriminate.
    apply IH in H. rewrite H. apply slice_len in E1, E2.
    assert (Lc : length (concat (map px (chunks_exact N row))) = w * N).
    { rewrite (concat_uniform_length N), map_length, chunks_exact_length.
      - destruct E1 as [-> _]. replace (y * ss + w * N - y * ss) with (w * N) by lia. now rewrite Nat.div_mul by lia.
      - rewrite Forall_forall. intros c Hc. apply in_map_iff in Hc. destruct Hc as (p & <- & Hp). apply K.
        pose proof (chunks_exact_Forall_len N row) as Q. rewrite Forall_forall in Q. auto. }
    apply splice_length. rewrite Lc. lia.
Qed.
Lemma convert_nofail {A B} N (px : list A -> list B) src ss dst ds w h e : convert N px src ss dst ds w h <> Fail e.
Proof.
  unfold convert. revert dst. generalize (seq 0 h) as l. induction l as [|y l IH]; intro dst; cbn [foldM]; [discriminate|].
  unfold slice. destruct (_ && _); cbn [bind]; [|discriminate]. destruct (_ && _); cbn [bind]; [|discriminate]. apply IH.
Qed.
Lemma copied_to_mut_nofail {T} N (a b : image T) e : copied_to_mut N a b <> Fail e.
Proof.
  unfold copied_to_mut, chunks_exact_o. destruct (_ =? 0); [discriminate|]. destruct (stride_of N b =? 0); [discriminate|]. cbn [bind].
  rewrite (zip_mut_spec _ (fun d s => copy_row d s)) by reflexivity. discriminate.
Qed.
Lemma no_overflow w h c : 0 < h -> 0 < w -> 0 < c -> check_image_size_overflow w h c = false -> (N.of_nat w * N.of_nat h * N.of_nat c < usize_mod)%N.
Proof.
  intros Hh Hw Hc H. rewrite overflow_too_large in H by lia. unfold too_large in H. unfold usize_mod. lia.
Qed.

Lemma inner_checks {M} (zero : M) N (store into : image Z) (b : list M) depth :
  0 < N -> channels store = N -> checks N false store into = Done tt ->
  length b = wmul (wmul (width store) (height store)) N ->
  checks N false (mkImage b N (width store) (height store) (wmul (width store) N) depth)
    (alloc_with_depth zero N (width into) (height into) 0) = Done tt.
Proof.
  intros HN HC H HL. unfold checks in H.
  destruct (validate N into) as [[]| |]; cbn [bind] in H; try discriminate.
  destruct (validate N store) as [[]| |]; cbn [bind] in H; try discriminate.
  destruct ((width store =? 0) || (height store =? 0) || (width into =? 0) || (height into =? 0)) eqn:Z0; [discriminate|].
  rewrite HC in H.
  destruct (check_image_size_overflow (width store) (height store) N) eqn:O1; [discriminate|].
  destruct (check_image_size_overflow (width into) (height into) N) eqn:O2; [discriminate|].
  assert (Q1 := no_overflow (width store) (height store) N ltac:(lia) ltac:(lia) HN O1).
  assert (Q2 := no_overflow (width into) (height into) N ltac:(lia) ltac:(lia) HN O2).
  rewrite (wmul_small (width store) (height store)) in HL by nia. rewrite wmul_small in HL by nia.
  unfold checks, validate, stride_of, alloc_with_depth. cbn [buf width height stride channels bit_depth].
  rewrite !(wmul_small (width store) N), !(wmul_small (width into) N) by nia.
  rewrite !(wmul_small (width into * N)) by nia. rewrite repeat_length.
  replace (width into * N =? 0) with false by nia. rewrite !(wmul_small (width into * N)) by nia. rewrite Nat.eqb_refl, Nat.ltb_irrefl. cbn [negb bind].
  replace (width store * N =? 0) with false by nia. rewrite !(wmul_small (width store * N)) by nia. rewrite HL.
  replace (width store * height store * N =? width store * N * height store) with true by nia. rewrite Nat.ltb_irrefl. cbn [negb bind].
  rewrite Z0, O1, O2. reflexivity.
Qed.

Section Refusals.
Context {M : Type}.
Variables (N : nat) (zero : M) (mstride : nat -> nat) (fwd : list Z -> list M) (bwd : list M -> list Z)
  (inner : image M -> image M -> callres M) (call : image Z -> image Z -> callres Z).
Hypothesis CC : is_colour_call N zero mstride fwd bwd inner call.

Lemma call_clean store into out e : call store into = Returned (Err e) out -> out = into.
Proof using CC.
  destruct CC as [->| ->]; unfold colour_resize, colour_resize_helper; destruct (checks N false store into) as [[]| |]; cbn [try];
    try discriminate; try (intro H; now injection H).
  - destruct (_ && _).
    + destruct (copied_to_mut N store into) eqn:E; cbn [try]; try discriminate. intro H. now injection H.
    + destruct (from_slice _ _ _ _) as [lab| |]; cbn [try]; try discriminate; [|intro H; now injection H].
      destruct (convert N fwd _ _ _ _ _ _) as [t| |]; cbn [try]; try discriminate; [|intro H; now injection H].
      destruct (inner _ _) as [[|e'] ns|]; try discriminate; [|intro H; now injection H].
      destruct (convert N bwd _ _ _ _ _ _); cbn [try]; try discriminate. intro H; now injection H.
  - destruct (_ && _).
    + destruct (copied_to_mut N store into) eqn:E; cbn [try]; try discriminate. intro H. now injection H.
    + destruct (convert N fwd _ _ _ _ _ _) as [t| |]; cbn [try]; try discriminate; [|intro H; now injection H].
      destruct (inner _ _) as [[|e'] ns|]; try discriminate; [|intro H; now injection H].
      destruct (convert N bwd _ _ _ _ _ _); cbn [try]; try discriminate. intro H; now injection H.
Qed.

Lemma call_refusals store into : 0 < N -> channels store = N -> keeps_arity N fwd ->
  (forall a b, checks N false a b = Done tt -> ok_or_panic (inner a b)) ->
  match first_error (refusal_table N false store into) with
  | Some e => call store into = Returned (Err e) into
  | None => call store into = Panicked \/ exists out, call store into = Returned Ok out
  end.
Proof using CC.
  intros HN HC K HI. pose proof (checks_table N false store into) as T.
  destruct (first_error _) as [e|].
  - destruct CC as [->| ->]; unfold colour_resize, colour_resize_helper; rewrite T; reflexivity.
  - assert (G : forall b m, length b = wmul (wmul (width store) (height store)) N ->
      ok_or_panic (inner (mkImage b N (width store) (height store) (wmul (width store) N) m) (alloc_with_depth zero N (width into) (height into) 0))).
    { intros b m Hb. apply HI. now apply inner_checks. }
    assert (SZ : wmul (wmul N (width store)) (height store) = wmul (wmul (width store) (height store)) N).
    { unfold wmul. f_equal. rewrite !N2Nat.id. rewrite !N.mul_mod_idemp_l by (unfold usize_mod; lia). f_equal. lia. }
    destruct CC as [->| ->]; unfold colour_resize, colour_resize_helper; rewrite T; cbn [try].
    + destruct (_ && _).
      { destruct (copied_to_mut N store into) as [r|e|] eqn:E; cbn [try]; [right; eauto|exfalso; now apply copied_to_mut_nofail in E|now left]. }
      unfold from_slice. rewrite repeat_length, Nat.eqb_refl. cbn [negb try buf width height].
      destruct (convert N fwd _ _ _ _ _ _) as [t|e|] eqn:E; cbn [try]; [|exfalso; now apply convert_nofail in E|now left].
      apply convert_length in E; auto. rewrite repeat_length in E.
      destruct (G t (bit_depth into) E) as [->|[ns ->]]; [now left|].
      destruct (convert N bwd _ _ _ _ _ _) as [t'|e|] eqn:E'; cbn [try]; [right; eauto|exfalso; now apply convert_nofail in E'|now left].
    + destruct (_ && _).
      { destruct (copied_to_mut N store into) as [r|e|] eqn:E; cbn [try]; [right; eauto|exfalso; now apply copied_to_mut_nofail in E|now left]. }
      destruct (convert N fwd _ _ _ _ _ _) as [t|e|] eqn:E; cbn [try]; [|exfalso; now apply convert_nofail in E|now left].
      apply convert_length in E; auto. rewrite repeat_length, SZ in E.
      destruct (G t (bit_depth store) E) as [->|[ns ->]]; [now left|].
      destruct (convert N bwd _ _ _ _ _ _) as [t'|e|] eqn:E'; cbn [try]; [right; eauto|exfalso; now apply convert_nofail in E'|now left].
Qed.

(** The inner call matters only through its result. *)
Lemma call_same f (store into : image Z) : valid_call N false f store into -> width store = width into -> height store = height into ->
  exists out, call store into = Returned Ok out /\ generic_resize N (scaler_engine (mkLibm (fun x => x) (fun x => x) (fun x => x) (fun x => x) (fun x => x)) f N 255 false no_premul no_unpremul no_alpha) None store into = Returned Ok out.
Proof using CC.
  intros V Hw Hh. set (L := mkLibm _ _ _ _ _).
  destruct (C06_same_size_partial L f N None store into V Hw Hh) as (out & R & _). exists out. split; [|exact R].
  unfold resize_u8, generic_resize in R. cbn [needs_depth scaler_engine portable fixed_engine] in R.
  destruct CC as [->| ->]; unfold colour_resize, colour_resize_helper; rewrite Hw, Hh, !Nat.eqb_refl in *; cbn [andb] in *; exact R.
Qed.
End Refusals.
