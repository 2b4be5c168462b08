(** The resize drivers of Resize.v over the portable fixed point passes. *)
From Coq Require Import ZifyBool ZifyNat ZifyN.
From Verif Require Export Api SpecApi.
From Verif Require Import Base BaseProofs ImageStore ColorGroup FixedPoint Dispatch Resize Spec
  KernelProofs Kernel4Proofs ColumnProofs DispatchProofs.

(** ** Validation *)
Lemma mul_overflows_false a b : mul_overflows a b = false -> wmul a b = a * b.
Proof. unfold mul_overflows. intro H. apply wmul_small. lia. Qed.

Lemma check_overflow_false w h c :
  check_image_size_overflow w h c = false -> wmul w c = w * c /\ fits_usize (w * h * c).
Proof.
  unfold check_image_size_overflow, fits_usize. destruct (mul_overflows w c) eqn:E; [discriminate|].
  rewrite (mul_overflows_false _ _ E). unfold mul_overflows. intro H. split; [reflexivity|]. lia.
Qed.

(** [stride * height] fits a usize: true whenever the buffer could exist as
    stride x height addressable elements. *)
Definition span_fits {T} (im : image T) : Prop := fits_usize (stride im * height im).

Lemma validate_good {T} N (im : image T) :
  validate N im = Done tt -> 0 < width im -> 0 < height im -> 0 < N ->
  span_fits im -> fits_usize (width im * N) -> good N im.
Proof.
  intros HV Hw Hh HN Hs Hf. unfold validate in HV.
  destruct (length (buf im) =? wmul (stride_of N im) (height im)) eqn:E1; [|discriminate].
  cbn [negb] in HV.
  assert (Ew : wmul (width im) N = width im * N).
  { apply wmul_small. unfold fits_usize in Hf. lia. }
  rewrite Ew in HV. destruct (stride im <? width im * N) eqn:E2; [discriminate|].
  assert (Es : stride_of N im = stride im).
  { unfold stride_of. replace (stride im =? 0) with false by nia. reflexivity. }
  rewrite Es in E1.
  assert (Em : wmul (stride im) (height im) = stride im * height im).
  { apply wmul_small. unfold span_fits, fits_usize in Hs. lia. }
  constructor; auto; lia.
Qed.

Lemma checks_Done {T} N nd (store into : image T) :
  checks N nd store into = Done tt ->
  validate N into = Done tt /\ validate N store = Done tt /\
  0 < width store /\ 0 < height store /\ 0 < width into /\ 0 < height into /\
  check_image_size_overflow (width store) (height store) (channels store) = false /\
  check_image_size_overflow (width into) (height into) (channels store) = false /\
  (nd = true -> 1 <= bit_depth into <= 16).
Proof.
  unfold checks. intro H.
  destruct (validate N into) as [[]| |] eqn:E1; try discriminate. cbn [bind] in H.
  destruct (validate N store) as [[]| |] eqn:E2; try discriminate. cbn [bind] in H.
  destruct ((width store =? 0) || (height store =? 0) || (width into =? 0) || (height into =? 0)) eqn:E3;
    [discriminate|].
  destruct (check_image_size_overflow (width store) (height store) (channels store)) eqn:E4; [discriminate|].
  destruct (check_image_size_overflow (width into) (height into) (channels store)) eqn:E5; [discriminate|].
  destruct (nd && negb ((1 <=? bit_depth into) && (bit_depth into <=? 16))) eqn:E6; [discriminate|].
  repeat split; auto; try lia; destruct nd; cbn in E6; try discriminate; lia.
Qed.

Lemma checks_good {T} N nd (store into : image T) :
  checks N nd store into = Done tt -> 0 < N -> channels store = N ->
  span_fits store -> span_fits into -> good N store /\ good N into.
Proof.
  intros H HN Hc S1 S2. apply checks_Done in H. destruct H as (V1 & V2 & A & B & C & D & O1 & O2 & _).
  rewrite Hc in *. apply check_overflow_false in O1. apply check_overflow_false in O2.
  unfold fits_usize in *.
  split; apply validate_good; auto; unfold fits_usize; nia.
Qed.

(** The converse: good images with sane sizes pass the checks. *)
Lemma good_checks {T} N nd (store into : image T) :
  good N store -> good N into -> 0 < N -> channels store = N ->
  span_fits store -> span_fits into -> (nd = true -> 1 <= bit_depth into <= 16) ->
  checks N nd store into = Done tt.
Proof.
  intros G1 G2 HN Hc S1 S2 Hd.
  assert (V : forall im : image T, good N im -> span_fits im -> validate N im = Done tt /\ wmul (width im) N = width im * N).
  { intros im G S. pose proof (good_stride_of N im HN G) as Es. destruct G as [Hw Hh Hst Hl].
    unfold span_fits, fits_usize in S.
    assert (Ew : wmul (width im) N = width im * N) by (apply wmul_small; nia).
    split; [|exact Ew]. unfold validate. rewrite Es.
    rewrite (wmul_small (stride im) (height im)) by lia. rewrite Ew.
    replace (length (buf im) =? stride im * height im) with true by lia. cbn [negb].
    replace (stride im <? width im * N) with false by lia. reflexivity. }
  destruct (V store G1 S1) as [V1 W1]. destruct (V into G2 S2) as [V2 W2].
  unfold checks. rewrite V1, V2. cbn [bind].
  destruct G1 as [A1 A2 A3 A4], G2 as [B1 B2 B3 B4].
  replace ((width store =? 0) || (height store =? 0) || (width into =? 0) || (height into =? 0)) with false by lia.
  unfold span_fits, fits_usize in *. rewrite Hc.
  unfold check_image_size_overflow, mul_overflows. rewrite W1, W2.
  replace (usize_mod <=? N.of_nat (width store) * N.of_nat N)%N with false by nia.
  replace (usize_mod <=? N.of_nat (width into) * N.of_nat N)%N with false by nia.
  replace (usize_mod <=? N.of_nat (height store) * N.of_nat (width store * N))%N with false by nia.
  replace (usize_mod <=? N.of_nat (height into) * N.of_nat (width into * N))%N with false by nia.
  destruct nd; cbn [andb]; [|reflexivity].
  specialize (Hd eq_refl). replace ((1 <=? bit_depth into) && (bit_depth into <=? 16)) with true by lia. reflexivity.
Qed.

Lemma samples_in_nth maxv l i : (0 <= maxv)%Z -> samples_in maxv l -> (0 <= nth i l 0 <= maxv)%Z.
Proof.
  intros H F. destruct (Nat.ltb_spec i (length l)) as [L|L].
  - unfold samples_in in F. rewrite Forall_forall in F. apply F. now apply nth_In.
  - rewrite nth_overflow by lia. lia.
Qed.

Local Open Scope Z_scope.

Lemma zsum_bound n (f w : nat -> Z) maxv :
  0 <= maxv -> (forall k, (k < n)%nat -> 0 <= f k <= maxv) ->
  Z.abs (zsum n (fun k => f k * w k)) <= zsum n (fun k => Z.abs (w k)) * maxv.
Proof.
  intros Hm Hf. eapply Z.le_trans; [apply zsum_abs|].
  replace (zsum n (fun k => Z.abs (w k)) * maxv) with (zsum n (fun k => maxv * Z.abs (w k)))
    by (rewrite zsum_scale; ring).
  apply zsum_le. intros k Hk. rewrite Z.abs_mul. specialize (Hf k Hk). nia.
Qed.

Lemma clampZ_range lo hi v : lo <= hi -> lo <= clampZ lo hi v <= hi.
Proof. unfold clampZ. lia. Qed.

Lemma vval_range maxv src ss ws b j : 0 <= maxv -> 0 <= vval maxv src ss ws b j <= maxv.
Proof. intro H. unfold vval. rewrite saturate_narrow_spec by auto. apply clampZ_range; auto. Qed.
Lemma hval_range N maxv fw s x c : 0 <= maxv -> 0 <= hval N maxv fw s x c <= maxv.
Proof. intro H. unfold hval. rewrite saturate_narrow_spec by auto. apply clampZ_range; auto. Qed.

(** The intermediate picture of the two-pass resize fits a usize. *)
Definition mid_fits (N : nat) (store into : image Z) : Prop :=
  fits_usize (width store * height into * N).

Section EndToEnd.
Context {F : Type}.
Variables (N : nat) (maxv : Z) (q : F -> Z) (nd : bool) (crd : nat -> nat -> nat -> nat)
  (g : nat -> nat -> fweights F) (pre : pool_t -> image Z -> image Z -> outcome (image Z))
  (unpre : pool_t -> image Z -> outcome (image Z)) (need : image Z -> outcome bool).
Let E := fixed_engine N maxv q nd false crd g pre unpre need.

Hypothesis HN : cn_ok N.
Hypothesis Hmax : 0 <= maxv.

Variables (pool : pool_t) (store into : image Z).
Hypothesis HP : pool_ok pool.
Hypothesis Hchecks : checks N nd store into = Done tt.
Hypothesis Gs : good N store.
Hypothesis Gi : good N into.
Hypothesis Hdiff : (width store <> width into \/ height store <> height into)%nat.
Hypothesis Wv : wf_fw (g (height store) (height into)) (height store) (height into).
Hypothesis Wh : wf_fw (g (width store) (width into)) (width store) (width into).
Hypothesis Hmid : mid_fits N store into.

Let do_v := negb (height store =? height into)%nat.
Let do_h := negb (width store =? width into)%nat.
Let fwv := g (height store) (height into).
Let fwh := g (width store) (width into).

(** The value each pass writes, before the no-overflow simplification. *)
Definition raw_v (p : picture) : picture := fun y x c =>
  saturate_narrow maxv (wrap32 (zsum (wsize (windows_of q fwv) y)
    (fun k => wcoef (windows_of q fwv) y k * p (wstart (windows_of q fwv) y + k)%nat x c))).
Definition raw_h (p : picture) : picture := fun y x c =>
  saturate_narrow maxv (wrap32 (ROUNDING_CONST + zsum (wsize (windows_of q fwh) x)
    (fun k => wcoef (windows_of q fwh) x k * p y (wstart (windows_of q fwh) x + k)%nat c))).
Definition raw_resample (p : picture) : picture :=
  let p := if do_v then raw_v p else p in if do_h then raw_h p else p.

Lemma N_pos : (0 < N)%nat.
Proof. unfold cn_ok in HN; lia. Qed.

Lemma vval_raw (im : image Z) y j : (j < width im * N)%nat ->
  vval maxv (buf im) (stride im) (skipn (y * aligned_size fwv) (map q (weights fwv)))
      (nth y (bounds fwv) (mkBound 0 0)) j = raw_v (picture_of N im) y (j / N)%nat (j mod N)%nat.
Proof.
  intro Hj. unfold vval, vsum, raw_v, picture_of, windows_of. cbn [wsize wstart wcoef].
  do 2 f_equal. apply zsum_ext. intros k Hk. rewrite nth_skipn, Z.mul_comm. do 2 f_equal.
  pose proof (Nat.div_mod j N ltac:(pose proof N_pos; lia)). lia.
Qed.

Lemma hval_raw (im : image Z) y x c :
  hval N maxv (qfw q fwh) (fun i => nth (y * stride im + i) (buf im) 0) x c =
  raw_h (picture_of N im) y x c.
Proof.
  unfold hval, raw_h, picture_of, windows_of. cbn [wsize wstart wcoef qfw bounds aligned_size weights].
  do 3 f_equal. apply zsum_ext. intros k Hk. rewrite Z.mul_comm. reflexivity.
Qed.

Theorem resize_raw :
  generic_resize N E pool store into =
  Returned Ok (set_buf into (pixmap 0 (height into) (stride into) (width into * N)
    (fun y j => raw_resample (picture_of N store) y (j / N)%nat (j mod N)%nat) (buf into))).
Proof.
  pose proof N_pos as N0.
  unfold generic_resize, try. cbn [needs_depth E fixed_engine]. rewrite Hchecks.
  replace ((width store =? width into) && (height store =? height into))%nat with false by lia.
  cbn [is_nearest E fixed_engine]. fold do_h do_v.
  pose proof (good_stride_pos N into N0 Gi) as Sp.
  unfold raw_resample.
  destruct do_v eqn:Ev; destruct do_h eqn:Eh; cbn [andb].
  - (* both *)
    set (L := (width store * height into * N)%nat).
    unfold mid_fits, fits_usize in Hmid.
    assert (E1 : wmul (width store) (height into) = (width store * height into)%nat).
    { apply wmul_small. pose proof (g_w _ _ Gs). unfold usize_mod in *. nia. }
    assert (E2 : wmul (width store * height into) N = L).
    { apply wmul_small. unfold usize_mod in *. lia. }
    assert (E3 : wmul (width store) N = (width store * N)%nat).
    { apply wmul_small. pose proof (g_h _ _ Gi). unfold usize_mod in *. nia. }
    unfold from_slice. rewrite repeat_length, E1, E2, Nat.eqb_refl, E3. cbn [negb].
    set (nv := set_bit_depth _ _). cbn [dflt E fixed_engine] in nv.
    assert (Gnv : good N nv).
    { constructor; cbn.
      - apply (g_w _ _ Gs). - apply (g_h _ _ Gi). - lia.
      - rewrite repeat_length. unfold L. lia. }
    cbn [vconv hconv gen E fixed_engine]. fold fwv fwh.
    rewrite (vpass_closed q N maxv fwv pool store nv HN HP Gs Gnv eq_refl Wv).
    set (mid := mkImage _ _ _ _ _ _).
    assert (Gmid : good N mid).
    { constructor; cbn [mid width height stride buf set_buf].
      - apply (g_w _ _ Gs). - apply (g_h _ _ Gi). - lia.
      - rewrite pixmap_length. cbn. rewrite repeat_length. unfold L. lia. }
    rewrite (hpass_closed q N maxv fwh pool mid into HN HP Gmid Gi eq_refl Wh).
    do 2 f_equal. apply pixmap_ext; [exact Sp|]. intros y j Hy Hj.
    rewrite hval_raw. unfold raw_h. do 3 f_equal. apply zsum_ext. intros k Hk. f_equal.
    assert (jx : (j / N < width into)%nat) by (apply Nat.div_lt_upper_bound; lia).
    pose proof (wf_nth fwh _ _ (j / N) Wh jx) as B. cbv zeta in B.
    pose proof (Nat.mod_upper_bound j N ltac:(lia)) as MB.
    unfold windows_of in *. cbn [wstart wsize] in *.
    set (bx := nth (j / N) (bounds fwh) (mkBound 0 0)) in *.
    unfold picture_of at 1. cbn [mid stride buf set_buf].
    set (t := ((bstart bx + k) * N + j mod N)%nat).
    assert (Ht : (t < width store * N)%nat) by (unfold t; nia).
    assert (Lnv : length (buf nv) = (height nv * stride nv)%nat) by apply (g_len _ _ Gnv).
    erewrite nth_error_nth; [|apply (pixmap_at 0 (height nv) (stride nv) (width nv * N));
       [cbn; lia| exact Lnv | exact Hy | exact Ht | cbn; lia]].
    rewrite vval_raw by exact Ht.
    assert (T1 : (t / N = bstart bx + k)%nat).
    { unfold t. rewrite Nat.add_comm, Nat.div_add by lia. rewrite Nat.div_small by lia. lia. }
    assert (T2 : (t mod N = j mod N)%nat).
    { unfold t. rewrite Nat.add_comm, Nat.mod_add by lia. apply Nat.mod_small; lia. }
    rewrite T1, T2. reflexivity.
  - (* vertical only *)
    cbn [vconv gen E fixed_engine]. fold fwv.
    assert (Hw : width store = width into) by (unfold do_h in Eh; lia).
    rewrite (vpass_closed q N maxv fwv pool store into HN HP Gs Gi Hw Wv).
    do 2 f_equal. apply pixmap_ext; [exact Sp|]. intros y j Hy Hj. apply vval_raw. lia.
  - (* horizontal only *)
    cbn [hconv gen E fixed_engine]. fold fwh.
    assert (Hh : height store = height into) by (unfold do_v in Ev; lia).
    rewrite (hpass_closed q N maxv fwh pool store into HN HP Gs Gi Hh Wh).
    do 2 f_equal. apply pixmap_ext; [exact Sp|]. intros y j Hy Hj. apply hval_raw.
  - exfalso. unfold do_v, do_h in *. lia.
Qed.

(** With 32-bit-safe coefficients the pass values are the mathematical sums. *)
Hypothesis Hin : samples_in maxv (buf store).
Hypothesis Sv : accumulator_safe maxv (windows_of q fwv) (height into).
Hypothesis Sh : accumulator_safe maxv (windows_of q fwh) (width into).

Lemma raw_v_spec p y x c : (y < height into)%nat ->
  (forall y x c, 0 <= p y x c <= maxv) ->
  raw_v p y x c = resample_v maxv (windows_of q fwv) p y x c.
Proof.
  intros Hy Hp. unfold raw_v, resample_v. rewrite saturate_narrow_spec by auto.
  specialize (Sv y Hy).
  pose proof (zsum_bound (wsize (windows_of q fwv) y)
     (fun k => p (wstart (windows_of q fwv) y + k)%nat x c)
     (fun k => wcoef (windows_of q fwv) y k) maxv Hmax (fun k _ => Hp _ _ _)) as B.
  cbv beta in B.
  replace (zsum (wsize (windows_of q fwv) y) (fun k : nat => wcoef (windows_of q fwv) y k * p (wstart (windows_of q fwv) y + k)%nat x c))
    with (zsum (wsize (windows_of q fwv) y) (fun k : nat => p (wstart (windows_of q fwv) y + k)%nat x c * wcoef (windows_of q fwv) y k))
    by (apply zsum_ext; intros; ring).
  rewrite wrap32_small by lia. reflexivity.
Qed.

Lemma raw_h_spec p y x c : (x < width into)%nat ->
  (forall y x c, 0 <= p y x c <= maxv) ->
  raw_h p y x c = resample_h maxv (windows_of q fwh) p y x c.
Proof.
  intros Hx Hp. unfold raw_h, resample_h. rewrite saturate_narrow_spec by auto. rewrite ROUNDING_CONST_val.
  specialize (Sh x Hx).
  pose proof (zsum_bound (wsize (windows_of q fwh) x)
     (fun k => p y (wstart (windows_of q fwh) x + k)%nat c)
     (fun k => wcoef (windows_of q fwh) x k) maxv Hmax (fun k _ => Hp _ _ _)) as B.
  cbv beta in B.
  replace (zsum (wsize (windows_of q fwh) x) (fun k : nat => wcoef (windows_of q fwh) x k * p y (wstart (windows_of q fwh) x + k)%nat c))
    with (zsum (wsize (windows_of q fwh) x) (fun k : nat => p y (wstart (windows_of q fwh) x + k)%nat c * wcoef (windows_of q fwh) x k))
    by (apply zsum_ext; intros; ring).
  rewrite wrap32_small by lia. unfold floor_q15, round_q15. rewrite Z.add_comm. reflexivity.
Qed.

Lemma raw_v_range p y x c : 0 <= raw_v p y x c <= maxv.
Proof. unfold raw_v. rewrite saturate_narrow_spec by auto. apply clampZ_range; auto. Qed.
Lemma raw_h_range p y x c : 0 <= raw_h p y x c <= maxv.
Proof. unfold raw_h. rewrite saturate_narrow_spec by auto. apply clampZ_range; auto. Qed.

Theorem resize_closed :
  generic_resize N E pool store into =
  Returned Ok (set_buf into (pixmap 0 (height into) (stride into) (width into * N)
    (fun y j => resample maxv do_v do_h (windows_of q fwv) (windows_of q fwh) (picture_of N store) y (j / N)%nat (j mod N)%nat)
    (buf into))).
Proof.
  pose proof N_pos as N0.
  rewrite resize_raw. do 2 f_equal. apply pixmap_ext; [apply (good_stride_pos N into N0 Gi)|].
  intros y j Hy Hj. unfold raw_resample, resample.
  assert (Hp : forall y x c, 0 <= picture_of N store y x c <= maxv).
  { intros. unfold picture_of. apply samples_in_nth; auto. }
  assert (jx : (j / N < width into)%nat) by (apply Nat.div_lt_upper_bound; lia).
  destruct do_v, do_h; auto.
  - rewrite raw_h_spec by (auto using raw_v_range). unfold resample_h. f_equal.
    apply zsum_ext. intros k Hk. f_equal. apply raw_v_spec; auto.
  - apply raw_v_spec; auto.
  - apply raw_h_spec; auto.
Qed.
End EndToEnd.
