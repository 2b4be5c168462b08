(** The resize driver over any engine whose two passes have a closed form, and its
    floating point instances. *)
From Coq Require Import ZArith List Lia Bool ZifyBool ZifyNat ZifyN.
From Verif Require Import Base BaseProofs ImageStore ColorGroup FixedPoint Dispatch FloatConv Resize Spec SpecApi SpecFloat
  KernelProofs DispatchProofs FloatConvProofs ResizeProofs NoFail ImageProofs PoolProofs NearestProofs.
Import ListNotations.

(** The picture an image shows, [d] outside the buffer. *)
Definition shown {T} (d : T) (N : nat) (im : image T) : nat -> nat -> nat -> T :=
  fun y x c => nth (y * stride im + (x * N + c)) (buf im) d.

(** [into] with picture [p] painted over its visible samples. *)
Definition painted {T} (d : T) (N : nat) (p : nat -> nat -> nat -> T) (into : image T) : image T :=
  set_buf into (pixmap d (height into) (stride into) (width into * N) (fun y j => p y (j / N) (j mod N)) (buf into)).

Section Painted.
Context {T : Type} (d : T) (N : nat) (HN : 0 < N).

Lemma painted_sample p into x y c : good N into ->
  x < width into -> y < height into -> c < N -> sample N (painted d N p into) x y c = Some (p y x c).
Proof.
  intros G Hx Hy Hc. unfold sample, painted, set_buf. cbn [buf stride].
  replace (y * stride into + x * N + c) with (y * stride into + (x * N + c)) by lia.
  rewrite pixmap_at; try assumption.
  - f_equal. f_equal.
    + rewrite Nat.add_comm, Nat.div_add, Nat.div_small by lia. lia.
    + rewrite Nat.add_comm, Nat.mod_add by lia. apply Nat.mod_small. lia.
  - apply (good_stride_pos N into HN G).
  - apply (g_len _ _ G).
  - nia.
  - apply (g_stride _ _ G).
Qed.

Lemma painted_good p into : good N into -> good N (painted d N p into).
Proof.
  intro G. destruct G. unfold painted, set_buf. constructor; cbn; auto. now rewrite pixmap_length.
Qed.

Lemma painted_opd p into : only_pixels_differ N into (painted d N p into).
Proof.
  constructor; try reflexivity.
  - unfold painted, set_buf. cbn [buf]. apply pixmap_length.
  - intros i Hi. unfold painted, set_buf. cbn [buf]. rewrite nth_error_pixmap.
    replace (i mod stride into <? width into * N) with false by lia. rewrite andb_false_r.
    destruct (i <? length (buf into)) eqn:L.
    + symmetry. apply nth_error_nth_lt. lia.
    + symmetry. apply nth_error_None. lia.
Qed.

Lemma painted_ext p q into : good N into ->
  (forall y x c, y < height into -> x < width into -> c < N -> p y x c = q y x c) -> painted d N p into = painted d N q into.
Proof.
  intros G H. unfold painted. f_equal. apply pixmap_ext; [apply (good_stride_pos N into HN G)|].
  intros y j Hy Hj. apply H; auto.
  - apply Nat.div_lt_upper_bound; lia.
  - apply Nat.mod_upper_bound; lia.
Qed.

Lemma shown_sample im x y c v : sample N im x y c = Some v -> shown d N im y x c = v.
Proof. unfold sample, shown. intro H. rewrite Nat.add_assoc. now apply nth_error_nth. Qed.

Lemma good_shown im x y c : good N im -> x < width im -> y < height im -> c < N ->
  sample N im x y c = Some (shown d N im y x c).
Proof.
  intros G Hx Hy Hc. unfold sample, shown. rewrite Nat.add_assoc. apply nth_error_nth_lt.
  rewrite (g_len _ _ G). pose proof (g_stride _ _ G). nia.
Qed.

End Painted.

(** The closed form of an engine's passes, for destinations of bit depth [depth]. *)
Record pass_forms {T F} (N : nat) (E : engine T F) (depth : nat)
  (PV PH : fweights F -> (nat -> nat -> nat -> T) -> nat -> nat -> nat -> T) : Prop := mkPF {
  pf_v : forall fw pool im into, pool_ok pool -> good N im -> good N into -> width im = width into ->
    wf_fw fw (height im) (height into) -> bit_depth into = depth ->
    vconv E fw pool im into = Done (painted (dflt E) N (PV fw (shown (dflt E) N im)) into);
  pf_h : forall fw pool im into, pool_ok pool -> good N im -> good N into -> height im = height into ->
    wf_fw fw (width im) (width into) -> bit_depth into = depth ->
    hconv E fw pool im into = Done (painted (dflt E) N (PH fw (shown (dflt E) N im)) into);
  pf_vl : forall fw p q y x c,
    (forall sy, bstart (nth y (bounds fw) (mkBound 0 0)) <= sy <
                bstart (nth y (bounds fw) (mkBound 0 0)) + bsize (nth y (bounds fw) (mkBound 0 0)) -> p sy x c = q sy x c) ->
    PV fw p y x c = PV fw q y x c;
  pf_hl : forall fw p q y x c,
    (forall sx, bstart (nth x (bounds fw) (mkBound 0 0)) <= sx <
                bstart (nth x (bounds fw) (mkBound 0 0)) + bsize (nth x (bounds fw) (mkBound 0 0)) -> p y sx c = q y sx c) ->
    PH fw p y x c = PH fw q y x c
}.

Section Driver.
Context {T F : Type} (N : nat) (E : engine T F).
Variables (PV PH : fweights F -> (nat -> nat -> nat -> T) -> nat -> nat -> nat -> T).
Variables (pool : pool_t) (store into : image T).
Hypothesis HN : 0 < N.
Hypothesis PF : pass_forms N E (bit_depth into) PV PH.
Hypothesis Hnear : is_nearest E = false.
Hypothesis HP : pool_ok pool.
Hypothesis Hchecks : checks N (needs_depth E) store into = Done tt.
Hypothesis Gs : good N store.
Hypothesis Gi : good N into.
Hypothesis Hdiff : changes_size store into.
Hypothesis Wv : wf_fw (gen E (height store) (height into)) (height store) (height into).
Hypothesis Wh : wf_fw (gen E (width store) (width into)) (width store) (width into).
Hypothesis Hmid : fits_usize (width store * height into * N).

Let do_v := negb (height store =? height into).
Let do_h := negb (width store =? width into).
Let fwv := gen E (height store) (height into).
Let fwh := gen E (width store) (width into).

Definition two_passes (p : nat -> nat -> nat -> T) : nat -> nat -> nat -> T :=
  let p := if do_v then PV fwv p else p in if do_h then PH fwh p else p.

Theorem driver_raw :
  generic_resize N E pool store into = Returned Ok (painted (dflt E) N (two_passes (shown (dflt E) N store)) into).
Proof.
  unfold generic_resize, try. rewrite Hchecks.
  replace ((width store =? width into) && (height store =? height into)) with false by (destruct Hdiff; lia).
  rewrite Hnear. fold do_h do_v. unfold two_passes.
  destruct do_v eqn:Ev; destruct do_h eqn:Eh; cbn [andb].
  - set (L := width store * height into * N).
    unfold fits_usize in Hmid.
    assert (E1 : wmul (width store) (height into) = width store * height into).
    { apply wmul_small. unfold usize_mod in *. nia. }
    assert (E2 : wmul (width store * height into) N = L).
    { apply wmul_small. unfold usize_mod in *. lia. }
    assert (E3 : wmul (width store) N = width store * N).
    { apply wmul_small. pose proof (g_h _ _ Gi). unfold usize_mod in *. nia. }
    unfold from_slice. rewrite repeat_length, E1, E2, Nat.eqb_refl, E3. cbn [negb].
    set (nv := set_bit_depth _ _).
    assert (Gnv : good N nv).
    { constructor; cbn.
      - apply (g_w _ _ Gs). - apply (g_h _ _ Gi). - lia.
      - rewrite repeat_length. unfold L. lia. }
    rewrite (pf_v _ _ _ _ _ PF (gen E (height store) (height into)) pool store nv HP Gs Gnv eq_refl Wv eq_refl).
    set (mid := mkImage _ _ _ _ _ _).
    assert (Gmid : good N mid).
    { constructor; cbn [mid width height stride buf set_buf painted].
      - apply (g_w _ _ Gs). - apply (g_h _ _ Gi). - lia.
      - rewrite pixmap_length. cbn. rewrite repeat_length. unfold L. lia. }
    rewrite (pf_h _ _ _ _ _ PF (gen E (width store) (width into)) pool mid into HP Gmid Gi eq_refl Wh eq_refl).
    f_equal. apply painted_ext; auto. intros y x c Hy Hx Hc. fold fwh.
    apply (pf_hl _ _ _ _ _ PF). intros sx Hsx.
    pose proof (wf_nth fwh _ _ x Wh Hx) as B. cbv zeta in B.
    assert (Sx : sx < width store) by lia.
    change (shown (dflt E) N mid y sx c) with (shown (dflt E) N (painted (dflt E) N (PV fwv (shown (dflt E) N store)) nv) y sx c).
    apply shown_sample. apply painted_sample; auto.
  - assert (Hw : width store = width into) by (unfold do_h in Eh; lia).
    rewrite (pf_v _ _ _ _ _ PF (gen E (height store) (height into)) pool store into HP Gs Gi Hw Wv eq_refl).
    reflexivity.
  - assert (Hh : height store = height into) by (unfold do_v in Ev; lia).
    rewrite (pf_h _ _ _ _ _ PF (gen E (width store) (width into)) pool store into HP Gs Gi Hh Wh eq_refl).
    reflexivity.
  - exfalso. unfold do_v, do_h in *. destruct Hdiff; lia.
Qed.
End Driver.

(** A copy when the size does not change, whatever the engine. *)
Lemma driver_same {T F} N (d0 : T) (E : engine T F) pool (store into : image T) :
  0 < N -> checks N (needs_depth E) store into = Done tt -> good N store -> good N into ->
  width store = width into -> height store = height into ->
  generic_resize N E pool store into =
  Returned Ok (set_buf into (pixmap d0 (height into) (stride into) (Nat.min (stride store) (stride into))
    (fun y j => nth (y * stride store + j) (buf store) d0) (buf into))).
Proof.
  intros HN C Gs Gi Hw Hh. unfold generic_resize, try. rewrite C, Hw, Hh, !Nat.eqb_refl. cbn [andb].
  now rewrite (copied_to_mut_spec N d0 store into HN Gs Gi Hh).
Qed.

(** Two engines that agree on destinations of the depth at hand give the same result. *)
Section Ext.
Context {T F : Type} (N : nat) (E E' : engine T F) (into : image T).
Hypothesis Ed : dflt E = dflt E'.
Hypothesis En : needs_depth E = needs_depth E'.
Hypothesis Ei : is_nearest E = is_nearest E'.
Hypothesis Ec : coord E = coord E'.
Hypothesis Eg : gen E = gen E'.
Hypothesis Ev : forall fw pool a b, bit_depth b = bit_depth into -> vconv E fw pool a b = vconv E' fw pool a b.
Hypothesis Eh : forall fw pool a b, bit_depth b = bit_depth into -> hconv E fw pool a b = hconv E' fw pool a b.

Lemma engine_ext pool store : generic_resize N E pool store into = generic_resize N E' pool store into.
Proof.
  unfold generic_resize. rewrite En, Ei, Ec, Eg, Ed.
  apply try_ext. intros _. destruct (_ && _); [reflexivity|]. destruct (is_nearest E'); [reflexivity|].
  destruct (_ && _).
  - apply try_ext. intro nv. rewrite Ev by reflexivity. apply try_ext. intro nv'. rewrite Eh by reflexivity. reflexivity.
  - destruct (negb _); [rewrite Ev by reflexivity; reflexivity|].
    destruct (negb _); [rewrite Eh by reflexivity; reflexivity|reflexivity].
Qed.
End Ext.

(** ** Floating point passes *)
Definition taps_of {J} (dJ : J) (fw : fweights J) : taps J :=
  mkTaps (fun o => bstart (nth o (bounds fw) (mkBound 0 0)))
         (fun o => bsize (nth o (bounds fw) (mkBound 0 0)))
         (fun o k => nth (o * aligned_size fw + k) (weights fw) dJ).

Section FloatForms.
Context {T J : Type} (zero : J) (mul : J -> J -> J) (mlaf : J -> J -> J -> J) (as_ : T -> J) (mixed : J -> T) (d0 : T) (dJ : J).

Let FV (fw : fweights J) := float_v zero mul mlaf as_ mixed (taps_of dJ fw).
Let FH (fw : fweights J) := float_h zero mul mlaf as_ mixed (taps_of dJ fw).

Lemma float_v_local fw p q y x c :
  (forall sy, bstart (nth y (bounds fw) (mkBound 0 0)) <= sy <
              bstart (nth y (bounds fw) (mkBound 0 0)) + bsize (nth y (bounds fw) (mkBound 0 0)) -> p sy x c = q sy x c) ->
  FV fw p y x c = FV fw q y x c.
Proof.
  intro H. unfold FV, float_v, taps_of. cbn [tsize tstart tweight]. f_equal. apply (weighted_ext zero mul mlaf as_ mixed d0). intros k Hk.
  split; [|reflexivity]. f_equal. apply H. lia.
Qed.

Lemma float_h_local fw p q y x c :
  (forall sx, bstart (nth x (bounds fw) (mkBound 0 0)) <= sx <
              bstart (nth x (bounds fw) (mkBound 0 0)) + bsize (nth x (bounds fw) (mkBound 0 0)) -> p y sx c = q y sx c) ->
  FH fw p y x c = FH fw q y x c.
Proof.
  intro H. unfold FH, float_h, taps_of. cbn [tsize tstart tweight]. f_equal. apply (weighted_ext zero mul mlaf as_ mixed d0). intros k Hk.
  split; [|reflexivity]. f_equal. apply H. lia.
Qed.

Lemma fvpass_painted N fw pool im into :
  cn_ok N -> pool_ok pool -> good N im -> good N into -> width im = width into -> wf_fw fw (height im) (height into) ->
  fvpass zero mul mlaf as_ mixed N fw pool im into = Done (painted d0 N (FV fw (shown d0 N im)) into).
Proof.
  intros HN HP Gi Go Hw W. assert (N0 : 0 < N) by (unfold cn_ok in HN; lia).
  rewrite (fvpass_closed zero mul mlaf as_ mixed d0 N fw dJ pool im into HN HP Gi Go Hw W).
  unfold painted. do 2 f_equal. apply pixmap_ext; [apply (good_stride_pos N into N0 Go)|].
  intros y j Hy Hj. unfold FV, float_v, fvval, taps_of, shown. cbn [tsize tstart tweight]. f_equal.
  apply (weighted_ext zero mul mlaf as_ mixed d0). intros k Hk. rewrite nth_skipn. split; [|reflexivity]. do 2 f_equal.
  pose proof (Nat.div_mod j N ltac:(lia)). lia.
Qed.

Lemma fhpass_painted N fw pool im into :
  cn_ok N -> pool_ok pool -> good N im -> good N into -> height im = height into -> wf_fw fw (width im) (width into) ->
  fhpass zero mul mlaf as_ mixed N fw pool im into = Done (painted d0 N (FH fw (shown d0 N im)) into).
Proof.
  intros HN HP Gi Go Hw W. assert (N0 : 0 < N) by (unfold cn_ok in HN; lia).
  rewrite (fhpass_closed zero mul mlaf as_ mixed d0 N fw dJ pool im into HN HP Gi Go Hw W).
  unfold painted. do 2 f_equal.
Qed.

Lemma float_forms N (E : engine T J) depth : cn_ok N -> dflt E = d0 ->
  (forall fw pool im into, bit_depth into = depth -> vconv E fw pool im into = fvpass zero mul mlaf as_ mixed N fw pool im into) ->
  (forall fw pool im into, bit_depth into = depth -> hconv E fw pool im into = fhpass zero mul mlaf as_ mixed N fw pool im into) ->
  pass_forms N E depth FV FH.
Proof.
  intros HN Hd Hv Hh. constructor.
  - intros. rewrite Hv, Hd by assumption. now apply fvpass_painted.
  - intros. rewrite Hh, Hd by assumption. now apply fhpass_painted.
  - apply float_v_local.
  - apply float_h_local.
Qed.
End FloatForms.
