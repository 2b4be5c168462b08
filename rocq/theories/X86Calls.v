(** The 8-bit resize calls on x86-64. *)
From Coq Require Import ZArith List Lia Bool ZifyBool ZifyNat ZifyN.
From Verif Require Import Base BaseProofs ImageStore ColorGroup FixedPoint Dispatch Resize Spec SpecApi F32 Weights WeightsProofs Sampler SamplerProofs
  KernelProofs DispatchProofs ResizeProofs NoFail ImageProofs QuantProofs QuantSums PortableProofs Api ApiProofs Alpha DriverProofs
  SimdProofs X86VerticalLp X86Horizontal X86HorizontalProofs X86Pixels X86PixelsLp X86VerticalProofs X86VerticalLpProofs
  X86Dispatch SpecX86 X86DispatchProofs.
Import ListNotations.
Local Open Scope nat_scope.

(** ** A driver theorem for passes whose closed form needs an invariant of the samples *)
Section DriverOn.
Context {T F : Type} (N : nat) (E : engine T F) (I : T -> Prop).
Variables (PV PH : (nat -> nat -> nat -> T) -> nat -> nat -> nat -> T).
Variables (pool : pool_t) (store into : image T).
Hypothesis HN : 0 < N.
Hypothesis Hnear : is_nearest E = false.
Hypothesis Hchecks : checks N (needs_depth E) store into = Done tt.
Hypothesis Gs : good N store.
Hypothesis Gi : good N into.
Hypothesis Hdiff : changes_size store into.
Hypothesis Hmid : fits_usize (width store * height into * N).
Hypothesis HIs : Forall I (buf store).
Hypothesis HI0 : I (dflt E).
Hypothesis HV : height store <> height into ->
  forall dst, good N dst -> width dst = width store -> height dst = height into -> bit_depth dst = bit_depth into ->
    vconv E (gen E (height store) (height into)) pool store dst =
    Done (painted (dflt E) N (PV (shown (dflt E) N store)) dst).
Hypothesis HVI : forall y x c, I (PV (shown (dflt E) N store) y x c).

Let mid_ok (mid : image T) : Prop :=
  good N mid /\ width mid = width store /\ height mid = height into /\ Forall I (buf mid).

Definition both (p : nat -> nat -> nat -> T) : nat -> nat -> nat -> T :=
  let p := if negb (height store =? height into) then PV p else p in
  if negb (width store =? width into) then PH p else p.

Lemma mid_exists : height store <> height into -> width store <> width into ->
  exists mid, mid_ok mid /\
    (forall y x c, y < height into -> x < width store -> c < N -> shown (dflt E) N mid y x c = PV (shown (dflt E) N store) y x c) /\
    generic_resize N E pool store into =
    match hconv E (gen E (width store) (width into)) pool mid into with
    | Done r => Returned Ok r | Fail e => Returned (Err e) into | Panic => Panicked end.
Proof using HN Hnear Hchecks Gs Gi Hmid HI0 HV HVI mid_ok.
  clear PH. intros Eh Ew. unfold generic_resize, try. rewrite Hchecks.
  replace ((width store =? width into) && (height store =? height into)) with false by lia.
  rewrite Hnear. replace (width store =? width into) with false by lia.
  replace (height store =? height into) with false by lia. cbn [andb negb].
  set (L := width store * height into * N).
  unfold fits_usize in Hmid.
  assert (E1 : wmul (width store) (height into) = width store * height into).
  { apply wmul_small. unfold usize_mod in *. nia. }
  assert (E2 : wmul (width store * height into) N = L).
  { apply wmul_small. unfold usize_mod in *. lia. }
  assert (E3 : wmul (width store) N = width store * N).
  { apply wmul_small. pose proof (g_h _ _ Gi). unfold usize_mod in *. nia. }
  unfold from_slice. rewrite repeat_length, E1, E2, Nat.eqb_refl, E3. cbn [negb].
  set (nv := set_bit_depth _ _).
  assert (Gnv : good N nv).
  { constructor; cbn.
    - apply (g_w _ _ Gs). - apply (g_h _ _ Gi). - lia.
    - rewrite repeat_length. unfold L. lia. }
  rewrite (HV Eh nv Gnv eq_refl eq_refl eq_refl).
  set (mid := mkImage _ _ _ _ _ _).
  assert (Gmid : good N mid).
  { constructor; cbn [mid width height stride buf set_buf painted].
    - apply (g_w _ _ Gs). - apply (g_h _ _ Gi). - lia.
    - rewrite pixmap_length. cbn. rewrite repeat_length. unfold L. lia. }
  exists mid. split; [|split].
  - split; [exact Gmid|]. split; [reflexivity|]. split; [reflexivity|].
    apply Forall_forall. intros v Hv. apply In_nth_error in Hv. destruct Hv as [i Hi].
    cbn [mid buf painted set_buf] in Hi. rewrite nth_error_pixmap in Hi.
    destruct (i <? _); [|discriminate]. injection Hi as <-.
    destruct (_ && _); [apply HVI|]. cbn [nv set_bit_depth buf]. rewrite nth_repeat. exact HI0.
  - intros y x c Hy Hx Hc.
    change (shown (dflt E) N mid y x c) with (shown (dflt E) N (painted (dflt E) N (PV (shown (dflt E) N store)) nv) y x c).
    apply shown_sample. apply painted_sample; auto.
  - reflexivity.
Qed.

Theorem driver_on :
  (width store <> width into -> forall im, mid_ok im ->
    hconv E (gen E (width store) (width into)) pool im into = Done (painted (dflt E) N (PH (shown (dflt E) N im)) into)) ->
  (forall p q y x c, x < width into -> y < height into -> c < N ->
     (forall y x, y < height into -> x < width store -> p y x c = q y x c) -> PH p y x c = PH q y x c) ->
  generic_resize N E pool store into = Returned Ok (painted (dflt E) N (both (shown (dflt E) N store)) into).
Proof using HN Hnear Hchecks Gs Gi Hdiff Hmid HIs HI0 HV HVI mid_ok.
  intros HH HL. unfold both.
  destruct (Nat.eqb_spec (height store) (height into)) as [Eh|Eh];
  destruct (Nat.eqb_spec (width store) (width into)) as [Ew|Ew]; cbn [negb].
  - destruct Hdiff; lia.
  - unfold generic_resize, try. rewrite Hchecks, Hnear.
    replace (width store =? width into) with false by lia.
    replace (height store =? height into) with true by lia. cbn [andb negb].
    rewrite (HH Ew store); [reflexivity|]. split; [exact Gs|]. auto.
  - unfold generic_resize, try. rewrite Hchecks, Hnear.
    replace (width store =? width into) with true by lia.
    replace (height store =? height into) with false by lia. cbn [andb negb].
    rewrite (HV Eh into Gi ltac:(lia) eq_refl eq_refl). reflexivity.
  - destruct (mid_exists Eh Ew) as (mid & Hmid' & Hp & ->). rewrite (HH Ew mid Hmid').
    f_equal. apply painted_ext; auto.
Qed.
End DriverOn.

(** ** From kernels to the specification *)
Definition hspec (k : hkernel) (W : windows) : picture -> picture :=
  match k with
  | HPortable | HPlaneSse | HRgbSse | HRgbaSse => resample_h 255 W
  | HPlaneHrs | HCbCrHrs | HRgbaSseLb => lp_h W
  | HRgbAvx => avx_rgb_h W
  | HRgbaAvxLb => avx_rgba_lp_h W
  end.

Lemma pixel_index a N c : c < N -> (a * N + c) / N = a /\ (a * N + c) mod N = c.
Proof.
  intros H. rewrite (Nat.add_comm (a * N)). split.
  - rewrite Nat.div_add by lia. rewrite Nat.div_small; lia.
  - rewrite Nat.mod_add by lia. apply Nat.mod_small. lia.
Qed.

Lemma wsum_h t c0 N fw (p : picture) y x c : c < N ->
  wsum t c0 N (fun i => p y (i / N) (i mod N)) (nth x (bounds fw) (mkBound 0 0))
    (fun k => nth (x * aligned_size fw + k) (map quant_i16 (weights fw)) 0%Z) (bsize (nth x (bounds fw) (mkBound 0 0))) c =
  (c0 + zsum (wsize (windows_of quant_i16 fw) x) (fun k => t (p y (wstart (windows_of quant_i16 fw) x + k)%nat c) (wcoef (windows_of quant_i16 fw) x k)))%Z.
Proof.
  intros Hc. unfold wsum, windows_of. cbn [wsize wstart wcoef]. f_equal. apply zsum_ext. intros k Hk. cbv beta.
  destruct (pixel_index (bstart (nth x (bounds fw) (mkBound 0 0)) + k) N c Hc) as (-> & ->). reflexivity.
Qed.

Lemma narrowed_round z : (Z.abs z + 2 ^ 14 < 2 ^ 30)%Z ->
  narrowed (ROUNDING_CONST + z) = round_q15 255 z /\
  saturate_narrow 255 (wrap32 (ROUNDING_CONST + z)) = round_q15 255 z.
Proof.
  intros H. change ROUNDING_CONST with (2 ^ 14)%Z.
  assert (wrap32 (2 ^ 14 + z) = 2 ^ 14 + z)%Z as E by (apply wrap32_small; lia).
  assert (saturate_narrow 255 (wrap32 (2 ^ 14 + z)) = round_q15 255 z) as R.
  { rewrite E, narrow_clamp. unfold round_q15. do 2 f_equal. lia. }
  split; [|exact R]. rewrite narrowed_ok by (rewrite E; lia). exact R.
Qed.

Lemma zsum_comm_ext n (f g : nat -> Z) : zsum n (fun k => (f k * g k)%Z) = zsum n (fun k => (g k * f k)%Z).
Proof. apply zsum_ext. intros. lia. Qed.

Lemma kpic_spec N k fw p insz outsz y x c : kernel_for N k -> 1 <= N ->
  wf_fw fw insz outsz -> x < outsz -> c < N ->
  (forall x, byte (p y x c)) -> narrow_safe (windows_of quant_i16 fw) outsz ->
  kpic N k fw p y x c = hspec k (windows_of quant_i16 fw) p y x c.
Proof.
  intros HK HN WF Hx Hc HB HS.
  assert (SB : forall v : nat -> Z, (forall k, byte (v k)) ->
     (Z.abs (zsum (wsize (windows_of quant_i16 fw) x) (fun k => v k * wcoef (windows_of quant_i16 fw) x k)) + 2 ^ 14 < 2 ^ 30)%Z).
  { intros v Hv. rewrite zsum_comm_ext. apply (safe_sum _ outsz x); auto. }
  assert (Q : narrowed (wsum Z.mul ROUNDING_CONST N (fun i => p y (i / N) (i mod N)) (nth x (bounds fw) (mkBound 0 0))
     (fun k => nth (x * aligned_size fw + k) (map quant_i16 (weights fw)) 0%Z) (bsize (nth x (bounds fw) (mkBound 0 0))) c) =
     resample_h 255 (windows_of quant_i16 fw) p y x c).
  { rewrite wsum_h by lia. destruct (narrowed_round _ (SB _ (fun k => HB (wstart (windows_of quant_i16 fw) x + k)))) as (-> & _).
    unfold resample_h. f_equal. apply zsum_comm_ext. }
  assert (LP : lp_narrow (wsum lp_term LP_ROUNDING N (fun i => p y (i / N) (i mod N)) (nth x (bounds fw) (mkBound 0 0))
     (fun k => nth (x * aligned_size fw + k) (map quant_i16 (weights fw)) 0%Z) (bsize (nth x (bounds fw) (mkBound 0 0))) c) =
     lp_h (windows_of quant_i16 fw) p y x c).
  { rewrite wsum_h by lia. rewrite lp_narrow_store. reflexivity. }
  unfold kpic, hpx. cbn [bounds weights aligned_size qfw].
  destruct k; cbn [kernel_for] in HK; cbn [kernel_val hspec]; unfold v_quality, v_lp; try exact Q; try exact LP.
  - rewrite wsum_h by lia. destruct (narrowed_round _ (SB _ (fun k => HB (wstart (windows_of quant_i16 fw) x + k)))) as (_ & ->).
    unfold resample_h. f_equal. apply zsum_comm_ext.
  - subst N. unfold v_avx_rgb, avx_rgb_h.
    set (b := nth x (bounds fw) (mkBound 0 0)).
    set (v := fun k => if misread (bsize b) k c then p y 0 c else p y (bstart b + k) c).
    assert (Hv : forall k, byte (v k)) by (intro k; unfold v; destruct (misread _ _ _); apply HB).
    specialize (SB v Hv).
    match goal with |- narrowed (_ + ?a) = _ => assert (Ea : a = zsum (wsize (windows_of quant_i16 fw) x) (fun k => v k * wcoef (windows_of quant_i16 fw) x k)%Z) end.
    { unfold windows_of. cbn [wsize wcoef]. fold b. apply zsum_ext. intros k Hk. f_equal. unfold v, avx_rgb_at, misread.
      destruct (_ && _).
      - rewrite Nat.div_small, Nat.mod_small by lia. reflexivity.
      - destruct (pixel_index (bstart b + k) 3 c Hc) as (-> & ->). reflexivity. }
    rewrite Ea. destruct (narrowed_round _ SB) as (-> & _). f_equal. rewrite zsum_comm_ext. reflexivity.
  - subst N. unfold v_avx_rgba, avx_rgba_lp_h. rewrite lp_narrow_store. f_equal. unfold windows_of. cbn [wsize wstart wcoef].
    apply zsum_ext. intros k Hk. rewrite lp_term_product.
    destruct (pixel_index (bstart (nth x (bounds fw) (mkBound 0 0)) + k) 4 c Hc) as (-> & ->).
    unfold avx_lb_at, misweighted. reflexivity.
Qed.

(** ** Which kernel *)
Lemma select_v_spec c s N (im into : image Z) W : 
  (1 <= Z.of_nat (height im) <= 2 ^ 23)%Z -> (1 <= Z.of_nat (height into) <= 2 ^ 64)%Z ->
  vpic (select_v c s im into) N (width into) W = x86_v c s N (width into) (height im) (height into) W.
Proof.
  intros H1 H2. unfold select_v, x86_v. rewrite factor_below_8_ok by assumption.
  destruct (avx2 c), (sse41 c), (speed s), (below_8 _ _); reflexivity.
Qed.

Lemma select_h_spec c s N (im into : image Z) W : 1 <= N <= 4 ->
  (1 <= Z.of_nat (width im) <= 2 ^ 23)%Z -> (1 <= Z.of_nat (width into) <= 2 ^ 64)%Z ->
  height im = height into -> (1 <= Z.of_nat (height into) <= 2 ^ 64)%Z ->
  width im <> width into ->
  h_runs_on c (select_h N c s im into) = negb (traps c s N (width im) (width into)) /\
  (traps c s N (width im) (width into) = false ->
   hspec (select_h N c s im into) W = x86_h c s N (width im) (width into) W).
Proof.
  intros HN H1 H2 Eh H3 Hd.
  unfold traps. replace (width im =? width into) with false by lia. cbn [negb]. rewrite andb_true_r.
  assert (N = 1 \/ N = 2 \/ N = 3 \/ N = 4) as [-> | [-> | [-> | ->]]] by lia;
    cbn [select_h x86_h Nat.eqb];
    unfold plane_hkernel, cbcr_hkernel, rgb_hkernel, rgba_hkernel; rewrite ?Eh, ?factor_same, ?factor_below_8_ok by assumption;
    destruct c as [[] []], s; cbn [speed sse41 avx2 andb orb negb]; try destruct (below_8 _ _); cbn; split; auto; intros; discriminate.
Qed.

(** ** The call *)
Section Call.
Variables (c : cpu) (s : strategy) (L : libm) (f : resampling_function) (N : nat).
Variables (pool : pool_t) (store into : image Z).
Hypothesis V : valid_call N false f store into.
Hypothesis HP : pool_ok pool.
Hypothesis Hf : f <> Nearest.
Hypothesis Hd : changes_size store into.
Hypothesis Hb : samples_in 255 (buf store).
Let VW := vwin L f store into.
Let HW := hwin L f store into.
Hypothesis SV : narrow_safe VW (height into).
Hypothesis SH : narrow_safe HW (width into).
Let E := x86_engine c s L f N no_premul no_unpremul no_alpha.
Let PV := x86_v c s N (width store) (height store) (height into) VW.
Let PH := x86_h c s N (width store) (width into) HW.

Lemma x86_is_generic : resize_u8_x86 c s L f N pool store into = generic_resize N E pool store into.
Proof. unfold resize_u8_x86. destruct (N =? 4); [apply with_alpha_off|reflexivity]. Qed.

Lemma x86_v_byte p y x ch : byte (x86_v c s N (width store) (height store) (height into) VW p y x ch).
Proof using Type.
  unfold x86_v, byte.
  repeat match goal with |- context [if ?b then _ else _] => destruct b end;
  unfold lp_v, lp_store, round_v, sse_v, resample_v, round_q15, floor_q15, clampZ; try destruct (undivided _ _ _ _); lia.
Qed.

Lemma x86_h_local p q y x ch : x < width into -> y < height into -> ch < N ->
  (forall y x, y < height into -> x < width store -> p y x ch = q y x ch) -> PH p y x ch = PH q y x ch.
Proof using V.
  intros Hx Hy Hc Hpq. pose proof (valid_sane L V) as S1.
  destruct (filter_windows_in _ _ _ x (sane_wf_h S1) Hx) as (Q1 & Q2).
  change (filter_windows (resampling_filter L f) (width store) (width into)) with HW in Q1, Q2.
  assert (G : forall k, k < wsize HW x -> p y (wstart HW x + k) ch = q y (wstart HW x + k) ch).
  { intros k Hk. apply Hpq; lia. }
  assert (R1 : resample_h 255 HW p y x ch = resample_h 255 HW q y x ch).
  { unfold resample_h. f_equal. apply zsum_ext. intros k Hk. now rewrite G. }
  assert (R2 : lp_h HW p y x ch = lp_h HW q y x ch).
  { unfold lp_h. f_equal. apply zsum_ext. intros k Hk. now rewrite G. }
  assert (R3 : avx_rgb_h HW p y x ch = avx_rgb_h HW q y x ch).
  { unfold avx_rgb_h. f_equal. apply zsum_ext. intros k Hk. destruct (misread _ _ _); [rewrite Hpq by lia; reflexivity|now rewrite G]. }
  assert (R4 : avx_rgba_lp_h HW p y x ch = avx_rgba_lp_h HW q y x ch).
  { unfold avx_rgba_lp_h. f_equal. apply zsum_ext. intros k Hk. now rewrite G. }
  unfold PH, x86_h. destruct N as [|[|[|[|]]]]; repeat match goal with |- context [if ?b then _ else _] => destruct b end; assumption.
Qed.

Let sizes : (1 <= Z.of_nat (height store) <= 2 ^ 23)%Z /\ (1 <= Z.of_nat (width store) <= 2 ^ 23)%Z /\
  (1 <= Z.of_nat (height into) <= 2 ^ 64)%Z /\ (1 <= Z.of_nat (width into) <= 2 ^ 64)%Z.
Proof.
  pose proof (valid_sane L V) as S1. destruct (sane_fits S1) as (_ & _ & A & B).
  destruct (vc_src _ _ _ _ _ V) as (a1 & a2 & _). destruct (vc_dst _ _ _ _ _ V) as (b1 & b2 & _).
  destruct (vc_sides _ _ _ _ _ V). lia.
Qed.

Lemma vpass_call : height store <> height into ->
  forall dst, good N dst -> width dst = width store -> height dst = height into ->
    vconv E (gen E (height store) (height into)) pool store dst = Done (painted (dflt E) N (PV (shown (dflt E) N store)) dst).
Proof.
  intros _ dst Gd Wd Hh. pose proof (valid_sane L V) as S1. destruct (valid_good V) as (Gs & Gi).
  unfold E, x86_engine. cbn [vconv gen dflt].
  rewrite x86_vpass_closed; auto; try (rewrite ?Hh; auto).
  - f_equal. f_equal. unfold PV. rewrite <- Wd, <- Hh.
    rewrite <- select_v_spec by (rewrite ?Hh; apply sizes). unfold VW, vwin, filter_windows. rewrite Hh. reflexivity.
  - apply (vc_N _ _ _ _ _ V).
  - apply (sane_wf_v S1).
  - apply samples_bytes. exact Hb.
Qed.

Theorem x86_returns : traps c s N (width store) (width into) = false ->
  resize_u8_x86 c s L f N pool store into =
  Returned Ok (result_image N (x86_resample c s N (width store) (height store) (width into) (height into) VW HW (picture_of N store)) into).
Proof.
  intros HT. rewrite x86_is_generic. pose proof (valid_sane L V) as S1. destruct (valid_good V) as (Gs & Gi).
  pose proof (vc_N _ _ _ _ _ V) as HN.
  rewrite (driver_on N E byte PV PH pool store into); try assumption; try lia.
  - reflexivity.
  - unfold E, x86_engine, wants_nearest. cbn [is_nearest]. destruct f; congruence || reflexivity.
  - apply (sane_checks S1).
  - apply (sc_mid _ _ _ _ _ S1).
  - apply samples_bytes. exact Hb.
  - cbn. unfold byte. lia.
  - intros Hh dst Gd Wd Hd' _. now apply vpass_call.
  - intros. apply x86_v_byte.
  - intros Ew im (Gm & Wm & Hm & Bm). unfold E, x86_engine. cbn [hconv gen dflt].
    destruct (select_h_spec c s N im into HW HN) as (R1 & R2); rewrite ?Wm, ?Hm; try apply sizes; auto.
    rewrite Wm in R1, R2. specialize (R2 HT). rewrite HT in R1.
    rewrite x86_hpass_closed; auto; [|rewrite Wm; apply (sane_wf_h S1)].
    f_equal. apply painted_ext; auto; [lia|]. intros y x ch Hy Hx Hc.
    rewrite (kpic_spec N _ _ _ (width im) (width into)); auto; try lia.
    + unfold PH. rewrite <- R2. reflexivity.
    + apply select_h_for. lia.
    + rewrite Wm. apply (sane_wf_h S1).
    + intros. apply shown_byte. exact Bm.
  - apply x86_h_local.
Qed.

(** Running AVX2 code without AVX2. *)
Theorem x86_traps : traps c s N (width store) (width into) = true ->
  resize_u8_x86 c s L f N pool store into = Panicked.
Proof.
  intros HT. rewrite x86_is_generic. pose proof (valid_sane L V) as S1. destruct (valid_good V) as (Gs & Gi).
  pose proof (vc_N _ _ _ _ _ V) as HN.
  assert (Ew : width store <> width into) by (unfold traps in HT; lia).
  assert (HH : forall im, width im = width store -> height im = height into -> hconv E (gen E (width store) (width into)) pool im into = Panic).
  { intros im Wm Hm. destruct (select_h_spec c s N im into HW HN) as (R1 & _); rewrite ?Wm, ?Hm; try apply sizes; auto.
    unfold E, x86_engine. cbn [hconv]. unfold x86_hpass. cbv zeta. rewrite R1, Wm, HT. reflexivity. }
  assert (Nr : is_nearest E = false).
  { unfold E, x86_engine, wants_nearest. cbn [is_nearest]. destruct f; congruence || reflexivity. }
  destruct (Nat.eq_dec (height store) (height into)) as [Eh|Eh].
  - unfold generic_resize, try. change (needs_depth E) with false. rewrite (sane_checks S1), Nr.
    replace (width store =? width into) with false by lia.
    replace (height store =? height into) with true by lia. cbn [andb negb]. rewrite HH by auto. reflexivity.
  - destruct (mid_exists N E byte PV pool store into) as (mid & (_ & Wm & Hm & _) & _ & ->); try assumption; try lia.
    + apply (sane_checks S1).
    + apply (sc_mid _ _ _ _ _ S1).
    + cbn. unfold byte. lia.
    + intros Hh dst Gd Wd Hd' _. now apply vpass_call.
    + intros. apply x86_v_byte.
    + rewrite HH by auto. reflexivity.
Qed.
End Call.
