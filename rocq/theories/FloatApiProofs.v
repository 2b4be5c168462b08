(** Facts about resize calls that hold for every sample type whose passes have a
    closed form, and the 16-bit and f32 instances. *)
From Coq Require Import ZArith List Lia Bool ZifyBool ZifyNat ZifyN.
From Verif Require Import Base BaseProofs ImageStore ColorGroup FixedPoint Dispatch FloatConv Resize Spec SpecApi SpecFloat F32 Weights Sampler
  KernelProofs Kernel4Proofs ColumnProofs DispatchProofs FloatConvProofs ResizeProofs NoFail ImageProofs PoolProofs NearestProofs PortableProofs
  QuantProofs Api ApiFloat Alpha ApiProofs Witness DriverProofs.
Import ListNotations.
Local Open Scope nat_scope.

(** ** The passes return no error value and do not depend on the pool *)
Section FloatNoFail.
Context {T J : Type} (zero : J) (mul : J -> J -> J) (ml : J -> J -> J -> J) (as_ : T -> J) (mixed : J -> T).

Lemma nf_mla c (s g : cg J) k : nofail (cg_mul_add ml c s g k).
Proof. unfold cg_mul_add. nf1. Qed.
Lemma nf_fchain cn p ws : forall i acc, nofail (fchain zero ml as_ cn p i acc ws).
Proof.
  induction ws as [|w ws IH]; intros i acc; cbn [fchain]; nf1; try apply nf_mla; auto.
Qed.
Ltac nff := repeat first [ apply nf_mla | apply nf_fchain | progress nf1 ].
Lemma nf_ftaps_fixed n cn src px ws : nofail (ftaps_fixed zero mul ml as_ n cn src px ws).
Proof. unfold ftaps_fixed. nff. Qed.
Lemma nf_ftap_step cn s wp : nofail (ftap_step zero ml as_ cn s wp).
Proof. unfold ftap_step. destruct wp. nff. Qed.
Lemma nf_ftaps_general cn src px n ws : nofail (ftaps_general zero ml as_ cn src px n ws).
Proof. unfold ftaps_general. nff. apply nf_ftap_step. Qed.
Lemma nf_frow_pixel cn src b ws : nofail (frow_pixel zero mul ml as_ cn src b ws).
Proof.
  unfold frow_pixel. destruct (bsize b) as [|[|[|[|[|[|[|?]]]]]]]; first [apply nf_ftaps_fixed | apply nf_ftaps_general].
Qed.
Lemma nf_fstore cn g d : nofail (fstore zero mixed cn g d).
Proof. unfold fstore. nff. Qed.
Lemma nf_frow_handler cn src dst fw : nofail (frow_handler zero mul ml as_ mixed cn src dst fw).
Proof. unfold frow_handler. repeat first [apply nf_frow_pixel | apply nf_fstore | progress nff]. Qed.
Lemma nf_ftaps_fixed_4 n cn src ss px ws : nofail (ftaps_fixed_4 zero mul ml as_ n cn src ss px ws).
Proof. unfold ftaps_fixed_4. repeat first [apply nf_ftaps_fixed | progress nff]. Qed.
Lemma nf_ftap_step_4 cn s wp : nofail (ftap_step_4 zero ml as_ cn s wp).
Proof. unfold ftap_step_4. destruct wp as [[[[? ?] ?] ?] ?], s as [[[? ?] ?] ?]. nff. Qed.
Lemma nf_ftaps_general_4 cn src ss px n ws : nofail (ftaps_general_4 zero ml as_ cn src ss px n ws).
Proof. unfold ftaps_general_4. nff. apply nf_ftap_step_4. Qed.
Lemma nf_frow_pixel_4 cn src ss b ws : nofail (frow_pixel_4 zero mul ml as_ cn src ss b ws).
Proof.
  unfold frow_pixel_4. destruct (bsize b) as [|[|[|[|[|[|[|?]]]]]]]; first [apply nf_ftaps_fixed_4 | apply nf_ftaps_general_4].
Qed.
Lemma nf_frow_handler_4 cn src ss dst ds fw : nofail (frow_handler_4 zero mul ml as_ mixed cn src ss dst ds fw).
Proof.
  unfold frow_handler_4. repeat first [apply nf_split | apply nf_frow_pixel_4 | apply nf_fstore | progress nff].
Qed.
Lemma nf_fcol_chain cn off rws : forall acc, nofail (fcol_chain zero ml as_ cn off acc rws).
Proof. induction rws as [|[r w] rws IH]; intro acc; cbn [fcol_chain]; nff; auto. Qed.
Lemma nf_fcol_fixed n m cn src ss w b x : nofail (fcol_fixed zero mul ml as_ n m cn src ss w b x).
Proof.
  unfold fcol_fixed. nff.
  - apply nofail_seqM. apply Forall_forall. intros o Ho. apply in_map_iff in Ho. destruct Ho as (k & <- & _). nff.
  - apply nofail_seqM. apply Forall_forall. intros o Ho. apply in_map_iff in Ho. destruct Ho as (k & <- & _).
    repeat first [apply nf_fcol_chain | progress nff].
Qed.
Lemma nf_fcol_general m cn src ss w b x : nofail (fcol_general zero ml as_ m cn src ss w b x).
Proof.
  unfold fcol_general. apply nofail_foldM. intros s [j v]. nff.
  apply nofail_seqM. apply Forall_forall. intros o Ho. apply in_map_iff in Ho. destruct Ho as ([g q] & <- & _). nff.
Qed.
Lemma nf_fcol_sums m cn src ss w b x : nofail (fcol_sums zero mul ml as_ m cn src ss w b x).
Proof.
  unfold fcol_sums. destruct (bsize b) as [|[|[|[|[|[|[|?]]]]]]]; first [apply nf_fcol_fixed | apply nf_fcol_general].
Qed.
Lemma nf_fcolumn_handler b src dst ss w : nofail (fcolumn_handler zero mul ml as_ mixed b src dst ss w).
Proof.
  unfold fcolumn_handler, fcolumn. repeat first [apply nf_fcol_sums | apply nf_fstore | progress nff].
Qed.
Lemma nf_fhpass N fw pool im into : nofail (fhpass zero mul ml as_ mixed N fw pool im into).
Proof. unfold fhpass, horizontal_dispatch. repeat first [apply nf_frow_handler_4 | apply nf_frow_handler | progress nff]. Qed.
Lemma nf_fvpass N fw pool im into : nofail (fvpass zero mul ml as_ mixed N fw pool im into).
Proof. unfold fvpass, vertical_dispatch. repeat first [apply nf_fcolumn_handler | progress nff]. Qed.

Lemma fhpass_pool N fw p im into : pool_ok p ->
  fhpass zero mul ml as_ mixed N fw p im into = fhpass zero mul ml as_ mixed N fw None im into.
Proof.
  intro HP. unfold fhpass, horizontal_dispatch.
  destruct (chunks_exact_o (stride_of N into * 4) (buf into)) as [d4| |]; cbn [bind]; auto.
  destruct (chunks_exact_o (stride_of N im * 4) (buf im)) as [s4| |]; cbn [bind]; auto.
  rewrite (for_each_any p) by (auto; intros; apply nf_frow_handler_4).
  destruct (for_each None _ _ _ _) as [d4'| |]; cbn [bind]; auto.
  destruct (chunks_exact_o (stride_of N into) _) as [d1| |]; cbn [bind]; auto.
  destruct (chunks_exact_o (stride_of N im) _) as [s1| |]; cbn [bind]; auto.
  rewrite (for_each_any p) by (auto; intros; apply nf_frow_handler). reflexivity.
Qed.
Lemma fvpass_pool N fw p im into : pool_ok p ->
  fvpass zero mul ml as_ mixed N fw p im into = fvpass zero mul ml as_ mixed N fw None im into.
Proof.
  intro HP. unfold fvpass, vertical_dispatch.
  destruct (chunks_exact_o _ _) as [rows| |]; cbn [bind]; auto.
  rewrite (for_each_any p); auto. intros d s.
  repeat first [apply nf_fcolumn_handler | progress nf].
Qed.
End FloatNoFail.

(** ** Calls on any engine with closed-form passes *)
Record conv_engine {T} (L : libm) (f : resampling_function) (N : nat) (nd : bool) (E : engine T f32)
  (PV PH : nat -> fweights f32 -> (nat -> nat -> nat -> T) -> nat -> nat -> nat -> T) : Prop := mkCE {
  ce_forms : forall d, cn_ok N -> pass_forms N E d (PV d) (PH d);
  ce_near : is_nearest E = wants_nearest f;
  ce_coord : coord E = nearest_coord;
  ce_gen : gen E = generate_weights (resampling_filter L f);
  ce_nd : needs_depth E = nd;
  ce_nofail : passes_nofail E;
  ce_pool : pool_blind E
}.

Section GCalls.
Context {T : Type}.
Variables (L : libm) (f : resampling_function) (N : nat) (nd : bool) (E : engine T f32)
  (PV PH : nat -> fweights f32 -> (nat -> nat -> nat -> T) -> nat -> nat -> nat -> T).
Hypothesis CE : conv_engine L f N nd E PV PH.

Definition g_passes (store into : image T) : (nat -> nat -> nat -> T) -> nat -> nat -> nat -> T :=
  two_passes E (PV (bit_depth into)) (PH (bit_depth into)) store into.

Lemma valid_cn {store into : image T} : valid_call N nd f store into -> cn_ok N.
Proof. intro V. pose proof (vc_N _ _ _ _ _ V). unfold cn_ok. lia. Qed.

Lemma g_call pool store into : f <> Nearest -> valid_call N nd f store into -> changes_size store into -> pool_ok pool ->
  generic_resize N E pool store into = Returned Ok (painted (dflt E) N (g_passes store into (shown (dflt E) N store)) into).
Proof.
  intros Hf V D P. pose proof (valid_cn V) as CN. destruct (valid_good V) as [G1 G2].
  apply (driver_raw N E (PV (bit_depth into)) (PH (bit_depth into))); auto.
  - unfold cn_ok in CN; lia.
  - apply (ce_forms _ _ _ _ _ _ _ CE). exact CN.
  - rewrite (ce_near _ _ _ _ _ _ _ CE). destruct f; try reflexivity; congruence.
  - rewrite (ce_nd _ _ _ _ _ _ _ CE). apply (sane_checks (valid_sane L V)).
  - rewrite (ce_gen _ _ _ _ _ _ _ CE). apply (sane_wf_v (valid_sane L V)).
  - rewrite (ce_gen _ _ _ _ _ _ _ CE). apply (sane_wf_h (valid_sane L V)).
  - apply V.
Qed.

Lemma g_paints pool store into : f <> Nearest -> valid_call N nd f store into -> changes_size store into -> pool_ok pool ->
  paints N into (g_passes store into (shown (dflt E) N store)) (generic_resize N E pool store into).
Proof.
  intros Hf V D P. rewrite g_call by auto. eexists. split; [reflexivity|]. split; [apply painted_opd; pose proof (vc_N _ _ _ _ _ V); lia|].
  destruct (valid_good V) as [_ G]. pose proof (vc_N _ _ _ _ _ V).
  intros x y c Hx Hy Hc. apply painted_sample; auto. lia.
Qed.

Lemma g_same pool store into : valid_call N nd f store into -> width store = width into -> height store = height into ->
  exists out, generic_resize N E pool store into = Returned Ok out /\ same_picture N store out /\
    width out = width into /\ height out = height into /\ stride out = stride into /\ bit_depth out = bit_depth into.
Proof.
  intros V Hw Hh. destruct (valid_good V) as [G1 G2]. pose proof (vc_N _ _ _ _ _ V) as HN.
  rewrite (driver_same N (dflt E)); auto; [|lia|rewrite (ce_nd _ _ _ _ _ _ _ CE); apply (sane_checks (valid_sane L V))].
  eexists; split; [reflexivity|].
  cbn [set_buf width height stride bit_depth]. split; [|auto].
  unfold same_picture. cbn [set_buf width height]. split; [auto|]. split; [auto|].
  intros x y c Hx Hy Hc. unfold sample at 2, set_buf. cbn [buf stride].
  assert (S1 : 0 < stride into) by (apply (good_stride_pos N into); [lia|exact G2]).
  assert (J : x * N + c < width into * N) by nia.
  assert (J2 : x * N + c < Nat.min (stride store) (stride into)) by (pose proof (g_stride _ _ G1); pose proof (g_stride _ _ G2); lia).
  rewrite <- Nat.add_assoc.
  rewrite pixmap_at; auto; try lia; try (apply G2).
  unfold sample. rewrite <- Nat.add_assoc. apply nth_error_nth'.
  rewrite (g_len _ _ G1). pose proof (g_stride _ _ G1). nia.
Qed.

Lemma g_success pool store into : f <> Nearest -> valid_call N nd f store into -> pool_ok pool ->
  exists out, generic_resize N E pool store into = Returned Ok out.
Proof.
  intros Hf V P.
  destruct (Nat.eq_dec (width store) (width into)) as [E1|E1]; [destruct (Nat.eq_dec (height store) (height into)) as [E2|E2]|].
  - destruct (g_same pool store into V E1 E2) as (o & R & _). now exists o.
  - destruct (g_paints pool store into Hf V (or_intror E2) P) as (o & R & _). now exists o.
  - destruct (g_paints pool store into Hf V (or_introl E1) P) as (o & R & _). now exists o.
Qed.

Lemma g_padding pool store into out : f <> Nearest -> valid_call N nd f store into -> changes_size store into -> pool_ok pool ->
  generic_resize N E pool store into = Returned Ok out -> only_pixels_differ N into out.
Proof.
  intros Hf V D P R. destruct (g_paints pool store into Hf V D P) as (o & R' & O & _).
  rewrite R in R'. inversion R'; subst. exact O.
Qed.

(** Locality *)
Lemma g_local_passes (store into : image T) p q x y c :
  bit_depth into = bit_depth into -> cn_ok N ->
  (forall sx sy, in_window (resampling_filter L f) store into x y sx sy -> p sy sx c = q sy sx c) ->
  g_passes store into p y x c = g_passes store into q y x c.
Proof.
  intros _ CN H. unfold g_passes, two_passes. rewrite (ce_gen _ _ _ _ _ _ _ CE).
  pose proof (ce_forms _ _ _ _ _ _ _ CE (bit_depth into) CN) as PF.
  unfold in_window in H. 
  destruct (height store =? height into) eqn:Eh; destruct (width store =? width into) eqn:Ew; cbn [negb].
  - apply H. auto.
  - apply (pf_hl _ _ _ _ _ PF). intros sx Hs. apply H. split; [reflexivity|exact Hs].
  - apply (pf_vl _ _ _ _ _ PF). intros sy Hs. apply H. split; [exact Hs|reflexivity].
  - apply (pf_hl _ _ _ _ _ PF). intros sx Hx. apply (pf_vl _ _ _ _ _ PF). intros sy Hy. apply H. split; [exact Hy|exact Hx].
Qed.

Lemma g_local pool pool' store store' into into' out out' x y c : f <> Nearest ->
  valid_call N nd f store into -> valid_call N nd f store' into' -> pool_ok pool -> pool_ok pool' ->
  width store = width store' -> height store = height store' -> width into = width into' -> height into = height into' ->
  bit_depth into = bit_depth into' -> changes_size store into ->
  generic_resize N E pool store into = Returned Ok out -> generic_resize N E pool' store' into' = Returned Ok out' ->
  x < width into -> y < height into -> c < N ->
  (forall sx sy, in_window (resampling_filter L f) store into x y sx sy -> sample N store sx sy c = sample N store' sx sy c) ->
  sample N out x y c = sample N out' x y c.
Proof.
  intros Hf V V' P P' Hw Hh Hw' Hh' Hd D R R' Hx Hy Hc A.
  assert (D' : changes_size store' into') by (unfold changes_size in *; lia).
  destruct (g_paints pool store into Hf V D P) as (o & R1 & O & S).
  destruct (g_paints pool' store' into' Hf V' D' P') as (o' & R1' & O' & S').
  rewrite R in R1. rewrite R' in R1'. inversion R1; inversion R1'; subst o o'. clear R1 R1'.
  rewrite S, S'; auto; rewrite ?(opd_width _ _ _ O), ?(opd_width _ _ _ O'), ?(opd_height _ _ _ O), ?(opd_height _ _ _ O'); try lia.
  f_equal. transitivity (g_passes store into (shown (dflt E) N store') y x c).
  - apply g_local_passes; [reflexivity|apply (valid_cn V)|]. intros sx sy Hin.
    destruct (in_window_bounds L N nd f store into x y sx sy V Hx Hy Hin) as [B1 B2].
    destruct (valid_good V) as [G1 _]. destruct (valid_good V') as [G1' _].
    specialize (A sx sy Hin). rewrite (good_shown (dflt E) N), (good_shown (dflt E) N) in A by (auto; lia).
    now inversion A.
  - unfold g_passes, two_passes. now rewrite Hw, Hh, Hw', Hh', Hd.
Qed.

Lemma row_valid (store into : image T) y : valid_call N nd f store into -> height store = height into -> y < height into ->
  valid_call N nd f (row_image store y) (row_image into y).
Proof.
  intros V Hh Hy. destruct (valid_good V) as [G1 G2].
  pose proof (row_image_good store y G1 ltac:(lia)) as Q1. pose proof (row_image_good into y G2 Hy) as Q2.
  destruct V. constructor; auto; try (split; [apply Q1|]; repeat split; apply Q1); try (split; [apply Q2|]; repeat split; apply Q2).
  - unfold row_image, fits_usize in *. cbn [buf width height]. rewrite !firstn_length, !skipn_length. repeat split; try lia. nia.
  - unfold row_image. cbn [width height]. lia.
  - intro Ha. specialize (vc_area Ha). unfold row_image. cbn [width height]. lia.
Qed.

(** The pass over columns does not look at the row number. *)
Hypothesis PHrow : forall d fw p y x c y', PH d fw p y x c = PH d fw (fun _ => p y) y' x c.

Lemma g_rows pool pool' store into out out' y : f <> Nearest ->
  valid_call N nd f store into -> pool_ok pool -> pool_ok pool' ->
  height store = height into -> width store <> width into -> y < height into ->
  generic_resize N E pool store into = Returned Ok out ->
  generic_resize N E pool' (row_image store y) (row_image into y) = Returned Ok out' ->
  forall x c, x < width into -> c < N -> sample N out x y c = sample N out' x 0 c.
Proof.
  intros Hf V P P' Hh Hw Hy R R' x c Hx Hc.
  pose proof (row_valid store into y V Hh Hy) as V'. destruct (valid_good V) as [G1 G2].
  assert (D : changes_size store into) by (left; exact Hw).
  assert (D' : changes_size (row_image store y) (row_image into y)) by (left; exact Hw).
  destruct (g_paints pool store into Hf V D P) as (o & R1 & O & S1).
  destruct (g_paints pool' _ _ Hf V' D' P') as (o' & R2 & O' & S2).
  rewrite R in R1. rewrite R' in R2. inversion R1; inversion R2; subst o o'.
  rewrite S1, S2; auto; rewrite ?(opd_width _ _ _ O), ?(opd_width _ _ _ O'), ?(opd_height _ _ _ O), ?(opd_height _ _ _ O'); cbn [row_image width height]; auto.
  f_equal. unfold g_passes, two_passes. rewrite (ce_gen _ _ _ _ _ _ _ CE).
  cbn [row_image width height bit_depth]. rewrite Hh, !Nat.eqb_refl. cbn [negb].
  replace (width store =? width into) with false by lia. cbn [negb].
  rewrite (PHrow _ _ _ y x c 0), (PHrow _ _ (shown (dflt E) N (row_image store y)) 0 x c 0).
  apply (pf_hl _ _ _ _ _ (ce_forms _ _ _ _ _ _ _ CE (bit_depth into) (valid_cn V))). intros sx Hs.
  pose proof (wf_nth _ _ _ x (sane_wf_h (valid_sane L V)) Hx) as W. cbv zeta in W.
  assert (K : sx < width store) by lia.
  pose proof (row_image_sample store sx y c G1 K ltac:(lia) Hc) as Q.
  rewrite (good_shown (dflt E) N ltac:(lia) store) in Q by (auto; lia).
  rewrite (good_shown (dflt E) N ltac:(lia) (row_image store y)) in Q; [|apply row_image_good; auto; lia|exact K|cbn [row_image height]; lia|exact Hc].
  now inversion Q.
Qed.
End GCalls.

(** Nearest *)
Lemma g_nearest {T} L N nd (E : engine T f32) PV PH pool store into :
  conv_engine L Nearest N nd E PV PH ->
  valid_call N nd Nearest store into -> changes_size store into -> pool_ok pool ->
  stride store = width store * N -> stride into = width into * N ->
  exists cx cy out, generic_resize N E pool store into = Returned Ok out /\ only_pixels_differ N into out /\
    (forall x, x < width into -> cx x < width store) /\ (forall y, y < height into -> cy y < height store) /\
    (forall x x', x <= x' -> x' < width into -> cx x <= cx x') /\ (forall y y', y <= y' -> y' < height into -> cy y <= cy y') /\
    forall x y c, x < width into -> y < height into -> c < N -> sample N out x y c = sample N store (cx x) (cy y) c.
Proof.
  intros CE V D HP Ss Si. destruct (valid_good V) as [G1 G2]. pose proof (sane_checks (valid_sane L V)) as C.
  destruct (valid_sides V) as [(S1 & S2 & _) (S3 & S4 & _)]. assert (HN : 1 <= N <= 4) by apply V.
  exists (nearest_coord (width store) (width into)), (nearest_coord (height store) (height into)).
  exists (painted (dflt E) N (fun y x c => shown (dflt E) N store (nearest_coord (height store) (height into) y)
                                                        (nearest_coord (width store) (width into) x) c) into).
  split; [|split; [apply painted_opd; lia|split; [intros; apply nc_range; lia|split; [intros; apply nc_range; lia|
    split; [intros; apply nc_mono; lia|split; [intros; apply nc_mono; lia|]]]]]].
  - unfold generic_resize. rewrite (ce_nd _ _ _ _ _ _ _ CE), C, (ce_near _ _ _ _ _ _ _ CE), (ce_coord _ _ _ _ _ _ _ CE).
    cbn [try wants_nearest]. unfold changes_size in D.
    replace ((width store =? width into) && (height store =? height into))%bool with false by lia.
    rewrite (resize_nearest_closed N (dflt E)); auto; try lia; try (apply G1); try (apply G2).
    + cbn [try]. unfold painted. do 2 f_equal. rewrite <- Si. apply pixmap_ext.
      { apply (good_stride_pos N into); [lia|exact G2]. }
      intros y j Hy Hj. unfold shown. rewrite <- Ss. f_equal. lia.
    + rewrite <- Si. apply (g_len _ _ G2).
    + rewrite <- Ss. apply (g_len _ _ G1).
    + intros x Hx. apply nc_range; lia.
    + intros y Hy. apply nc_range; lia.
  - intros x y c Hx Hy Hc. rewrite painted_sample by (auto; lia). symmetry. apply good_shown; auto; [lia|apply nc_range; lia|apply nc_range; lia].
Qed.

(** ** 16-bit images *)

(** The windows of filter [f] with their float weights. *)
Definition filter_taps (fl : rfilter) (insz outsz : nat) : taps f32 := taps_of f0 (generate_weights fl insz outsz).

(** What each pass computes, by depth of the destination. *)
Definition u16_v (k : mlaf_kind) (d : nat) (fw : fweights f32) : picture -> picture :=
  if 12 <? d then float_v f0 fmul (mlaf k) u16_as_f32 (to_mixed_u16 d) (taps_of f0 fw)
  else pass_v (max_colors d) (windows_of quant_i16 fw).
Definition u16_h (k : mlaf_kind) (d : nat) (fw : fweights f32) : picture -> picture :=
  if 12 <? d then float_h f0 fmul (mlaf k) u16_as_f32 (to_mixed_u16 d) (taps_of f0 fw)
  else pass_h (max_colors d) (windows_of quant_i16 fw).

Lemma max_colors_pos d : (0 <= max_colors d)%Z.
Proof. unfold max_colors. pose proof (Z.pow_pos_nonneg 2 (Z.of_nat d)). lia. Qed.

Lemma fixed_forms N k d (E : engine Z f32) : cn_ok N -> dflt E = 0%Z -> (12 <? d) = false ->
  (forall fw pool im into, bit_depth into = d -> vconv E fw pool im into = vpass quant_i16 N (max_colors d) fw pool im into) ->
  (forall fw pool im into, bit_depth into = d -> hconv E fw pool im into = hpass quant_i16 N (max_colors d) fw pool im into) ->
  pass_forms N E d (u16_v k d) (u16_h k d).
Proof.
  intros HN Hd H12 Hv Hh. assert (N0 : 0 < N) by (unfold cn_ok in HN; lia). unfold u16_v, u16_h. rewrite H12.
  constructor.
  - intros fw pool im into HP Gi Go Hw W Hb. rewrite Hv, Hd by assumption.
    rewrite vpass_closed by assumption. unfold painted. do 2 f_equal. apply pixmap_ext; [apply (good_stride_pos N into N0 Go)|].
    intros y j Hy Hj. unfold vval, vsum, pass_v, windows_of, shown, acc32. cbn [wsize wstart wcoef].
    rewrite saturate_narrow_spec by apply max_colors_pos. unfold floor_q15. do 3 f_equal. apply zsum_ext. intros i Hi.
    rewrite nth_skipn, Z.mul_comm. do 2 f_equal. pose proof (Nat.div_mod j N ltac:(lia)). lia.
  - intros fw pool im into HP Gi Go Hw W Hb. rewrite Hh, Hd by assumption.
    rewrite hpass_closed by assumption. unfold painted. do 2 f_equal. apply pixmap_ext; [apply (good_stride_pos N into N0 Go)|].
    intros y j Hy Hj. unfold hval, pass_h, windows_of, shown, acc32. cbn [wsize wstart wcoef qfw bounds aligned_size weights].
    rewrite saturate_narrow_spec by apply max_colors_pos. rewrite ROUNDING_CONST_val. unfold floor_q15. do 4 f_equal. apply zsum_ext. intros i Hi.
    rewrite Z.mul_comm. reflexivity.
  - intros fw p q y x c H. unfold pass_v, windows_of. cbn [wsize wstart wcoef]. do 3 f_equal. apply zsum_ext. intros i Hi.
    f_equal. apply H. lia.
  - intros fw p q y x c H. unfold pass_h, windows_of. cbn [wsize wstart wcoef]. do 4 f_equal. apply zsum_ext. intros i Hi.
    f_equal. apply H. lia.
Qed.

Lemma engine_u16_conv k L f N pre unpre need :
  conv_engine L f N true (engine_u16 k L f N pre unpre need) (u16_v k) (u16_h k).
Proof.
  constructor; try reflexivity.
  - intros d HN. destruct (12 <? d) eqn:H12.
    + unfold u16_v, u16_h. rewrite H12. apply (float_forms f0 fmul (mlaf k) u16_as_f32 (to_mixed_u16 d) 0%Z f0); auto.
      * intros fw pool im into Hb. cbn [engine_u16 vconv]. unfold vconv_u16. rewrite Hb, H12. reflexivity.
      * intros fw pool im into Hb. cbn [engine_u16 hconv]. unfold hconv_u16. rewrite Hb, H12. reflexivity.
    + apply fixed_forms; auto.
      * intros fw pool im into Hb. cbn [engine_u16 vconv]. unfold vconv_u16. rewrite Hb, H12. reflexivity.
      * intros fw pool im into Hb. cbn [engine_u16 hconv]. unfold hconv_u16. rewrite Hb, H12. reflexivity.
  - constructor; intros; cbn [engine_u16 vconv hconv]; unfold vconv_u16, hconv_u16; destruct (12 <? _).
    + apply nf_fvpass. + apply nf_vpass. + apply nf_fhpass. + apply nf_hpass.
  - constructor; intros; cbn [engine_u16 vconv hconv]; unfold vconv_u16, hconv_u16; destruct (12 <? _).
    + now apply fvpass_pool. + now apply vpass_pool. + now apply fhpass_pool. + now apply hpass_pool.
Qed.

Lemma u16_h_row k d fw p y x c y' : u16_h k d fw p y x c = u16_h k d fw (fun _ => p y) y' x c.
Proof. unfold u16_h. destruct (12 <? d); reflexivity. Qed.

(** At depths up to 12 the engine is the fixed point one. *)
Lemma u16_low k L f N pre unpre need pool (store into : image Z) : bit_depth into <= 12 ->
  generic_resize N (engine_u16 k L f N pre unpre need) pool store into =
  generic_resize N (scaler_engine L f N (max_colors (bit_depth into)) true pre unpre need) pool store into.
Proof.
  intro H. apply engine_ext; auto.
  - intros fw p a b Hb. cbn. unfold vconv_u16. rewrite Hb. now replace (12 <? bit_depth into) with false by lia.
  - intros fw p a b Hb. cbn. unfold hconv_u16. rewrite Hb. now replace (12 <? bit_depth into) with false by lia.
Qed.

(** ** f32 images *)
Definition f32_v (k : mlaf_kind) (d : nat) (fw : fweights f32) := float_v f0 fmul (mlaf k) (fun v : f32 => v) (fun v : f32 => v) (taps_of f0 fw).
Definition f32_h (k : mlaf_kind) (d : nat) (fw : fweights f32) := float_h f0 fmul (mlaf k) (fun v : f32 => v) (fun v : f32 => v) (taps_of f0 fw).

Lemma engine_f32_conv k L f N pre unpre need :
  conv_engine L f N false (engine_f32 k L f N pre unpre need) (f32_v k) (f32_h k).
Proof.
  constructor; try reflexivity.
  - intros d HN. apply (float_forms f0 fmul (mlaf k) (fun v : f32 => v) (fun v : f32 => v) f0 f0); auto.
  - constructor; intros. + apply nf_fvpass. + apply nf_fhpass.
  - constructor; intros. + now apply fvpass_pool. + now apply fhpass_pool.
Qed.

Lemma f32_h_row k d fw p y x c y' : f32_h k d fw p y x c = f32_h k d fw (fun _ => p y) y' x c.
Proof. reflexivity. Qed.
