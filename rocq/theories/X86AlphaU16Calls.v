(** The alpha-aware resize of 16-bit images on x86-64. *)
From Coq Require Import ZArith List Lia Bool ZifyBool ZifyNat.
From Verif Require Import Base BaseProofs ImageStore ColorGroup FixedPoint Dispatch Resize Spec SpecApi SpecAlpha F32 Weights Sampler
  KernelProofs DispatchProofs ResizeProofs NoFail ImageProofs PoolProofs PortableProofs Api ApiProofs Alpha AlphaProofs AlphaScan AlphaU16
  RgbaProofs ApiFloat DriverProofs FloatApiProofs RgbaFloat Simd SimdProofs X86Dispatch X86NoFail X86Float X86Alpha X86AlphaProofs X86AlphaScan X86AlphaCalls
  X86AlphaF32Calls X86U16 SpecX86U16 X86U16Calls X86AlphaU16 SpecX86AlphaU16 X86AlphaU16Proofs X86AlphaU16Scan.
Import ListNotations.
Local Open Scope nat_scope.

(** ** No error values *)
Lemma nf_sse_block_w p d s : nofail (sse_block_w p d s).
Proof. unfold sse_block_w. nfu. Qed.
Lemma nf_avx_block_w p d s : nofail (avx_block_w p d s).
Proof. unfold avx_block_w. nfu. Qed.
Lemma nf_tail16 first row s : nofail (scan_tail first row s).
Proof. unfold scan_tail. nfall. Qed.
Lemma nf_scan_sse16 f r : nofail (sse_scan_row_u16 f r).
Proof. unfold sse_scan_row_u16. repeat first [apply nf_tail16 | progress nfu | progress nfall]. Qed.
Lemma nf_scan_avx16 f r : nofail (avx_scan_row_u16 f r).
Proof. unfold avx_scan_row_u16. repeat first [apply nf_tail16 | progress nfu | progress nfall]. Qed.
Lemma nf_need16 c im : nofail (alpha_needed_u16_x86 c im).
Proof.
  unfold alpha_needed_u16_x86. destruct (avx2 _); [|destruct (sse41 _); [|apply scan_nofail]]; apply nf_has_alpha; intros;
  [apply nf_scan_avx16|apply nf_scan_sse16].
Qed.

(** ** The scan always ends *)
Lemma scan_rows_done scan first w rows : (forall row, length row = w * 4 -> exists h, scan first row = Done h) ->
  Forall (fun r => w * 4 <= length r) rows -> exists b, x86_scan_rows scan first w rows = Done b.
Proof.
  intros H F. induction F as [|r rows Hr _ IH]; cbn [x86_scan_rows]; [eauto|].
  rewrite slice_ok by lia. cbn [bind skipn]. rewrite Nat.sub_0_r.
  destruct (H (firstn (w * 4) r)) as (h & ->); [rewrite firstn_length; lia|]. cbn [bind]. destruct (negb _); [eauto|exact IH].
Qed.
Lemma scan_done c (im : image Z) : good 4 im -> samples_in 65535 (buf im) -> (Z.of_nat (width im) * 2 ^ 16 <= 2 ^ 64)%Z -> exists need, alpha_needed_u16_x86 c im = Done need.
Proof.
  intros G HS Hw. pose proof (good_stride_pos 4 im ltac:(lia) G) as Pi. pose proof (g_stride _ _ G) as Hs. pose proof (g_len _ _ G) as LL.
  pose proof (g_w _ _ G). pose proof (g_h _ _ G).
  assert (X : forall scan, (forall first w row, length row = w * 4 -> exists h, scan first row = Done h) ->
    exists need, x86_has_alpha scan (buf im) (width im) (stride_of 4 im) = Done need).
  { intros scan Hsc. unfold x86_has_alpha. destruct (buf im) as [|z l] eqn:E; [eauto|]. rewrite <- E in *.
    assert (exists first, idx (buf im) 3 = Done first) as (first & ->).
    { unfold idx. destruct (nth_error (buf im) 3) eqn:E3; [eauto|]. apply nth_error_None in E3. nia. }
    cbn [bind]. rewrite good_stride_of by (assumption || lia). rewrite chunks_exact_o_ok by lia. cbn [bind].
    apply scan_rows_done; [apply Hsc|]. apply Forall_forall. intros r Hr. apply In_nth_error in Hr as (y & Hy).
    rewrite nth_error_chunks, LL, div_mul_exact in Hy by lia. destruct (Nat.ltb_spec y (height im)); [|discriminate]. injection Hy as <-.
    rewrite chunk_length by (rewrite LL, div_mul_exact; lia). lia. }
  unfold alpha_needed_u16_x86. destruct (avx2 (base_cpu c)); [|destruct (sse41 (base_cpu c))].
  - apply X. intros first w row Lr. destruct (avx_scan_row_u16_ok first row w Lr) as (h & -> & _). eauto.
  - apply X. intros first w row Lr. destruct (sse_scan_row_u16_ok first row w Lr) as (h & -> & _). eauto.
  - destruct (scan_varies 16 (2 ^ 64) im ltac:(lia) Hw G) as (res & R & _); [|eauto]. revert HS. apply Forall_impl. intros. lia.
Qed.

(** ** Engines that agree give the same calls *)
Lemma try_ext {A T} (o : outcome A) (i : image T) k k' : (forall a, k a = k' a) -> try o i k = try o i k'.
Proof. intro H. unfold try. destruct o; auto. Qed.
Lemma with_alpha_ext {T F} N (E E' : engine T F) pool req (store into : image T) :
  dflt E = dflt E' -> needs_depth E = needs_depth E' -> is_nearest E = is_nearest E' -> coord E = coord E' -> gen E = gen E' ->
  (forall w p a b, vconv E w p a b = vconv E' w p a b) -> (forall w p a b, hconv E w p a b = hconv E' w p a b) ->
  (forall p a b, premul E p a b = premul E' p a b) -> (forall p a, unpremul E p a = unpremul E' p a) ->
  (forall a, alpha_needed E a = alpha_needed E' a) ->
  generic_resize_with_alpha N E pool req store into = generic_resize_with_alpha N E' pool req store into.
Proof.
  intros E1 E2 E3 E4 E5 HV HH HP HU HN.
  assert (PS : premultiply_stage N E pool req store into = premultiply_stage N E' pool req store into).
  { unfold premultiply_stage. destruct req; [|reflexivity]. rewrite HN, E1. destruct (alpha_needed E' store) as [[|]| |]; cbn [bind]; auto.
    destruct (from_slice _ _ _ _); cbn [bind]; auto. now rewrite HP. }
  assert (US : forall r h i, unpremultiply_stage E pool r h i = unpremultiply_stage E' pool r h i).
  { intros. unfold unpremultiply_stage. now rewrite HU. }
  unfold generic_resize_with_alpha, forward_resize_with_alpha, forward_resize_vertical_with_alpha, forward_resize_horizontal_with_alpha.
  rewrite E2. apply try_ext. intros _. destruct (_ && _); [reflexivity|]. rewrite E3, E4. destruct (is_nearest E'); [reflexivity|].
  cbv zeta. rewrite PS.
  destruct (_ && _); [|destruct (negb _); [|destruct (negb _)]]; try reflexivity; apply try_ext; intros [src has].
  - rewrite E1, E5. apply try_ext. intro nv. rewrite HV. apply try_ext. intro nv'. rewrite HH. apply try_ext. intro i. apply US.
  - rewrite E5, HV. apply try_ext. intro i. apply US.
  - rewrite E5, HH. apply try_ext. intro i. apply US.
Qed.

Section Calls.
Variables (k : mlaf_kind) (c : fcpu) (rcp : f32 -> f32) (L : libm) (f : resampling_function).
Notation E := (x86_engine_u16 k c L f 4 (premul_u16_x86 c) (unpremul_u16_x86 c rcp) (alpha_needed_u16_x86 c)).
Definition pre_row16 (d : nat) : list Z -> list Z -> outcome (list Z) :=
  if avx2 (base_cpu c) then avx_pre_row_u16 (has_fma c) d else if sse41 (base_cpu c) then sse_pre_row_u16 d
  else px_row (premul_px_u16 (max_colors d)).
Definition un_row16 (d : nat) : list Z -> outcome (list Z) :=
  if avx2 (base_cpu c) then avx_un_row_u16 (has_fma c) rcp d else if sse41 (base_cpu c) then sse_un_row_u16 rcp d
  else px_row_in_place (unpremul_px_u16 (max_colors d)).
Lemma nf_pre_row16 d a b : nofail (pre_row16 d a b).
Proof.
  unfold pre_row16. destruct (avx2 _); [apply nf_premul_blocks; intros; apply nf_avx_block_w|].
  destruct (sse41 _); [apply nf_premul_blocks; intros; apply nf_sse_block_w|apply nofail_px_row].
Qed.
Lemma nf_un_row16 d a : nofail (un_row16 d a).
Proof.
  unfold un_row16. destruct (avx2 _); [apply nf_unpremul_blocks; intros; apply nf_avx_block_w|].
  destruct (sse41 _); [apply nf_unpremul_blocks; intros; apply nf_sse_block_w|apply nofail_px_row_in_place].
Qed.
Lemma x86u_alpha_nofail : alpha_nofail E.
Proof.
  constructor.
  - intros pool a b. apply nofail_bind; [apply premul_rows_nofail; intros; apply (nf_pre_row16 (bit_depth b))|intros; apply nofail_Done].
  - intros pool a. apply nofail_bind; [apply unpremul_rows_nofail; intros; apply (nf_un_row16 (bit_depth a))|intros; apply nofail_Done].
  - intro a. apply nf_need16.
Qed.
Lemma x86u_pool_blind_alpha : pool_blind_alpha E.
Proof.
  constructor.
  - intros p a b H. change (premul_u16_x86 c p a b = premul_u16_x86 c None a b). unfold premul_u16_x86. cbv zeta. fold (pre_row16 (bit_depth b)).
    rewrite premul_rows_pool by (auto; intros; apply nf_pre_row16). reflexivity.
  - intros p a H. change (unpremul_u16_x86 c rcp p a = unpremul_u16_x86 c rcp None a). unfold unpremul_u16_x86. cbv zeta. fold (un_row16 (bit_depth a)).
    rewrite unpremul_rows_pool by (auto; intros; apply nf_un_row16). reflexivity.
Qed.
Lemma x86u_plain pool src into : generic_resize 4 E pool src into = resize_u16_x86 k c L f 4 pool src into.
Proof. reflexivity. Qed.

(** ** Closed forms on images *)
Definition px_pre16 (d : nat) : Z -> Z -> Z -> Z -> list Z :=
  if avx2 (base_cpu c) then colours (lane_avx (has_fma c) d) else if sse41 (base_cpu c) then colours (lane_sse d) else premul_px_u16 (max_colors d).
Definition px_un16 (d : nat) : Z -> Z -> Z -> Z -> list Z :=
  if avx2 (base_cpu c) then colours (unassociate_avx (has_fma c) rcp d) else if sse41 (base_cpu c) then colours (unassociate_sse rcp d)
  else unpremul_px_u16 (max_colors d).
Lemma four_pre16 d : four (px_pre16 d).
Proof. unfold px_pre16. destruct (avx2 _); [apply four_colours|]. destruct (sse41 _); [apply four_colours|apply four_u16]. Qed.
Lemma four_un16 d : four (px_un16 d).
Proof. unfold px_un16. destruct (avx2 _); [apply four_colours|]. destruct (sse41 _); [apply four_colours|apply four_un_u16]. Qed.
Lemma pre_row16_ok d w a b : length a = w * 4 -> length b = w * 4 -> pre_row16 d a b = px_row (px_pre16 d) a b.
Proof.
  intros La Lb. unfold pre_row16, px_pre16. destruct (avx2 _); [now apply avx_pre_row_ok with w|].
  destruct (sse41 _); [now apply sse_pre_row_ok with w|reflexivity].
Qed.
Lemma un_row16_ok d w b : length b = w * 4 -> un_row16 d b = px_row_in_place (px_un16 d) b.
Proof.
  intros Lb. unfold un_row16, px_un16. destruct (avx2 _); [now apply avx_un_row_ok with w|].
  destruct (sse41 _); [now apply sse_un_row_ok with w|reflexivity].
Qed.
Lemma premul_u16_x86_ok pool im into : pool_ok pool -> good 4 im -> good 4 into -> width im = width into -> height im = height into ->
  exists out, premul_u16_x86 c pool im into = Done out /\ repainted (px_pre16 (bit_depth into)) im into out.
Proof.
  intros HP Gi Go Hw Hh. set (d := bit_depth into).
  assert (X : premul_rows (pre_row16 d) (width im * 4) (stride_of 4 into) (stride_of 4 im) pool (buf im) (buf into) =
              premul_rows (px_row (px_pre16 d)) (width im * 4) (stride_of 4 into) (stride_of 4 im) pool (buf im) (buf into)).
  { rewrite (premul_rows_pool (pre_row16 d)) by (auto; intros; apply nf_pre_row16). rewrite (premul_rows_pool (px_row (px_pre16 d))) by (auto; intros; apply nofail_px_row).
    unfold premul_rows. unfold chunks_exact_o. destruct (stride_of 4 into =? 0); cbn [bind]; [reflexivity|]. destruct (stride_of 4 im =? 0); cbn [bind]; [reflexivity|].
    unfold for_each. erewrite zip_mut_same; [reflexivity|]. intros d0 s0 _ Hs. cbv beta.
    destruct (slice d0 0 (width im * 4)) as [dv| |] eqn:Ed; cbn [bind]; auto. destruct (slice s0 0 (width im * 4)) as [sv| |] eqn:Es; cbn [bind]; auto.
    rewrite (pre_row16_ok d (width im)); [reflexivity| |].
    - apply slice_len in Ed. lia.
    - apply slice_len in Es. lia. }
  unfold premul_u16_x86. cbv zeta. fold d. fold (pre_row16 d). rewrite X. rewrite (premul_rows_closed 0%Z) by (auto using four_pre16). cbn [bind].
  eexists. split; [reflexivity|]. apply repaint; auto using four_pre16.
Qed.
Lemma unpremul_u16_x86_ok pool im : pool_ok pool -> good 4 im ->
  exists out, unpremul_u16_x86 c rcp pool im = Done out /\ repainted (px_un16 (bit_depth im)) im im out.
Proof.
  intros HP Gi. set (d := bit_depth im).
  assert (X : unpremul_rows (un_row16 d) (width im * 4) (stride_of 4 im) pool (buf im) =
              unpremul_rows (px_row_in_place (px_un16 d)) (width im * 4) (stride_of 4 im) pool (buf im)).
  { rewrite (unpremul_rows_pool (un_row16 d)) by (auto; intros; apply nf_un_row16). rewrite (unpremul_rows_pool (px_row_in_place (px_un16 d))) by (auto; intros; apply nofail_px_row_in_place).
    unfold unpremul_rows. rewrite good_stride_of by (assumption || lia). unfold chunks_exact_o. destruct (stride im =? 0); cbn [bind]; [reflexivity|].
    unfold for_each. erewrite zip_mut_same; [reflexivity|]. intros d0 s0 Hd _. cbv beta.
    destruct (slice d0 0 (width im * 4)) as [dv| |] eqn:Ed; cbn [bind]; auto.
    rewrite (un_row16_ok d (width im)); [reflexivity|]. apply slice_len in Ed. lia. }
  unfold unpremul_u16_x86. cbv zeta. fold d. fold (un_row16 d). rewrite X. rewrite (unpremul_rows_closed 0%Z) by (auto using four_un16). cbn [bind].
  eexists. split; [reflexivity|]. apply repaint; auto using four_un16.
Qed.

Theorem rgba_no_vectors pool req (store into : image Z) : vectors c = false ->
  resize_rgba_u16_x86 k c rcp L f pool req store into = resize_rgba_u16 k L f pool req store into.
Proof.
  intro H. unfold vectors in H. apply orb_false_iff in H. destruct H as [H1 H2].
  unfold resize_rgba_u16_x86, resize_rgba_u16. apply with_alpha_ext; try reflexivity; intros.
  - cbn [x86_engine_u16 rgba_engine_u16 engine_u16 vconv]. unfold x86_vconv_u16, vconv_u16, u16_column_float, u16_column_fixed. cbv zeta. rewrite H1, H2. reflexivity.
  - cbn [x86_engine_u16 rgba_engine_u16 engine_u16 hconv]. unfold x86_hconv_u16, hconv_u16, u16_rows4_float, u16_row_float, u16_rows4_fixed, u16_row_fixed. cbv zeta. rewrite H1, H2, !andb_false_r. reflexivity.
  - cbn. unfold premul_u16_x86, premul_u16. cbv zeta. rewrite H1, H2. reflexivity.
  - cbn. unfold unpremul_u16_x86, unpremul_u16. cbv zeta. rewrite H1, H2. reflexivity.
  - cbn. unfold alpha_needed_u16_x86. rewrite H1, H2. reflexivity.
Qed.

Theorem rgba_pipeline_u16_any pool (store into : image Z) :
  valid_call 4 true f store into -> changes_size store into -> f <> Nearest -> pool_ok pool -> samples_in 65535 (buf store) ->
  exists need src mid out, alpha_needed_u16_x86 c store = Done need /\
    (need = true -> pixelwise (px_pre16 (bit_depth into)) store src /\ good 4 src /\ stride src = width store * 4 /\ length (buf src) = height store * (width store * 4)) /\
    (need = false -> src = store) /\
    valid_call 4 true f src into /\ width src = width store /\ height src = height store /\
    resize_u16_x86 k c L f 4 pool src into = Returned Ok mid /\ only_pixels_differ 4 into mid /\
    resize_rgba_u16_x86 k c rcp L f pool true store into = Returned Ok out /\
    pixelwise (px_un16 (bit_depth into)) mid out /\ only_pixels_differ 4 into out.
Proof.
  intros V D Hf HP HS. destruct (valid_good V) as [Gs Gi].
  destruct (scan_done c store Gs HS) as (need & Hn). { pose proof (vc_sides _ _ _ _ _ V). lia. }
  destruct (stage_on E (px_pre16 (bit_depth into)) pool store into need (four_pre16 _)) as (src & P & P0 & P1); auto.
  { intros into' G1 G2 W H B. rewrite <- B. now apply premul_u16_x86_ok. }
  { apply V. }
  assert (VS : valid_call 4 true f src into /\ width src = width store /\ height src = height store).
  { destruct need.
    - destruct (P1 eq_refl) as ((Q1 & Q2 & _) & Q3 & Q4 & Q5 & _). split; [|split; congruence].
      apply (valid_source V); auto.
    - rewrite P0 by reflexivity. auto. }
  destruct VS as (VS & WS & HS').
  assert (Ds : changes_size src into) by (unfold changes_size in *; now rewrite WS, HS').
  destruct (u16_paints k c L f 4 pool src into VS HP Hf Ds) as (pic & Rm).
  set (mid := painted 0%Z 4 pic into) in *.
  assert (Om : only_pixels_differ 4 into mid) by (apply painted_opd; lia).
  pose proof (good_opd _ _ _ Gi Om) as Gm.
  destruct (unpremul_u16_x86_ok pool mid HP Gm) as (out & Ro & Po). rewrite (opd_depth _ _ _ Om) in Po.
  exists need, src, mid, out. split; [exact Hn|].
  split. { intro A. destruct (P1 A) as (Q & Q3 & _ & Q5 & _ & Q7). auto. }
  split; [exact P0|]. split; [exact VS|]. split; [exact WS|]. split; [exact HS'|]. split; [exact Rm|]. split; [exact Om|].
  split.
  { unfold resize_rgba_u16_x86. rewrite (with_alpha_on 4 E pool store into src); auto.
    - rewrite x86u_plain, Rm. cbn [try x86_engine_u16 unpremul]. rewrite Ro. reflexivity.
    - apply (sane_checks (valid_sane L V)).
    - apply (sane_checks (valid_sane L VS)).
    - destruct f; try reflexivity; congruence. }
  split. { apply (repainted_pixelwise _ mid mid out); auto using four_un16. }
  destruct Po as [O _]. destruct Om as [A1 A2 A3 A4 A5 A6 A7], O as [B1 B2 B3 B4 B5 B6 B7].
  constructor; try congruence. intros i Hi. rewrite B7 by (rewrite A1, A3; exact Hi). apply A7. exact Hi.
Qed.
(** The scan is exact on images at most 32768 pixels wide. *)
Lemma scan_exact nd (store into : image Z) : valid_call 4 nd f store into -> samples_in 65535 (buf store) -> (Z.of_nat (width store) <= 32768)%Z ->
  exists need, alpha_needed_u16_x86 c store = Done need /\ (need = true <-> alpha_varies store).
Proof.
  intros V HS Hwd. destruct (valid_good V) as [Gs Gi].
  rewrite alpha_needed_u16_same; [|exact HS| |exact Hwd].
  - apply (scan_varies 16 (2 ^ 64) store).
    + lia.
    + pose proof (vc_sides _ _ _ _ _ V). lia.
    + exact Gs.
    + revert HS. apply Forall_impl. intros. lia.
  - intro Q. pose proof (g_len _ _ Gs) as LL. rewrite Q in LL.
    pose proof (g_w _ _ Gs). pose proof (g_h _ _ Gs). pose proof (good_stride_pos 4 store ltac:(lia) Gs). cbn in LL. nia.
Qed.
End Calls.
