(** The alpha-aware resize of 8-bit images on x86-64. *)
From Coq Require Import ZArith List Lia Bool ZifyBool ZifyNat.
From Verif Require Import Base BaseProofs ImageStore ColorGroup FixedPoint Dispatch Resize Spec SpecApi SpecAlpha F32 Weights Sampler
  KernelProofs DispatchProofs ResizeProofs NoFail ImageProofs PoolProofs PortableProofs SamplerProofs Api ApiProofs Alpha AlphaProofs AlphaScan ApiRgba RgbaProofs
  Simd SimdProofs X86Dispatch SpecX86 X86DispatchProofs X86Calls X86Facts X86NoFail X86Alpha X86AlphaProofs X86AlphaScan.
Import ListNotations.
Local Open Scope nat_scope.

(** ** No error values *)
Lemma nf_premul_blocks blk ch a b : (forall d s, nofail (ch d s)) -> nofail (premul_blocks blk ch a b).
Proof. intro H. unfold premul_blocks. repeat first [apply H | progress nfx]. Qed.
Lemma nf_unpremul_blocks blk ch b : (forall d, nofail (ch d)) -> nofail (unpremul_blocks blk ch b).
Proof. intro H. unfold unpremul_blocks. repeat first [apply H | progress nfx]. Qed.
Lemma nf_sse_premul a b : nofail (sse_premul_row a b).
Proof. apply nf_premul_blocks. intros. unfold sse_premul_chunk. nfx. Qed.
Lemma nf_avx_premul a b : nofail (avx_premul_row a b).
Proof. apply nf_premul_blocks. intros. unfold avx_premul_chunk. nfx. Qed.
Lemma nf_sse_unpremul rcp b : nofail (sse_unpremul_row rcp b).
Proof. apply nf_unpremul_blocks. intros. unfold sse_unpremul_chunk. nfx. Qed.
Lemma nf_avx_unpremul rcp b : nofail (avx_unpremul_row rcp b).
Proof. apply nf_unpremul_blocks. intros. unfold avx_unpremul_chunk. nfx. Qed.
Lemma nf_scan_rows scan first w rows : (forall r, nofail (scan first r)) -> nofail (x86_scan_rows scan first w rows).
Proof. intro H. induction rows as [|r rows IH]; cbn [x86_scan_rows]; [nfx|]. repeat first [apply H | apply IH | progress nfx]. Qed.
Lemma nf_has_alpha scan st w s : (forall f r, nofail (scan f r)) -> nofail (x86_has_alpha scan st w s).
Proof. intro H. unfold x86_has_alpha. destruct st; [nfx|]. repeat first [apply nf_scan_rows; intros; apply H | progress nfx]. Qed.
Lemma nf_need c im : nofail (alpha_needed_u8_x86 c im).
Proof.
  unfold alpha_needed_u8_x86. destruct (avx2 c); [|destruct (sse41 c); [|apply scan_nofail]]; apply nf_has_alpha; intros; nfall.
Qed.
Section Calls.
Variables (c : cpu) (s : strategy) (rcp : f32 -> f32) (L : libm) (f : resampling_function).
Let E := x86_engine c s L f 4 (premul_u8_x86 c) (unpremul_u8_x86 c rcp) (alpha_needed_u8_x86 c).
Definition pre_row : list Z -> list Z -> outcome (list Z) :=
  if avx2 c then avx_premul_row else if sse41 c then sse_premul_row else px_row premul_px_u8.
Definition un_row : list Z -> outcome (list Z) :=
  if avx2 c then avx_unpremul_row rcp else if sse41 c then sse_unpremul_row rcp else px_row_in_place unpremul_px_u8.
Lemma nf_pre_row a b : nofail (pre_row a b).
Proof. unfold pre_row. destruct (avx2 c); [apply nf_avx_premul|]. destruct (sse41 c); [apply nf_sse_premul|apply nofail_px_row]. Qed.
Lemma nf_un_row a : nofail (un_row a).
Proof. unfold un_row. destruct (avx2 c); [apply nf_avx_unpremul|]. destruct (sse41 c); [apply nf_sse_unpremul|apply nofail_px_row_in_place]. Qed.
Lemma x86_alpha_nofail : alpha_nofail E.
Proof.
  constructor.
  - intros pool a b. cbn. apply nofail_bind; [apply premul_rows_nofail; intros; apply nf_pre_row|intros; apply nofail_Done].
  - intros pool a. cbn. apply nofail_bind; [apply unpremul_rows_nofail; intros; apply nf_un_row|intros; apply nofail_Done].
  - intro a. apply nf_need.
Qed.
Lemma x86_pool_blind_alpha : pool_blind_alpha E.
Proof.
  constructor.
  - intros p a b H. cbn. unfold premul_u8_x86. rewrite premul_rows_pool by (auto; intros; apply nf_pre_row). reflexivity.
  - intros p a H. cbn. unfold unpremul_u8_x86. rewrite unpremul_rows_pool by (auto; intros; apply nf_un_row). reflexivity.
Qed.

(** ** Closed forms on images *)
Definition px_pre : Z -> Z -> Z -> Z -> list Z := if avx2 c then px_avx else if sse41 c then px_sse else premul_px_u8.
Definition px_un : Z -> Z -> Z -> Z -> list Z := if avx2 c then px_un_avx rcp else if sse41 c then px_un_sse rcp else unpremul_px_u8.
Lemma four_pre : four px_pre.
Proof. unfold px_pre. destruct (avx2 c); [apply four_avx|]. destruct (sse41 c); [apply four_sse|apply four_u8]. Qed.
Lemma four_un : four px_un.
Proof. unfold px_un. destruct (avx2 c); [apply four_un_avx|]. destruct (sse41 c); [apply four_un_sse|apply four_un_u8]. Qed.
Lemma pre_row_ok w a b : length a = w * 4 -> length b = w * 4 -> bytes b -> pre_row a b = px_row px_pre a b.
Proof.
  intros La Lb B. unfold pre_row, px_pre. destruct (avx2 c); [now apply avx_premul_row_ok with w|].
  destruct (sse41 c); [now apply sse_premul_row_ok with w|reflexivity].
Qed.
Lemma un_row_ok w b : length b = w * 4 -> bytes b -> un_row b = px_row_in_place px_un b.
Proof.
  intros Lb B. unfold un_row, px_un. destruct (avx2 c); [now apply avx_unpremul_row_ok with w|].
  destruct (sse41 c); [now apply sse_unpremul_row_ok with w|reflexivity].
Qed.
Lemma zip_mut_same {A B} (g h : A -> B -> outcome A) ds ss : (forall d s, In d ds -> In s ss -> g d s = h d s) -> zip_mut g ds ss = zip_mut h ds ss.
Proof.
  revert ss. induction ds as [|d ds IH]; intros [|s0 ss] H; try reflexivity. cbn [zip_mut].
  rewrite H by (now left). rewrite IH; [reflexivity|]. intros; apply H; now right.
Qed.
Lemma chunk_bytes k (l : list Z) d : bytes l -> In d (chunks_exact k l) -> bytes d.
Proof. intros B H. pose proof (chunks_good k l B) as F. rewrite Forall_forall in F. now apply F. Qed.
Lemma premul_x86_ok pool im into : pool_ok pool -> bytes (buf im) -> good 4 im -> good 4 into -> width im = width into -> height im = height into ->
  exists out, premul_u8_x86 c pool im into = Done out /\ repainted px_pre im into out.
Proof.
  intros HP B Gi Go Hw Hh.
  assert (X : premul_rows pre_row (width im * 4) (stride_of 4 into) (stride_of 4 im) pool (buf im) (buf into) =
              premul_rows (px_row px_pre) (width im * 4) (stride_of 4 into) (stride_of 4 im) pool (buf im) (buf into)).
  { rewrite (premul_rows_pool pre_row) by (auto; intros; apply nf_pre_row). rewrite (premul_rows_pool (px_row px_pre)) by (auto; intros; apply nofail_px_row).
    unfold premul_rows. unfold chunks_exact_o. destruct (stride_of 4 into =? 0); cbn [bind]; [reflexivity|]. destruct (stride_of 4 im =? 0); cbn [bind]; [reflexivity|].
    unfold for_each. erewrite zip_mut_same; [reflexivity|]. intros d s0 _ Hs. cbv beta.
    destruct (slice d 0 (width im * 4)) as [dv| |] eqn:Ed; cbn [bind]; auto. destruct (slice s0 0 (width im * 4)) as [sv| |] eqn:Es; cbn [bind]; auto.
    rewrite (pre_row_ok (width im)); [reflexivity| | |].
    - apply slice_len in Ed. lia.
    - apply slice_len in Es. lia.
    - unfold slice in Es. destruct (_ && _); [|discriminate]. injection Es as <-. cbn [skipn]. apply bytes_firstn. apply (chunk_bytes _ _ _ B Hs). }
  unfold premul_u8_x86. fold pre_row. rewrite X. rewrite (premul_rows_closed 0%Z) by (auto using four_pre). cbn [bind].
  eexists. split; [reflexivity|]. apply repaint; auto using four_pre.
Qed.
(** Visible samples are bytes. *)
Definition shows_bytes (im : image Z) : Prop := forall x y k v, x < width im -> y < height im -> k < 4 -> sample 4 im x y k = Some v -> byte v.
Lemma unpremul_x86_ok pool im : pool_ok pool -> good 4 im -> shows_bytes im ->
  exists out, unpremul_u8_x86 c rcp pool im = Done out /\ repainted px_un im im out.
Proof.
  intros HP Gi B.
  assert (X : unpremul_rows un_row (width im * 4) (stride_of 4 im) pool (buf im) =
              unpremul_rows (px_row_in_place px_un) (width im * 4) (stride_of 4 im) pool (buf im)).
  { rewrite (unpremul_rows_pool un_row) by (auto; intros; apply nf_un_row). rewrite (unpremul_rows_pool (px_row_in_place px_un)) by (auto; intros; apply nofail_px_row_in_place).
    unfold unpremul_rows. rewrite good_stride_of by (assumption || lia). pose proof (good_stride_pos 4 im ltac:(lia) Gi) as Pi. destruct Gi as [G1 G2 Si Li].
    rewrite chunks_exact_o_ok by assumption. cbn [bind].
    unfold for_each. erewrite zip_mut_same; [reflexivity|]. intros d s0 Hd _. cbv beta.
    apply In_nth_error in Hd as (y & Hd). rewrite nth_error_chunks, Li, div_mul_exact in Hd by lia.
    destruct (Nat.ltb_spec y (height im)) as [Hy|]; [|discriminate]. injection Hd as <-.
    rewrite slice_ok by (rewrite ?chunk_length by (rewrite Li, div_mul_exact; lia); lia).
    cbn [bind skipn]. rewrite Nat.sub_0_r. rewrite (un_row_ok (width im)); [reflexivity| |].
    - rewrite firstn_length, chunk_length by (rewrite Li, div_mul_exact; lia). lia.
    - apply Forall_forall. intros v Hv. apply In_nth_error in Hv as (j & Hj).
      rewrite nth_error_firstn in Hj. destruct (Nat.ltb_spec j (width im * 4)) as [Hj'|]; [|discriminate].
      rewrite nth_error_chunk in Hj. destruct (Nat.ltb_spec j (stride im)) as [Hj''|]; [|discriminate].
      apply (B (j / 4) y (j mod 4)); auto.
      + apply Nat.div_lt_upper_bound; lia.
      + apply Nat.mod_upper_bound; lia.
      + unfold sample. rewrite <- Hj. f_equal. pose proof (Nat.div_mod j 4 ltac:(lia)). lia. }
  unfold unpremul_u8_x86. fold un_row. rewrite X. rewrite (unpremul_rows_closed 0%Z) by (auto using four_un). cbn [bind].
  eexists. split; [reflexivity|]. apply repaint; auto using four_un.
Qed.
Lemma px_pre_bytes r g b a : byte r -> byte g -> byte b -> byte a -> Forall byte (px_pre r g b a).
Proof.
  intros Hr Hg Hb Ha. unfold px_pre. destruct (avx2 c); [|destruct (sse41 c)].
  - unfold px_avx. repeat apply Forall_cons; try apply Forall_nil; apply simd_div_byte, mul_byte; assumption.
  - unfold px_sse. repeat apply Forall_cons; try apply Forall_nil; try (apply simd_div_byte, mul_byte); assumption.
  - rewrite premul_px_spec by (unfold AlphaArith.byte, byte in *; lia). unfold associate8, nearest_div. unfold byte in *.
    repeat apply Forall_cons; try apply Forall_nil; nia.
Qed.
Lemma x86_h_byte N sw dw W p y x ch : byte (x86_h c s N sw dw W p y x ch).
Proof.
  unfold x86_h. assert (A : forall z, byte (lp_store z)) by (intro; unfold byte, lp_store, clampZ; lia).
  assert (B : forall z, byte (round_q15 255 z)) by (intro; unfold byte, round_q15, clampZ; lia).
  destruct N as [|[|[|[|]]]]; repeat match goal with |- context [if ?b then _ else _] => destruct b end;
    unfold lp_h, resample_h, avx_rgb_h, avx_rgba_lp_h; auto.
Qed.
Lemma x86_v_byte' N sw sh dh W p y x ch : byte (x86_v c s N sw sh dh W p y x ch).
Proof.
  unfold x86_v, byte. repeat match goal with |- context [if ?b then _ else _] => destruct b end;
  unfold lp_v, round_v, sse_v, resample_v, lp_store, round_q15, floor_q15, clampZ; repeat match goal with |- context [if ?b then _ else _] => destruct b end; lia.
Qed.
Lemma x86_resample_byte N (store into : image Z) V H p y x ch : changes_size store into ->
  byte (x86_resample c s N (width store) (height store) (width into) (height into) V H p y x ch).
Proof.
  intros D. unfold x86_resample. unfold changes_size in D.
  destruct (Nat.eqb_spec (width store) (width into)) as [W1|]; cbn [negb]; [|apply x86_h_byte].
  destruct (Nat.eqb_spec (height store) (height into)) as [H1|]; cbn [negb]; [lia|apply x86_v_byte'].
Qed.

Theorem rgba_pipeline_x86 pool (store into : image Z) :
  valid_call 4 false f store into -> changes_size store into -> f <> Nearest -> pool_ok pool -> samples_in 255 (buf store) ->
  tame f store into -> traps c s 4 (width store) (width into) = false ->
  exists src mid out,
    (alpha_varies store -> pixelwise px_pre store src) /\ (~ alpha_varies store -> src = store) /\
    valid_call 4 false f src into /\ samples_in 255 (buf src) /\ width src = width store /\ height src = height store /\
    resize_u8_x86 c s L f 4 pool src into = Returned Ok mid /\ only_pixels_differ 4 into mid /\
    resize_rgba_u8_x86 c s rcp L f pool true store into = Returned Ok out /\
    pixelwise px_un mid out /\ only_pixels_differ 4 into out.
Proof.
  intros V D Hf HP HS Ht Tr. destruct (valid_good V) as [Gs Gi].
  pose proof (X86DispatchProofs.samples_bytes _ HS) as HB.
  destruct (scan_varies 8 (2 ^ 32) store ltac:(lia)) as (res & R & I); auto using bytes_forall.
  { pose proof (vc_sides _ _ _ _ _ V). lia. }
  assert (R' : alpha_needed E store = Done res).
  { cbn. rewrite alpha_needed_same; [exact R|exact HB|]. intro Q. pose proof (g_len _ _ Gs) as LL. rewrite Q in LL.
    pose proof (g_w _ _ Gs). pose proof (g_h _ _ Gs). pose proof (good_stride_pos 4 store ltac:(lia) Gs). cbn in LL. nia. }
  destruct (stage_on E px_pre pool store into res four_pre) as (src & P & P0 & P1); auto.
  { intros into' G1 G2 W H _. apply premul_x86_ok; auto. }
  { apply V. }
  assert (VS : valid_call 4 false f src into /\ width src = width store /\ height src = height store /\ samples_in 255 (buf src)).
  { destruct res.
    - destruct (P1 eq_refl) as ((Q1 & Q2 & Q) & Q3 & Q4 & Q5 & Q6 & Q7). split; [|split; [congruence|split; [congruence|]]].
      + apply (valid_source V); auto.
      + apply Forall_forall. intros v Hv. apply In_nth_error in Hv as (i & Hi).
        assert (Hl : i < length (buf src)) by (apply nth_error_Some; congruence). rewrite Q7 in Hl.
        assert (Hy : i / (width store * 4) < height store) by (apply Nat.div_lt_upper_bound; [pose proof (g_w _ _ Gs); lia|lia]).
        set (y := i / (width store * 4)) in *. set (j := i mod (width store * 4)).
        assert (Hj : j < width store * 4) by (apply Nat.mod_upper_bound; pose proof (g_w _ _ Gs); lia).
        assert (Hi2 : i = y * (width store * 4) + j) by (unfold y, j; rewrite Nat.mul_comm; apply Nat.div_mod; pose proof (g_w _ _ Gs); lia).
        assert (Hx : j / 4 < width store) by (apply Nat.div_lt_upper_bound; lia).
        destruct (pixel_exists store (j / 4) y Gs Hx Hy) as (r & g & b & a & Pp).
        destruct (Q (j / 4) y r g b a Hx Hy Pp) as (r' & g' & b' & a' & Ep & Pq).
        assert (BB : Forall byte [r'; g'; b'; a']).
        { rewrite <- Ep. destruct Pp as (B0 & B1 & B2 & B3).
          apply px_pre_bytes; match goal with Hs : sample 4 store _ _ _ = Some ?z |- byte ?z =>
            apply nth_error_In in Hs; unfold bytes in HB; rewrite Forall_forall in HB; now apply HB end. }
        rewrite !Forall_cons_iff in BB. destruct BB as (b0 & b1 & b2 & b3 & _). destruct Pq as (p0 & p1 & p2 & p3).
        assert (Hs : sample 4 src (j / 4) y (j mod 4) = Some v).
        { unfold sample. rewrite Q5, <- Hi. f_equal. pose proof (Nat.div_mod j 4 ltac:(lia)). lia. }
        assert (M4 : j mod 4 < 4) by (apply Nat.mod_upper_bound; lia).
        assert (Bv : byte v).
        { destruct (j mod 4) as [|[|[|[|]]]]; try lia; congruence. }
        unfold byte in Bv. lia.
    - rewrite P0 by reflexivity. auto. }
  destruct VS as (VS & WS & HS' & BS).
  assert (Ds : changes_size src into) by (unfold changes_size in *; now rewrite WS, HS').
  assert (Ts : tame f src into).
  { unfold tame, downscale_at_most in *. now rewrite WS, HS'. }
  pose proof (x86_call c s L f 4 pool src into VS HP Hf Ds BS Ts ltac:(now rewrite WS)) as Rm.
  set (pic := x86_resample _ _ _ _ _ _ _ _ _ _) in Rm. set (mid := result_image 4 pic into) in *.
  pose proof (result_opd 4 pic into ltac:(lia) Gi) as Om. fold mid in Om.
  pose proof (good_opd _ _ _ Gi Om) as Gm.
  assert (Bm : shows_bytes mid).
  { intros x y k v Hx Hy Hk Hs. unfold mid in Hs. rewrite (result_shows 4 pic into ltac:(lia) Gi x y k Hx Hy Hk) in Hs. injection Hs as <-.
    unfold pic. now apply x86_resample_byte. }
  destruct (unpremul_x86_ok pool mid HP Gm Bm) as (out & Ro & Po).
  exists src, mid, out.
  split. { intro A. apply P1. now apply I. }
  split. { intro A. apply P0. destruct res; auto. exfalso. now apply A, I. }
  split; [exact VS|]. split; [exact BS|]. split; [exact WS|]. split; [exact HS'|].
  split; [exact Rm|]. split; [exact Om|].
  split.
  { unfold resize_rgba_u8_x86. fold E. rewrite (with_alpha_on 4 E pool store into src); auto.
    - change (generic_resize 4 E pool src into) with (resize_u8_x86 c s L f 4 pool src into).
      rewrite Rm. unfold E. cbn [x86_engine unpremul]. rewrite Ro. reflexivity.
    - apply (sane_checks (valid_sane L V)).
    - apply (sane_checks (valid_sane L VS)).
    - destruct f; try reflexivity; congruence. }
  split. { apply (repainted_pixelwise _ mid mid out); auto using four_un. }
  destruct Po as [O _]. destruct Om as [A1 A2 A3 A4 A5 A6 A7], O as [B1 B2 B3 B4 B5 B6 B7].
  constructor; try congruence. intros i Hi. rewrite B7 by (rewrite A1, A3; exact Hi). apply A7. exact Hi.
Qed.
End Calls.
