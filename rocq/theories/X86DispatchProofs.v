(** Closed forms of the 8-bit passes on x86-64. *)
From Coq Require Import ZArith List Lia Bool Reals Lra ZifyBool ZifyNat ZifyN.
From Flocq Require Import Core.Raux Core.Zaux.
From Verif Require Import Base BaseProofs ImageStore FixedPoint Dispatch Resize Spec SpecApi F32 F32Proofs Weights WeightsProofs
  KernelProofs Kernel4Proofs ColumnProofs DispatchProofs QuantProofs QuantSums
  Simd SimdProofs X86Vertical X86VerticalProofs X86VerticalLp X86VerticalLpProofs
  X86Horizontal X86HorizontalProofs X86Pixels X86PixelsLp X86Dispatch SpecX86 DriverProofs.
Import ListNotations.
Local Open Scope Z_scope.

(** ** The scale factor test *)
Lemma fmt_pred8 : fmt (8 - / 2097152)%R.
Proof.
  replace (8 - / 2097152)%R with (IZR 16777215 * bpow radix2 (-21))%R; [apply fmt_F2R; lia|].
  cbn. lra.
Qed.
Lemma fin_8 : fin (fZ 8 0) 8.
Proof.
  replace 8%R with (rnd (IZR 8 * bpow radix2 0)).
  - apply fZ_fin. cbn. rewrite Rabs_pos_eq by lra. rewrite Rmult_1_r. apply IZR_le. lia.
  - cbn. rewrite Rmult_1_r. apply rnd_fmt. apply (fmt_IZR 8). lia.
Qed.

Lemma factor_below_8_ok a b : 1 <= Z.of_nat a <= 2 ^ 23 -> 1 <= Z.of_nat b <= 2 ^ 64 ->
  factor_below_8 a b = below_8 a b.
Proof.
  intros Ha Hb. unfold factor_below_8, below_8.
  set (x := Z.of_nat a) in *. set (y := Z.of_nat b) in *.
  assert (Fa : fin (f_of_nat a) (IZR x)) by (apply f_of_nat_exact; lia).
  assert (Fb : fin (f_of_nat b) (rnd (IZR y))) by (apply f_of_nat_fin; lia).
  assert (XB : (1 <= IZR x <= 8388608)%R) by (split; apply IZR_le; lia).
  assert (YB : (1 <= rnd (IZR y))%R) by (apply rnd_ge_fmt; [apply (fmt_IZR 1); lia|apply IZR_le; lia]).
  set (B := rnd (IZR y)) in *.
  assert (Q0 : (0 <= IZR x / B <= 8388608)%R).
  { split.
    - unfold Rdiv. apply Rmult_le_pos; [lra|]. apply Rlt_le, Rinv_0_lt_compat. lra.
    - apply Rmult_le_reg_r with B; [lra|]. unfold Rdiv. rewrite Rmult_assoc, Rinv_l by lra. nra. }
  assert (Fq : fin (fdiv (f_of_nat a) (f_of_nat b)) (rnd (IZR x / B))).
  { apply fdiv_fin; auto; [lra|]. apply moderate_pos; [lra|]. eapply Rle_trans; [apply Q0|]. apply IZR_le. lia. }
  pose proof (fltb_fin _ _ _ _ Fq fin_8) as HB.
  assert (DIV : forall t, (IZR x <= t * B -> IZR x / B <= t)%R).
  { intros t Ht. apply Rmult_le_reg_r with B; [lra|]. unfold Rdiv. rewrite Rmult_assoc, Rinv_l by lra. lra. }
  destruct (Nat.ltb_spec a (8 * b)) as [Hlt|Hge].
  - apply HB. assert (Hz : x < 8 * y) by lia.
    assert (IZR x / B <= 8 - / 2097152)%R as Hq.
    { apply DIV. destruct (Z.le_gt_cases y (2 ^ 24)) as [Q|Q].
      - unfold B. rewrite rnd_fmt by (apply fmt_IZR; lia).
        assert (1 <= IZR y)%R by (apply IZR_le; lia).
        destruct (Z.le_gt_cases y (2 ^ 21)) as [Q'|Q'].
        + assert (IZR y <= 2097152)%R by (apply IZR_le; lia).
          assert (IZR x <= IZR (8 * y - 1))%R by (apply IZR_le; lia).
          rewrite minus_IZR, mult_IZR in H1. lra.
        + assert (2097152 <= IZR y)%R by (apply IZR_le; lia). lra.
      - assert (16777216 <= B)%R.
        { apply rnd_ge_fmt; [apply (fmt_IZR 16777216); lia|]. apply IZR_le. lia. }
        lra. }
    eapply Rle_lt_trans; [apply (rnd_le_fmt _ (8 - / 2097152)%R fmt_pred8 Hq)|lra].
  - apply not_true_iff_false. intro Ht. apply HB in Ht.
    assert (y <= 2 ^ 20) by lia.
    assert (8 <= rnd (IZR x / B))%R; [|lra].
    apply rnd_ge_fmt; [apply (fmt_IZR 8); lia|].
    unfold B. rewrite rnd_fmt by (apply fmt_IZR; lia).
    assert (1 <= IZR y)%R by (apply IZR_le; lia).
    apply Rmult_le_reg_r with (IZR y); [lra|]. unfold Rdiv. rewrite Rmult_assoc, Rinv_l by lra.
    rewrite Rmult_1_r, <- mult_IZR. apply IZR_le. lia.
Qed.

Lemma factor_same a : 1 <= Z.of_nat a <= 2 ^ 64 -> factor_below_8 a a = true.
Proof.
  intros Ha. unfold factor_below_8.
  assert (Fb : fin (f_of_nat a) (rnd (IZR (Z.of_nat a)))) by (apply f_of_nat_fin; lia).
  assert (YB : (1 <= rnd (IZR (Z.of_nat a)))%R) by (apply rnd_ge_fmt; [apply (fmt_IZR 1); lia|apply IZR_le; lia]).
  set (B := rnd (IZR (Z.of_nat a))) in *.
  assert (E : (B / B = 1)%R) by (field; lra).
  assert (Fq : fin (fdiv (f_of_nat a) (f_of_nat a)) (rnd (B / B))).
  { apply fdiv_fin; auto; [lra|]. rewrite E. apply moderate_pos; [lra|]. apply IZR_le. lia. }
  apply (fltb_fin _ _ _ _ Fq fin_8). rewrite E, rnd_fmt by (apply (fmt_IZR 1); lia). lra.
Qed.

(** ** One-pixel kernels *)
Definition v_quality (cn : nat) (s : nat -> Z) (b : fbound) (w : nat -> Z) (c : nat) : Z :=
  narrowed (wsum Z.mul ROUNDING_CONST cn s b w (bsize b) c).
Definition v_lp (cn : nat) (s : nat -> Z) (b : fbound) (w : nat -> Z) (c : nat) : Z :=
  lp_narrow (wsum lp_term LP_ROUNDING cn s b w (bsize b) c).
Definition v_avx_rgb (s : nat -> Z) (b : fbound) (w : nat -> Z) (c : nat) : Z :=
  narrowed (ROUNDING_CONST + zsum (bsize b) (fun k => s (avx_rgb_at b k c) * w k)).
Definition v_avx_rgba (s : nat -> Z) (b : fbound) (w : nat -> Z) (c : nat) : Z :=
  lp_narrow (LP_ROUNDING + zsum (bsize b) (fun k => lp_term (s ((bstart b + k) * 4 + c)%nat) (w (avx_lb_at b k c)))).

Lemma wsum_ext t c0 cn s s' b w w' c : (c < cn)%nat ->
  (forall i, (i < (bstart b + bsize b) * cn)%nat -> s i = s' i) ->
  (forall k, (k < bsize b)%nat -> w k = w' k) ->
  wsum t c0 cn s b w (bsize b) c = wsum t c0 cn s' b w' (bsize b) c.
Proof.
  intros Hc Hs Hw. unfold wsum. f_equal. apply zsum_ext. intros k Hk. rewrite Hs, Hw by nia. reflexivity.
Qed.
Lemma local_quality cn : local_val cn (v_quality cn).
Proof. intros s s' b w w' c _ Hc Hs Hw. unfold v_quality. f_equal. apply wsum_ext; assumption. Qed.
Lemma local_lp cn : local_val cn (v_lp cn).
Proof. intros s s' b w w' c _ Hc Hs Hw. unfold v_lp. f_equal. apply wsum_ext; assumption. Qed.
Lemma local_avx_rgb : local_val 3 v_avx_rgb.
Proof.
  intros s s' b w w' c Hb Hc Hs Hw. unfold v_avx_rgb. do 2 f_equal. apply zsum_ext. intros k Hk.
  rewrite Hw by lia. rewrite Hs; [reflexivity|]. unfold avx_rgb_at. destruct (_ && _); nia.
Qed.
Lemma local_avx_rgba : local_val 4 v_avx_rgba.
Proof.
  intros s s' b w w' c Hb Hc Hs Hw. unfold v_avx_rgba. do 2 f_equal. apply zsum_ext. intros k Hk.
  rewrite Hs by nia. f_equal. apply Hw. unfold avx_lb_at.
  destruct (_ && _) eqn:E; [|lia].
  pose proof (Nat.mul_div_le (bsize b - 1) 8 ltac:(lia)). lia.
Qed.

Lemma plane_sse_pixel : pixel_ok 1 plane_sse (v_quality 1).
Proof. intros src b ws Hb Hs Hl Hw Hi. rewrite plane_sse_ok by assumption. cbn [map seq]. unfold v_quality, v_lp, v_avx_rgb, v_avx_rgba, hs, va, vlb. reflexivity. Qed.
Lemma rgb_sse_pixel : pixel_ok 3 rgb_sse (v_quality 3).
Proof. intros src b ws Hb Hs Hl Hw Hi. rewrite rgb_sse_ok by assumption. cbn [map seq]. unfold v_quality, v_lp, v_avx_rgb, v_avx_rgba, hs, va, vlb. reflexivity. Qed.
Lemma rgba_sse_pixel : pixel_ok 4 rgba_sse (v_quality 4).
Proof. intros src b ws Hb Hs Hl Hw Hi. rewrite rgba_sse_ok by assumption. cbn [map seq]. unfold v_quality, v_lp, v_avx_rgb, v_avx_rgba, hs, va, vlb. reflexivity. Qed.
Lemma rgb_avx_pixel : pixel_ok 3 rgb_avx v_avx_rgb.
Proof. intros src b ws Hb Hs Hl Hw Hi. rewrite rgb_avx_ok by assumption. cbn [map seq]. unfold v_quality, v_lp, v_avx_rgb, v_avx_rgba, hs, va, vlb. reflexivity. Qed.
Lemma plane_hrs_pixel : pixel_ok 1 plane_sse_hrs (v_lp 1).
Proof. intros src b ws Hb Hs Hl Hw Hi. rewrite plane_sse_hrs_ok by assumption. cbn [map seq]. unfold v_quality, v_lp, v_avx_rgb, v_avx_rgba, hs, va, vlb. reflexivity. Qed.
Lemma cbcr_hrs_pixel : pixel_ok 2 cbcr_sse_hrs (v_lp 2).
Proof. intros src b ws Hb Hs Hl Hw Hi. rewrite cbcr_sse_hrs_ok by assumption. cbn [map seq]. unfold v_quality, v_lp, v_avx_rgb, v_avx_rgba, hs, va, vlb. reflexivity. Qed.
Lemma rgba_sse_lb_pixel : pixel_ok 4 rgba_sse_lb (v_lp 4).
Proof. intros src b ws Hb Hs Hl Hw Hi. rewrite rgba_sse_lb_ok by assumption. cbn [map seq]. unfold v_quality, v_lp, v_avx_rgb, v_avx_rgba, hs, va, vlb. reflexivity. Qed.
Lemma rgba_avx_lb_pixel : pixel_ok 4 rgba_avx_lb v_avx_rgba.
Proof. intros src b ws Hb Hs Hl Hw Hi. rewrite rgba_avx_lb_ok by assumption. cbn [map seq]. unfold v_quality, v_lp, v_avx_rgb, v_avx_rgba, hs, va, vlb. reflexivity. Qed.

(** Kernels of N channel images. *)
Definition kernel_for (N : nat) (k : hkernel) : Prop :=
  match k with
  | HPortable => True
  | HPlaneSse | HPlaneHrs => N = 1%nat
  | HCbCrHrs => N = 2%nat
  | HRgbSse | HRgbAvx => N = 3%nat
  | _ => N = 4%nat
  end.
Definition kernel_val (N : nat) (k : hkernel) : (nat -> Z) -> fbound -> (nat -> Z) -> nat -> Z :=
  match k with
  | HPortable => fun s b w c => saturate_narrow 255 (wrap32 (wsum Z.mul ROUNDING_CONST N s b w (bsize b) c))
  | HPlaneSse | HRgbSse | HRgbaSse => v_quality N
  | HPlaneHrs | HCbCrHrs | HRgbaSseLb => v_lp N
  | HRgbAvx => v_avx_rgb
  | HRgbaAvxLb => v_avx_rgba
  end.
Lemma select_h_for N c s im into : (1 <= N <= 4)%nat -> kernel_for N (select_h N c s im into).
Proof.
  intros HN. assert (N = 1 \/ N = 2 \/ N = 3 \/ N = 4)%nat as [-> | [-> | [-> | ->]]] by lia; cbn.
  all: unfold plane_hkernel, cbcr_hkernel, rgb_hkernel, rgba_hkernel;
    repeat match goal with |- context [if ?b then _ else _] => destruct b end; cbn; auto.
Qed.
Lemma kernel_pixel N k : kernel_for N k -> k <> HPortable -> pixel_ok N (h_pixel k) (kernel_val N k).
Proof.
  destruct k; cbn [kernel_for kernel_val h_pixel]; intros H Hk; subst; try (now contradiction Hk);
   auto using plane_sse_pixel, plane_hrs_pixel, cbcr_hrs_pixel, rgb_sse_pixel, rgb_avx_pixel, rgba_sse_pixel,
     rgba_sse_lb_pixel, rgba_avx_lb_pixel.
Qed.
Lemma kernel_local N k : kernel_for N k -> local_val N (kernel_val N k).
Proof.
  destruct k; cbn [kernel_for kernel_val]; intros H; subst; auto using local_quality, local_lp, local_avx_rgb, local_avx_rgba.
  intros s s' b w w' c _ Hc Hs Hw. do 2 f_equal. apply wsum_ext; assumption.
Qed.

Lemma weights_i16 (fw : fweights f32) : Forall i16 (weights (qfw quant_i16 fw)).
Proof.
  cbn [qfw weights]. apply Forall_forall. intros z Hz. apply in_map_iff in Hz. destruct Hz as (w & <- & _).
  apply quant_range.
Qed.

Lemma samples_bytes l : samples_in 255 l -> bytes l.
Proof. intros H. eapply Forall_impl; [|exact H]. cbn. intros. unfold byte. lia. Qed.

(** ** The passes *)
Lemma painted_result {T} (d : T) N p into : painted d N p into =
  set_buf into (pixmap d (height into) (stride into) (width into * N) (fun y j => p y (j / N)%nat (j mod N)%nat) (buf into)).
Proof. reflexivity. Qed.

(** What the kernel computes from the picture [p]. *)
Definition kpic (N : nat) (k : hkernel) (fw : fweights f32) (p : picture) : picture := fun y x c =>
  hpx (kernel_val N k) (qfw quant_i16 fw) (fun i => p y (i / N)%nat (i mod N)%nat) x c.

Theorem x86_hpass_closed c s N fw pool im into :
  (1 <= N <= 4)%nat -> pool_ok pool -> good N im -> good N into -> height im = height into ->
  wf_fw fw (width im) (width into) -> bytes (buf im) ->
  h_runs_on c (select_h N c s im into) = true ->
  x86_hpass c s N fw pool im into =
  Done (painted 0 N (kpic N (select_h N c s im into) fw (shown 0 N im)) into).
Proof.
  intros HN HP Gi Go Hh W HB HR. unfold x86_hpass. cbv zeta. rewrite HR. cbn [negb].
  pose proof (select_h_for N c s im into HN) as HK. set (k := select_h N c s im into) in *. clearbody k.
  assert (N0 : (0 < N)%nat) by lia.
  rewrite (numerical_approximation_qfw quant_i16 fw _ _ W). cbn [bind].
  assert (W' := qfw_wf quant_i16 fw _ _ W).
  pose proof (weights_i16 fw) as HI. set (fz := qfw quant_i16 fw) in *.
  pose proof (g_len _ _ Gi) as Li. pose proof (g_len _ _ Go) as Lo.
  pose proof (g_stride _ _ Gi) as Si. pose proof (g_stride _ _ Go) as So.
  pose proof (good_stride_pos N im N0 Gi). pose proof (good_stride_pos N into N0 Go).
  rewrite (horizontal_dispatch_on byte N _ _ (hrow_of N (kernel_val N k) fz (width into))
     pool im into (stride im) (stride into) (height into)); auto using good_stride_of.
  - f_equal. rewrite painted_result. apply set_buf_ext. erewrite <- pixmap_rows by eauto. f_equal. apply map_seq_ext.
    intros y Hy. unfold hrow_of. apply rowmap_ext. intros j Hj. unfold kpic, hpx, shown. fold fz.
    assert (jx : (j / N < width into)%nat) by (apply Nat.div_lt_upper_bound; lia).
    pose proof (wf_nth fz _ _ (j / N)%nat W' jx) as B. cbv zeta in B.
    pose proof (Nat.mod_upper_bound j N ltac:(lia)).
    apply (kernel_local N k HK); auto; [lia|]. intros i Hi. rewrite nth_chunk by nia.
    rewrite (Nat.mul_comm (i / N)), <- Nat.div_mod by lia. reflexivity.
  - rewrite Li. f_equal; auto.
  - intros s0 d Hs Ls Ld. destruct k.
    { apply row_handler_closed with (insz := width im); auto; lia. }
    all: apply hrow_closed with (insz := width im); auto; try lia;
      [apply kernel_pixel; [exact HK|discriminate]|apply kernel_local; exact HK].
  - intros s0 d Hs Ls Ld. destruct k.
    { exact (row_handler_4_closed N 255 fz (width im) (width into) s0 (stride im) d (stride into) HN W' Si So Ls Ld). }
    all: apply hrow4_closed with (insz := width im); auto; try lia;
      [apply kernel_pixel; [exact HK|discriminate]|apply kernel_local; exact HK].
Qed.

(** *** Vertical *)
Definition vpic (k : vkernel) (N n : nat) (W : windows) : picture -> picture :=
  match k with
  | VPortable => resample_v 255 W
  | VSse => sse_v N n W
  | VAvx => round_v W
  | VSseLp | VAvxLp => lp_v W
  end.

Lemma clamp_sat a b v : a <= b -> sat a b v = clampZ a b v.
Proof. unfold sat, clampZ. lia. Qed.
Lemma narrow_clamp v : saturate_narrow 255 v = clampZ 0 255 (v / 2 ^ 15).
Proof. unfold saturate_narrow, clampZ. rewrite Z.shiftr_div_pow2 by (unfold PRECISION; lia). change PRECISION with 15. lia. Qed.
Lemma lp_narrow_store a : lp_narrow (LP_ROUNDING + a) = lp_store a.
Proof. unfold lp_narrow, lp_store, LP_ROUNDING. rewrite clamp_sat by lia. reflexivity. Qed.
Lemma lp_term_product p w : lp_term p w = lp_product p w.
Proof. reflexivity. Qed.

(** Sums of bytes under a safe window. *)
Lemma safe_sum W n o (v : nat -> Z) : narrow_safe W n -> (o < n)%nat ->
  (forall k, (k < wsize W o)%nat -> byte (v k)) ->
  Z.abs (zsum (wsize W o) (fun k => wcoef W o k * v k)) + 2 ^ 14 < 2 ^ 30.
Proof.
  intros HS Ho Hv. specialize (HS o Ho).
  assert (Z.abs (zsum (wsize W o) (fun k => wcoef W o k * v k)) <= zsum (wsize W o) (fun k => Z.abs (wcoef W o k)) * 255); [|lia].
  clear HS. induction (wsize W o) as [|m IH]; cbn [zsum]; [lia|].
  specialize (IH ltac:(intros; apply Hv; lia)). specialize (Hv m ltac:(lia)). unfold byte in Hv. nia.
Qed.

Lemma vsum_sum fw y N im j : (0 < N)%nat -> 
  vsum (buf im) (stride im) (skipn (y * aligned_size fw) (map quant_i16 (weights fw))) (nth y (bounds fw) (mkBound 0 0)) j =
  sum_v (windows_of quant_i16 fw) (shown 0 N im) y (j / N)%nat (j mod N)%nat.
Proof.
  intros HN. unfold vsum, sum_v, windows_of, shown. cbn [wsize wstart wcoef]. apply zsum_ext. intros k Hk.
  rewrite nth_skipn, (Nat.mul_comm (j / N)%nat), <- Nat.div_mod by lia.
  rewrite Z.mul_comm. f_equal. f_equal. lia.
Qed.
Lemma lpsum_sum fw y N im j m : (0 < N)%nat ->
  lpsum (buf im) (stride im) (skipn (y * aligned_size fw) (map quant_i16 (weights fw))) (nth y (bounds fw) (mkBound 0 0)) m j =
  LP_ROUNDING + zsum m (fun k => lp_product (shown 0 N im (wstart (windows_of quant_i16 fw) y + k)%nat (j / N)%nat (j mod N)%nat)
                                            (wcoef (windows_of quant_i16 fw) y k)).
Proof.
  intros HN. unfold lpsum, windows_of, shown. cbn [wsize wstart wcoef]. f_equal. apply zsum_ext. intros k Hk.
  rewrite nth_skipn, (Nat.mul_comm (j / N)%nat), <- Nat.div_mod by lia. rewrite lp_term_product.
  f_equal. f_equal. lia.
Qed.
Lemma shown_byte N im y x c : bytes (buf im) -> byte (shown 0 N im y x c).
Proof.
  intros H. unfold shown. destruct (Nat.lt_ge_cases (y * stride im + (x * N + c)) (length (buf im))) as [L|L].
  - eapply Forall_forall; [exact H|]. apply nth_In. exact L.
  - rewrite nth_overflow by exact L. unfold byte. lia.
Qed.

Theorem x86_vpass_closed c s N fw pool im into :
  (1 <= N <= 4)%nat -> pool_ok pool -> good N im -> good N into -> width im = width into ->
  wf_fw fw (height im) (height into) -> bytes (buf im) ->
  narrow_safe (windows_of quant_i16 fw) (height into) ->
  x86_vpass c s N fw pool im into =
  Done (painted 0 N (vpic (select_v c s im into) N (width into) (windows_of quant_i16 fw) (shown 0 N im)) into).
Proof.
  intros HN HP Gi Go Hw W HB HS. unfold x86_vpass. cbv zeta.
  assert (HR : v_runs_on c (select_v c s im into) = true).
  { unfold select_v. cbv zeta. repeat match goal with |- context [if ?b then _ else _] => destruct b eqn:? end; cbn; auto. }
  rewrite HR. cbn [negb]. set (k := select_v c s im into). clearbody k.
  assert (N0 : (0 < N)%nat) by lia.
  rewrite (numerical_approximation_qfw quant_i16 fw _ _ W). cbn [bind].
  pose proof (weights_i16 fw) as HI. cbn [weights qfw] in *.
  pose proof (g_len _ _ Gi) as Li. pose proof (g_len _ _ Go) as Lo.
  pose proof (g_stride _ _ Gi) as Si. pose proof (g_stride _ _ Go) as So.
  pose proof (good_stride_pos N im N0 Gi). pose proof (good_stride_pos N into N0 Go).
  rewrite (vertical_dispatch_closed N _ (bounds fw) (aligned_size fw) (map quant_i16 (weights fw))
     (fun y => map (fun j => vpic k N (width into) (windows_of quant_i16 fw) (shown 0 N im) y (j / N)%nat (j mod N)%nat)
                 (seq 0 (width into * N)))
     pool im into (stride into) (height into)); auto using good_stride_of.
  - f_equal. rewrite painted_result. apply set_buf_ext. erewrite <- pixmap_rows by eauto. reflexivity.
  - apply (wf_blen _ _ _ W).
  - rewrite map_length, (wf_wlen _ _ _ W). lia.
  - intros y b d Hb Hy Ld. pose proof (wf_win _ _ _ W y b Hb) as B.
    assert (Eb : nth y (bounds fw) (mkBound 0 0) = b) by (apply nth_error_nth; exact Hb).
    rewrite map_length, seq_length. split; [|reflexivity].
    rewrite (good_stride_of N im N0 Gi).
    set (ws := skipn (y * aligned_size fw) (map quant_i16 (weights fw))).
    assert (Lw : (bsize b <= length ws)%nat) by (unfold ws; rewrite skipn_length, map_length, (wf_wlen _ _ _ W); nia).
    assert (Iw : Forall i16 ws) by (apply Forall_skipn'; exact HI).
    assert (Hsrc : forall k, (k < bsize b)%nat -> (stride im * (bstart b + k) + length d <= length (buf im))%nat).
    { intros i Hi. rewrite Ld, Li, <- Hw. nia. }
    assert (VS : forall j, vsum (buf im) (stride im) ws b j =
      sum_v (windows_of quant_i16 fw) (shown 0 N im) y (j / N)%nat (j mod N)%nat).
    { intros j. rewrite <- Eb. apply vsum_sum. lia. }
    assert (SB : forall x c, Z.abs (sum_v (windows_of quant_i16 fw) (shown 0 N im) y x c) + 2 ^ 14 < 2 ^ 30).
    { intros x c'. unfold sum_v. apply (safe_sum _ (height into) y); auto. intros. apply shown_byte. exact HB. }
    assert (SM : forall j, (j < length d)%nat -> wrap32 (ROUNDING_CONST + vsum (buf im) (stride im) ws b j) < 2 ^ 30).
    { intros j _. specialize (SB (j / N)%nat (j mod N)%nat). rewrite VS. change ROUNDING_CONST with (2 ^ 14).
      rewrite wrap32_small; lia. }
    assert (SL : forall j, lpsum (buf im) (stride im) ws b (bsize b) j =
       LP_ROUNDING + zsum (bsize b) (fun k => lp_product (shown 0 N im (wstart (windows_of quant_i16 fw) y + k)%nat (j / N)%nat (j mod N)%nat)
                                            (wcoef (windows_of quant_i16 fw) y k))).
    { intros j. rewrite <- Eb at 1. apply lpsum_sum. lia. }
    assert (WS : wsize (windows_of quant_i16 fw) y = bsize b) by (cbn [wsize windows_of]; now rewrite Eb).
    assert (LP : forall j, lp_sample (buf im) (stride im) ws b j = lp_v (windows_of quant_i16 fw) (shown 0 N im) y (j / N)%nat (j mod N)%nat).
    { intros j. unfold lp_sample, lp_v. rewrite SL, lp_narrow_store, WS. reflexivity. }
    assert (RD : forall j, round8 (buf im) (stride im) ws b j = round_v (windows_of quant_i16 fw) (shown 0 N im) y (j / N)%nat (j mod N)%nat).
    { intros j. unfold round8, round_v, round_q15. rewrite VS, narrow_clamp. specialize (SB (j / N)%nat (j mod N)%nat).
      change ROUNDING_CONST with (2 ^ 14). rewrite wrap32_small by lia. do 2 f_equal. lia. }
    rewrite <- Ld. destruct k; cbn [run_v vpic].
    + rewrite column_handler_closed; auto; try lia. f_equal. apply map_seq_ext. intros j Hj.
      unfold vval, resample_v, floor_q15. rewrite VS, narrow_clamp. specialize (SB (j / N)%nat (j mod N)%nat).
      rewrite wrap32_small by lia. reflexivity.
    + rewrite vertical_sse_row_closed by assumption. f_equal. apply map_seq_ext. intros j Hj.
      unfold sse_sample, sse_v, undivided, blocks32. rewrite (Nat.mul_comm (j / N)%nat), <- Nat.div_mod, Ld by lia.
      destruct (_ <? _)%nat; [|apply RD]. unfold unshifted8. rewrite VS, clamp_sat by lia.
      specialize (SB (j / N)%nat (j mod N)%nat). change ROUNDING_CONST with (2 ^ 14). rewrite wrap32_small by lia. reflexivity.
    + rewrite vertical_sse_row_lp_closed by assumption. f_equal. apply map_seq_ext. intros j Hj. apply LP.
    + rewrite vertical_avx_row_closed by assumption. f_equal. apply map_seq_ext. intros j Hj. apply RD.
    + rewrite vertical_avx_row_lp_closed by assumption. f_equal. apply map_seq_ext. intros j Hj. apply LP.
Qed.
