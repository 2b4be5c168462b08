(** The 16-bit passes on x86-64 in closed form, and whole calls. *)
From Coq Require Import ZArith List Lia Bool Permutation ZifyBool ZifyNat ZifyN.
From Verif Require Import Base BaseProofs ImageStore ColorGroup FixedPoint Dispatch FloatConv Resize Spec SpecApi SpecFloat F32 Weights Sampler
  KernelProofs Kernel4Proofs ColumnProofs DispatchProofs FloatConvProofs ResizeProofs NoFail ImageProofs PoolProofs NearestProofs PortableProofs
  QuantProofs QuantSums Api ApiFloat Alpha ApiProofs DriverProofs FloatApiProofs Simd SimdProofs X86HorizontalProofs X86Dispatch X86Alpha X86NoFail
  X86Float SpecX86Float X86FloatKernels X86FloatRows X86FloatCalls X86U16 SpecX86U16 X86U16Proofs X86U16Rows X86Calls.
Import ListNotations.
Local Open Scope nat_scope.

(** ** The columns that are read *)
Lemma column_read_le parts : Forall (fun B => 0 < B) parts -> forall from n j, column_read parts from n j <= from + j.
Proof.
  induction 1 as [|B r HB _ IH]; intros from n j; cbn [column_read]; [lia|].
  destruct (j <? n / B * B) eqn:E; [lia|]. etransitivity; [apply IH|].
  destruct (n / B =? 0) eqn:E0; [lia|]. apply Nat.ltb_ge in E. apply Nat.eqb_neq in E0. nia.
Qed.
Lemma parts_pos parts : parts = sse_parts \/ parts = avx_parts -> Forall (fun B => 0 < B) parts.
Proof. intros [->| ->]; repeat constructor; lia. Qed.

(** ** Narrowing *)
Section Narrow.
Local Open Scope Z_scope.
Definition sums_small (maxv : Z) (W : windows) (n : nat) : Prop :=
  forall o, (o < n)%nat -> zsum (wsize W o) (fun k => Z.abs (wcoef W o k)) * maxv + 2 ^ 14 < 2 ^ 30.

Lemma small_sum maxv W n o (v : nat -> Z) : sums_small maxv W n -> (o < n)%nat ->
  (forall k, (k < wsize W o)%nat -> 0 <= v k <= maxv) ->
  Z.abs (zsum (wsize W o) (fun k => wcoef W o k * v k)) + 2 ^ 14 < 2 ^ 30.
Proof.
  intros HS Ho Hv. specialize (HS o Ho).
  assert (Z.abs (zsum (wsize W o) (fun k => wcoef W o k * v k)) <= zsum (wsize W o) (fun k => Z.abs (wcoef W o k)) * maxv); [|lia].
  clear HS. induction (wsize W o) as [|m IH]; cbn [zsum]; [lia|].
  specialize (IH ltac:(intros; apply Hv; lia)). specialize (Hv m ltac:(lia)). nia.
Qed.
Lemma small_accumulator maxv W n : sums_small maxv W n -> accumulator_safe maxv W n.
Proof. intros H o Ho. specialize (H o Ho). lia. Qed.

Lemma shift15 z : Z.shiftr z 15 = z / 2 ^ 15.
Proof. now rewrite Z.shiftr_div_pow2 by lia. Qed.
Lemma narrow_simd z maxv : Z.abs z + 2 ^ 14 < 2 ^ 30 -> 0 <= maxv <= 32767 ->
  min16 (sat 0 65535 (Z.shiftr (wrap32 (2 ^ 14 + z)) 15)) maxv = round_q15 maxv z.
Proof.
  intros H M. rewrite wrap32_small by lia. rewrite shift15. unfold round_q15. rewrite (Z.add_comm z).
  assert (B : - 2 ^ 15 <= (2 ^ 14 + z) / 2 ^ 15 < 2 ^ 15).
  { split; [apply Z.div_le_lower_bound; lia|apply Z.div_lt_upper_bound; lia]. }
  set (q := (2 ^ 14 + z) / 2 ^ 15) in *. clearbody q. change (2 ^ 15) with 32768 in B.
  unfold min16, sat, clampZ. rewrite !s16_small by (unfold i16; lia). destruct (_ <=? _) eqn:E; lia.
Qed.
Lemma narrow_one z maxv : Z.abs z + 2 ^ 14 < 2 ^ 30 -> 0 <= maxv ->
  Z.min (Z.max (Z.shiftr (wrap32 (2 ^ 14 + z)) 15) 0) maxv = round_q15 maxv z.
Proof.
  intros H M. rewrite wrap32_small by lia. rewrite shift15. unfold round_q15. rewrite (Z.add_comm z).
  set (q := (2 ^ 14 + z) / 2 ^ 15). unfold clampZ. lia.
Qed.
Lemma s16_coef fw o k : s16 (wcoef (windows_of quant_i16 fw) o k) = wcoef (windows_of quant_i16 fw) o k.
Proof.
  apply s16_small. unfold windows_of, i16. cbn [wcoef].
  destruct (nth_in_or_default (o * aligned_size fw + k) (map quant_i16 (weights fw)) 0) as [H|H].
  - apply in_map_iff in H. destruct H as (w & <- & _). pose proof (quant_range w). lia.
  - rewrite H. lia.
Qed.
End Narrow.

(** ** Up to 12 bits *)
Definition fits16 (maxv : Z) (v : Z) : Prop := (0 <= v <= maxv)%Z.
Lemma shown_fits maxv N im y x c : (0 <= maxv)%Z -> Forall (fits16 maxv) (buf im) -> fits16 maxv (shown 0%Z N im y x c).
Proof.
  intros M H. unfold shown. set (i := _ + _). destruct (nth_in_or_default i (buf im) 0%Z) as [Hi| ->].
  - rewrite Forall_forall in H. now apply H.
  - unfold fits16. lia.
Qed.


Lemma vparts_ok c : vparts c = sse_parts \/ vparts c = avx_parts.
Proof. unfold vparts. destruct (avx2 _); auto. Qed.

Lemma cell_is depth maxv fw y N (im : image Z) n (q : nat) (b : fbound) : maxv = max_colors depth -> (0 <= maxv <= 32767)%Z ->
  0 < N -> nth y (bounds fw) (mkBound 0 0) = b -> Forall (fits16 maxv) (buf im) ->
  sums_small maxv (windows_of quant_i16 fw) n -> y < n ->
  vcell (buf im) (stride im) (skipn (y * aligned_size fw) (map quant_i16 (weights fw))) b maxv q =
    round_q15 maxv (zsum (wsize (windows_of quant_i16 fw) y) (fun k => wcoef (windows_of quant_i16 fw) y k * flat N (shown 0%Z N im) (wstart (windows_of quant_i16 fw) y + k)%nat q)%Z) /\
  scell (buf im) (stride im) (skipn (y * aligned_size fw) (map quant_i16 (weights fw))) b maxv q =
    round_q15 maxv (zsum (wsize (windows_of quant_i16 fw) y) (fun k => wcoef (windows_of quant_i16 fw) y k * flat N (shown 0%Z N im) (wstart (windows_of quant_i16 fw) y + k)%nat q)%Z).
Proof.
  intros Em M HN Eb HB HS Hy.
  set (W := windows_of quant_i16 fw) in *.
  set (S := zsum (wsize W y) (fun k => wcoef W y k * flat N (shown 0%Z N im) (wstart W y + k)%nat q)%Z).
  assert (X : forall k, nth (stride im * (bstart b + k) + q) (buf im) 0%Z = flat N (shown 0%Z N im) (wstart W y + k) q).
  { intro k. unfold flat, shown, W, windows_of. cbn [wstart]. rewrite Eb. f_equal. pose proof (Nat.div_mod q N ltac:(lia)). lia. }
  assert (C : forall k, nth k (skipn (y * aligned_size fw) (map quant_i16 (weights fw))) 0%Z = wcoef W y k).
  { intro k. unfold W, windows_of. cbn [wcoef]. apply nth_skipn. }
  assert (F : forall k, (0 <= flat N (shown 0%Z N im) (wstart W y + k)%nat q <= maxv)%Z) by (intro; apply (shown_fits maxv); [lia|exact HB]).
  assert (A : (Z.abs S + 2 ^ 14 < 2 ^ 30)%Z) by (apply (small_sum maxv W n y); auto).
  assert (Ws : wsize W y = bsize b) by (unfold W, windows_of; cbn [wsize]; now rewrite Eb).
  split.
  - unfold vcell, vsum. rewrite <- Ws. rewrite (zsum_ext _ _ (fun k => wcoef W y k * flat N (shown 0%Z N im) (wstart W y + k)%nat q)%Z).
    + apply narrow_simd; auto.
    + intros k Hk. rewrite X, C. unfold W at 2. rewrite s16_coef. fold W. rewrite s16_small by (specialize (F k); unfold i16; lia). ring.
  - unfold scell. rewrite <- Ws. rewrite (zsum_ext _ _ (fun k => wcoef W y k * flat N (shown 0%Z N im) (wstart W y + k)%nat q)%Z).
    + apply narrow_one; auto; lia.
    + intros k Hk. rewrite X, C. ring.
Qed.

Lemma depth_range d : 1 <= d <= 12 -> depth_ok d = true /\ (12 <? d) = false /\ (0 <= max_colors d <= 4095)%Z.
Proof.
  intro H. unfold depth_ok. split; [lia|]. split; [lia|]. unfold max_colors.
  assert (2 ^ 1 <= 2 ^ Z.of_nat d <= 2 ^ 12)%Z by (split; apply Z.pow_le_mono_r; lia). lia.
Qed.

(** The portable passes. *)
Definition portable_engine (k : mlaf_kind) (N d : nat) : engine Z f32 :=
  mkEngine 0%Z true false nearest_coord (fun _ _ => mkFW [] [] 0 0 0)
    (if 12 <? d then fvpass f0 fmul (mlaf k) u16_as_f32 (to_mixed_u16 d) N else vpass quant_i16 N (max_colors d))
    (if 12 <? d then fhpass f0 fmul (mlaf k) u16_as_f32 (to_mixed_u16 d) N else hpass quant_i16 N (max_colors d))
    (fun _ _ _ => Panic) (fun _ _ => Panic) (fun _ => Panic).
Lemma portable_forms k N d : cn_ok N -> pass_forms N (portable_engine k N d) d (u16_v k d) (u16_h k d).
Proof.
  intro HN. unfold portable_engine. destruct (12 <? d) eqn:H12.
  - unfold u16_v, u16_h. rewrite H12. apply (float_forms f0 fmul (mlaf k) u16_as_f32 (to_mixed_u16 d) 0%Z f0); auto.
  - apply fixed_forms; auto.
Qed.

Lemma pass_v_small maxv W n p y x c : sums_small maxv W n -> y < n -> (forall y x, fits16 maxv (p y x c)) ->
  pass_v maxv W p y x c = resample_v maxv W p y x c.
Proof.
  intros HS Hy Hp. unfold pass_v, resample_v, floor_q15, acc32.
  pose proof (small_sum maxv W n y (fun k => p (wstart W y + k) x c) HS Hy (fun k _ => Hp _ _)).
  rewrite wrap32_small by lia. reflexivity.
Qed.
Lemma pass_h_small maxv W n p y x c : sums_small maxv W n -> x < n -> (forall x, fits16 maxv (p y x c)) ->
  pass_h maxv W p y x c = resample_h maxv W p y x c.
Proof.
  intros HS Hx Hp. unfold pass_h, resample_h, round_q15, acc32.
  pose proof (small_sum maxv W n x (fun k => p y (wstart W x + k) c) HS Hx (fun k _ => Hp _)).
  rewrite wrap32_small by lia. do 2 f_equal. lia.
Qed.

Lemma u16_fixed_vpass k c N fw pool im into :
  cn_ok N -> pool_ok pool -> good N im -> good N into -> width im = width into -> wf_fw fw (height im) (height into) ->
  1 <= bit_depth into <= 12 -> Forall (fits16 (max_colors (bit_depth into))) (buf im) ->
  sums_small (max_colors (bit_depth into)) (windows_of quant_i16 fw) (height into) ->
  x86_vconv_u16 k c N fw pool im into =
  Done (painted 0%Z N (x86u_v c N (width into) (max_colors (bit_depth into)) (windows_of quant_i16 fw) (shown 0%Z N im)) into).
Proof.
  intros HN PO Gi Go Hw W Hd HB HS. assert (N0 : 0 < N) by (unfold cn_ok in HN; lia).
  destruct (depth_range _ Hd) as (D1 & D2 & D3).
  unfold x86u_v, vectors.
  destruct (sse41 (base_cpu c) || avx2 (base_cpu c)) eqn:EV.
  2: { apply orb_false_iff in EV. destruct EV as [E1 E2].
    pose proof (pf_v _ _ _ _ _ (portable_forms k N (bit_depth into) HN) fw pool im into PO Gi Go Hw W eq_refl) as PF.
    unfold portable_engine, u16_v in PF. cbn [vconv dflt] in PF. rewrite D2 in PF.
    unfold x86_vconv_u16, u16_column_fixed. cbv zeta. rewrite D2, E1, E2. etransitivity; [exact PF|].
    f_equal. apply painted_ext; auto. intros y x ch Hy Hx Hc. apply (pass_v_small _ _ (height into)); auto.
    intros. apply shown_fits; [lia|exact HB]. }
  pose proof (good_stride_pos N im N0 Gi) as Si. pose proof (good_stride_pos N into N0 Go) as So.
  unfold x86_vconv_u16. cbv zeta. rewrite D2. rewrite (numerical_approximation_qfw quant_i16 fw _ _ W). cbn [bind weights qfw].
  set (maxv := max_colors (bit_depth into)) in *.
  rewrite (vertical_dispatch_closed N _ (bounds fw) (aligned_size fw) (map quant_i16 (weights fw))
    (fun y => map (fun j => u16_fixed_v (vparts c) N (width into) maxv (windows_of quant_i16 fw) (shown 0%Z N im) y (j / N) (j mod N)) (seq 0 (width into * N)))
    pool im into (stride into) (height into)); auto using good_stride_of.
  - f_equal. unfold painted. apply set_buf_ext. rewrite <- (pixmap_rows 0%Z (height into) (stride into) (width into * N)) by
      (try apply (g_stride _ _ Go); try apply (g_len _ _ Go); lia).
    reflexivity.
  - apply (g_stride _ _ Go).
  - apply (g_len _ _ Go).
  - apply (wf_blen _ _ _ W).
  - rewrite map_length, (wf_wlen _ _ _ W). lia.
  - intros y b d Hb Hy Ld.
    assert (Eb : nth y (bounds fw) (mkBound 0 0) = b) by (now apply nth_error_nth).
    destruct (wf_win _ _ _ W y b Hb) as (B1 & B2 & B3).
    split; [|now rewrite map_length, seq_length].
    rewrite (good_stride_of N im N0 Gi).
    set (ws := skipn (y * aligned_size fw) (map quant_i16 (weights fw))).
    assert (Lw : bsize b <= length ws).
    { unfold ws. rewrite skipn_length, map_length, (wf_wlen _ _ _ W). nia. }
    assert (Ls : forall i, i < bsize b -> stride im * (bstart b + i) + length d <= length (buf im)).
    { intros i Hi. rewrite Ld, <- Hw, (g_len _ _ Gi). pose proof (g_stride _ _ Gi). nia. }
    assert (K : u16_column_fixed c (bit_depth into) b (buf im) d (stride im) ws =
      Done (row_by_parts (vparts c) (vcell (buf im) (stride im) ws b maxv) (scell (buf im) (stride im) ws b maxv) (length d))).
    { unfold u16_column_fixed, vparts. destruct (avx2 (base_cpu c)).
      - now apply vertical_avx_u16lb_closed.
      - rewrite orb_false_r in EV. rewrite EV. now apply vertical_sse_u16lb_closed. }
    rewrite K. f_equal. unfold row_by_parts. rewrite Ld. apply map_ext_in. intros j Hj. apply in_seq in Hj.
    unfold u16_fixed_v. rewrite (Nat.mul_comm (j / N)), <- Nat.div_mod by lia.
    destruct (cell_is (bit_depth into) maxv fw y N im (height into) (column_read (vparts c) 0 (width into * N) j) b eq_refl ltac:(lia) N0 Eb HB HS Hy) as [C1 C2].
    fold ws in C1, C2. destruct (j <? _); [exact C1|exact C2].
Qed.

Lemma u16_fixed_hpass k c N fw pool im into :
  cn_ok N -> pool_ok pool -> good N im -> good N into -> height im = height into -> wf_fw fw (width im) (width into) ->
  1 <= bit_depth into <= 12 -> Forall (fits16 (max_colors (bit_depth into))) (buf im) ->
  sums_small (max_colors (bit_depth into)) (windows_of quant_i16 fw) (width into) ->
  x86_hconv_u16 k c N fw pool im into =
  Done (painted 0%Z N (resample_h (max_colors (bit_depth into)) (windows_of quant_i16 fw) (shown 0%Z N im)) into).
Proof.
  intros HN PO Gi Go Hh W Hd HB HS. assert (N0 : 0 < N) by (unfold cn_ok in HN; lia).
  destruct (depth_range _ Hd) as (D1 & D2 & D3).
  destruct ((N =? 4) && vectors c) eqn:EV.
  2: { assert (E1 : ((N =? 4) && avx2 (base_cpu c)) = false /\ ((N =? 4) && sse41 (base_cpu c)) = false).
    { unfold vectors in EV. destruct (N =? 4), (avx2 _), (sse41 _); cbn in EV; now auto. }
    destruct E1 as [E1 E2].
    pose proof (pf_h _ _ _ _ _ (portable_forms k N (bit_depth into) HN) fw pool im into PO Gi Go Hh W eq_refl) as PF.
    unfold portable_engine, u16_h in PF. cbn [hconv dflt] in PF. rewrite D2 in PF.
    unfold x86_hconv_u16, u16_rows4_fixed, u16_row_fixed. cbv zeta. rewrite D2, E1, E2. etransitivity; [exact PF|].
    f_equal. apply painted_ext; auto. intros y x ch Hy Hx Hc. apply (pass_h_small _ _ (width into)); auto.
    intros. apply shown_fits; [lia|exact HB]. }
  apply andb_true_iff in EV. destruct EV as [EN EV]. apply Nat.eqb_eq in EN. subst N. clear HN.
  pose proof (good_stride_pos 4 im N0 Gi) as Si. pose proof (good_stride_pos 4 into N0 Go) as So.
  unfold x86_hconv_u16. cbv zeta. rewrite D2. rewrite (numerical_approximation_qfw quant_i16 fw _ _ W). cbn [bind].
  pose proof (qfw_wf quant_i16 fw _ _ W) as W'.
  set (maxv := max_colors (bit_depth into)) in *. set (fz := qfw quant_i16 fw) in *. set (d := bit_depth into) in *.
  assert (K4 : forall src ss dst ds, width im * 4 <= ss -> width into * 4 <= ds -> length src = 4 * ss -> length dst = 4 * ds ->
    u16_rows4_fixed c 4 d src ss dst ds fz =
    Done (urow_of 0%Z (uval d) fz (width into) (chunk ss src 0) (chunk ds dst 0) ++ urow_of 0%Z (uval d) fz (width into) (chunk ss src 1) (chunk ds dst 1) ++
          urow_of 0%Z (uval d) fz (width into) (chunk ss src 2) (chunk ds dst 2) ++ urow_of 0%Z (uval d) fz (width into) (chunk ss src 3) (chunk ds dst 3))).
  { intros src ss dst ds H1 H2 H3 H4. unfold u16_rows4_fixed, vectors in *. cbn [Nat.eqb andb]. destruct (avx2 (base_cpu c)).
    - apply (urow4_closed 0%Z _ _ (avx_pixel_ok four_row_permute d (or_introl eq_refl)) (uval_is_local d) fz (width im)); auto.
    - rewrite orb_false_r in EV. rewrite EV. cbn [andb]. rewrite D1.
      apply (urow4_closed 0%Z _ _ (sse_pixel_ok d) (uval_is_local d) fz (width im)); auto. }
  assert (K1 : forall src dst, width im * 4 <= length src -> width into * 4 <= length dst ->
    u16_row_fixed c 4 d src dst fz = Done (urow_of 0%Z (uval d) fz (width into) src dst)).
  { intros src dst H1 H2. unfold u16_row_fixed, vectors in *. cbn [Nat.eqb andb]. destruct (avx2 (base_cpu c)).
    - apply (urow_closed 0%Z _ _ (avx_pixel_ok one_row_permute d (or_intror eq_refl)) (uval_is_local d) fz (width im)); auto.
    - rewrite orb_false_r in EV. rewrite EV. cbn [andb].
      apply (urow_closed 0%Z _ _ (sse_pixel_ok d) (uval_is_local d) fz (width im)); auto. }
  rewrite (horizontal_dispatch_closed 4 _ _ (urow_of 0%Z (uval d) fz (width into)) pool im into (stride im) (stride into) (height into));
    auto using good_stride_of.
  - f_equal. unfold painted. apply set_buf_ext.
    rewrite <- (pixmap_rows 0%Z (height into) (stride into) (width into * 4)) by
      (try apply (g_stride _ _ Go); try apply (g_len _ _ Go); lia).
    f_equal. apply map_seq_ext. intros y Hy. apply rowmap_ext. intros j Hj.
    pose proof (wf_nth fw _ _ (j / 4) W ltac:(apply Nat.div_lt_upper_bound; lia)) as Wx. cbv zeta in Wx.
    pose proof (Nat.mod_upper_bound j 4 ltac:(lia)). pose proof (g_stride _ _ Gi).
    set (Wn := windows_of quant_i16 fw) in *.
    unfold upx, uval, hsum. unfold resample_h.
    assert (F : forall q, (0 <= shown 0%Z 4 im y q (j mod 4) <= maxv)%Z) by (intro; apply (shown_fits maxv); [lia|exact HB]).
    assert (A : (Z.abs (zsum (wsize Wn (j / 4)) (fun k => wcoef Wn (j / 4) k * shown 0%Z 4 im y (wstart Wn (j / 4) + k)%nat (j mod 4))) + 2 ^ 14 < 2 ^ 30)%Z).
    { apply (small_sum maxv Wn (width into) (j / 4)); auto. apply Nat.div_lt_upper_bound; lia. }
    rewrite (zsum_ext _ _ (fun k => wcoef Wn (j / 4) k * shown 0%Z 4 im y (wstart Wn (j / 4) + k)%nat (j mod 4))%Z).
    + apply narrow_simd; [exact A|fold maxv; lia].
    + intros k0 Hk. cbn [fz qfw bounds weights aligned_size] in *.
      change (nth (j / 4 * aligned_size fw + k0) (map quant_i16 (weights fw)) 0%Z) with (wcoef Wn (j / 4) k0).
      unfold Wn at 1. rewrite s16_coef. fold Wn.
      rewrite nth_chunk by nia.
      change (nth (y * stride im + ((bstart (nth (j / 4) (bounds fw) (mkBound 0 0)) + k0) * 4 + j mod 4)) (buf im) 0%Z)
        with (shown 0%Z 4 im y (wstart Wn (j / 4) + k0) (j mod 4)).
      rewrite s16_small by (specialize (F (wstart Wn (j / 4) + k0)); unfold i16; lia). ring.
  - rewrite (g_len _ _ Gi). now rewrite Hh.
  - apply (g_len _ _ Go).
  - intros s d' Ls Ld. apply K1; [rewrite Ls; apply (g_stride _ _ Gi)|rewrite Ld; apply (g_stride _ _ Go)].
  - intros s d' Ls Ld. apply K4; auto; [apply (g_stride _ _ Gi)|apply (g_stride _ _ Go)].
Qed.

(** ** More than 12 bits *)
Lemma accumulate_ext (madd : f32 -> f32 -> f32 -> f32) n x w x' w' a :
  (forall k, k < n -> x k = x' k /\ w k = w' k) -> accumulate_from madd 0 n x w a = accumulate_from madd 0 n x' w' a.
Proof.
  intros H. unfold accumulate_from.
  assert (G : forall l a, Forall (fun k => k < n) l -> fold_left (fun a k => madd a (x k) (w k)) l a = fold_left (fun a k => madd a (x' k) (w' k)) l a).
  { induction l as [|k l IH]; intros a0 Hl; [reflexivity|]. inversion_clear Hl. cbn [fold_left]. destruct (H k) as [-> ->]; [assumption|]. now apply IH. }
  apply G. apply Forall_forall. intros k Hk. apply in_seq in Hk. lia.
Qed.

Lemma u16_float_vpass k c N fw pool im into :
  cn_ok N -> pool_ok pool -> good N im -> good N into -> width im = width into -> wf_fw fw (height im) (height into) ->
  12 < bit_depth into ->
  x86_vconv_u16 k c N fw pool im into =
  Done (painted 0%Z N (x86u_float_v k c (bit_depth into) N (width into) (taps_of f0 fw) (shown 0%Z N im)) into).
Proof.
  intros HN PO Gi Go Hw W Hd. assert (N0 : 0 < N) by (unfold cn_ok in HN; lia).
  assert (D2 : (12 <? bit_depth into) = true) by lia.
  unfold x86u_float_v.
  destruct (sse41 (base_cpu c)) eqn:EV.
  2: { pose proof (pf_v _ _ _ _ _ (portable_forms k N (bit_depth into) HN) fw pool im into PO Gi Go Hw W eq_refl) as PF.
    unfold portable_engine, u16_v in PF. cbn [vconv dflt] in PF. rewrite D2 in PF.
    unfold x86_vconv_u16, u16_column_float. cbv zeta. rewrite D2, EV. exact PF. }
  pose proof (good_stride_pos N im N0 Gi) as Si. pose proof (good_stride_pos N into N0 Go) as So.
  unfold x86_vconv_u16. cbv zeta. rewrite D2. set (d := bit_depth into) in *.
  rewrite (vertical_dispatch_closed N _ (bounds fw) (aligned_size fw) (weights fw)
    (fun y => map (fun j => u16_float_v k (has_fma c) d N (width into) (taps_of f0 fw) (shown 0%Z N im) y (j / N) (j mod N)) (seq 0 (width into * N)))
    pool im into (stride into) (height into)); auto using good_stride_of.
  - f_equal. unfold painted. apply set_buf_ext. rewrite <- (pixmap_rows 0%Z (height into) (stride into) (width into * N)) by
      (try apply (g_stride _ _ Go); try apply (g_len _ _ Go); lia).
    reflexivity.
  - apply (g_stride _ _ Go).
  - apply (g_len _ _ Go).
  - apply (wf_blen _ _ _ W).
  - rewrite (wf_wlen _ _ _ W). lia.
  - intros y b dd Hb Hy Ld.
    assert (Eb : nth y (bounds fw) (mkBound 0 0) = b) by (now apply nth_error_nth).
    destruct (wf_win _ _ _ W y b Hb) as (B1 & B2 & B3).
    split; [|now rewrite map_length, seq_length].
    rewrite (good_stride_of N im N0 Gi). unfold u16_column_float. rewrite EV.
    rewrite vertical_sse_u16_closed.
    + f_equal. unfold row_by_parts. rewrite Ld. apply map_ext_in. intros j Hj. apply in_seq in Hj.
      unfold u16_float_v. cbv zeta. rewrite (Nat.mul_comm (j / N)), <- Nat.div_mod by lia.
      set (q := column_read sse_parts 0 (width into * N) j).
      unfold fvcell, fscell, fsum. cbn [taps_of tsize tstart tweight]. rewrite Eb.
      assert (X : forall i, nth (stride im * (bstart b + i) + q) (buf im) 0%Z = flat N (shown 0%Z N im) (bstart b + i) q).
      { intro i. unfold flat, shown. f_equal. pose proof (Nat.div_mod q N ltac:(lia)). lia. }
      destruct (j <? _); f_equal; apply accumulate_ext; intros i Hi; rewrite ?X, ?nth_skipn; auto.
    + rewrite skipn_length, (wf_wlen _ _ _ W). nia.
    + intros i Hi. rewrite Ld, <- Hw, (g_len _ _ Gi). pose proof (g_stride _ _ Gi). nia.
Qed.

Lemma rowmap_twice {T} n (v v' : nat -> T) d : n <= length d -> rowmap n v (rowmap n v' d) = rowmap n v d.
Proof.
  intro H. unfold rowmap. f_equal. rewrite skipn_app, map_length, seq_length, skipn_all2 by (rewrite map_length, seq_length; lia).
  now rewrite Nat.sub_diag.
Qed.
Lemma chunk_four {T} n (a b c d : list T) : length a = n -> length b = n -> length c = n -> length d = n ->
  chunk n (a ++ b ++ c ++ d) 0 = a /\ chunk n (a ++ b ++ c ++ d) 1 = b /\ chunk n (a ++ b ++ c ++ d) 2 = c /\ chunk n (a ++ b ++ c ++ d) 3 = d.
Proof.
  intros Ha Hb Hc Hd.
  assert (S : forall l r : list T, length l = n -> skipn n (l ++ r) = r).
  { intros l r H. rewrite skipn_app, skipn_all2 by lia. replace (n - length l) with 0 by lia. reflexivity. }
  assert (F : forall l r : list T, length l = n -> firstn n (l ++ r) = l).
  { intros l r H. rewrite firstn_app, firstn_all2 by lia. replace (n - length l) with 0 by lia. now rewrite app_nil_r. }
  unfold chunk. replace (3 * n) with (n + (n + n)) by lia. replace (2 * n) with (n + n) by lia. rewrite Nat.mul_1_l.
  cbn [Nat.mul skipn]. rewrite <- !skipn_skipn_add, !S by assumption.
  repeat split; try (apply F; assumption). rewrite <- Hd. apply firstn_all.
Qed.

Lemma u16_float_hpass k c N fw pool im into :
  cn_ok N -> pool_ok pool -> good N im -> good N into -> height im = height into -> wf_fw fw (width im) (width into) ->
  12 < bit_depth into ->
  x86_hconv_u16 k c N fw pool im into =
  Done (painted 0%Z N (x86u_float_h k c (bit_depth into) N (height into) (taps_of f0 fw) (shown 0%Z N im)) into).
Proof.
  intros HN PO Gi Go Hh W Hd. assert (N0 : 0 < N) by (unfold cn_ok in HN; lia).
  assert (D2 : (12 <? bit_depth into) = true) by lia.
  destruct ((N =? 4) && sse41 (base_cpu c)) eqn:EV.
  2: { pose proof (pf_h _ _ _ _ _ (portable_forms k N (bit_depth into) HN) fw pool im into PO Gi Go Hh W eq_refl) as PF.
    unfold portable_engine, u16_h in PF. cbn [hconv dflt] in PF. rewrite D2 in PF.
    unfold x86_hconv_u16, u16_rows4_float, u16_row_float. cbv zeta. rewrite D2, EV. cbn [bind]. etransitivity; [exact PF|].
    f_equal. apply painted_ext; auto. intros y x ch _ _ _. unfold x86u_float_h. now rewrite EV. }
  assert (EB := EV). apply andb_true_iff in EB. destruct EB as [EN ES]. apply Nat.eqb_eq in EN. subst N. cbn [Nat.eqb andb] in EV.
  pose proof (good_stride_pos 4 im N0 Gi) as Si. pose proof (good_stride_pos 4 into N0 Go) as So.
  pose proof (g_stride _ _ Gi) as Wi. pose proof (g_stride _ _ Go) as Wo.
  unfold x86_hconv_u16. cbv zeta. rewrite D2. set (d := bit_depth into) in *.
  set (r4 := fun (s dd : list Z) => rowmap (width into * 4)
    (fun j => fhval f0 fmul (mlaf k) u16_as_f32 (to_mixed_u16 d) 4 fw f0 (fun i => nth i s 0%Z) (j / 4) (j mod 4)) dd).
  rewrite (horizontal_dispatch_two 4 _ _ r4 (urow_of f0 (fuval (has_fma c) d) fw (width into)) pool im into (stride im) (stride into) (height into));
    auto using good_stride_of.
  - f_equal. unfold painted. apply set_buf_ext.
    rewrite <- (pixmap_rows 0%Z (height into) (stride into) (width into * 4)) by
      (try apply (g_stride _ _ Go); try apply (g_len _ _ Go); lia).
    f_equal. apply map_seq_ext. intros y Hy.
    assert (Ch : forall j i, j < width into * 4 -> i < bsize (nth (j / 4) (bounds fw) (mkBound 0 0)) ->
        nth ((bstart (nth (j / 4) (bounds fw) (mkBound 0 0)) + i) * 4 + j mod 4) (chunk (stride im) (buf im) y) 0%Z =
        shown 0%Z 4 im y (bstart (nth (j / 4) (bounds fw) (mkBound 0 0)) + i) (j mod 4)).
    { intros j i Hj Hi. pose proof (wf_nth fw _ _ (j / 4) W ltac:(apply Nat.div_lt_upper_bound; lia)) as Wx. cbv zeta in Wx.
      pose proof (Nat.mod_upper_bound j 4 ltac:(lia)). unfold shown. rewrite nth_chunk by nia. reflexivity. }
    unfold x86u_float_h. rewrite ES. cbn [Nat.eqb andb].
    destruct (y <? 4 * (height into / 4)) eqn:Ey.
    + replace (4 * (height into / 4) <=? y) with false by lia. apply rowmap_ext. intros j Hj.
      unfold fhval, float_h. cbn [taps_of tsize tstart tweight]. f_equal.
      apply (weighted_ext f0 fmul (mlaf k) (fun v : f32 => v) (fun v : f32 => v) f0). intros i Hi. split; [f_equal; now apply Ch|reflexivity].
    + replace (4 * (height into / 4) <=? y) with true by lia. apply rowmap_ext. intros j Hj.
      pose proof (wf_nth fw _ _ (j / 4) W ltac:(apply Nat.div_lt_upper_bound; lia)) as Wx. cbv zeta in Wx.
      unfold upx, fuval, u16_float_row. cbn [taps_of tsize tstart tweight]. do 2 f_equal. apply ordered_ext. intros i Hi.
      split; [|reflexivity]. f_equal. apply Ch; [exact Hj|]. apply tap_read_below. apply (tap_order_below _ i); [lia|exact Hi].
  - rewrite (g_len _ _ Gi). now rewrite Hh.
  - apply (g_len _ _ Go).
  - intros s dd Ls Ld. unfold u16_row_float. cbn [Nat.eqb andb]. rewrite ES.
    apply (urow_closed f0 _ _ (deep_pixel_ok (has_fma c) d) (fuval_is_local (has_fma c) d) fw (width im)); auto; lia.
  - intros s dd Ls Ld. unfold u16_rows4_float. cbn [Nat.eqb andb]. rewrite ES.
    set (u := fun r => urow_of f0 (fuval (has_fma c) d) fw (width into) (chunk (stride im) s r) (chunk (stride into) dd r)).
    assert (U4 : urow4 (rgba_sse_u16 (has_fma c) d) s (stride im) dd (stride into) fw = Done (u 0 ++ u 1 ++ u 2 ++ u 3)).
    { apply (urow4_closed f0 _ _ (deep_pixel_ok (has_fma c) d) (fuval_is_local (has_fma c) d) fw (width im) (width into)); assumption. }
    rewrite U4. cbn [bind].
    assert (Lc : forall r, r < 4 -> length (chunk (stride into) dd r) = stride into).
    { intros r Hr. unfold chunk. rewrite firstn_length, skipn_length. nia. }
    assert (Lu : forall r, r < 4 -> length (u r) = stride into).
    { intros r Hr. unfold u, urow_of. rewrite rowmap_length; rewrite Lc by assumption; [reflexivity|exact Wo]. }
    destruct (chunk_four (stride into) (u 0) (u 1) (u 2) (u 3)) as (U0 & U1 & U2 & U3); try (apply Lu; lia).
    pose proof (frow_handler_4_closed f0 fmul (mlaf k) u16_as_f32 (to_mixed_u16 d) 0%Z 4 fw f0 (width im) (width into) s (stride im)
      (u 0 ++ u 1 ++ u 2 ++ u 3) (stride into) HN W Wi Wo Ls ltac:(rewrite !app_length, !Lu by lia; lia)) as R4.
    cbv beta zeta in R4. rewrite U0, U1, U2, U3 in R4. etransitivity; [exact R4|].
    unfold u, r4, urow_of. rewrite !rowmap_twice by (rewrite Lc by lia; exact Wo). reflexivity.
Qed.

(** ** Calls *)
Section Call.
Variables (k : mlaf_kind) (c : fcpu) (L : libm) (f : resampling_function) (N : nat).
Variables (pool : pool_t) (store into : image Z).
Let E := x86_engine_u16 k c L f N (fun _ _ _ => Panic) (fun _ _ => Panic) (fun _ => Panic).
Lemma u16_is_generic : resize_u16_x86 k c L f N pool store into = generic_resize N E pool store into.
Proof. unfold resize_u16_x86. destruct (N =? 4); [apply with_alpha_off|reflexivity]. Qed.

Hypothesis V : valid_call N true f store into.
Hypothesis HP : pool_ok pool.
Hypothesis Hf : f <> Nearest.
Hypothesis Hd : changes_size store into.
Let fl := resampling_filter L f.
Let cnN : cn_ok N. Proof. unfold cn_ok. pose proof (vc_N _ _ _ _ _ V). lia. Qed.
Let near : is_nearest E = false. Proof. unfold E, x86_engine_u16, wants_nearest. cbn [is_nearest]. destruct f; congruence || reflexivity. Qed.

Theorem u16_low_call : bit_depth into <= 12 -> samples_in (max_colors (bit_depth into)) (buf store) ->
  sums_small (max_colors (bit_depth into)) (filter_windows fl (height store) (height into)) (height into) ->
  sums_small (max_colors (bit_depth into)) (filter_windows fl (width store) (width into)) (width into) ->
  resize_u16_x86 k c L f N pool store into =
  Returned Ok (painted 0%Z N (x86u_low c N (width store) (height store) (width into) (height into) (max_colors (bit_depth into))
    (filter_windows fl (height store) (height into)) (filter_windows fl (width store) (width into)) (shown 0%Z N store)) into).
Proof.
  intros Hb HI SV SH. rewrite u16_is_generic. pose proof (valid_sane L V) as S1. destruct (valid_good V) as (Gs & Gi).
  pose proof (vc_N _ _ _ _ _ V) as HN. pose proof (vc_depth _ _ _ _ _ V eq_refl) as HD.
  destruct (depth_range (bit_depth into) ltac:(lia)) as (D1 & D2 & D3).
  set (maxv := max_colors (bit_depth into)) in *.
  set (VW := filter_windows fl (height store) (height into)) in *. set (HW := filter_windows fl (width store) (width into)) in *.
  rewrite (driver_on N E (fits16 maxv) (x86u_v c N (width store) maxv VW) (resample_h maxv HW) pool store into); try assumption; try lia.
  - f_equal. apply painted_ext; auto; [lia|]. intros. unfold both, x86u_low, u16_two_passes. cbn [E x86_engine_u16 dflt].
    destruct (height store =? height into), (width store =? width into); reflexivity.
  - apply (sane_checks S1).
  - apply (sc_mid _ _ _ _ _ S1).
  - cbn. unfold fits16. lia.
  - intros Eh dst Gd Wd Hh Bd. unfold E, x86_engine_u16. cbn [vconv gen dflt].
    rewrite u16_fixed_vpass; auto; rewrite ?Hh, ?Bd; auto; try lia.
    + rewrite Wd. reflexivity.
    + apply (sane_wf_v S1).
  - intros y x ch. unfold fits16, x86u_v, u16_fixed_v, resample_v, round_q15, floor_q15, clampZ. destruct (vectors c); lia.
  - intros Ew im (Gm & Wm & Hm & Bm). unfold E, x86_engine_u16. cbn [hconv gen dflt].
    rewrite u16_fixed_hpass; auto; rewrite ?Wm; auto; try lia. apply (sane_wf_h S1).
  - intros p q y x ch Hx Hy Hc Hpq. unfold resample_h. f_equal. apply zsum_ext. intros i Hi. f_equal. apply Hpq; [exact Hy|].
    destruct (filter_windows_in _ _ _ x (sane_wf_h S1) Hx) as (Q1 & Q2). fold fl in Q1, Q2. fold HW in Q1, Q2. lia.
Qed.

Theorem u16_deep_call : 12 < bit_depth into ->
  resize_u16_x86 k c L f N pool store into =
  Returned Ok (painted 0%Z N (x86u_deep k c (bit_depth into) N (width store) (height store) (width into) (height into)
    (filter_taps fl (height store) (height into)) (filter_taps fl (width store) (width into)) (shown 0%Z N store)) into).
Proof.
  intros Hb. rewrite u16_is_generic. pose proof (valid_sane L V) as S1. destruct (valid_good V) as (Gs & Gi).
  pose proof (vc_N _ _ _ _ _ V) as HN.
  set (d := bit_depth into) in *.
  set (VW := filter_taps fl (height store) (height into)) in *. set (HW := filter_taps fl (width store) (width into)) in *.
  rewrite (driver_on N E (fun _ => True) (x86u_float_v k c d N (width store) VW) (x86u_float_h k c d N (height into) HW) pool store into); try assumption; try lia.
  - f_equal. apply painted_ext; auto; [lia|]. intros. unfold both, x86u_deep, u16_two_passes. cbn [E x86_engine_u16 dflt].
    destruct (height store =? height into), (width store =? width into); reflexivity.
  - apply (sane_checks S1).
  - apply (sc_mid _ _ _ _ _ S1).
  - apply Forall_forall. auto.
  - intros Eh dst Gd Wd Hh Bd. unfold E, x86_engine_u16. cbn [vconv gen dflt].
    rewrite u16_float_vpass; auto; rewrite ?Hh, ?Bd; auto; try lia.
    + rewrite Wd. reflexivity.
    + apply (sane_wf_v S1).
  - intros Ew im (Gm & Wm & Hm & Bm). unfold E, x86_engine_u16. cbn [hconv gen dflt].
    rewrite u16_float_hpass; auto; rewrite ?Wm; auto; try lia. apply (sane_wf_h S1).
  - intros p q y x ch Hx Hy Hc Hpq. pose proof (wf_nth _ _ _ x (sane_wf_h S1) Hx) as Wx. cbv zeta in Wx. fold fl in Wx.
    assert (X : forall i, i < tsize HW x -> p y (tstart HW x + i) ch = q y (tstart HW x + i) ch).
    { intros i Hi. apply Hpq; [exact Hy|]. unfold HW, filter_taps in *. cbn [taps_of tsize tstart] in *. lia. }
    assert (X1 : 1 <= tsize HW x) by (unfold HW, filter_taps; cbn [taps_of tsize]; lia).
    unfold x86u_float_h. destruct (_ && _ && _).
    + unfold u16_float_row. do 2 f_equal. apply ordered_ext. intros i Hi. split; [|reflexivity]. f_equal. apply X.
      apply tap_read_below. apply (tap_order_below _ i); [lia|exact Hi].
    + unfold float_h. f_equal. apply (weighted_ext f0 fmul (mlaf k) (fun v : f32 => v) (fun v : f32 => v) f0). intros i Hi. split; [f_equal; now apply X|reflexivity].
Qed.
End Call.

(** ** Errors and thread pools *)
Lemma nfu_loadw n m o : nofail (loadw n m o). Proof. unfold loadw. nf. Qed.
Lemma nfu_storew d o v : nofail (storew d o v). Proof. unfold storew. nf. Qed.
Lemma nfu_load256w m o : nofail (load256w m o). Proof. unfold load256w. repeat first [apply nfu_loadw | progress nf]. Qed.
Ltac nfu := repeat first [ apply nfu_loadw | apply nfu_storew | apply nfu_load256w | apply nf_ftaps; intros | progress nfx ].
Lemma nfu_rows {A} (g : nat -> outcome A) l : (forall i, nofail (g i)) -> nofail (seqM (map g l)).
Proof. intro H. apply nf_seqM. apply Forall_forall. intros o Ho. apply in_map_iff in Ho. destruct Ho as (i & <- & _). apply H. Qed.
Lemma nfu_vblocks B vals cx dst : (forall v, nofail (vals v)) -> nofail (vblocks B vals cx dst).
Proof. intro H. unfold vblocks. repeat first [apply H | progress nfu]. Qed.
Lemma nfu_vsingles vals cx dst : (forall v, nofail (vals v)) -> nofail (vsingles vals cx dst).
Proof. intro H. unfold vsingles. repeat first [apply H | progress nfu]. Qed.
Ltac nfc := repeat first [ apply nfu_vblocks; intros | apply nfu_vsingles; intros | apply nfu_rows; intros | progress nfu ].
Lemma nfu_v1 src ss ws b m q v : nofail (column_sse src ss ws b m q v). Proof. unfold column_sse. nfc. Qed.
Lemma nfu_v2 src ss ws b m q v : nofail (column_avx src ss ws b m q v). Proof. unfold column_avx. nfc. Qed.
Lemma nfu_v3 src ss ws b m v : nofail (column_avx8 src ss ws b m v). Proof. unfold column_avx8. nfc. Qed.
Lemma nfu_v4 src ss ws b m v : nofail (column_4 src ss ws b m v). Proof. unfold column_4. nfc. Qed.
Lemma nfu_v5 src ss ws b m v : nofail (column_1 src ss ws b m v). Proof. unfold column_1. nfc. Qed.
Lemma nfu_v6 fma src ss ws b d q v : nofail (fcolumn_sse fma src ss ws b d q v). Proof. unfold fcolumn_sse. nfc. Qed.
Lemma nfu_v7 fma src ss ws b d v : nofail (fcolumn_4 fma src ss ws b d v). Proof. unfold fcolumn_4. nfc. Qed.
Lemma nfu_v8 k src ss ws b d v : nofail (fcolumn_1 k src ss ws b d v). Proof. unfold fcolumn_1. nfc. Qed.
Ltac nfd := repeat first [ apply nfu_v1 | apply nfu_v2 | apply nfu_v3 | apply nfu_v4 | apply nfu_v5 | apply nfu_v6 | apply nfu_v7 | apply nfu_v8 | progress nfc ].
Lemma nfu_column_fixed c d b src dst ss ws : nofail (u16_column_fixed c d b src dst ss ws).
Proof.
  unfold u16_column_fixed. destruct (avx2 _); [unfold vertical_avx_u16lb; cbv zeta; destruct (depth_ok d); [|apply nofail_Panic]; nfd|].
  destruct (sse41 _); [unfold vertical_sse_u16lb; cbv zeta; destruct (depth_ok d); [|apply nofail_Panic]; nfd|]. apply nf_column_handler.
Qed.
Lemma nfu_column_float k c d b src dst ss ws : nofail (u16_column_float k c d b src dst ss ws).
Proof. unfold u16_column_float. destruct (sse41 _); [unfold vertical_sse_u16; nfd|apply nf_fcolumn_handler]. Qed.
Lemma nfu_urow {U} (px : upixel U) s d fw : (forall s b w, nofail (px s b w)) -> nofail (urow px s d fw).
Proof. intro H. unfold urow. repeat first [apply H | progress nfu]. Qed.
Lemma nfu_urow4 {U} (px : upixel U) s ss d ds fw : (forall s b w, nofail (px s b w)) -> nofail (urow4 px s ss d ds fw).
Proof. intro H. unfold urow4. repeat first [apply H | apply nf_split | apply nf_slice_from | progress nfu]. Qed.
Lemma nfu_p1 d s b w : nofail (rgba_sse_u16lb d s b w). Proof. unfold rgba_sse_u16lb. cbv zeta. nfu. Qed.
Lemma nfu_p2 q d s b w : nofail (rgba_avx_u16lb q d s b w). Proof. unfold rgba_avx_u16lb. cbv zeta. nfu. Qed.
Lemma nfu_p3 fma d s b w : nofail (rgba_sse_u16 fma d s b w). Proof. unfold rgba_sse_u16. cbv zeta. nfu. Qed.
Lemma nfu_rows4_fixed c N d s ss dst ds fw : nofail (u16_rows4_fixed c N d s ss dst ds fw).
Proof.
  unfold u16_rows4_fixed. destruct (_ && _); [apply nfu_urow4; intros; apply nfu_p2|].
  destruct (_ && _); [destruct (depth_ok d); [apply nfu_urow4; intros; apply nfu_p1|apply nofail_Panic]|apply nf_row_handler_4].
Qed.
Lemma nfu_row_fixed c N d s dst fw : nofail (u16_row_fixed c N d s dst fw).
Proof.
  unfold u16_row_fixed. destruct (_ && _); [apply nfu_urow; intros; apply nfu_p2|].
  destruct (_ && _); [apply nfu_urow; intros; apply nfu_p1|apply nf_row_handler].
Qed.
Lemma nfu_rows4_float k c N d s ss dst ds fw : nofail (u16_rows4_float k c N d s ss dst ds fw).
Proof.
  unfold u16_rows4_float. apply nofail_bind; [|intros; apply nf_frow_handler_4].
  destruct (_ && _); [apply nfu_urow4; intros; apply nfu_p3|apply nofail_Done].
Qed.
Lemma nfu_row_float k c N d s dst fw : nofail (u16_row_float k c N d s dst fw).
Proof. unfold u16_row_float. destruct (_ && _); [apply nfu_urow; intros; apply nfu_p3|apply nf_frow_handler]. Qed.

Lemma hdispatch_pool {T} N k4 k1 p (im into : image T) : pool_ok p -> (forall s ss d ds, nofail (k4 s ss d ds)) -> (forall s d, nofail (k1 s d)) ->
  horizontal_dispatch N k4 k1 p im into = horizontal_dispatch N k4 k1 None im into.
Proof.
  intros HP H4 H1. unfold horizontal_dispatch.
  destruct (chunks_exact_o (stride_of N into * 4) (buf into)) as [d4| |]; cbn [bind]; auto.
  destruct (chunks_exact_o (stride_of N im * 4) (buf im)) as [s4| |]; cbn [bind]; auto.
  rewrite (for_each_any p) by (auto; intros; apply H4).
  destruct (for_each None _ _ _ _) as [d4'| |]; cbn [bind]; auto.
  destruct (chunks_exact_o (stride_of N into) _) as [d1| |]; cbn [bind]; auto.
  destruct (chunks_exact_o (stride_of N im) _) as [s1| |]; cbn [bind]; auto.
  rewrite (for_each_any p) by (auto; intros; apply H1). reflexivity.
Qed.
Lemma hdispatch_nofail {T} N k4 k1 p (im into : image T) : (forall s ss d ds, nofail (k4 s ss d ds)) -> (forall s d, nofail (k1 s d)) ->
  nofail (horizontal_dispatch N k4 k1 p im into).
Proof. intros H4 H1. unfold horizontal_dispatch. repeat first [apply H4 | apply H1 | progress nf]. Qed.
Lemma vdispatch_pool {T W} N kc bs al (ws : list W) p (im into : image T) : pool_ok p -> (forall b s d ss w, nofail (kc b s d ss w)) ->
  vertical_dispatch N kc bs al ws p im into = vertical_dispatch N kc bs al ws None im into.
Proof.
  intros HP H. unfold vertical_dispatch. destruct (chunks_exact_o _ _) as [rows| |]; cbn [bind]; auto.
  rewrite (for_each_any p); auto. intros d y. repeat first [apply H | progress nf].
Qed.
Lemma vdispatch_nofail {T W} N kc bs al (ws : list W) p (im into : image T) : (forall b s d ss w, nofail (kc b s d ss w)) ->
  nofail (vertical_dispatch N kc bs al ws p im into).
Proof. intro H. unfold vertical_dispatch. repeat first [apply H | progress nf]. Qed.

Section Engine.
Variables (k : mlaf_kind) (c : fcpu) (L : libm) (f : resampling_function) (N : nat).
Variables (pre : pool_t -> image Z -> image Z -> outcome (image Z))
  (un : pool_t -> image Z -> outcome (image Z)) (need : image Z -> outcome bool).
Notation EN := (x86_engine_u16 k c L f N pre un need).
Lemma x86u_nofail : passes_nofail EN.
Proof.
  constructor; intros; cbn [x86_engine_u16 vconv hconv]; unfold x86_vconv_u16, x86_hconv_u16; cbv zeta; destruct (12 <? _).
  - apply vdispatch_nofail. intros. apply nfu_column_float.
  - apply nofail_bind; [apply nf_numapprox|]. intro. apply vdispatch_nofail. intros. apply nfu_column_fixed.
  - apply hdispatch_nofail; intros; [apply nfu_rows4_float|apply nfu_row_float].
  - apply nofail_bind; [apply nf_numapprox|]. intro. apply hdispatch_nofail; intros; [apply nfu_rows4_fixed|apply nfu_row_fixed].
Qed.
Lemma x86u_pool_blind : pool_blind EN.
Proof.
  constructor; intros; cbn [x86_engine_u16 vconv hconv]; unfold x86_vconv_u16, x86_hconv_u16; cbv zeta; destruct (12 <? _).
  - apply vdispatch_pool; auto. intros. apply nfu_column_float.
  - destruct (numerical_approximation _ _ _); cbn [bind]; auto. apply vdispatch_pool; auto. intros. apply nfu_column_fixed.
  - apply hdispatch_pool; auto; intros; [apply nfu_rows4_float|apply nfu_row_float].
  - destruct (numerical_approximation _ _ _); cbn [bind]; auto. apply hdispatch_pool; auto; intros; [apply nfu_rows4_fixed|apply nfu_row_fixed].
Qed.
End Engine.

(** When no pass runs, or no vector unit is there, the call is the portable one. *)
Lemma no_pass_ext {T F} N (E E' : engine T F) pool (store into : image T) :
  needs_depth E = needs_depth E' -> is_nearest E = is_nearest E' -> coord E = coord E' ->
  is_nearest E = true \/ (width store = width into /\ height store = height into) ->
  generic_resize N E pool store into = generic_resize N E' pool store into.
Proof.
  intros En Ei Ec H. unfold generic_resize. rewrite En, Ec.
  apply try_ext. intros _. destruct (_ && _) eqn:Es; [reflexivity|].
  destruct H as [H|[Hw Hh]]; [|rewrite Hw, Hh, !Nat.eqb_refl in Es; discriminate].
  rewrite <- Ei, H. reflexivity.
Qed.
Lemma u16_no_pass k c L f N pool store into : f = Nearest \/ (width store = width into /\ height store = height into) ->
  resize_u16_x86 k c L f N pool store into = resize_u16 k L f N pool store into.
Proof.
  intro H. rewrite u16_is_generic. unfold resize_u16. apply no_pass_ext; try reflexivity.
  destruct H as [-> |H]; [left; reflexivity|now right].
Qed.
Lemma u16_no_vectors k c L f N pool store into : vectors c = false ->
  resize_u16_x86 k c L f N pool store into = resize_u16 k L f N pool store into.
Proof.
  intro H. unfold vectors in H. apply orb_false_iff in H. destruct H as [H1 H2].
  rewrite u16_is_generic. unfold resize_u16. apply engine_ext; try reflexivity; intros; cbn [x86_engine_u16 engine_u16 vconv hconv].
  - unfold x86_vconv_u16, vconv_u16, u16_column_float, u16_column_fixed. cbv zeta. rewrite H1, H2. reflexivity.
  - unfold x86_hconv_u16, hconv_u16, u16_rows4_float, u16_row_float, u16_rows4_fixed, u16_row_fixed. cbv zeta. rewrite H1, H2, !andb_false_r. reflexivity.
Qed.

(** ** Every valid call paints the destination, whatever the samples *)
Lemma u16_vpass_any k c N fw pool im into :
  cn_ok N -> pool_ok pool -> good N im -> good N into -> width im = width into -> wf_fw fw (height im) (height into) ->
  1 <= bit_depth into <= 16 -> exists P, x86_vconv_u16 k c N fw pool im into = Done (painted 0%Z N P into).
Proof.
  intros HN PO Gi Go Hw W Hd. assert (N0 : 0 < N) by (unfold cn_ok in HN; lia).
  destruct (12 <? bit_depth into) eqn:D2; [eexists; apply u16_float_vpass; auto; lia|].
  destruct (depth_range (bit_depth into) ltac:(lia)) as (D1 & _ & D3).
  destruct (vectors c) eqn:EV; unfold vectors in EV.
  2: { apply orb_false_iff in EV. destruct EV as [E1 E2].
    pose proof (pf_v _ _ _ _ _ (portable_forms k N (bit_depth into) HN) fw pool im into PO Gi Go Hw W eq_refl) as PF.
    unfold portable_engine, u16_v in PF. cbn [vconv dflt] in PF. rewrite D2 in PF.
    unfold x86_vconv_u16, u16_column_fixed. cbv zeta. rewrite D2, E1, E2. eexists. exact PF. }
  pose proof (good_stride_pos N im N0 Gi) as Si. pose proof (good_stride_pos N into N0 Go) as So.
  unfold x86_vconv_u16. cbv zeta. rewrite D2. rewrite (numerical_approximation_qfw quant_i16 fw _ _ W). cbn [bind weights qfw].
  set (maxv := max_colors (bit_depth into)) in *.
  set (val := fun y => let b := nth y (bounds fw) (mkBound 0 0) in let ws := skipn (y * aligned_size fw) (map quant_i16 (weights fw)) in
    row_by_parts (vparts c) (vcell (buf im) (stride im) ws b maxv) (scell (buf im) (stride im) ws b maxv) (width into * N)).
  assert (Lv : forall y, length (val y) = width into * N) by (intro; unfold val, row_by_parts; cbv zeta; now rewrite map_length, seq_length).
  exists (fun y x ch => nth (x * N + ch) (val y) 0%Z).
  rewrite (vertical_dispatch_closed N _ (bounds fw) (aligned_size fw) (map quant_i16 (weights fw)) val pool im into (stride into) (height into));
    auto using good_stride_of.
  - f_equal. unfold painted. apply set_buf_ext. rewrite <- (pixmap_rows 0%Z (height into) (stride into) (width into * N)) by
      (try apply (g_stride _ _ Go); try apply (g_len _ _ Go); lia).
    f_equal. apply map_seq_ext. intros y Hy. unfold rowmap. f_equal.
    apply nth_ext with (d := 0%Z) (d' := 0%Z); [now rewrite map_length, seq_length|].
    intros j Hj. rewrite Lv in Hj. rewrite nth_map_seq by lia. cbn [Nat.add]. f_equal. rewrite Nat.mul_comm. apply Nat.div_mod. lia.
  - apply (g_stride _ _ Go).
  - apply (g_len _ _ Go).
  - apply (wf_blen _ _ _ W).
  - rewrite map_length, (wf_wlen _ _ _ W). lia.
  - intros y b d Hb Hy Ld. split; [|apply Lv].
    assert (Eb : nth y (bounds fw) (mkBound 0 0) = b) by (now apply nth_error_nth).
    destruct (wf_win _ _ _ W y b Hb) as (B1 & B2 & B3).
    rewrite (good_stride_of N im N0 Gi). unfold val. cbv zeta. rewrite Eb.
    set (ws := skipn (y * aligned_size fw) (map quant_i16 (weights fw))).
    assert (Lw : bsize b <= length ws).
    { unfold ws. rewrite skipn_length, map_length, (wf_wlen _ _ _ W). nia. }
    assert (Ls : forall i, i < bsize b -> stride im * (bstart b + i) + length d <= length (buf im)).
    { intros i Hi. rewrite Ld, <- Hw, (g_len _ _ Gi). pose proof (g_stride _ _ Gi). nia. }
    rewrite <- Ld. unfold u16_column_fixed, vparts. destruct (avx2 (base_cpu c)).
    + now apply vertical_avx_u16lb_closed.
    + rewrite orb_false_r in EV. rewrite EV. now apply vertical_sse_u16lb_closed.
Qed.
Lemma u16_hpass_any k c N fw pool im into :
  cn_ok N -> pool_ok pool -> good N im -> good N into -> height im = height into -> wf_fw fw (width im) (width into) ->
  1 <= bit_depth into <= 16 -> exists P, x86_hconv_u16 k c N fw pool im into = Done (painted 0%Z N P into).
Proof.
  intros HN PO Gi Go Hh W Hd. assert (N0 : 0 < N) by (unfold cn_ok in HN; lia).
  destruct (12 <? bit_depth into) eqn:D2; [eexists; apply u16_float_hpass; auto; lia|].
  destruct (depth_range (bit_depth into) ltac:(lia)) as (D1 & _ & D3).
  destruct ((N =? 4) && vectors c) eqn:EV.
  2: { assert (E1 : ((N =? 4) && avx2 (base_cpu c)) = false /\ ((N =? 4) && sse41 (base_cpu c)) = false).
    { unfold vectors in EV. destruct (N =? 4), (avx2 _), (sse41 _); cbn in EV; now auto. }
    destruct E1 as [E1 E2].
    pose proof (pf_h _ _ _ _ _ (portable_forms k N (bit_depth into) HN) fw pool im into PO Gi Go Hh W eq_refl) as PF.
    unfold portable_engine, u16_h in PF. cbn [hconv dflt] in PF. rewrite D2 in PF.
    unfold x86_hconv_u16, u16_rows4_fixed, u16_row_fixed. cbv zeta. rewrite D2, E1, E2. eexists. exact PF. }
  apply andb_true_iff in EV. destruct EV as [EN EV]. apply Nat.eqb_eq in EN. subst N. clear HN.
  pose proof (good_stride_pos 4 im N0 Gi) as Si. pose proof (good_stride_pos 4 into N0 Go) as So.
  unfold x86_hconv_u16. cbv zeta. rewrite D2. rewrite (numerical_approximation_qfw quant_i16 fw _ _ W). cbn [bind].
  pose proof (qfw_wf quant_i16 fw _ _ W) as W'. set (fz := qfw quant_i16 fw) in *. set (d := bit_depth into) in *.
  exists (fun y x ch => upx 0%Z (uval d) fz (chunk (stride im) (buf im) y) x ch).
  rewrite (horizontal_dispatch_closed 4 _ _ (urow_of 0%Z (uval d) fz (width into)) pool im into (stride im) (stride into) (height into));
    auto using good_stride_of.
  - f_equal. unfold painted. apply set_buf_ext.
    rewrite <- (pixmap_rows 0%Z (height into) (stride into) (width into * 4)) by
      (try apply (g_stride _ _ Go); try apply (g_len _ _ Go); lia).
    reflexivity.
  - rewrite (g_len _ _ Gi). now rewrite Hh.
  - apply (g_len _ _ Go).
  - intros s d' Ls Ld. assert (H1 : width im * 4 <= length s) by (rewrite Ls; apply (g_stride _ _ Gi)).
    assert (H2 : width into * 4 <= length d') by (rewrite Ld; apply (g_stride _ _ Go)).
    unfold u16_row_fixed, vectors in *. cbn [Nat.eqb andb]. destruct (avx2 (base_cpu c)).
    + apply (urow_closed 0%Z _ _ (avx_pixel_ok one_row_permute d (or_intror eq_refl)) (uval_is_local d) fz (width im)); auto.
    + rewrite orb_false_r in EV. rewrite EV. cbn [andb].
      apply (urow_closed 0%Z _ _ (sse_pixel_ok d) (uval_is_local d) fz (width im)); auto.
  - intros s d' Ls Ld. pose proof (g_stride _ _ Gi). pose proof (g_stride _ _ Go).
    unfold u16_rows4_fixed, vectors in *. cbn [Nat.eqb andb]. destruct (avx2 (base_cpu c)).
    + apply (urow4_closed 0%Z _ _ (avx_pixel_ok four_row_permute d (or_introl eq_refl)) (uval_is_local d) fz (width im)); auto.
    + rewrite orb_false_r in EV. rewrite EV. cbn [andb]. fold d. rewrite D1.
      apply (urow4_closed 0%Z _ _ (sse_pixel_ok d) (uval_is_local d) fz (width im)); auto.
Qed.

(** A driver whose passes paint something. *)
Lemma driver_any {T F} N (E : engine T F) pool (store into : image T) : 0 < N -> is_nearest E = false ->
  checks N (needs_depth E) store into = Done tt -> good N store -> good N into -> changes_size store into ->
  fits_usize (width store * height into * N) ->
  (forall dst, good N dst -> width dst = width store -> height dst = height into -> bit_depth dst = bit_depth into ->
     exists P, vconv E (gen E (height store) (height into)) pool store dst = Done (painted (dflt E) N P dst)) ->
  (forall im, good N im -> width im = width store -> height im = height into ->
     exists P, hconv E (gen E (width store) (width into)) pool im into = Done (painted (dflt E) N P into)) ->
  exists P, generic_resize N E pool store into = Returned Ok (painted (dflt E) N P into).
Proof.
  intros HN Hnear Hchecks Gs Gi Hdiff Hmid HV HH. unfold generic_resize, try. rewrite Hchecks, Hnear.
  destruct (Nat.eqb_spec (height store) (height into)) as [Eh|Eh];
  destruct (Nat.eqb_spec (width store) (width into)) as [Ew|Ew]; cbn [negb andb].
  - destruct Hdiff; lia.
  - destruct (HH store Gs eq_refl Eh) as (P & ->). eauto.
  - destruct (HV into Gi (eq_sym Ew) eq_refl eq_refl) as (P & ->). eauto.
  - set (L := width store * height into * N).
    unfold fits_usize in Hmid.
    assert (E1 : wmul (width store) (height into) = width store * height into).
    { apply wmul_small. unfold usize_mod in *. nia. }
    assert (E2 : wmul (width store * height into) N = L).
    { apply wmul_small. unfold usize_mod in *. lia. }
    assert (E3 : wmul (width store) N = width store * N).
    { apply wmul_small. pose proof (g_h _ _ Gi). unfold usize_mod in *. nia. }
    unfold from_slice. rewrite repeat_length, E1, E2, Nat.eqb_refl, E3. cbn [negb].
    set (nv := set_bit_depth _ _).
    assert (Gnv : good N nv).
    { constructor; cbn.
      - apply (g_w _ _ Gs). - apply (g_h _ _ Gi). - lia.
      - rewrite repeat_length. unfold L. lia. }
    destruct (HV nv Gnv eq_refl eq_refl eq_refl) as (P & ->).
    set (mid := mkImage _ _ _ _ _ _).
    assert (Gmid : good N mid).
    { constructor; cbn [mid width height stride buf set_buf painted].
      - apply (g_w _ _ Gs). - apply (g_h _ _ Gi). - lia.
      - rewrite pixmap_length. cbn. rewrite repeat_length. unfold L. lia. }
    destruct (HH mid Gmid eq_refl eq_refl) as (Q & HQ).
    rewrite HQ. eauto.
Qed.
Theorem u16_paints k c L f N pool store into : valid_call N true f store into -> pool_ok pool -> f <> Nearest -> changes_size store into ->
  exists P, resize_u16_x86 k c L f N pool store into = Returned Ok (painted 0%Z N P into).
Proof.
  intros V HP Hf Hd. rewrite u16_is_generic. pose proof (valid_sane L V) as S1. destruct (valid_good V) as (Gs & Gi).
  pose proof (vc_N _ _ _ _ _ V) as HN. pose proof (vc_depth _ _ _ _ _ V eq_refl) as HD.
  assert (cnN : cn_ok N) by (unfold cn_ok; lia).
  match goal with |- exists P, generic_resize N ?E _ _ _ = _ => apply (driver_any N E) end; try assumption; try lia.
  - unfold x86_engine_u16, wants_nearest. cbn [is_nearest]. destruct f; congruence || reflexivity.
  - apply (sane_checks S1).
  - apply (sc_mid _ _ _ _ _ S1).
  - intros dst Gd Wd Hh Bd. apply u16_vpass_any; auto; rewrite ?Hh, ?Bd; auto. apply (sane_wf_v S1).
  - intros im Gm Wm Hm. apply u16_hpass_any; auto; rewrite ?Wm; auto. apply (sane_wf_h S1).
Qed.
