(** The alpha channel of the 16-bit x86 resize is computed from alpha alone. *)
From Coq Require Import ZArith List Lia Bool ZifyBool ZifyNat.
From Verif Require Import Base BaseProofs ImageStore ColorGroup FixedPoint Dispatch FloatConv Resize Spec SpecApi SpecAlpha SpecFloat F32 Weights Sampler
  KernelProofs DispatchProofs ResizeProofs NoFail ImageProofs PoolProofs PortableProofs SamplerProofs Api ApiProofs Alpha AlphaProofs ApiFloat DriverProofs FloatApiProofs
  Simd X86Dispatch X86Float X86Alpha X86U16 SpecX86U16 X86U16Rows X86U16Calls X86U16Facts FloatConvProofs Properties4 RgbaProofs X86AlphaU16 SpecX86AlphaU16 X86AlphaU16Proofs X86AlphaU16Calls.
Import ListNotations.
Local Open Scope nat_scope.

Lemma column_read_mod parts : Forall (fun B => B mod 4 = 0 /\ 0 < B) parts -> forall from n j, from mod 4 = 0 ->
  column_read parts from n j mod 4 = j mod 4.
Proof.
  induction 1 as [|B r (HB & HB0) _ IH]; intros from n j Hf; cbn [column_read].
  - rewrite Nat.add_mod, Hf by lia. cbn [Nat.add]. now rewrite Nat.mod_mod by lia.
  - destruct (Nat.ltb_spec j (n / B * B)) as [E|E].
    + rewrite Nat.add_mod, Hf by lia. cbn [Nat.add]. now rewrite Nat.mod_mod by lia.
    + assert (M : forall m, (m * B) mod 4 = 0) by (intro m; rewrite Nat.mul_mod, HB, Nat.mul_0_r by lia; reflexivity).
      rewrite IH.
      * replace j with (n / B * B + (j - n / B * B)) at 2 by lia. rewrite (Nat.add_mod (n / B * B)), M by lia. cbn [Nat.add]. now rewrite Nat.mod_mod by lia.
      * destruct (_ =? 0); [exact Hf|]. rewrite Nat.add_mod, Hf, M by lia. reflexivity.
Qed.
Lemma sse_parts4 : Forall (fun B => B mod 4 = 0 /\ 0 < B) sse_parts. Proof. repeat constructor; cbn; lia. Qed.
Lemma avx_parts4 : Forall (fun B => B mod 4 = 0 /\ 0 < B) avx_parts. Proof. repeat constructor; cbn; lia. Qed.
Lemma vparts4 c : Forall (fun B => B mod 4 = 0 /\ 0 < B) (vparts c).
Proof. unfold vparts. destruct (avx2 _); [apply avx_parts4|apply sse_parts4]. Qed.
Lemma parts_weak parts : Forall (fun B => B mod 4 = 0 /\ 0 < B) parts -> Forall (fun B => 0 < B) parts.
Proof. apply Forall_impl. tauto. Qed.
(** Two pictures with the same channel [ch] on w x h. *)
Definition same_ch {T} (w h ch : nat) (p q : nat -> nat -> nat -> T) : Prop := forall y x, y < h -> x < w -> p y x ch = q y x ch.
Lemma flat_same {T} parts w h ch (p q : nat -> nat -> nat -> T) y x : Forall (fun B => B mod 4 = 0 /\ 0 < B) parts -> ch < 4 ->
  same_ch w h ch p q -> y < h -> x < w ->
  flat 4 p y (column_read parts 0 (w * 4) (x * 4 + ch)) = flat 4 q y (column_read parts 0 (w * 4) (x * 4 + ch)).
Proof.
  intros HP Hc S Hy Hx. unfold flat. rewrite (column_read_mod parts HP 0 _ _ eq_refl).
  replace ((x * 4 + ch) mod 4) with ch by (apply Nat.mod_unique with (q := x); lia).
  apply S; [exact Hy|]. pose proof (column_read_le parts (parts_weak _ HP) 0 (w * 4) (x * 4 + ch)).
  apply Nat.div_lt_upper_bound; lia.
Qed.

Section Pictures.
Variables (k : mlaf_kind) (c : fcpu) (fl : rfilter) (sw sh dw dh ch : nat).
Hypothesis (Hc : ch < 4).
Notation fv := (generate_weights fl sh dh).
Notation fh := (generate_weights fl sw dw).
Hypothesis (Wv : wf_fw fv sh dh) (Wh : wf_fw fh sw dw).
Lemma low_v_same maxv p q : same_ch sw sh ch p q ->
  same_ch sw dh ch (x86u_v c 4 sw maxv (filter_windows fl sh dh) p) (x86u_v c 4 sw maxv (filter_windows fl sh dh) q).
Proof using Hc Wv.
  intros S y x Hy Hx. destruct (filter_windows_in _ _ _ y Wv Hy) as (Q1 & Q2). unfold x86u_v. destruct (vectors c).
  - unfold u16_fixed_v. f_equal. apply zsum_ext. intros i Hi. f_equal. apply (flat_same (vparts c) sw sh ch p q); auto using vparts4. lia.
  - unfold resample_v. f_equal. apply zsum_ext. intros i Hi. f_equal. apply S; [lia|exact Hx].
Qed.
Lemma low_h_same maxv p q : same_ch sw dh ch p q ->
  same_ch dw dh ch (resample_h maxv (filter_windows fl sw dw) p) (resample_h maxv (filter_windows fl sw dw) q).
Proof using Hc Wh.
  intros S y x Hy Hx. destruct (filter_windows_in _ _ _ x Wh Hx) as (Q1 & Q2).
  unfold resample_h. f_equal. apply zsum_ext. intros i Hi. f_equal. apply S; [exact Hy|lia].
Qed.
Lemma low_same maxv p q : same_ch sw sh ch p q ->
  same_ch dw dh ch (x86u_low c 4 sw sh dw dh maxv (filter_windows fl sh dh) (filter_windows fl sw dw) p)
    (x86u_low c 4 sw sh dw dh maxv (filter_windows fl sh dh) (filter_windows fl sw dw) q).
Proof using All.
  intro S. unfold x86u_low, u16_two_passes. destruct (Nat.eqb_spec sh dh) as [E|E]; destruct (Nat.eqb_spec sw dw) as [E'|E'].
  - now subst.
  - apply low_h_same. now subst.
  - pose proof (low_v_same maxv p q S) as X. intros y x Hy Hx. apply X; lia.
  - apply low_h_same. now apply low_v_same.
Qed.
Lemma deep_v_same d p q : same_ch sw sh ch p q ->
  same_ch sw dh ch (x86u_float_v k c d 4 sw (filter_taps fl sh dh) p) (x86u_float_v k c d 4 sw (filter_taps fl sh dh) q).
Proof using Hc Wv.
  intros S y x Hy Hx. pose proof (wf_nth _ _ _ y Wv Hy) as Wy. cbv zeta in Wy.
  unfold x86u_float_v, filter_taps. destruct (sse41 _).
  - unfold u16_float_v. cbv zeta. cbn [taps_of tsize tstart tweight].
    destruct (_ <? _); f_equal; apply accumulate_ext; intros i Hi; (split; [|reflexivity]); f_equal;
      apply (flat_same sse_parts sw sh ch p q); auto using sse_parts4; lia.
  - unfold float_v. f_equal. apply (weighted_ext f0 fmul (mlaf k) (fun v : f32 => v) (fun v : f32 => v) f0). cbn [taps_of tsize tstart tweight].
    intros i Hi. split; [f_equal; apply S; [lia|exact Hx]|reflexivity].
Qed.
Lemma deep_h_same d p q : same_ch sw dh ch p q ->
  same_ch dw dh ch (x86u_float_h k c d 4 dh (filter_taps fl sw dw) p) (x86u_float_h k c d 4 dh (filter_taps fl sw dw) q).
Proof using Hc Wh.
  intros S y x Hy Hx. pose proof (wf_nth _ _ _ x Wh Hx) as Wx. cbv zeta in Wx.
  assert (X : forall i, i < tsize (filter_taps fl sw dw) x -> p y (tstart (filter_taps fl sw dw) x + i) ch = q y (tstart (filter_taps fl sw dw) x + i) ch).
  { intros i Hi. unfold filter_taps in *. cbn [taps_of tsize tstart] in *. apply S; [exact Hy|]. lia. }
  assert (X1 : 1 <= tsize (filter_taps fl sw dw) x) by (unfold filter_taps; cbn [taps_of tsize]; lia).
  unfold x86u_float_h. destruct (_ && _ && _).
  - unfold u16_float_row. cbv zeta. do 2 f_equal. apply ordered_ext. intros i Hi. split; [|reflexivity]. f_equal. apply X.
    apply tap_read_below. apply (tap_order_below _ i); [lia|exact Hi].
  - unfold float_h. f_equal. apply (weighted_ext f0 fmul (mlaf k) (fun v : f32 => v) (fun v : f32 => v) f0). intros i Hi. split; [f_equal; now apply X|reflexivity].
Qed.
Lemma deep_same d p q : same_ch sw sh ch p q ->
  same_ch dw dh ch (x86u_deep k c d 4 sw sh dw dh (filter_taps fl sh dh) (filter_taps fl sw dw) p)
    (x86u_deep k c d 4 sw sh dw dh (filter_taps fl sh dh) (filter_taps fl sw dw) q).
Proof using All.
  intro S. unfold x86u_deep, u16_two_passes. destruct (Nat.eqb_spec sh dh) as [E|E]; destruct (Nat.eqb_spec sw dw) as [E'|E'].
  - now subst.
  - apply deep_h_same. now subst.
  - pose proof (deep_v_same d p q S) as X. intros y x Hy Hx. apply X; lia.
  - apply deep_h_same. now apply deep_v_same.
Qed.
End Pictures.

(** ** Whole calls *)
Lemma nth_by_error {T} (l l' : list T) i j d : nth_error l i = nth_error l' j -> nth i l d = nth j l' d.
Proof.
  intro H. destruct (nth_error l i) as [v|] eqn:E.
  - symmetry in H. now rewrite (nth_error_nth _ _ d E), (nth_error_nth _ _ d H).
  - symmetry in H. apply nth_error_None in E. apply nth_error_None in H. now rewrite !nth_overflow by lia.
Qed.
Lemma deep_call_channel k c L f pool (src store into o1 o2 : image Z) ch x y :
  ch < 4 -> valid_call 4 true f src into -> valid_call 4 true f store into -> pool_ok pool -> f <> Nearest -> changes_size store into ->
  width src = width store -> height src = height store -> 12 < bit_depth into ->
  (forall x y, x < width store -> y < height store -> sample 4 src x y ch = sample 4 store x y ch) ->
  resize_u16_x86 k c L f 4 pool src into = Returned Ok o1 -> resize_u16_x86 k c L f 4 pool store into = Returned Ok o2 ->
  x < width into -> y < height into -> sample 4 o1 x y ch = sample 4 o2 x y ch.
Proof.
  intros Hc VS V P Hf D Ws Hs Hb S R1 R2 Hx Hy.
  assert (Ds : changes_size src into) by (unfold changes_size in *; now rewrite Ws, Hs).
  rewrite (u16_deep_call k c L f 4 pool src into VS P Hf Ds Hb) in R1.
  rewrite (u16_deep_call k c L f 4 pool store into V P Hf D Hb) in R2.
  inversion R1; subst o1. inversion R2; subst o2. destruct (valid_good V) as [Gs Gi].
  rewrite !painted_sample by (auto; lia). f_equal. rewrite Ws, Hs.
  pose proof (valid_sane L V) as S1.
  apply (deep_same k c (resampling_filter L f) _ _ _ _ ch Hc (sane_wf_v S1) (sane_wf_h S1)); auto.
  intros y0 x0 Hy0 Hx0. specialize (S x0 y0 Hx0 Hy0). unfold sample in S. unfold shown.
  rewrite !Nat.add_assoc. now apply nth_by_error.
Qed.
Lemma low_call_channel k c L f pool (src store into o1 o2 : image Z) ch x y :
  ch < 4 -> valid_call 4 true f src into -> valid_call 4 true f store into -> pool_ok pool -> f <> Nearest -> changes_size store into ->
  width src = width store -> height src = height store -> bit_depth into <= 12 ->
  samples_in (max_colors (bit_depth into)) (buf src) -> samples_in (max_colors (bit_depth into)) (buf store) ->
  sums_fit f (max_colors (bit_depth into)) store into ->
  (forall x y, x < width store -> y < height store -> sample 4 src x y ch = sample 4 store x y ch) ->
  resize_u16_x86 k c L f 4 pool src into = Returned Ok o1 -> resize_u16_x86 k c L f 4 pool store into = Returned Ok o2 ->
  x < width into -> y < height into -> sample 4 o1 x y ch = sample 4 o2 x y ch.
Proof.
  intros Hc VS V P Hf D Ws Hs Hb HI1 HI2 F S R1 R2 Hx Hy.
  assert (Ds : changes_size src into) by (unfold changes_size in *; now rewrite Ws, Hs).
  pose proof (low_max into ltac:(apply V; reflexivity) Hb) as M.
  destruct (fit_small L f 4 true _ store into V M F) as [S1 S2].
  assert (S1' := S1). assert (S2' := S2). rewrite <- Ws in S2'. rewrite <- Hs in S1'.
  rewrite (u16_low_call k c L f 4 pool src into VS P Hf Ds Hb HI1 S1' S2') in R1.
  rewrite (u16_low_call k c L f 4 pool store into V P Hf D Hb HI2 S1 S2) in R2.
  inversion R1; subst o1. inversion R2; subst o2. destruct (valid_good V) as [Gs Gi].
  rewrite !painted_sample by (auto; lia). f_equal. rewrite Ws, Hs.
  pose proof (valid_sane L V) as SS.
  apply (low_same k c (resampling_filter L f) _ _ _ _ ch Hc (sane_wf_v SS) (sane_wf_h SS)); auto.
  intros y0 x0 Hy0 Hx0. specialize (S x0 y0 Hx0 Hy0). unfold sample in S. unfold shown.
  rewrite !Nat.add_assoc. now apply nth_by_error.
Qed.
(** The samples of a packed image are those of its pixels. *)
Lemma packed_samples M w h (im : image Z) : good 4 im -> width im = w -> height im = h -> stride im = w * 4 -> length (buf im) = h * (w * 4) ->
  (forall x y r g b a, x < w -> y < h -> pixel im x y r g b a -> (0 <= r <= M /\ 0 <= g <= M /\ 0 <= b <= M /\ 0 <= a <= M)%Z) ->
  samples_in M (buf im).
Proof.
  intros G Ew Eh Q5 Q7 H. pose proof (g_w _ _ G) as Gw. rewrite Ew in Gw. apply Forall_forall. intros v Hv. apply In_nth_error in Hv as (i & Hi).
  assert (Hl : i < length (buf im)) by (apply nth_error_Some; congruence). rewrite Q7 in Hl.
  assert (Hy : i / (w * 4) < h) by (apply Nat.div_lt_upper_bound; lia).
  set (y := i / (w * 4)) in *. set (j := i mod (w * 4)).
  assert (Hj : j < w * 4) by (apply Nat.mod_upper_bound; lia).
  assert (Hi2 : i = y * (w * 4) + j) by (unfold y, j; rewrite Nat.mul_comm; apply Nat.div_mod; lia).
  assert (Hx : j / 4 < w) by (apply Nat.div_lt_upper_bound; lia).
  destruct (pixel_exists im (j / 4) y G) as (r & g & b & a & Pp); [lia|lia|].
  destruct (H (j / 4) y r g b a Hx Hy Pp) as (b0 & b1 & b2 & b3). destruct Pp as (p0 & p1 & p2 & p3).
  assert (Hs : sample 4 im (j / 4) y (j mod 4) = Some v).
  { unfold sample. rewrite Q5, <- Hi. f_equal. pose proof (Nat.div_mod j 4 ltac:(lia)). lia. }
  assert (M4 : j mod 4 < 4) by (apply Nat.mod_upper_bound; lia).
  destruct (j mod 4) as [|[|[|[|]]]]; try lia; rewrite Hs in *; congruence.
Qed.
