(** C70, C71: alpha-aware f32 resizing on x86-64, and what un-premultiplication recovers. *)
From Coq Require Import Classical ZArith Reals List Bool Lia Lra Psatz ZifyBool ZifyNat.
From Flocq Require Import Core.Core IEEE754.BinarySingleNaN.
From Verif Require Import Base BaseProofs FixedPoint FloatConv ImageStore Dispatch Resize Spec SpecApi SpecAlpha SpecFloat SpecFloatAlpha SpecAccuracy F32 F32Proofs Weights Sampler
  Center PortableProofs ResizeProofs NoFail PoolProofs ApiProofs Api Alpha AlphaScan ApiFloat DriverProofs FloatApiProofs KernelProofs X86Dispatch X86Float
  RgbaProofs RgbaFloat X86FloatCalls X86AlphaF32 X86AlphaF32Proofs X86AlphaF32Calls Witness AlphaU16 Properties4 Properties13.
From Verif Require Import ImageProofs.
Import ListNotations.
Local Open Scope nat_scope.

(** ** C70 The guarantees of the alpha-aware f32 call, on x86-64 *)
Theorem C70_flag_off_x86_f32 : forall k c L f pool (store into : image f32),
  resize_rgba_f32_x86 k c L f pool false store into = resize_f32_x86 k c L f 4 pool store into.
Proof. intros. unfold resize_rgba_f32_x86. rewrite with_alpha_off. apply x86f_plain. Qed.
Print Assumptions C70_flag_off_x86_f32.
Theorem C70_refusals_rgba_x86_f32 : forall k c L f pool premultiply (store into : image f32),
  match first_error (refusal_table 4 false store into) with
  | Some e => resize_rgba_f32_x86 k c L f pool premultiply store into = Returned (Err e) into
  | None => resize_rgba_f32_x86 k c L f pool premultiply store into = Panicked \/
            exists out, resize_rgba_f32_x86 k c L f pool premultiply store into = Returned Ok out
  end.
Proof.
  intros. apply (generic_resize_with_alpha_cases 4 (x86_engine_f32 k c L f 4 (premul_f32_x86 (base_cpu c)) (unpremul_f32_x86 (base_cpu c)) alpha_needed_f32) pool premultiply store into).
  - apply x86f_passes_nofail.
  - apply x86f_alpha_nofail.
Qed.
Print Assumptions C70_refusals_rgba_x86_f32.
Theorem C70_failure_is_clean_x86_f32 : forall k c L f pool premultiply (store into out : image f32) e,
  resize_rgba_f32_x86 k c L f pool premultiply store into = Returned (Err e) out -> out = into.
Proof.
  intros k c L f pool pm store into out e H. pose proof (C70_refusals_rgba_x86_f32 k c L f pool pm store into) as C.
  destruct (first_error _); [congruence|]. destruct C as [C|[o C]]; congruence.
Qed.
Print Assumptions C70_failure_is_clean_x86_f32.
Theorem C70_schedule_independent_x86_f32 : forall k c L f pool premultiply (store into : image f32), pool_ok pool ->
  resize_rgba_f32_x86 k c L f pool premultiply store into = resize_rgba_f32_x86 k c L f None premultiply store into.
Proof.
  intros. apply generic_resize_with_alpha_pool; auto.
  - apply x86f_pool_blind.
  - apply x86f_pool_blind_alpha.
Qed.
Print Assumptions C70_schedule_independent_x86_f32.

(** The pixels of a row that are divided by their alpha: whole blocks of eight with AVX2, of four
    with SSE 4.1; the others are multiplied by the rounded reciprocal of their alpha. *)
Definition divided (c : cpu) (w x : nat) : bool :=
  if avx2 c then x <? 8 * (w / 8) else if sse41 c then x <? 4 * (w / 4) else false.
Theorem C70_pipeline_x86_f32 : forall k c L f pool (store into : image f32),
  valid_call 4 false f store into -> changes_size store into -> f <> Nearest -> pool_ok pool ->
  exists src mid out,
    (alpha_varies store -> pixelwise (fun r g b a => [fmul r a; fmul g a; fmul b a; a]) store src) /\ (~ alpha_varies store -> src = store) /\
    valid_call 4 false f src into /\ width src = width store /\ height src = height store /\
    resize_f32_x86 k c L f 4 pool src into = Returned Ok mid /\ only_pixels_differ 4 into mid /\
    resize_rgba_f32_x86 k c L f pool true store into = Returned Ok out /\ only_pixels_differ 4 into out /\
    forall x y r g b a, x < width into -> y < height into -> pixel mid x y r g b a ->
      let un v := if feqb a f0 then f0 else if divided (base_cpu c) (width into) x then fdiv v a else fmul v (fdiv f1 a) in
      pixel out x y (un r) (un g) (un b) a.
Proof.
  intros k c L f pool store into V D Hf HP.
  destruct (rgba_pipeline_f32_x86 k c L f pool store into V D Hf HP) as (src & mid & out & A1 & A2 & A3 & A4 & A5 & A6 & A7 & A8 & A9 & A10).
  exists src, mid, out. split; [exact A1|]. split; [exact A2|]. split; [exact A3|]. split; [exact A4|]. split; [exact A5|]. split; [exact A6|].
  split; [exact A7|]. split; [exact A8|]. split; [exact A10|]. intros x y r g b a Hx Hy P un.
  assert (Q : forall i, i < 4 -> sample 4 out x y i = nth_error [un r; un g; un b; a] i).
  { intros i Hi. rewrite (A9 x y r g b a) by (rewrite ?(opd_width _ _ _ A7), ?(opd_height _ _ _ A7); assumption).
    f_equal. unfold un_at, alpha_block, un, divided. rewrite (opd_width _ _ _ A7). unfold undiv_px_f32, unpremul_px_f32.
    destruct (avx2 (base_cpu c)); [|destruct (sse41 (base_cpu c))].
    - destruct (x <? 8 * _), (feqb a f0); reflexivity.
    - destruct (x <? 4 * _), (feqb a f0); reflexivity.
    - rewrite Nat.mul_0_l. cbn [Nat.ltb Nat.leb]. destruct (feqb a f0); reflexivity. }
  unfold pixel. rewrite !Q by lia. repeat split.
Qed.
Print Assumptions C70_pipeline_x86_f32.
Theorem C70_valid_calls_succeed_x86_f32 : forall k c L f pool premultiply (store into : image f32),
  f <> Nearest -> valid_call 4 false f store into -> pool_ok pool ->
  exists out, resize_rgba_f32_x86 k c L f pool premultiply store into = Returned Ok out.
Proof.
  intros k c L f pool pm store into Hf V P. destruct pm.
  - destruct (classic (changes_size store into)) as [D|D].
    + destruct (C70_pipeline_x86_f32 k c L f pool store into V D Hf P) as (_ & _ & out & _ & _ & _ & _ & _ & _ & _ & R & _). eauto.
    + assert (W : width store = width into /\ height store = height into) by (unfold changes_size in D; lia).
      unfold resize_rgba_f32_x86. rewrite with_alpha_same_g by apply W. rewrite x86f_plain. exact (C69_valid_calls_succeed_x86_f32 k c L f 4 pool store into Hf V P).
  - rewrite C70_flag_off_x86_f32. exact (C69_valid_calls_succeed_x86_f32 k c L f 4 pool store into Hf V P).
Qed.
Print Assumptions C70_valid_calls_succeed_x86_f32.
(** The alpha channel is the one of the plain resize. *)
Theorem C70_alpha_channel_x86_f32 : forall k c L f pool (store into plain out : image f32),
  valid_call 4 false f store into -> changes_size store into -> f <> Nearest -> pool_ok pool ->
  resize_rgba_f32_x86 k c L f pool false store into = Returned Ok plain ->
  resize_rgba_f32_x86 k c L f pool true store into = Returned Ok out ->
  forall x y, x < width into -> y < height into -> alpha_at out x y = alpha_at plain x y.
Proof.
  intros k c L f pool store into plain out V D Hf HP Rp Ro x y Hx Hy.
  destruct (C70_pipeline_x86_f32 k c L f pool store into V D Hf HP) as (src & mid & o & P1 & P2 & VS & Ws & Hs & Rm & Om & Ro' & Oo & Pu).
  rewrite Ro in Ro'. inversion Ro'; subst o. rewrite C70_flag_off_x86_f32 in Rp.
  destruct (valid_good V) as [Gs Gi]. pose proof (good_opd _ _ _ Gi Om) as Gm.
  destruct (pixel_exists mid x y Gm) as (r & g & b & a & Pm); [rewrite (opd_width _ _ _ Om); auto|rewrite (opd_height _ _ _ Om); auto|].
  destruct (Pu x y r g b a Hx Hy Pm) as (_ & _ & _ & Ao). destruct Pm as (_ & _ & _ & Am).
  unfold alpha_at. rewrite Ao, <- Am. clear Ao Am r g b a.
  apply (C69_locality_x86_f32 k c L f 4 pool pool src store into into mid plain x y 3); auto.
  - unfold changes_size in *. now rewrite Ws, Hs.
  - intros sx sy Hin.
    destruct (in_window_bounds L 4 false f src into x y sx sy VS Hx Hy Hin) as [Bx By]. rewrite Ws in Bx. rewrite Hs in By.
    destruct (pixel_exists store sx sy Gs Bx By) as (r & g & b & a & Q).
    destruct (classic (alpha_varies store)) as [Av|Av].
    + destruct (P1 Av) as (_ & _ & Q'). destruct (Q' sx sy r g b a Bx By Q) as (r' & g' & b' & a' & E & P').
      destruct P' as (_ & _ & _ & ->). destruct Q as (_ & _ & _ & ->). inversion E. reflexivity.
    + now rewrite (P2 Av).
Qed.
Print Assumptions C70_alpha_channel_x86_f32.
Example C70_nonvacuous : let store := mkImage [f1; f1; f1; f1; f0; f1; fhalf; fhalf] 4 2 1 8 0 in
  let into := mkImage (repeat f0 20) 4 5 1 20 0 in
  valid_call 4 false Lanczos3 store into /\ changes_size store into /\ alpha_varies store /\
  divided (mkCpu true false) 5 3 = true /\ divided (mkCpu true false) 5 4 = false.
Proof.
  cbv zeta. split; [valid_f32|]. split; [left; cbn; lia|]. split; [|split; reflexivity].
  exists 0, 0, 1, 0. cbn [width height]. split; [lia|]. split; [lia|]. split; [lia|]. split; [lia|]. unfold alpha_at, sample. cbn. discriminate.
Qed.

(** ** C71 Un-premultiplication recovers the colours, in both builds *)
Lemma recovered_div c a : recovered c a (fdiv c a).
Proof.
  intros Fc Fa Ha Hc. destruct (undiv_error c a _ _ (conj Fc eq_refl) (conj Fa eq_refl) (proj1 Ha) Hc) as (v & (F & Ev) & B).
  split; [exact F|]. rewrite Ev. unfold ulp24 in B. pose proof (Rabs_pos (B2R c / B2R a)). lra.
Qed.
Lemma recovered_mul c a : recovered c a (fmul c (fdiv f1 a)).
Proof.
  intros Fc Fa Ha Hc. destruct (unmul_error c a _ _ (conj Fc eq_refl) (conj Fa eq_refl) Ha Hc) as (v & (F & Ev) & B).
  split; [exact F|]. rewrite Ev. unfold ulp24 in B. lra.
Qed.
Lemma big_alpha_not_zero a : is_finite a = true -> (/ 2 ^ 40 <= Rabs (B2R a))%R -> feqb a f0 = false.
Proof.
  intros F H. unfold feqb. destruct a as [s|s| |s m e B]; try discriminate.
  2:{ cbn. destruct s; reflexivity. }
  exfalso. cbn [B2R] in H. rewrite Rabs_R0 in H. pose proof (Rinv_0_lt_compat (2 ^ 40) ltac:(apply pow_lt; lra)). lra.
Qed.
Theorem C71_colours_recovered_f32 : forall k L f pool (store into : image f32),
  valid_call 4 false f store into -> changes_size store into -> f <> Nearest -> pool_ok pool ->
  exists src mid out,
    (alpha_varies store -> pixelwise (fun r g b a => [fmul r a; fmul g a; fmul b a; a]) store src) /\ (~ alpha_varies store -> src = store) /\
    resize_f32 k L f 4 pool src into = Returned Ok mid /\ resize_rgba_f32 k L f pool true store into = Returned Ok out /\
    forall x y r g b a, x < width into -> y < height into -> pixel mid x y r g b a ->
      exists r' g' b', pixel out x y r' g' b' a /\ recovered r a r' /\ recovered g a g' /\ recovered b a b'.
Proof.
  intros k L f pool store into V D Hf HP.
  destruct (C43_alpha_pipeline_f32 k L f pool store into V D Hf HP) as (src & mid & out & A1 & A2 & _ & _ & _ & A6 & A7 & A8 & (_ & _ & A9) & _).
  exists src, mid, out. split; [exact A1|]. split; [exact A2|]. split; [exact A6|]. split; [exact A8|].
  intros x y r g b a Hx Hy P. destruct (A9 x y r g b a) as (r' & g' & b' & a' & E & P'); [now rewrite (opd_width _ _ _ A7)|now rewrite (opd_height _ _ _ A7)|exact P|].
  destruct (feqb a f0) eqn:Z; injection E as <- <- <- <-; eexists _, _, _; (split; [exact P'|]).
  - split; [|split]; intros _ Fa Ha _; rewrite (big_alpha_not_zero a Fa (proj1 Ha)) in Z; discriminate.
  - split; [|split]; apply recovered_mul.
Qed.
Print Assumptions C71_colours_recovered_f32.
Theorem C71_colours_recovered_x86_f32 : forall k c L f pool (store into : image f32),
  valid_call 4 false f store into -> changes_size store into -> f <> Nearest -> pool_ok pool ->
  exists src mid out,
    (alpha_varies store -> pixelwise (fun r g b a => [fmul r a; fmul g a; fmul b a; a]) store src) /\ (~ alpha_varies store -> src = store) /\
    resize_f32_x86 k c L f 4 pool src into = Returned Ok mid /\ resize_rgba_f32_x86 k c L f pool true store into = Returned Ok out /\
    forall x y r g b a, x < width into -> y < height into -> pixel mid x y r g b a ->
      exists r' g' b', pixel out x y r' g' b' a /\ recovered r a r' /\ recovered g a g' /\ recovered b a b'.
Proof.
  intros k c L f pool store into V D Hf HP.
  destruct (C70_pipeline_x86_f32 k c L f pool store into V D Hf HP) as (src & mid & out & A1 & A2 & _ & _ & _ & A6 & A7 & A8 & _ & A9).
  exists src, mid, out. split; [exact A1|]. split; [exact A2|]. split; [exact A6|]. split; [exact A8|].
  intros x y r g b a Hx Hy P. specialize (A9 x y r g b a Hx Hy P). cbv zeta in A9. eexists _, _, _. split; [exact A9|].
  assert (G : forall v, recovered v a (if feqb a f0 then f0 else if divided (base_cpu c) (width into) x then fdiv v a else fmul v (fdiv f1 a))).
  { intro v. destruct (feqb a f0) eqn:Z; [intros _ Fa Ha _; rewrite (big_alpha_not_zero a Fa (proj1 Ha)) in Z; discriminate|].
    destruct (divided _ _ _); [apply recovered_div|apply recovered_mul]. }
  split; [|split]; apply G.
Qed.
Print Assumptions C71_colours_recovered_x86_f32.

(** Opaque images, averaging filters: the flag changes the colours by a few units in the last place per tap. *)
Lemma opaque_step t u a v : (1 <= t <= 10000)%Z -> recovered u a v -> is_finite u = true -> is_finite a = true ->
  (1 - range_slack t 1 <= B2R a <= 1 + range_slack t 1)%R -> (Rabs (B2R u) <= 2 ^ 50)%R ->
  is_finite v = true /\ (Rabs (B2R v - B2R u) <= 2 * range_slack t 1 * Rabs (B2R u) + bpow radix2 (-150))%R.
Proof.
  intros Ht Rc Fu Fa Ra Hu. set (s := range_slack t 1) in *.
  assert (S : (80 / 16777216 <= s <= 0.04)%R).
  { assert (1 <= IZR t <= 10000)%R by (split; apply IZR_le; lia). unfold s, range_slack.
    assert (0 < bpow radix2 (-110))%R by apply bpow_gt_0.
    assert (bpow radix2 (-110) <= bpow radix2 (-20))%R by (apply bpow_le; lia). change (bpow radix2 (-20)) with (/ 1048576)%R in *. lra. }
  assert (A : (0.96 <= Rabs (B2R a) <= 1.04)%R) by (rewrite Rabs_pos_eq by lra; lra).
  assert (P : (/ 2 ^ 40 <= 0.5)%R).
  { change (2 ^ 40)%R with (2 * 2 ^ 39)%R. rewrite Rinv_mult. assert (/ 2 ^ 39 <= / 1)%R; [|lra].
    apply Rinv_le; [lra|]. apply pow_R1_Rle. lra. }
  assert (P' : (2 <= 2 ^ 40)%R) by (change (2 ^ 40)%R with (2 * 2 ^ 39)%R; assert (1 <= 2 ^ 39)%R by (apply pow_R1_Rle; lra); lra).
  destruct (Rc Fu Fa ltac:(lra) Hu) as (Fv & B). split; [exact Fv|].
  set (c := B2R u) in *. set (al := B2R a) in *. assert (Al : (0.96 <= al <= 1.04)%R) by lra.
  assert (I : (/ al <= / 0.96)%R) by (apply Rinv_le; lra). assert (I0 : (0 < / al)%R) by (apply Rinv_0_lt_compat; lra).
  assert (C0 := Rabs_pos c).
  assert (Q : (Rabs (c / al) <= 1.05 * Rabs c)%R).
  { unfold Rdiv. rewrite Rabs_mult, (Rabs_pos_eq (/ al)) by lra. rewrite (Rmult_comm 1.05). apply Rmult_le_compat_l; lra. }
  assert (E : (Rabs (c / al - c) <= 1.05 * s * Rabs c)%R).
  { replace (c / al - c)%R with ((1 - al) * (c / al))%R by (field; lra). rewrite Rabs_mult.
    replace (1.05 * s * Rabs c)%R with (s * (1.05 * Rabs c))%R by ring.
    apply Rmult_le_compat; auto using Rabs_pos. apply Rabs_le. lra. }
  replace (B2R v - c)%R with ((B2R v - c / al) + (c / al - c))%R by ring. eapply Rle_trans; [apply Rabs_triang|].
  assert (0.2 * (80 / 16777216) * Rabs c <= 0.2 * s * Rabs c)%R by (apply Rmult_le_compat_r; lra). lra.
Qed.
Lemma bound_50 t M u : (1 <= t <= 10000)%Z -> (0 <= M <= 2 ^ 40)%R -> (- M - range_slack t M <= u <= M + range_slack t M)%R -> (Rabs u <= 2 ^ 50)%R.
Proof.
  intros Ht HM H. assert (1 <= IZR t <= 10000)%R by (split; apply IZR_le; lia).
  assert (range_slack t M <= 0.04 * M + 1)%R.
  { unfold range_slack. assert (bpow radix2 (-110) <= bpow radix2 0)%R by (apply bpow_le; lia). change (bpow radix2 0) with 1%R in *.
    assert (M * (7 * IZR t + 3) <= M * 70003)%R by (apply Rmult_le_compat_l; lra). lra. }
  assert (1 <= 2 ^ 40)%R by (apply pow_R1_Rle; lra).
  replace (2 ^ 50)%R with (2 ^ 40 * 1024)%R by (change 1024%R with (IZR (2 ^ 10)); rewrite !pow_IZR, <- mult_IZR; reflexivity).
  apply Rabs_le. lra.
Qed.
Lemma opaque_constant (store : image f32) : (forall x y, x < width store -> y < height store -> alpha_at store x y = Some f1) -> ~ alpha_varies store.
Proof. intros O (x & y & x' & y' & Hx & Hy & Hx' & Hy' & N). apply N. now rewrite !O. Qed.
Lemma f1_is_one : is_finite f1 = true /\ B2R f1 = 1%R. Proof. exact f1_fin. Qed.
Lemma opaque_range (store : image f32) : (forall x y, x < width store -> y < height store -> alpha_at store x y = Some f1) -> in_range 4 store 3 1 1.
Proof.
  intros O x y Hx Hy. exists f1. split; [apply O; assumption|]. destruct f1_is_one as (F & E). split; [exact F|]. rewrite E. lra.
Qed.
Lemma opaque_pixel t M (mid out : image f32) x y (Ht : (1 <= t <= 10000)%Z) (HM : (0 <= M <= 2 ^ 40)%R) :
  x < width mid -> y < height mid ->
  in_range 4 mid 3 (1 - range_slack t 1) (1 + range_slack t 1) ->
  (forall ch, ch < 3 -> in_range 4 mid ch (- M - range_slack t M) (M + range_slack t M)) ->
  (forall r g b a, pixel mid x y r g b a ->
      exists r' g' b', pixel out x y r' g' b' a /\ recovered r a r' /\ recovered g a g' /\ recovered b a b') ->
  forall ch, ch < 3 -> exists u v, sample 4 mid x y ch = Some u /\ sample 4 out x y ch = Some v /\ is_finite u = true /\ is_finite v = true /\
    (Rabs (B2R v - B2R u) <= 2 * range_slack t 1 * Rabs (B2R u) + bpow radix2 (-150))%R.
Proof.
  intros Hx Hy RA RC Q ch Hch. destruct (RA x y Hx Hy) as (a & Sa & Fa & Ba).
  destruct (RC 0 ltac:(lia) x y Hx Hy) as (r & Sr & Fr & Br). destruct (RC 1 ltac:(lia) x y Hx Hy) as (g & Sg & Fg & Bg).
  destruct (RC 2 ltac:(lia) x y Hx Hy) as (b & Sb & Fb & Bb).
  destruct (Q r g b a) as (r' & g' & b' & (P0 & P1 & P2 & P3) & Q0 & Q1 & Q2); [now repeat split|].
  assert (G : forall u v, recovered u a v -> is_finite u = true -> (- M - range_slack t M <= B2R u <= M + range_slack t M)%R ->
    is_finite v = true /\ (Rabs (B2R v - B2R u) <= 2 * range_slack t 1 * Rabs (B2R u) + bpow radix2 (-150))%R).
  { intros u v Ru Fu Bu. apply (opaque_step t u a v); auto. apply (bound_50 t M); auto. }
  destruct ch as [|[|[|ch]]]; [exists r, r'|exists g, g'|exists b, b'|lia]; (split; [assumption|]; split; [assumption|]; split; [assumption|]); apply G; assumption.
Qed.
Theorem C71_opaque_f32_partial : forall k L f pool (store into : image f32) t M,
  averaging f = true -> f <> Nearest -> valid_call 4 false f store into -> changes_size store into -> pool_ok pool ->
  (1 <= t <= 10000)%Z -> downscale_at_most t store into -> (0 <= M <= 2 ^ 40)%R ->
  (forall x y, x < width store -> y < height store -> alpha_at store x y = Some f1) -> (forall ch, ch < 3 -> in_range 4 store ch (- M) M) ->
  exists plain out, resize_rgba_f32 k L f pool false store into = Returned Ok plain /\ resize_rgba_f32 k L f pool true store into = Returned Ok out /\
    forall x y ch, x < width into -> y < height into -> ch < 3 ->
      exists u v, sample 4 plain x y ch = Some u /\ sample 4 out x y ch = Some v /\ is_finite u = true /\ is_finite v = true /\
        (Rabs (B2R v - B2R u) <= 2 * range_slack t 1 * Rabs (B2R u) + bpow radix2 (-150))%R.
Proof.
  intros k L f pool store into t M Av Hf V D HP Ht Dn HM Op Rg.
  destruct (C71_colours_recovered_f32 k L f pool store into V D Hf HP) as (src & mid & out & _ & A2 & A3 & A4 & A5).
  rewrite (A2 (opaque_constant store Op)) in A3. exists mid, out. rewrite C41_flag_off_is_plain_f32. split; [exact A3|]. split; [exact A4|].
  pose proof (C14_padding_f32_partial k L f 4 pool store into mid Hf V D HP A3) as O.
  assert (B78 : (M <= IZR (2 ^ 78))%R).
  { eapply Rle_trans; [apply HM|]. rewrite pow_IZR. apply IZR_le. apply Z.pow_le_mono_r; lia. }
  intros x y ch Hx Hy Hch. apply (opaque_pixel t M); auto.
  - rewrite (opd_width _ _ _ O). exact Hx.
  - rewrite (opd_height _ _ _ O). exact Hy.
  - apply (C67_range k L f 4 pool store into mid t 3 1 1 1); auto using opaque_range; rewrite ?Rabs_R1; try lra; try lia.
  - intros ch' Hch'. apply (C67_range k L f 4 pool store into mid t ch' (- M) M M); auto; try lia; rewrite ?Rabs_Ropp, ?Rabs_pos_eq; lra.
Qed.
Print Assumptions C71_opaque_f32_partial.
Theorem C71_opaque_x86_f32_partial : forall k c L f pool (store into : image f32) t M,
  averaging f = true -> f <> Nearest -> valid_call 4 false f store into -> changes_size store into -> pool_ok pool ->
  (1 <= t <= 10000)%Z -> downscale_at_most t store into -> (0 <= M <= 2 ^ 40)%R ->
  (forall x y, x < width store -> y < height store -> alpha_at store x y = Some f1) -> (forall ch, ch < 3 -> in_range 4 store ch (- M) M) ->
  exists plain out, resize_rgba_f32_x86 k c L f pool false store into = Returned Ok plain /\ resize_rgba_f32_x86 k c L f pool true store into = Returned Ok out /\
    forall x y ch, x < width into -> y < height into -> ch < 3 ->
      exists u v, sample 4 plain x y ch = Some u /\ sample 4 out x y ch = Some v /\ is_finite u = true /\ is_finite v = true /\
        (Rabs (B2R v - B2R u) <= 2 * range_slack t 1 * Rabs (B2R u) + bpow radix2 (-150))%R.
Proof.
  intros k c L f pool store into t M Av Hf V D HP Ht Dn HM Op Rg.
  destruct (C71_colours_recovered_x86_f32 k c L f pool store into V D Hf HP) as (src & mid & out & _ & A2 & A3 & A4 & A5).
  rewrite (A2 (opaque_constant store Op)) in A3. exists mid, out. rewrite C70_flag_off_x86_f32. split; [exact A3|]. split; [exact A4|].
  pose proof (C69_padding_x86_f32 k c L f 4 pool store into mid Hf V D HP A3) as O.
  assert (B78 : (M <= IZR (2 ^ 78))%R).
  { eapply Rle_trans; [apply HM|]. rewrite pow_IZR. apply IZR_le. apply Z.pow_le_mono_r; lia. }
  intros x y ch Hx Hy Hch. apply (opaque_pixel t M); auto.
  - rewrite (opd_width _ _ _ O). exact Hx.
  - rewrite (opd_height _ _ _ O). exact Hy.
  - apply (C67_range_x86_partial k c L f 4 pool store into mid t 3 1 1 1); auto using opaque_range; rewrite ?Rabs_R1; try lra; try lia.
  - intros ch' Hch'. apply (C67_range_x86_partial k c L f 4 pool store into mid t ch' (- M) M M); auto; try lia; rewrite ?Rabs_Ropp, ?Rabs_pos_eq; lra.
Qed.
Print Assumptions C71_opaque_x86_f32_partial.

(** Equal pixels of one row become different: with SSE 4.1 the first four pixels of a row of five are divided, the fifth
    is multiplied by the reciprocal. *)
Theorem C71_equal_pixels_x86_refuted : forall k L,
  let px := [q 11 64; f0; f0; q 41 64]%Z in
  exists out u v, resize_rgba_f32_x86 k sse_only L Box None true (flat_rgba 5 1 (concat (repeat px 5))) (flat_rgba 5 2 (repeat f0 40)) = Returned Ok out /\
    sample 4 out 0 0 0 = Some u /\ sample 4 out 4 0 0 = Some v /\ f32_bits u <> f32_bits v.
Proof.
  intros k L px. unfold resize_rgba_f32_x86, x86_engine_f32.
  change (resampling_filter L Box) with (resampling_filter any_libm Box). subst px.
  match goal with |- exists out u v, ?r = _ /\ _ => destruct (bits_at_is 4 r 0 0 0 (fZ 9002409 (-25))) as (out & R & S); [destruct k; vm_compute; reflexivity|];
    destruct (bits_at_is 4 r 4 0 0 (fZ 9002408 (-25))) as (out' & R' & S'); [destruct k; vm_compute; reflexivity|] end.
  assert (out' = out) by congruence. subst out'.
  exists out, (fZ 9002409 (-25)), (fZ 9002408 (-25)). split; [exact R|]. split; [exact S|]. split; [exact S'|]. vm_compute. discriminate.
Qed.
Print Assumptions C71_equal_pixels_x86_refuted.
