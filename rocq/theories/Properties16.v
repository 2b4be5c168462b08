(** C76-C79: alpha-aware resizing of 16-bit images on x86-64. *)
From Coq Require Import Classical ZArith Reals List Bool Lia Lra ZifyBool ZifyNat.
From Flocq Require Import Core.Core IEEE754.BinarySingleNaN.
From Verif Require Import Base BaseProofs FixedPoint FloatConv ImageStore Dispatch Resize Spec SpecApi SpecAlpha SpecFloat F32 F32Proofs Weights Sampler
  SamplerProofs PortableProofs ResizeProofs NoFail ImageProofs PoolProofs ApiProofs Api Alpha AlphaProofs AlphaArith AlphaScan RgbaProofs ApiFloat DriverProofs FloatApiProofs
  DispatchProofs X86Dispatch X86Alpha X86Float SpecX86 X86U16 SpecX86U16 X86U16Calls X86U16Facts RgbaFloat
  X86AlphaU16 SpecX86AlphaU16 X86AlphaU16Proofs X86AlphaU16Scan X86AlphaU16Calls X86AlphaU16Facts X86AlphaU16Arith X86AlphaU16Pre Properties4 Properties15.
Import ListNotations.
Local Open Scope nat_scope.

(** ** C76 The guarantees of the call *)
Theorem C76_flag_off_x86_u16 : forall k c rcp L f pool (store into : image Z),
  resize_rgba_u16_x86 k c rcp L f pool false store into = resize_u16_x86 k c L f 4 pool store into.
Proof. intros. unfold resize_rgba_u16_x86. rewrite with_alpha_off. apply x86u_plain. Qed.
Print Assumptions C76_flag_off_x86_u16.
Theorem C76_refusals_rgba_x86_u16 : forall k c rcp L f pool premultiply (store into : image Z),
  match first_error (refusal_table 4 true store into) with
  | Some e => resize_rgba_u16_x86 k c rcp L f pool premultiply store into = Returned (Err e) into
  | None => resize_rgba_u16_x86 k c rcp L f pool premultiply store into = Panicked \/
            exists out, resize_rgba_u16_x86 k c rcp L f pool premultiply store into = Returned Ok out
  end.
Proof.
  intros. apply (generic_resize_with_alpha_cases 4 (x86_engine_u16 k c L f 4 (premul_u16_x86 c) (unpremul_u16_x86 c rcp) (alpha_needed_u16_x86 c)) pool premultiply store into).
  - apply x86u_nofail.
  - apply x86u_alpha_nofail.
Qed.
Print Assumptions C76_refusals_rgba_x86_u16.
Theorem C76_failure_is_clean_rgba_x86_u16 : forall k c rcp L f pool premultiply (store into out : image Z) e,
  resize_rgba_u16_x86 k c rcp L f pool premultiply store into = Returned (Err e) out -> out = into.
Proof.
  intros k c rcp L f pool pm store into out e H. pose proof (C76_refusals_rgba_x86_u16 k c rcp L f pool pm store into) as C.
  destruct (first_error _); [congruence|]. destruct C as [C|[o C]]; congruence.
Qed.
Print Assumptions C76_failure_is_clean_rgba_x86_u16.
Theorem C76_schedule_independent_rgba_x86_u16 : forall k c rcp L f pool premultiply (store into : image Z), pool_ok pool ->
  resize_rgba_u16_x86 k c rcp L f pool premultiply store into = resize_rgba_u16_x86 k c rcp L f None premultiply store into.
Proof.
  intros. apply generic_resize_with_alpha_pool; auto.
  - apply x86u_pool_blind.
  - apply x86u_pool_blind_alpha.
Qed.
Print Assumptions C76_schedule_independent_rgba_x86_u16.
Theorem C76_valid_calls_succeed_rgba_x86_u16 : forall k c rcp L f pool premultiply (store into : image Z),
  f <> Nearest -> valid_call 4 true f store into -> pool_ok pool -> samples_in 65535 (buf store) ->
  exists out, resize_rgba_u16_x86 k c rcp L f pool premultiply store into = Returned Ok out.
Proof.
  intros k c rcp L f pool pm store into Hf V P S. destruct pm.
  - destruct (classic (changes_size store into)) as [D|D].
    + destruct (rgba_pipeline_u16_any k c rcp L f pool store into V D Hf P S) as (_ & _ & _ & out & _ & _ & _ & _ & _ & _ & _ & _ & R & _). eauto.
    + assert (W : width store = width into /\ height store = height into) by (unfold changes_size in D; lia).
      unfold resize_rgba_u16_x86. rewrite with_alpha_same_g by apply W. rewrite x86u_plain. exact (C74_valid_calls_succeed_x86_u16 k c L f 4 pool store into Hf V P).
  - rewrite C76_flag_off_x86_u16. exact (C74_valid_calls_succeed_x86_u16 k c L f 4 pool store into Hf V P).
Qed.
Print Assumptions C76_valid_calls_succeed_rgba_x86_u16.
Theorem C76_padding_rgba_x86_u16 : forall k c rcp L f pool premultiply (store into out : image Z),
  f <> Nearest -> valid_call 4 true f store into -> changes_size store into -> pool_ok pool -> samples_in 65535 (buf store) ->
  resize_rgba_u16_x86 k c rcp L f pool premultiply store into = Returned Ok out -> only_pixels_differ 4 into out.
Proof.
  intros k c rcp L f pool pm store into out Hf V D P S R. destruct pm.
  - destruct (rgba_pipeline_u16_any k c rcp L f pool store into V D Hf P S) as (_ & _ & _ & o & _ & _ & _ & _ & _ & _ & _ & _ & R' & _ & O).
    rewrite R in R'. inversion R'; subst o. exact O.
  - rewrite C76_flag_off_x86_u16 in R. exact (C74_padding_x86_u16 k c L f 4 pool store into out Hf V D P R).
Qed.
Print Assumptions C76_padding_rgba_x86_u16.
(** Without SSE 4.1 and AVX2, the call is the portable one. *)
Theorem C76_portable_case_rgba_u16 : forall k c rcp L f pool premultiply (store into : image Z),
  sse41 (base_cpu c) = false -> avx2 (base_cpu c) = false ->
  resize_rgba_u16_x86 k c rcp L f pool premultiply store into = resize_rgba_u16 k L f pool premultiply store into.
Proof. intros k c rcp L f pool pm store into H1 H2. apply rgba_no_vectors. unfold vectors. now rewrite H1, H2. Qed.
Print Assumptions C76_portable_case_rgba_u16.
Example C76_nonvacuous :
  first_error (refusal_table 4 true (deep4 0 1 16 []) (deep4 2 1 16 (repeat 0%Z 8))) <> None /\
  valid_call 4 true Lanczos3 (deep4 1 1 16 [1; 65535; 9; 7]%Z) (deep4 3 2 16 (repeat 0%Z 24)) /\
  samples_in 65535 [1; 65535; 9; 7]%Z.
Proof.
  split; [vm_compute; discriminate|]. split; [unfold deep4; deep_tac|]. repeat constructor; lia.
Qed.

(** ** C77 The pipeline *)
Lemma pixel_words (im : image Z) M x y r g b a : samples_in M (buf im) -> pixel im x y r g b a -> (0 <= r <= M /\ 0 <= g <= M /\ 0 <= b <= M /\ 0 <= a <= M)%Z.
Proof.
  intros S (P0 & P1 & P2 & P3). unfold samples_in in S. rewrite Forall_forall in S.
  apply nth_error_In, S in P0. apply nth_error_In, S in P1. apply nth_error_In, S in P2. apply nth_error_In, S in P3. auto.
Qed.
Lemma colours_ext ch ch' r g b a : ch r a = ch' r a -> ch g a = ch' g a -> ch b a = ch' b a -> colours ch r g b a = colours ch' r g b a.
Proof. unfold colours. now intros -> -> ->. Qed.
Lemma pre16_is c d r g b a : vectors c = true -> (0 <= r <= 65535)%Z -> (0 <= g <= 65535)%Z -> (0 <= b <= 65535)%Z -> (0 <= a <= 65535)%Z ->
  px_pre16 c d r g b a = colours (associate_x86 c d) r g b a.
Proof.
  intros Vc Hr Hg Hb Ha. unfold px_pre16, associate_x86. unfold vectors in Vc. destruct (avx2 _); [|destruct (sse41 _); [|discriminate]].
  - apply colours_ext; now apply lane_avx_spec.
  - apply colours_ext; now apply lane_sse_spec.
Qed.
Lemma un16_is c rcp d : vectors c = true -> px_un16 c rcp d = colours (unassociate_x86 c rcp d).
Proof. intro Vc. unfold px_un16, unassociate_x86. unfold vectors in Vc. destruct (avx2 _); [reflexivity|]. destruct (sse41 _); [reflexivity|discriminate]. Qed.

Theorem C77_pipeline_rgba_x86_u16 : forall k c rcp L f pool (store into : image Z),
  valid_call 4 true f store into -> changes_size store into -> f <> Nearest -> pool_ok pool -> samples_in 65535 (buf store) ->
  vectors c = true -> (Z.of_nat (width store) <= 32768)%Z ->
  exists src mid out,
    (alpha_varies store -> pixelwise (colours (associate_x86 c (bit_depth into))) store src) /\ (~ alpha_varies store -> src = store) /\
    valid_call 4 true f src into /\ width src = width store /\ height src = height store /\
    resize_u16_x86 k c L f 4 pool src into = Returned Ok mid /\ only_pixels_differ 4 into mid /\
    resize_rgba_u16_x86 k c rcp L f pool true store into = Returned Ok out /\
    pixelwise (colours (unassociate_x86 c rcp (bit_depth into))) mid out /\ only_pixels_differ 4 into out.
Proof.
  intros k c rcp L f pool store into V D Hf HP HS Vc Hw.
  destruct (scan_exact c f true store into V HS Hw) as (need & Hn & I).
  destruct (rgba_pipeline_u16_any k c rcp L f pool store into V D Hf HP HS) as (need' & src & mid & out & A0 & A1 & A2 & A3 & A4 & A5 & A6 & A7 & A8 & A9 & A10).
  rewrite Hn in A0. inversion A0; subst need'. exists src, mid, out.
  split.
  { intro Av. destruct (A1 (proj2 I Av)) as ((Q1 & Q2 & Q3) & _). split; [exact Q1|]. split; [exact Q2|].
    intros x y r g b a Hx Hy Px. destruct (pixel_words _ _ _ _ _ _ _ _ HS Px) as (B0 & B1 & B2 & B3).
    rewrite <- (pre16_is c) by assumption. now apply Q3. }
  split. { intro Av. apply A2. destruct need; [exfalso; now apply Av, I|reflexivity]. }
  rewrite <- (un16_is c rcp _ Vc). auto 10.
Qed.
Print Assumptions C77_pipeline_rgba_x86_u16.

(** Whatever the width: the image is premultiplied or left alone, as a whole. *)
Theorem C77_pipeline_any_width_x86_u16_partial : forall k c rcp L f pool (store into : image Z),
  valid_call 4 true f store into -> changes_size store into -> f <> Nearest -> pool_ok pool -> samples_in 65535 (buf store) ->
  vectors c = true ->
  exists src mid out,
    (pixelwise (colours (associate_x86 c (bit_depth into))) store src \/ src = store) /\
    resize_u16_x86 k c L f 4 pool src into = Returned Ok mid /\ resize_rgba_u16_x86 k c rcp L f pool true store into = Returned Ok out /\
    pixelwise (colours (unassociate_x86 c rcp (bit_depth into))) mid out.
Proof.
  intros k c rcp L f pool store into V D Hf HP HS Vc.
  destruct (rgba_pipeline_u16_any k c rcp L f pool store into V D Hf HP HS) as (need & src & mid & out & A0 & A1 & A2 & A3 & A4 & A5 & A6 & A7 & A8 & A9 & A10).
  exists src, mid, out. rewrite <- (un16_is c rcp _ Vc). split; [|auto]. destruct need; [left|right; auto].
  destruct (A1 eq_refl) as ((Q1 & Q2 & Q3) & _). split; [exact Q1|]. split; [exact Q2|].
  intros x y r g b a Hx Hy Px. destruct (pixel_words _ _ _ _ _ _ _ _ HS Px) as (B0 & B1 & B2 & B3).
  rewrite <- (pre16_is c) by assumption. now apply Q3.
Qed.
Print Assumptions C77_pipeline_any_width_x86_u16_partial.

(** A row of 131073 pixels, alpha 0 once and 32768 elsewhere: the alpha varies, the scan says it
    does not, and nothing is premultiplied. *)
Definition wide : nat := Z.to_nat 131072.
Definition wide_image : image Z := mkImage (wide_row wide) 4 (S wide) 1 (S wide * 4) 16.
Lemma wide_length : length (wide_row wide) = S wide * 4.
Proof. unfold wide_row. rewrite app_length, pixels_length. cbn [length]. lia. Qed.
Lemma pixels_nth n a i : i < n -> nth_error (pixels n a) (i * 4 + 3) = Some a.
Proof. revert i. induction n as [|n IH]; intros i H; [lia|]. destruct i as [|i]; [reflexivity|]. cbn [pixels Nat.mul Nat.add nth_error]. apply IH. lia. Qed.
Lemma pixels_words n a : (0 <= a <= 65535)%Z -> samples_in 65535 (pixels n a).
Proof. intro H. induction n as [|n IH]; [constructor|]. cbn [pixels]. repeat (constructor; [lia|]). exact IH. Qed.
Lemma wide_words : samples_in 65535 (buf wide_image).
Proof. cbn [wide_image buf]. unfold wide_row. apply Forall_app. split; [repeat (constructor; [lia|]); constructor|]. apply pixels_words. lia. Qed.
Lemma wide_varies : alpha_varies wide_image.
Proof.
  exists 0, 0, 1, 0. cbn [wide_image width height]. assert (0 < wide) by (unfold wide; lia).
  split; [lia|]. split; [lia|]. split; [lia|]. split; [lia|].
  assert (E0 : alpha_at wide_image 0 0 = Some 0%Z) by reflexivity.
  assert (E1 : alpha_at wide_image 1 0 = Some 32768%Z).
  { pose proof (pixels_nth wide 32768 0 ltac:(lia)) as E. exact E. }
  rewrite E0, E1. discriminate.
Qed.
Lemma wide_needed_n c n : vectors c = true -> (S n) mod 16 = 1 -> (S n) mod 8 = 1 -> ((Z.of_nat n * 32768) mod 2 ^ 32 = 0)%Z ->
  alpha_needed_u16_x86 c (mkImage (wide_row n) 4 (S n) 1 (S n * 4) 16) = Done false.
Proof.
  intros Vc M16 M8 Z0. unfold vectors in Vc. unfold alpha_needed_u16_x86.
  assert (Es : stride_of 4 (mkImage (wide_row n) 4 (S n) 1 (S n * 4) 16) = S n * 4).
  { unfold stride_of. cbn [stride]. destruct (Nat.eqb_spec (S n * 4) 0); [lia|reflexivity]. }
  rewrite Es. cbn [buf width].
  destruct (avx2 (base_cpu c)); [|destruct (sse41 (base_cpu c)); [|discriminate]].
  - apply (wide_scan _ 16 4); [lia|lia|exact M16|exact Z0|intros; now apply avx_scan_row_u16_ok with w].
  - apply (wide_scan _ 8 2); [lia|lia|exact M8|exact Z0|intros; now apply sse_scan_row_u16_ok with w].
Qed.
Lemma wide_mod m : (0 < Z.of_nat m)%Z -> (131073 mod Z.of_nat m = 1)%Z -> (S wide) mod m = 1.
Proof. intros Hm H. apply Nat2Z.inj. rewrite Nat2Z.inj_mod, Nat2Z.inj_succ. unfold wide. rewrite Z2Nat.id by lia. exact H. Qed.
Lemma wide_needed c : vectors c = true -> alpha_needed_u16_x86 c wide_image = Done false.
Proof.
  intro Vc. apply (wide_needed_n c wide Vc).
  - apply wide_mod; [lia|reflexivity].
  - apply wide_mod; [lia|reflexivity].
  - unfold wide. rewrite Z2Nat.id by lia. reflexivity.
Qed.
Theorem C77_wide_rows_refuted : forall k c rcp L f pool (into : image Z),
  valid_call 4 true f wide_image into -> changes_size wide_image into -> f <> Nearest -> pool_ok pool -> vectors c = true ->
  alpha_varies wide_image /\
  exists mid out, resize_u16_x86 k c L f 4 pool wide_image into = Returned Ok mid /\
    resize_rgba_u16_x86 k c rcp L f pool true wide_image into = Returned Ok out /\
    pixelwise (colours (unassociate_x86 c rcp (bit_depth into))) mid out.
Proof.
  intros k c rcp L f pool into V D Hf HP Vc. split; [exact wide_varies|].
  destruct (rgba_pipeline_u16_any k c rcp L f pool wide_image into V D Hf HP wide_words) as (need & src & mid & out & A0 & A1 & A2 & A3 & A4 & A5 & A6 & A7 & A8 & A9 & A10).
  rewrite (wide_needed c Vc) in A0. inversion A0; subst need. rewrite (A2 eq_refl) in A6.
  exists mid, out. rewrite <- (un16_is c rcp _ Vc). auto.
Qed.
Print Assumptions C77_wide_rows_refuted.
Lemma wide_valid n (W : Z.of_nat n = 131072%Z) : length (wide_row n) = S n * 4 ->
  valid_call 4 true Bilinear (mkImage (wide_row n) 4 (S n) 1 (S n * 4) 16) (deep4 1 1 16 (repeat 0%Z 4)).
Proof.
  intro E. constructor.
  - lia.
  - cbn [width height stride buf]. rewrite E. split; [lia|]. split; [lia|]. split; lia.
  - unfold deep4. cbn [width height stride buf repeat length]. split; [lia|]. split; [lia|]. split; lia.
  - reflexivity.
  - unfold fits_usize, usize_mod, deep4. cbn [width height stride buf repeat length]. rewrite E. split; [lia|]. split; lia.
  - intros _. unfold deep4. cbn [bit_depth]. lia.
  - cbn [width height]. split; lia.
  - intro; discriminate.
Qed.
Lemma wide_changes n (W : Z.of_nat n = 131072%Z) : changes_size (mkImage (wide_row n) 4 (S n) 1 (S n * 4) 16) (deep4 1 1 16 (repeat 0%Z 4)).
Proof. left. unfold deep4. cbn [width]. lia. Qed.
Lemma wide_is : Z.of_nat wide = 131072%Z. Proof. unfold wide. apply Z2Nat.id. lia. Qed.
Example C77_nonvacuous :
  (exists into, valid_call 4 true Bilinear wide_image into /\ changes_size wide_image into) /\ vectors sse_only = true /\
  let store := deep4 2 1 10 [1; 2; 3; 1023; 7; 8; 9; 0]%Z in let into := deep4 3 1 10 (repeat 0%Z 12) in
  valid_call 4 true Lanczos3 store into /\ changes_size store into /\ alpha_varies store /\ samples_in (max_colors 10) (buf store) /\
  sums_fit Lanczos3 (max_colors 10) store into.
Proof.
  split.
  { exists (deep4 1 1 16 (repeat 0%Z 4)). split; [exact (wide_valid wide wide_is wide_length)|exact (wide_changes wide wide_is)]. }
  split; [reflexivity|]. cbv zeta. split; [unfold deep4; deep_tac|]. split; [left; cbn; lia|].
  split. { exists 0, 0, 1, 0. cbn [deep4 width height]. repeat (split; [lia|]). vm_compute. discriminate. }
  split. { cbn [deep4 buf]. change (max_colors 10) with 1023%Z. repeat (constructor; [lia|]). constructor. }
  right. exists 2%Z. change (max_colors 10) with 1023%Z. unfold downscale_at_most, deep4. cbn [width height]. lia.
Qed.

(** The alpha channel is the one of the plain resize. *)
Lemma un_alpha c rcp d (mid out : image Z) x y : vectors c = true -> good 4 mid -> pixelwise (px_un16 c rcp d) mid out -> x < width mid -> y < height mid ->
  sample 4 out x y 3 = sample 4 mid x y 3.
Proof.
  intros Vc G (_ & _ & Q) Hx Hy. destruct (pixel_exists mid x y G Hx Hy) as (r & g & b & a & P).
  destruct (Q x y r g b a Hx Hy P) as (r' & g' & b' & a' & E & (_ & _ & _ & P')). rewrite un16_is in E by exact Vc.
  injection E as _ _ _ E. destruct P as (_ & _ & _ & P3). rewrite P', P3. congruence.
Qed.
Lemma pre_alpha c d (store src : image Z) x y : vectors c = true -> good 4 store -> pixelwise (px_pre16 c d) store src -> x < width store -> y < height store ->
  sample 4 src x y 3 = sample 4 store x y 3.
Proof.
  intros Vc G (_ & _ & Q) Hx Hy. destruct (pixel_exists store x y G Hx Hy) as (r & g & b & a & P).
  destruct (Q x y r g b a Hx Hy P) as (r' & g' & b' & a' & E & (_ & _ & _ & P')). destruct P as (_ & _ & _ & P3). rewrite P', P3.
  unfold px_pre16, vectors in *. destruct (avx2 _); [|destruct (sse41 _); [|discriminate]]; injection E as _ _ _ E; congruence.
Qed.
Theorem C77_alpha_channel_deep_x86_u16 : forall k c rcp L f pool (store into plain out : image Z),
  valid_call 4 true f store into -> changes_size store into -> f <> Nearest -> pool_ok pool -> samples_in 65535 (buf store) ->
  vectors c = true -> 12 < bit_depth into ->
  resize_rgba_u16_x86 k c rcp L f pool false store into = Returned Ok plain ->
  resize_rgba_u16_x86 k c rcp L f pool true store into = Returned Ok out ->
  forall x y, x < width into -> y < height into -> alpha_at out x y = alpha_at plain x y.
Proof.
  intros k c rcp L f pool store into plain out V D Hf HP HS Vc Hb Rp Ro x y Hx Hy.
  destruct (rgba_pipeline_u16_any k c rcp L f pool store into V D Hf HP HS) as (need & src & mid & o & A0 & A1 & A2 & A3 & A4 & A5 & A6 & A7 & A8 & A9 & A10).
  rewrite Ro in A8. inversion A8; subst o. rewrite C76_flag_off_x86_u16 in Rp. destruct (valid_good V) as [Gs Gi].
  unfold alpha_at. rewrite (un_alpha c rcp (bit_depth into) mid out x y Vc (good_opd _ _ _ Gi A7) A9).
  - apply (deep_call_channel k c L f pool src store into mid plain 3 x y); auto.
    intros x0 y0 Hx0 Hy0. destruct need; [|now rewrite (A2 eq_refl)]. apply (pre_alpha c (bit_depth into)); auto. now apply A1.
  - now rewrite (opd_width _ _ _ A7).
  - now rewrite (opd_height _ _ _ A7).
Qed.
Print Assumptions C77_alpha_channel_deep_x86_u16.

(** ** C78 Premultiplication *)
Lemma max_range d : 1 <= d <= 16 -> (1 <= max_of d <= 65535)%Z.
Proof.
  intro H. unfold max_of. split.
  - assert (2 ^ 1 <= 2 ^ Z.of_nat d)%Z by (apply Z.pow_le_mono_r; lia). lia.
  - assert (2 ^ Z.of_nat d <= 2 ^ 16)%Z by (apply Z.pow_le_mono_r; lia). lia.
Qed.
Lemma max_range15 d : 1 <= d <= 15 -> (1 <= max_of d <= 32767)%Z.
Proof.
  intro H. unfold max_of. split.
  - assert (2 ^ 1 <= 2 ^ Z.of_nat d)%Z by (apply Z.pow_le_mono_r; lia). lia.
  - assert (2 ^ Z.of_nat d <= 2 ^ 15)%Z by (apply Z.pow_le_mono_r; lia). lia.
Qed.
Lemma associate_exact c d v a : d = 10 \/ d = 12 -> (0 <= v <= max_of d)%Z -> (0 <= a <= max_of d)%Z ->
  associate_x86 c d v a = nearest_div (v * a) (max_of d).
Proof.
  intros Hd Hv Ha. unfold associate_x86, associate_avx, associate_sse, max_of in *.
  destruct Hd as [-> | ->]; cbn [Nat.eqb]; cbn in Hv, Ha; destruct (avx2 _).
  - apply (signed_small 10); cbn; lia.
  - apply (signed_small 10); cbn; lia.
  - apply (signed_small 12); cbn; lia.
  - apply (signed_small 12); cbn; lia.
Qed.
Lemma associate_exact16 c v a : (0 <= v <= 32767)%Z -> (0 <= a <= 32767)%Z -> associate_x86 c 16 v a = nearest_div (v * a) 65535.
Proof.
  intros Hv Ha. unfold associate_x86, associate_avx, associate_sse. cbn [Nat.eqb]. destruct (avx2 _); apply (signed_small 16); cbn; lia.
Qed.
Lemma associate_close c d v a : 1 <= d <= 15 -> d <> 10 -> d <> 12 -> (0 <= v <= max_of d)%Z -> (0 <= a <= max_of d)%Z ->
  product_of c d v a (associate_x86 c d v a) /\ (0 <= associate_x86 c d v a)%Z.
Proof.
  intros Hd N10 N12 Hv Ha. pose proof (max_range15 d Hd) as M. unfold product_of, fused, associate_x86, associate_avx, associate_sse.
  replace (d =? 10) with false by lia. replace (d =? 12) with false by lia. replace (d =? 16) with false by lia. fold (max_of d).
  destruct (avx2 _); cbn [andb].
  - destruct (float_avx_ok (has_fma c) d v a ltac:(lia) Hv Ha) as (B & R). fold (max_of d) in *. split; [exact R|apply B].
  - destruct (float_sse_ok (max_of d) v a M Hv Ha) as (B & R). split; [exact R|apply B].
Qed.
Lemma pixelwise_ext f g (im out : image Z) M : samples_in M (buf im) ->
  (forall r g' b a, (0 <= r <= M)%Z -> (0 <= g' <= M)%Z -> (0 <= b <= M)%Z -> (0 <= a <= M)%Z -> f r g' b a = g r g' b a) ->
  pixelwise f im out -> pixelwise g im out.
Proof.
  intros S E (Q1 & Q2 & Q3). split; [exact Q1|]. split; [exact Q2|]. intros x y r g' b a Hx Hy P.
  destruct (pixel_words _ _ _ _ _ _ _ _ S P) as (B0 & B1 & B2 & B3). rewrite <- E by assumption. now apply Q3.
Qed.
Lemma samples_up M M' l : (M <= M')%Z -> samples_in M l -> samples_in M' l.
Proof. intro H. apply Forall_impl. intros. lia. Qed.
(** Depths 10 and 12: the exact product rounded to nearest; alpha is kept. *)
Theorem C78_premultiply_exact_x86_u16 : forall k c rcp L f pool (store into : image Z),
  valid_call 4 true f store into -> changes_size store into -> f <> Nearest -> pool_ok pool -> vectors c = true ->
  let M := max_of (bit_depth into) in
  bit_depth into = 10 \/ bit_depth into = 12 -> samples_in M (buf store) -> (Z.of_nat (width store) <= 32768)%Z -> alpha_varies store ->
  exists src mid out,
    pixelwise (fun r g b a => [nearest_div (r * a) M; nearest_div (g * a) M; nearest_div (b * a) M; a]) store src /\
    resize_u16_x86 k c L f 4 pool src into = Returned Ok mid /\ resize_rgba_u16_x86 k c rcp L f pool true store into = Returned Ok out /\
    pixelwise (colours (unassociate_x86 c rcp (bit_depth into))) mid out.
Proof.
  intros k c rcp L f pool store into V D Hf HP Vc M Hd HS Hw Av.
  pose proof (max_range (bit_depth into) ltac:(lia)) as HM. fold M in HM.
  destruct (C77_pipeline_rgba_x86_u16 k c rcp L f pool store into V D Hf HP (samples_up _ _ _ (proj2 HM) HS) Vc Hw)
    as (src & mid & out & A1 & A2 & A3 & A4 & A5 & A6 & A7 & A8 & A9 & A10).
  exists src, mid, out. split; [|auto].
  apply (pixelwise_ext (colours (associate_x86 c (bit_depth into))) _ store src M HS); [|exact (A1 Av)].
  intros r g b a Hr Hg Hb Ha. unfold colours. now rewrite !associate_exact by assumption.
Qed.
Print Assumptions C78_premultiply_exact_x86_u16.
(** 16 bits: exact as long as no sample exceeds 32767. *)
Theorem C78_premultiply_exact16_x86_u16_partial : forall k c rcp L f pool (store into : image Z),
  valid_call 4 true f store into -> changes_size store into -> f <> Nearest -> pool_ok pool -> vectors c = true ->
  bit_depth into = 16 -> samples_in 32767 (buf store) -> (Z.of_nat (width store) <= 32768)%Z -> alpha_varies store ->
  exists src mid out,
    pixelwise (fun r g b a => [nearest_div (r * a) 65535; nearest_div (g * a) 65535; nearest_div (b * a) 65535; a]) store src /\
    resize_u16_x86 k c L f 4 pool src into = Returned Ok mid /\ resize_rgba_u16_x86 k c rcp L f pool true store into = Returned Ok out /\
    pixelwise (colours (unassociate_x86 c rcp 16)) mid out.
Proof.
  intros k c rcp L f pool store into V D Hf HP Vc Hd HS Hw Av.
  destruct (C77_pipeline_rgba_x86_u16 k c rcp L f pool store into V D Hf HP (samples_up 32767 65535 _ ltac:(lia) HS) Vc Hw)
    as (src & mid & out & A1 & A2 & A3 & A4 & A5 & A6 & A7 & A8 & A9 & A10). rewrite Hd in *.
  exists src, mid, out. split; [|auto].
  apply (pixelwise_ext (colours (associate_x86 c 16)) _ store src 32767 HS); [|exact (A1 Av)].
  intros r g b a Hr Hg Hb Ha. unfold colours. now rewrite !associate_exact16 by assumption.
Qed.
Print Assumptions C78_premultiply_exact16_x86_u16_partial.
(** 16 bits: whatever the image, every fully opaque pixel turns black before the resize. *)
Theorem C78_opaque16_refuted : forall k c rcp L f pool (store into : image Z),
  valid_call 4 true f store into -> changes_size store into -> f <> Nearest -> pool_ok pool -> vectors c = true ->
  bit_depth into = 16 -> samples_in 65535 (buf store) -> (Z.of_nat (width store) <= 32768)%Z -> alpha_varies store ->
  exists src mid out,
    (forall x y r g b, x < width store -> y < height store -> pixel store x y r g b 65535%Z ->
       exists r' g' b', pixel src x y r' g' b' 65535%Z /\ (0 <= r' <= 1 /\ 0 <= g' <= 1 /\ 0 <= b' <= 1)%Z) /\
    resize_u16_x86 k c L f 4 pool src into = Returned Ok mid /\ resize_rgba_u16_x86 k c rcp L f pool true store into = Returned Ok out /\
    pixelwise (colours (unassociate_x86 c rcp 16)) mid out.
Proof.
  intros k c rcp L f pool store into V D Hf HP Vc Hd HS Hw Av.
  destruct (C77_pipeline_rgba_x86_u16 k c rcp L f pool store into V D Hf HP HS Vc Hw)
    as (src & mid & out & A1 & A2 & A3 & A4 & A5 & A6 & A7 & A8 & A9 & A10). rewrite Hd in *.
  exists src, mid, out. split; [|auto]. intros x y r g b Hx Hy P.
  destruct (pixel_words _ _ _ _ _ _ _ _ HS P) as (B0 & B1 & B2 & _).
  destruct (A1 Av) as (_ & _ & Q). destruct (Q x y r g b _ Hx Hy P) as (r' & g' & b' & a' & E & P').
  assert (O : forall v, (0 <= v <= 65535)%Z -> (0 <= associate_x86 c 16 v 65535 <= 1)%Z).
  { intros v Hv. unfold associate_x86, associate_avx, associate_sse. cbn [Nat.eqb]. destruct (avx2 _); rewrite signed_opaque by exact Hv; destruct (_ =? _)%Z; lia. }
  injection E as <- <- <- <-. exists (associate_x86 c 16 r 65535), (associate_x86 c 16 g 65535), (associate_x86 c 16 b 65535). auto.
Qed.
Print Assumptions C78_opaque16_refuted.
(** End to end: opaque white beside a transparent pixel comes out black (portable: white). *)
Theorem C78_white_turns_black : forall k L,
  let store := deep4 2 1 16 [65535; 65535; 65535; 65535; 0; 0; 0; 0]%Z in let into := deep4 4 1 16 (repeat 7%Z 16) in
  valid_call 4 true Box store into /\
  (exists out, resize_rgba_u16_x86 k sse_only (fdiv f1) L Box None true store into = Returned Ok out /\ pixel out 0 0 0%Z 0%Z 0%Z 32768%Z) /\
  (exists out, resize_rgba_u16_x86 k avx2_fma (fdiv f1) L Box None true store into = Returned Ok out /\ pixel out 0 0 0%Z 0%Z 0%Z 32768%Z) /\
  (exists out, resize_rgba_u16 k L Box None true store into = Returned Ok out /\ pixel out 0 0 65535%Z 65535%Z 65535%Z 65535%Z).
Proof.
  intros k L store into. split; [unfold store, into, deep4; deep_tac|].
  unfold resize_rgba_u16_x86, resize_rgba_u16, rgba_engine_u16, x86_engine_u16, engine_u16.
  change (resampling_filter L Box) with (resampling_filter any_libm Box).
  split; [|split]; eexists; (split; [destruct k; vm_compute; reflexivity|vm_compute; auto]).
Qed.
Print Assumptions C78_white_turns_black.
(** The other depths below 16: the product up to 33/64, or, with AVX2 and FMA, from 1/64 below to
    65/64 above. *)
Theorem C78_premultiply_close_x86_u16_partial : forall k c rcp L f pool (store into : image Z),
  valid_call 4 true f store into -> changes_size store into -> f <> Nearest -> pool_ok pool -> vectors c = true ->
  let d := bit_depth into in d <= 15 -> d <> 10 -> d <> 12 -> samples_in (max_of d) (buf store) -> (Z.of_nat (width store) <= 32768)%Z -> alpha_varies store ->
  exists src mid out,
    (forall x y r g b a, x < width store -> y < height store -> pixel store x y r g b a ->
       exists r' g' b', pixel src x y r' g' b' a /\ product_of c d r a r' /\ product_of c d g a g' /\ product_of c d b a b') /\
    resize_u16_x86 k c L f 4 pool src into = Returned Ok mid /\ resize_rgba_u16_x86 k c rcp L f pool true store into = Returned Ok out /\
    pixelwise (colours (unassociate_x86 c rcp d)) mid out.
Proof.
  intros k c rcp L f pool store into V D Hf HP Vc d Hd N10 N12 HS Hw Av.
  pose proof (vc_depth _ _ _ _ _ V eq_refl) as D1. fold d in D1. pose proof (max_range d ltac:(lia)) as HM.
  destruct (C77_pipeline_rgba_x86_u16 k c rcp L f pool store into V D Hf HP (samples_up _ _ _ (proj2 HM) HS) Vc Hw)
    as (src & mid & out & A1 & A2 & A3 & A4 & A5 & A6 & A7 & A8 & A9 & A10). fold d in A1, A9.
  exists src, mid, out. split; [|auto]. intros x y r g b a Hx Hy P.
  destruct (pixel_words _ _ _ _ _ _ _ _ HS P) as (B0 & B1 & B2 & B3).
  destruct (A1 Av) as (_ & _ & Q). destruct (Q x y r g b _ Hx Hy P) as (r' & g' & b' & a' & E & P').
  injection E as <- <- <- <-. exists (associate_x86 c d r a), (associate_x86 c d g a), (associate_x86 c d b a). split; [exact P'|].
  split; [|split]; apply associate_close; auto; lia.
Qed.
Print Assumptions C78_premultiply_close_x86_u16_partial.
(** With AVX2 and FMA, opaque samples are not kept, and can exceed the maximum of the depth; SSE 4.1 and AVX2
    without FMA keep them here. *)
Theorem C78_fused_rounding_refuted :
  associate_avx true 8 1 255 = 2%Z /\ associate_avx true 8 3 255 = 4%Z /\ associate_avx true 8 255 255 = 256%Z /\
  associate_avx true 14 16383 16383 = 16384%Z /\
  associate_avx false 8 1 255 = 1%Z /\ associate_avx false 8 255 255 = 255%Z /\ associate_sse 8 1 255 = 1%Z /\ associate_sse 8 255 255 = 255%Z.
Proof. repeat split; vm_compute; reflexivity. Qed.
Print Assumptions C78_fused_rounding_refuted.
Example C78_nonvacuous :
  let store d := deep4 2 1 d [1; 2; 3; 63; 7; 8; 9; 0]%Z in let into d := deep4 3 1 d (repeat 0%Z 12) in
  forall d, d = 6 \/ d = 10 \/ d = 12 \/ d = 16 ->
  valid_call 4 true Lanczos3 (store d) (into d) /\ changes_size (store d) (into d) /\ alpha_varies (store d) /\ samples_in (max_of 6) (buf (store d)) /\
  (forall p, p = 32767%Z \/ p = max_of 10 \/ p = max_of 12 -> samples_in p (buf (store d))) /\ (Z.of_nat (width (store d)) <= 32768)%Z /\ bit_depth (into d) = d.
Proof.
  intros store into d Hd. split; [unfold store, into, deep4; deep_tac|]. split; [left; cbn; lia|].
  split. { exists 0, 0, 1, 0. cbn [deep4 store width height]. repeat (split; [lia|]). unfold alpha_at, sample. cbn. discriminate. }
  split. { cbn [store deep4 buf]. change (max_of 6) with 63%Z. repeat (constructor; [lia|]). constructor. }
  split. { intros p Hp. cbn [store deep4 buf]. change (max_of 10) with 1023%Z in Hp. change (max_of 12) with 4095%Z in Hp. repeat (constructor; [lia|]). constructor. }
  split; [cbn; lia|reflexivity].
Qed.

(** Depths up to 12: the alpha channel is the one of the plain resize too, as long as the sums of the kernels cannot overflow
    (missing: depths other than 10 and 12 with AVX2 and FMA, where premultiplied samples can exceed the maximum). *)
Lemma associate_in c d v a : 1 <= d <= 12 -> d = 10 \/ d = 12 \/ fused c = false -> (0 <= v <= max_of d)%Z -> (0 <= a <= max_of d)%Z ->
  (0 <= associate_x86 c d v a <= max_of d)%Z.
Proof.
  intros Hd Hc Hv Ha. destruct (classic (d = 10 \/ d = 12)) as [E|E].
  - rewrite associate_exact by assumption. pose proof (max_range d ltac:(lia)). pose proof (nearest_div_le v a (max_of d) Hv ltac:(lia) ltac:(lia)). lia.
  - pose proof (max_range15 d ltac:(lia)) as M. destruct (associate_close c d v a) as (P & Q); try lia. assert (Fc : fused c = false) by tauto.
    unfold product_of in P. rewrite Fc in P. unfold product_nearest in P. set (t := associate_x86 c d v a) in *. set (m := max_of d) in *. clearbody t m. split; [exact Q|].
    assert (v * a <= m * m)%Z by nia. assert (64 * (m * (t - m)) <= 33 * m)%Z by nia. nia.
Qed.
Theorem C77_alpha_channel_low_x86_u16_partial : forall k c rcp L f pool (store into plain out : image Z),
  valid_call 4 true f store into -> changes_size store into -> f <> Nearest -> pool_ok pool ->
  let d := bit_depth into in
  vectors c = true -> d <= 12 -> (d = 10 \/ d = 12 \/ fused c = false) -> samples_in (max_of d) (buf store) -> sums_fit f (max_of d) store into ->
  resize_rgba_u16_x86 k c rcp L f pool false store into = Returned Ok plain ->
  resize_rgba_u16_x86 k c rcp L f pool true store into = Returned Ok out ->
  forall x y, x < width into -> y < height into -> alpha_at out x y = alpha_at plain x y.
Proof.
  intros k c rcp L f pool store into plain out V D Hf HP d Vc Hb Hc HS HF Rp Ro x y Hx Hy.
  pose proof (vc_depth _ _ _ _ _ V eq_refl) as D1. fold d in D1. pose proof (max_range d ltac:(lia)) as HM.
  pose proof (samples_up _ _ _ (proj2 HM) HS) as HS'.
  destruct (rgba_pipeline_u16_any k c rcp L f pool store into V D Hf HP HS') as (need & src & mid & o & A0 & A1 & A2 & A3 & A4 & A5 & A6 & A7 & A8 & A9 & A10).
  rewrite Ro in A8. inversion A8; subst o. rewrite C76_flag_off_x86_u16 in Rp. destruct (valid_good V) as [Gs Gi].
  unfold alpha_at. rewrite (un_alpha c rcp (bit_depth into) mid out x y Vc (good_opd _ _ _ Gi A7) A9).
  - apply (low_call_channel k c L f pool src store into mid plain 3 x y); auto.
    + destruct need; [|now rewrite (A2 eq_refl)]. destruct (A1 eq_refl) as ((Q1 & Q2 & Q3) & G & S1 & S2).
      apply (packed_samples (max_colors (bit_depth into)) (width store) (height store)); auto.
      intros x0 y0 r g b a Hx0 Hy0 P. destruct (pixel_exists store x0 y0 Gs Hx0 Hy0) as (r0 & g0 & b0 & a0 & P0).
      destruct (pixel_words _ _ _ _ _ _ _ _ HS P0) as (B0 & B1 & B2 & B3).
      destruct (Q3 x0 y0 r0 g0 b0 a0 Hx0 Hy0 P0) as (r' & g' & b' & a' & E & P').
      rewrite pre16_is in E by (auto; lia). fold d in E. injection E as <- <- <- <-.
      destruct P as (e0 & e1 & e2 & e3), P' as (u0 & u1 & u2 & u3).
      rewrite e0 in u0. rewrite e1 in u1. rewrite e2 in u2. rewrite e3 in u3. injection u0 as ->. injection u1 as ->. injection u2 as ->. injection u3 as ->.
      pose proof (associate_in c d r0 a0 ltac:(lia) Hc B0 B3). pose proof (associate_in c d g0 a0 ltac:(lia) Hc B1 B3). pose proof (associate_in c d b0 a0 ltac:(lia) Hc B2 B3). 
      unfold max_of, max_colors in *. fold d. auto.
    + intros x0 y0 Hx0 Hy0. destruct need; [|now rewrite (A2 eq_refl)]. apply (pre_alpha c (bit_depth into)); auto. now apply A1.
  - now rewrite (opd_width _ _ _ A7).
  - now rewrite (opd_height _ _ _ A7).
Qed.
Print Assumptions C77_alpha_channel_low_x86_u16_partial.

(** ** C79 Un-premultiplication *)
Lemma unassociate_zero c rcp d v : unassociate_x86 c rcp d v 0 = v.
Proof. unfold unassociate_x86, unassociate_avx, unassociate_sse. destruct (avx2 _); reflexivity. Qed.
Lemma unassociate_ok c rcp d v a : rcp_accurate16 rcp -> 1 <= d <= 16 -> d <= 15 \/ avx2 (base_cpu c) = true -> (1 <= a <= max_of d)%Z -> (0 <= v <= a)%Z ->
  quotient_of c d v a (unassociate_x86 c rcp d v a) /\ (0 <= unassociate_x86 c rcp d v a <= 65535)%Z.
Proof.
  intros Hr Hd Hs Ha Hv. pose proof (max_range d Hd) as HM. unfold quotient_of, unassociate_x86, unassociate_avx, unassociate_sse. fold (max_of d).
  assert (A0 : (a =? 0)%Z = false) by lia. destruct (avx2 (base_cpu c)); cbv beta; rewrite A0.
  - destruct (scaled_ok rcp (max_of d) v a Hr Ha ltac:(lia) Hv (has_fma c)) as (B & Qt). split; [|exact B]. destruct (has_fma c); exact Qt.
  - assert (d <= 15) as Hd' by (destruct Hs; [assumption|discriminate]). pose proof (max_range15 d ltac:(lia)).
    destruct (sse_ok rcp (max_of d) v a Hr Ha ltac:(lia) Hv ltac:(lia)) as (B & Qt). split; [exact Qt|]. lia.
Qed.
(** Every pixel of the result: alpha is the resized alpha, a transparent pixel keeps its resized colours, and a colour not above
    its alpha is divided by it, up to the accuracy of the reciprocal instruction (missing: 16-bit images without AVX2). *)
Theorem C79_unpremultiply_x86_u16_partial : forall k c rcp L f pool (store into : image Z),
  valid_call 4 true f store into -> changes_size store into -> f <> Nearest -> pool_ok pool -> samples_in 65535 (buf store) -> vectors c = true ->
  exists src mid out,
    (pixelwise (colours (associate_x86 c (bit_depth into))) store src \/ src = store) /\
    resize_u16_x86 k c L f 4 pool src into = Returned Ok mid /\ resize_rgba_u16_x86 k c rcp L f pool true store into = Returned Ok out /\
    forall x y r g b a, x < width into -> y < height into -> pixel mid x y r g b a ->
      exists r' g' b', pixel out x y r' g' b' a /\
        (a = 0%Z -> r' = r /\ g' = g /\ b' = b) /\
        (rcp_accurate16 rcp -> bit_depth into <= 15 \/ avx2 (base_cpu c) = true -> (1 <= a <= max_of (bit_depth into))%Z ->
          ((0 <= r <= a)%Z -> quotient_of c (bit_depth into) r a r') /\ ((0 <= g <= a)%Z -> quotient_of c (bit_depth into) g a g') /\
          ((0 <= b <= a)%Z -> quotient_of c (bit_depth into) b a b')).
Proof.
  intros k c rcp L f pool store into V D Hf HP HS Vc.
  destruct (C77_pipeline_any_width_x86_u16_partial k c rcp L f pool store into V D Hf HP HS Vc) as (src & mid & out & A1 & A2 & A3 & A4).
  exists src, mid, out. repeat (split; [assumption|]). destruct A4 as (Q1 & Q2 & Q3). intros x y r g b a Hx Hy P.
  assert (Hxy : x < width mid /\ y < height mid).
  { destruct (rgba_pipeline_u16_any k c rcp L f pool store into V D Hf HP HS) as (_ & _ & _ & o & _ & _ & _ & _ & _ & _ & _ & _ & R & _ & O).
    rewrite A3 in R. inversion R; subst o. pose proof (opd_width _ _ _ O). pose proof (opd_height _ _ _ O). lia. }
  destruct (Q3 x y r g b a (proj1 Hxy) (proj2 Hxy) P) as (r' & g' & b' & a' & E & P'). injection E as <- <- <- <-.
  eexists _, _, _. split; [exact P'|]. split.
  - intros ->. now rewrite !unassociate_zero.
  - intros Hr Hd Ha. pose proof (vc_depth _ _ _ _ _ V eq_refl). split; [|split]; intro Hv; apply unassociate_ok; auto.
Qed.
Print Assumptions C79_unpremultiply_x86_u16_partial.

(** Depths 10 and 12: un-premultiplying a premultiplied sample returns it up to 1 + max/2667 + max/(2 alpha). *)
Theorem C79_round_trip_x86_u16 : forall c rcp d v a,
  rcp_accurate16 rcp -> d = 10 \/ d = 12 -> (0 <= v <= max_of d)%Z -> (1 <= a <= max_of d)%Z ->
  let t := unassociate_x86 c rcp d (associate_x86 c d v a) a in
  (16000 * a * Z.abs (t - v) <= (16000 + 6 * max_of d) * a + 8000 * max_of d)%Z.
Proof.
  intros c rcp d v a Hr Hd Hv Ha. cbv zeta. pose proof (max_range d ltac:(lia)) as HM. rewrite (associate_exact c d v a Hd Hv ltac:(lia)).
  pose proof (nearest_div_le v a (max_of d) Hv ltac:(lia) ltac:(lia)) as B.
  assert (N : (2 * Z.abs (max_of d * nearest_div (v * a) (max_of d) - v * a) <= max_of d)%Z).
  { unfold nearest_div. set (m := max_of d) in *. pose proof (Z.div_mod (2 * (v * a) + m) (2 * m) ltac:(lia)). pose proof (Z.mod_pos_bound (2 * (v * a) + m) (2 * m) ltac:(lia)).
    set (q := ((2 * (v * a) + m) / (2 * m))%Z) in *. set (p := (v * a)%Z) in *. clearbody p q. nia. }
  set (w := nearest_div (v * a) (max_of d)) in *.
  destruct (unassociate_ok c rcp d w a Hr ltac:(lia) ltac:(lia) Ha B) as (Q & _).
  set (t := unassociate_x86 c rcp d w a) in *. unfold quotient_of, quotient_nearest, quotient_above in Q. set (m := max_of d) in *. clearbody t w m.
  assert (m * w <= m * a)%Z by nia.
  assert (G : (16000 * Z.abs (a * t - m * w) <= 16000 * a + 6 * (m * a))%Z) by (destruct (_ && _); lia).
  assert (16000 * Z.abs (a * t - v * a) <= 16000 * a + 6 * (m * a) + 8000 * m)%Z by lia.
  replace (a * t - v * a)%Z with (a * (t - v))%Z in H0 by ring. rewrite Z.abs_mul, (Z.abs_eq a) in H0 by lia. lia.
Qed.
Print Assumptions C79_round_trip_x86_u16.
(** Up to 10 bits an opaque sample comes back unchanged with AVX2 without FMA, and unchanged or one larger otherwise. *)
Theorem C79_opaque_low_x86_u16 : forall c rcp d v, rcp_accurate16 rcp -> 1 <= d <= 10 -> (0 <= v <= max_of d)%Z ->
  let t := unassociate_x86 c rcp d v (max_of d) in
  if avx2 (base_cpu c) && negb (has_fma c) then t = v else (v <= t <= v + 1)%Z.
Proof.
  intros c rcp d v Hr Hd Hv. cbv zeta. pose proof (max_range d ltac:(lia)) as HM.
  assert (H10 : (max_of d <= 1023)%Z). { unfold max_of. assert (2 ^ Z.of_nat d <= 2 ^ 10)%Z by (apply Z.pow_le_mono_r; lia). lia. }
  destruct (unassociate_ok c rcp d v (max_of d) Hr ltac:(lia) ltac:(lia) ltac:(lia) Hv) as (Q & _).
  set (t := unassociate_x86 c rcp d v (max_of d)) in *. unfold quotient_of, quotient_nearest, quotient_above in Q. set (m := max_of d) in *. clearbody t m.
  destruct (_ && _).
  - replace (m * t - m * v)%Z with (m * (t - v))%Z in Q by ring. rewrite Z.abs_mul, (Z.abs_eq m) in Q by lia. nia.
  - nia.
Qed.
Print Assumptions C79_opaque_low_x86_u16.
Lemma exact_rcp_accurate16 : rcp_accurate16 (fdiv f1).
Proof.
  intros a Ha. assert (A0 : (1 <= IZR a <= 65535)%R) by (split; apply IZR_le; lia).
  assert (I0 : (0 < / IZR a <= 1)%R) by (split; [apply Rinv_0_lt_compat; lra|rewrite <- Rinv_1; apply Rinv_le; lra]).
  exists (rnd (1 / IZR a)). split.
  - apply fdiv_fin; [apply f1_fin|apply fint_exact; lia|lra|]. unfold moderate. unfold Rdiv. rewrite Rmult_1_l, Rabs_pos_eq by lra.
    apply Rle_trans with 1%R; [lra|]. apply IZR_le. lia.
  - unfold Rdiv. rewrite Rmult_1_l. destruct (rel_up (/ IZR a)) as (e & He & ->).
    { apply Rinv_le; lra. }
    replace (/ IZR a * (1 + e) * IZR a - 1)%R with e by (field; lra). apply Rabs_le. lra.
Qed.
(** With an exact reciprocal: opaque 10-bit samples change, and white exceeds the maximum; at 16 bits without AVX2 everything is cut
    at 32767; at 16 bits with AVX2, alpha 1 and a colour of 40000 give 0. *)
Theorem C79_unpremultiply_refuted :
  unassociate_sse (fdiv f1) 10 1 1023 = 2%Z /\ unassociate_sse (fdiv f1) 10 1023 1023 = 1024%Z /\ unassociate_avx true (fdiv f1) 10 1023 1023 = 1024%Z /\
  unassociate_avx false (fdiv f1) 10 1023 1023 = 1023%Z /\
  unassociate_sse (fdiv f1) 16 65535 65535 = 32767%Z /\ unassociate_sse (fdiv f1) 16 40000 40000 = 32767%Z /\
  unassociate_avx true (fdiv f1) 16 40000 1 = 0%Z /\ unassociate_avx false (fdiv f1) 16 40000 1 = 0%Z.
Proof. repeat split; vm_compute; reflexivity. Qed.
Print Assumptions C79_unpremultiply_refuted.
(** End to end: a white 10-bit image exceeds 1023 with SSE 4.1 or with AVX2 and FMA; a white opaque 16-bit image comes out half grey with SSE 4.1 (portable: white). *)
Theorem C79_white_refuted : forall k L,
  let white d v := deep4 2 1 d (repeat v 8) in let into d := deep4 4 1 d (repeat 7%Z 16) in
  (exists out, resize_rgba_u16_x86 k sse_only (fdiv f1) L Box None true (white 10 1023%Z) (into 10) = Returned Ok out /\ pixel out 1 0 1024%Z 1024%Z 1024%Z 1023%Z) /\
  (exists out, resize_rgba_u16_x86 k avx2_fma (fdiv f1) L Box None true (white 10 1023%Z) (into 10) = Returned Ok out /\ pixel out 1 0 1024%Z 1024%Z 1024%Z 1023%Z) /\
  (exists out, resize_rgba_u16_x86 k sse_only (fdiv f1) L Box None true (white 16 65535%Z) (into 16) = Returned Ok out /\ pixel out 1 0 32767%Z 32767%Z 32767%Z 65535%Z) /\
  (exists out, resize_rgba_u16 k L Box None true (white 16 65535%Z) (into 16) = Returned Ok out /\ pixel out 1 0 65535%Z 65535%Z 65535%Z 65535%Z).
Proof.
  intros k L white into. unfold white, into.
  unfold resize_rgba_u16_x86, resize_rgba_u16, rgba_engine_u16, x86_engine_u16, engine_u16.
  change (resampling_filter L Box) with (resampling_filter any_libm Box).
  split; [|split; [|split]]; eexists; (split; [destruct k; vm_compute; reflexivity|vm_compute; auto]).
Qed.
Print Assumptions C79_white_refuted.
Example C79_nonvacuous :
  rcp_accurate16 (fdiv f1) /\ vectors sse_only = true /\ avx2 (base_cpu avx2_fma) = true /\
  let store := deep4 2 1 16 [1; 2; 3; 63; 7; 8; 9; 65535]%Z in let into := deep4 3 1 16 (repeat 0%Z 12) in
  valid_call 4 true Lanczos3 store into /\ changes_size store into /\ samples_in 65535 (buf store) /\
  (1 <= 63 <= max_of (bit_depth into))%Z.
Proof.
  split; [exact exact_rcp_accurate16|]. split; [reflexivity|]. split; [reflexivity|]. cbv zeta.
  split; [unfold deep4; deep_tac|]. split; [left; cbn; lia|]. split; [|cbn; lia].
  cbn [deep4 buf]. repeat (constructor; [lia|]). constructor.
Qed.
