(** C28, C53, C57-C59: the alpha code of 8-bit images on x86-64.
    [premul_u8_x86 c], [unpremul_u8_x86 c rcp] and [resize_rgba_u8_x86 c s rcp] are the
    premultiplication, the un-premultiplication and the RGBA resize on a processor with the
    instruction sets [c]; [rcp] is the processor's RCPPS instruction on one lane. *)
From Coq Require Import ZArith List Bool Lia ZifyBool ZifyNat.
From Verif Require Import Base BaseProofs ImageStore FixedPoint Dispatch Resize Spec F32 Weights Sampler Api SpecApi SpecAlpha ImageProofs NoFail
  KernelProofs PoolProofs DispatchProofs ResizeProofs PortableProofs SamplerProofs Center QuantSums ApiProofs Witness Alpha AlphaProofs AlphaArith AlphaScan ApiRgba RgbaProofs
  SimdProofs X86Dispatch SpecX86 X86Calls X86Facts X86NoFail X86Alpha X86AlphaProofs X86AlphaScan SpecX86Alpha X86AlphaCalls X86AlphaArith.
Import ListNotations.
Local Open Scope nat_scope.

Definition with_avx2 : cpu := mkCpu true true.
Definition with_sse41 : cpu := mkCpu true false.

(** ** Arithmetic of the specification *)
Lemma vector_near v : (nearest_div v 255 - 1 <= vector_div255 v <= nearest_div v 255)%Z.
Proof. unfold vector_div255. destruct (short_by_one v); lia. Qed.
Lemma vector_exact c : (vector_div255 (c * 255) = c)%Z.
Proof. unfold vector_div255, short_by_one, nearest_div. rewrite Z.mod_mul by lia. cbn [Z.eqb orb andb]. lia. Qed.
Lemma vector_error v : (v - 129 <= 255 * vector_div255 v <= v + 127)%Z.
Proof.
  unfold vector_div255, short_by_one, nearest_div. change (2 * 255)%Z with 510%Z.
  pose proof (Z.div_mod v 255 ltac:(lia)) as E. pose proof (Z.mod_pos_bound v 255 ltac:(lia)) as B.
  set (q := (v / 255)%Z) in *. set (r := (v mod 255)%Z) in *. clearbody q r. subst v.
  replace ((2 * (255 * q + r) + 255) / 510)%Z with (q + (if 128 <=? r then 1 else 0))%Z.
  2:{ destruct (Z.leb_spec 128 r); [apply Z.div_unique with (r := (2 * r - 255)%Z)|apply Z.div_unique with (r := (2 * r + 255)%Z)]; lia. }
  destruct (Z.eqb_spec r 128); destruct (Z.eqb_spec r 129); destruct (Z.leb_spec 130 q); destruct (Z.leb_spec 128 r); cbn [orb andb]; lia.
Qed.
Lemma vector_le c a : (0 <= c <= 255 -> 0 <= a <= 255 -> 0 <= vector_div255 (c * a) <= a)%Z.
Proof. intros. pose proof (vector_error (c * a)). nia. Qed.
Lemma px_pre_sse c r g b a : avx2 c = false -> sse41 c = true -> SimdProofs.byte r -> SimdProofs.byte g -> SimdProofs.byte b -> SimdProofs.byte a ->
  px_pre c r g b a = associate8_sse r g b a.
Proof. intros A S Hr Hg Hb Ha. unfold px_pre. rewrite A, S. unfold px_sse, associate8_sse. rewrite !simd_div_spec by (apply mul_byte; assumption). reflexivity. Qed.
Lemma px_pre_avx c r g b a : avx2 c = true -> SimdProofs.byte r -> SimdProofs.byte g -> SimdProofs.byte b -> SimdProofs.byte a ->
  px_pre c r g b a = associate8_avx r g b a.
Proof. intros A Hr Hg Hb Ha. unfold px_pre. rewrite A. unfold px_avx, associate8_avx. rewrite !simd_div_spec by (apply mul_byte; assumption). reflexivity. Qed.
Lemma sample_byte (im : image Z) x y k v : samples_in 255 (buf im) -> sample 4 im x y k = Some v -> SimdProofs.byte v.
Proof. intros S H. pose proof (RgbaProofs.samples_bytes im x y k v S H). unfold AlphaArith.byte, SimdProofs.byte in *. lia. Qed.

(** ** C28 Vector and portable premultiplication. *)
(** SSE4.1 without AVX2, whatever the width (vector body and tail alike): alpha is kept,
    each colour is [vector_div255] of the product, hence never above alpha, exact for opaque
    pixels, and equal to the correctly rounded quotient or one less. *)
Theorem C28_premultiply_sse41_partial : forall c pool (im into : image Z),
  sse41 c = true -> avx2 c = false ->
  proper 4 im -> proper 4 into -> width im = width into -> height im = height into -> pool_ok pool -> samples_in 255 (buf im) ->
  exists out, premul_u8_x86 c pool im into = Done out /\ only_pixels_differ 4 into out /\ pixelwise associate8_sse im out.
Proof.
  intros c pool im into Hs Ha Pi Po W H HP S. apply proper_good in Pi. apply proper_good in Po.
  destruct (premul_x86_ok c pool im into HP (X86DispatchProofs.samples_bytes _ S) Pi Po W H) as (out & R & Rp).
  exists out. split; [exact R|]. split; [apply Rp|].
  destruct (repainted_pixelwise _ _ _ _ (four_pre c) Pi W H Rp) as (Q1 & Q2 & Q). split; [exact Q1|]. split; [exact Q2|].
  intros x y r g b a Hx Hy P. destruct (Q x y r g b a Hx Hy P) as (r' & g' & b' & a' & E & P'). exists r', g', b', a'. split; [|exact P'].
  rewrite <- E. symmetry. destruct P as (P0 & P1 & P2 & P3). apply px_pre_sse; auto; eapply sample_byte; eauto.
Qed.
Print Assumptions C28_premultiply_sse41_partial.
Theorem C28_premultiply_avx2_partial : forall c pool (im into : image Z),
  avx2 c = true ->
  proper 4 im -> proper 4 into -> width im = width into -> height im = height into -> pool_ok pool -> samples_in 255 (buf im) ->
  exists out, premul_u8_x86 c pool im into = Done out /\ only_pixels_differ 4 into out /\ pixelwise associate8_avx im out.
Proof.
  intros c pool im into Ha Pi Po W H HP S. apply proper_good in Pi. apply proper_good in Po.
  destruct (premul_x86_ok c pool im into HP (X86DispatchProofs.samples_bytes _ S) Pi Po W H) as (out & R & Rp).
  exists out. split; [exact R|]. split; [apply Rp|].
  destruct (repainted_pixelwise _ _ _ _ (four_pre c) Pi W H Rp) as (Q1 & Q2 & Q). split; [exact Q1|]. split; [exact Q2|].
  intros x y r g b a Hx Hy P. destruct (Q x y r g b a Hx Hy P) as (r' & g' & b' & a' & E & P'). exists r', g', b', a'. split; [|exact P'].
  rewrite <- E. symmetry. destruct P as (P0 & P1 & P2 & P3). apply px_pre_avx; auto; eapply sample_byte; eauto.
Qed.
Print Assumptions C28_premultiply_avx2_partial.
(** The arithmetic of the two specifications above. *)
Theorem C28_arithmetic : forall c a : Z, (0 <= c <= 255 -> 0 <= a <= 255 ->
  nearest_div (c * a) 255 - 1 <= vector_div255 (c * a) <= nearest_div (c * a) 255 /\
  0 <= vector_div255 (c * a) <= a /\ (a = 255 -> vector_div255 (c * a) = c) /\
  c * a - 129 <= 255 * vector_div255 (c * a) <= c * a + 127)%Z.
Proof.
  intros c a Hc Ha. split; [apply vector_near|]. split; [now apply vector_le|]. split; [|apply vector_error].
  intros ->. apply vector_exact.
Qed.
Print Assumptions C28_arithmetic.
(** With AVX2 the result of premultiplying is, sample by sample, that of a build without
    vector code or one less. *)
Theorem C28_agree_partial : forall c pool (im into : image Z), avx2 c = true ->
  proper 4 im -> proper 4 into -> width im = width into -> height im = height into -> pool_ok pool -> samples_in 255 (buf im) ->
  exists a b, premul_u8_x86 c pool im into = Done a /\ premul_u8 pool im into = Done b /\ differ_by (-1) 0 4 a b.
Proof.
  intros c pool im into Ha Pi Po W H HP S.
  destruct (C28_premultiply_avx2_partial c pool im into Ha Pi Po W H HP S) as (a & R & O & (Q1 & Q2 & Q)).
  apply proper_good in Pi. apply proper_good in Po.
  destruct (premul_u8_ok pool HP im into Pi Po W H) as (b & R' & Rp).
  exists a, b. split; [exact R|]. split; [exact R'|]. intros x y k v w Hx Hy Hk Hv Hw.
  rewrite <- Q1 in Hx. rewrite <- Q2 in Hy.
  destruct (pixel_exists im x y Pi Hx Hy) as (r & g & bl & al & P).
  destruct (Q x y r g bl al Hx Hy P) as (r1 & g1 & b1 & a1 & E1 & V0 & V1 & V2 & V3).
  destruct (repainted_pixelwise _ _ _ _ four_u8 Pi W H Rp) as (_ & _ & Q').
  destruct (Q' x y r g bl al Hx Hy P) as (r2 & g2 & b2 & a2 & E2 & U0 & U1 & U2 & U3).
  destruct P as (P0 & P1 & P2 & P3).
  rewrite premul_px_spec in E2 by (eapply RgbaProofs.samples_bytes; eauto).
  unfold associate8_avx in E1. unfold associate8 in E2.
  apply list4_inj in E1 as (<- & <- & <- & <-). apply list4_inj in E2 as (<- & <- & <- & <-).
  destruct k as [|[|[|[|]]]]; try lia.
  - rewrite V0 in Hv; rewrite U0 in Hw; inversion Hv; inversion Hw. pose proof (vector_near (r * al)). lia.
  - rewrite V1 in Hv; rewrite U1 in Hw; inversion Hv; inversion Hw. pose proof (vector_near (g * al)). lia.
  - rewrite V2 in Hv; rewrite U2 in Hw; inversion Hv; inversion Hw. pose proof (vector_near (bl * al)). lia.
  - rewrite V3 in Hv; rewrite U3 in Hw; inversion Hv; inversion Hw. pose proof (vector_near (al * al)). lia.
Qed.
Print Assumptions C28_agree_partial.
(** They are not equal: 1*128/255 is rounded to 1 by the portable code and to 0 by the
    vector code, and SSE4.1 keeps the alpha that the portable code squares. *)
Theorem C28_agree_refuted : exists im into : image Z,
  proper 4 im /\ proper 4 into /\ samples_in 255 (buf im) /\ pixel im 0 0 1%Z 0%Z 0%Z 128%Z /\
  (exists out, premul_u8 None im into = Done out /\ pixel out 0 0 1%Z 0%Z 0%Z 64%Z) /\
  (exists out, premul_u8_x86 with_avx2 None im into = Done out /\ pixel out 0 0 0%Z 0%Z 0%Z 64%Z) /\
  (exists out, premul_u8_x86 with_sse41 None im into = Done out /\ pixel out 0 0 0%Z 0%Z 0%Z 128%Z).
Proof.
  exists (mkImage [1; 0; 0; 128]%Z 4 1 1 4 0), (mkImage [0; 0; 0; 0]%Z 4 1 1 4 0).
  split; [cbv; lia|]. split; [cbv; lia|]. split; [repeat constructor; lia|]. split; [repeat split|].
  split; [|split]; (eexists; split; [vm_compute; reflexivity|repeat split]).
Qed.
Print Assumptions C28_agree_refuted.
Definition px3 : image Z := mkImage [200; 0; 255; 128; 10; 20; 30; 255; 7; 7]%Z 4 2 1 10 0.
Example C28_nonvacuous : proper 4 px3 /\ samples_in 255 (buf px3) /\ pixel px3 0 0 200%Z 0%Z 255%Z 128%Z /\ pool_ok (Some (fun _ n => rev (seq 0 n))).
Proof. split; [cbv; lia|]. split; [repeat constructor; lia|]. split; [repeat split|]. exact pool_two. Qed.

(** ** C58 Un-premultiplication on x86-64: alpha is kept, transparent pixels become black,
    colours are colour*255/alpha (at most 255) up to 3/5. *)
Theorem C58_unpremultiply_sse41 : forall c rcp pool (im : image Z),
  sse41 c = true -> avx2 c = false -> rcp_accurate rcp -> proper 4 im -> pool_ok pool -> samples_in 255 (buf im) ->
  exists out, unpremul_u8_x86 c rcp pool im = Done out /\ only_pixels_differ 4 im out /\
    forall x y r g b a, x < width im -> y < height im -> pixel im x y r g b a ->
      exists r' g' b', pixel out x y r' g' b' a /\
        (a = 0%Z -> r' = 0%Z /\ g' = 0%Z /\ b' = 0%Z) /\
        ((0 < a)%Z -> unassociated r a r' /\ unassociated g a g' /\ unassociated b a b').
Proof.
  intros c rcp pool im Hs Ha Hr Pi HP S. apply proper_good in Pi.
  destruct (unpremul_x86_ok c rcp pool im HP Pi) as (out & R & Rp).
  { intros x y k v _ _ _ Hv. eapply sample_byte; eauto. }
  exists out. split; [exact R|]. split; [apply Rp|]. intros x y r g b a Hx Hy P.
  destruct (repainted_pixelwise _ _ _ _ (four_un c rcp) Pi eq_refl eq_refl Rp) as (_ & _ & Q).
  destruct (Q x y r g b a Hx Hy P) as (r' & g' & b' & a' & E & P'). destruct P as (P0 & P1 & P2 & P3).
  pose proof (sample_byte _ _ _ _ _ S P0) as B0. pose proof (sample_byte _ _ _ _ _ S P1) as B1.
  pose proof (sample_byte _ _ _ _ _ S P2) as B2. pose proof (sample_byte _ _ _ _ _ S P3) as B3. unfold SimdProofs.byte in *.
  unfold px_un in E. rewrite Ha, Hs in E. unfold px_un_sse in E. apply list4_inj in E as (<- & <- & <- & <-).
  do 3 eexists. split; [exact P'|]. split.
  - intros ->. auto.
  - intro. split; [|split]; apply un_sse_value; auto; lia.
Qed.
Print Assumptions C58_unpremultiply_sse41.
(** AVX2: the same, except that colours above 128 under alpha 1 come out black. *)
Theorem C58_unpremultiply_avx2_partial : forall c rcp pool (im : image Z),
  avx2 c = true -> rcp_accurate rcp -> proper 4 im -> pool_ok pool -> samples_in 255 (buf im) ->
  exists out, unpremul_u8_x86 c rcp pool im = Done out /\ only_pixels_differ 4 im out /\
    forall x y r g b a, x < width im -> y < height im -> pixel im x y r g b a ->
      exists r' g' b', pixel out x y r' g' b' a /\
        (a = 0%Z -> r' = 0%Z /\ g' = 0%Z /\ b' = 0%Z) /\
        ((0 < a)%Z -> (a = 1 -> r <= 128)%Z -> unassociated r a r') /\
        ((0 < a)%Z -> (a = 1 -> g <= 128)%Z -> unassociated g a g') /\
        ((0 < a)%Z -> (a = 1 -> b <= 128)%Z -> unassociated b a b') /\
        (a = 1%Z -> (128 < r)%Z -> r' = 0%Z).
Proof.
  intros c rcp pool im Ha Hr Pi HP S. apply proper_good in Pi.
  destruct (unpremul_x86_ok c rcp pool im HP Pi) as (out & R & Rp).
  { intros x y k v _ _ _ Hv. eapply sample_byte; eauto. }
  exists out. split; [exact R|]. split; [apply Rp|]. intros x y r g b a Hx Hy P.
  destruct (repainted_pixelwise _ _ _ _ (four_un c rcp) Pi eq_refl eq_refl Rp) as (_ & _ & Q).
  destruct (Q x y r g b a Hx Hy P) as (r' & g' & b' & a' & E & P'). destruct P as (P0 & P1 & P2 & P3).
  pose proof (sample_byte _ _ _ _ _ S P0) as B0. pose proof (sample_byte _ _ _ _ _ S P1) as B1.
  pose proof (sample_byte _ _ _ _ _ S P2) as B2. pose proof (sample_byte _ _ _ _ _ S P3) as B3. unfold SimdProofs.byte in *.
  unfold px_un in E. rewrite Ha in E. unfold px_un_avx in E. apply list4_inj in E as (<- & <- & <- & <-).
  rewrite !un_avx_cases in P' by (auto; lia).
  do 3 eexists. split; [exact P'|].
  assert (X : forall k, (0 <= k <= 255)%Z -> (0 < a)%Z -> (a = 1 -> k <= 128)%Z -> 
     unassociated k a (if ((a =? 1) && (129 <=? k))%Z then 0%Z else un_sse rcp k a)).
  { intros k Hk Hp H1. replace ((a =? 1) && (129 <=? k))%Z with false by lia. apply un_sse_value; auto; lia. }
  split; [|split; [|split; [|split]]]; try (apply X; lia).
  - intros ->. auto.
  - intros -> Hr'. replace ((1 =? 1) && (129 <=? r))%Z with true by lia. reflexivity.
Qed.
Print Assumptions C58_unpremultiply_avx2_partial.
(** Processors as accurate as required exist: a correctly rounded reciprocal. *)
Example C58_nonvacuous : rcp_accurate (fdiv f1) /\ proper 4 px3 /\ samples_in 255 (buf px3) /\ pixel px3 0 0 200%Z 0%Z 255%Z 128%Z.
Proof. split; [apply exact_rcp_accurate|]. split; [cbv; lia|]. split; [repeat constructor; lia|]. repeat split. Qed.
(** Premultiplying and un-premultiplying with SSE4.1 returns each colour up to 3/5 + 129/alpha. *)
Theorem C58_round_trip_sse41 : forall c rcp pool (im into : image Z) x y r g b a,
  sse41 c = true -> avx2 c = false -> rcp_accurate rcp -> proper 4 im -> proper 4 into -> width im = width into -> height im = height into ->
  pool_ok pool -> samples_in 255 (buf im) -> samples_in 255 (buf into) -> x < width im -> y < height im -> pixel im x y r g b a -> (0 < a)%Z ->
  exists mid out r' g' b', premul_u8_x86 c pool im into = Done mid /\ unpremul_u8_x86 c rcp pool mid = Done out /\ pixel out x y r' g' b' a /\
    (5 * (a * Z.abs (r' - r)) <= 3 * a + 645 /\ 5 * (a * Z.abs (g' - g)) <= 3 * a + 645 /\ 5 * (a * Z.abs (b' - b)) <= 3 * a + 645)%Z.
Proof.
  intros c rcp pool im into x y r g b a Hs Ha Hr Pi Po W H HP S So Hx Hy P Hpos.
  destruct (C28_premultiply_sse41_partial c pool im into Hs Ha Pi Po W H HP S) as (mid & R & O & (Q1 & Q2 & Q)).
  destruct (Q x y r g b a Hx Hy P) as (r1 & g1 & b1 & a1 & E & P1). unfold associate8_sse in E. apply list4_inj in E as (<- & <- & <- & <-).
  destruct P as (P0 & P2 & P3 & P4).
  pose proof (sample_byte _ _ _ _ _ S P0) as B0. pose proof (sample_byte _ _ _ _ _ S P2) as B1.
  pose proof (sample_byte _ _ _ _ _ S P3) as B2. pose proof (sample_byte _ _ _ _ _ S P4) as B3. unfold SimdProofs.byte in *.
  assert (Pm : good 4 mid) by (apply proper_good in Po; exact (good_opd _ _ _ Po O)).
  destruct (unpremul_x86_ok c rcp pool mid HP Pm) as (out & R' & Rp).
  { intros x' y' k v Hx' Hy' Hk Hv. rewrite <- Q1 in Hx'. rewrite <- Q2 in Hy'. apply proper_good in Pi.
    destruct (pixel_exists im x' y' Pi Hx' Hy') as (r0 & g0 & b0 & a0 & P').
    destruct (Q x' y' r0 g0 b0 a0 Hx' Hy' P') as (r1 & g1 & b1 & a1 & E & V0 & V1 & V2 & V3). unfold associate8_sse in E. apply list4_inj in E as (<- & <- & <- & <-).
    destruct P' as (Z0 & Z1 & Z2 & Z3).
    pose proof (sample_byte _ _ _ _ _ S Z0) as X0. pose proof (sample_byte _ _ _ _ _ S Z1) as X1.
    pose proof (sample_byte _ _ _ _ _ S Z2) as X2. pose proof (sample_byte _ _ _ _ _ S Z3) as X3. unfold SimdProofs.byte in *.
    pose proof (vector_le r0 a0 ltac:(lia) ltac:(lia)). pose proof (vector_le g0 a0 ltac:(lia) ltac:(lia)). pose proof (vector_le b0 a0 ltac:(lia) ltac:(lia)).
    destruct k as [|[|[|[|]]]]; try lia; [rewrite V0 in Hv|rewrite V1 in Hv|rewrite V2 in Hv|rewrite V3 in Hv]; inversion Hv; lia. }
  destruct (repainted_pixelwise _ _ _ _ (four_un c rcp) Pm eq_refl eq_refl Rp) as (_ & _ & Q').
  destruct (Q' x y _ _ _ _ ltac:(lia) ltac:(lia) P1) as (r' & g' & b' & a' & E & P'). unfold px_un in E. rewrite Ha, Hs in E.
  unfold px_un_sse in E. apply list4_inj in E as (<- & <- & <- & <-).
  exists mid, out. do 3 eexists. split; [exact R|]. split; [exact R'|]. split; [exact P'|].
  assert (X : forall k, (0 <= k <= 255)%Z -> (5 * (a * Z.abs (un_sse rcp (vector_div255 (k * a)) a - k)) <= 3 * a + 645)%Z).
  { intros k Hk. pose proof (vector_error (k * a)) as V1. pose proof (vector_le k a Hk ltac:(lia)) as V2.
    pose proof (un_sse_value rcp (vector_div255 (k * a)) a Hr ltac:(lia) ltac:(lia)) as V3. unfold unassociated in V3.
    rewrite Z.min_l in V3 by lia. set (u := un_sse _ _ _) in *. set (d := vector_div255 _) in *.
    assert (Hd : (a * Z.abs (u - k) = Z.abs (a * u - k * a))%Z) by (replace (a * u - k * a)%Z with (a * (u - k))%Z by ring; rewrite Z.abs_mul; lia).
    lia. }
  split; [|split]; apply X; lia.
Qed.
Print Assumptions C58_round_trip_sse41.
(** With AVX2 the round trip does not return the colour: 200 under alpha 128 comes back as 255
    under alpha 64. *)
Theorem C58_round_trip_avx2_refuted : exists im into : image Z, proper 4 im /\ proper 4 into /\ samples_in 255 (buf im) /\
  pixel im 0 0 200%Z 0%Z 0%Z 128%Z /\
  forall rcp, rcp_accurate rcp -> exists mid out r, premul_u8_x86 with_avx2 None im into = Done mid /\
    unpremul_u8_x86 with_avx2 rcp None mid = Done out /\ sample 4 out 0 0 0 = Some r /\ r = 255%Z /\ alpha_at out 0 0 = Some 64%Z.
Proof.
  exists (mkImage [200; 0; 0; 128]%Z 4 1 1 4 0), (mkImage [0; 0; 0; 0]%Z 4 1 1 4 0).
  split; [cbv; lia|]. split; [cbv; lia|]. split; [repeat constructor; lia|]. split; [repeat split|].
  intros rcp Hr. set (mid := mkImage [100; 0; 0; 64]%Z 4 1 1 4 0).
  destruct (C58_unpremultiply_avx2_partial with_avx2 rcp None mid eq_refl Hr) as (out & R & _ & Q); [cbv; lia|exact I|repeat constructor; lia|].
  destruct (Q 0 0 100%Z 0%Z 0%Z 64%Z) as (r' & g' & b' & (P0 & _ & _ & P3) & _ & U & _); [cbn; lia|cbn; lia|repeat split|].
  exists mid, out, r'. split; [vm_compute; reflexivity|]. split; [exact R|]. split; [exact P0|]. split; [|exact P3].
  specialize (U ltac:(lia) ltac:(lia)). unfold unassociated in U. lia.
Qed.
Print Assumptions C58_round_trip_avx2_refuted.

(** ** C53 for RGBA calls: refusals, clean failure, pool independence, for all arguments. *)
Theorem C53_refusals_rgba_x86 : forall c s rcp L f pool premultiply (store into : image Z),
  match first_error (refusal_table 4 false store into) with
  | Some e => resize_rgba_u8_x86 c s rcp L f pool premultiply store into = Returned (Err e) into
  | None => resize_rgba_u8_x86 c s rcp L f pool premultiply store into = Panicked \/
            exists out, resize_rgba_u8_x86 c s rcp L f pool premultiply store into = Returned Ok out
  end.
Proof.
  intros. apply (generic_resize_with_alpha_cases 4 (x86_engine c s L f 4 (premul_u8_x86 c) (unpremul_u8_x86 c rcp) (alpha_needed_u8_x86 c)) pool premultiply store into).
  - apply x86_passes_nofail.
  - apply x86_alpha_nofail.
Qed.
Print Assumptions C53_refusals_rgba_x86.
Theorem C53_schedule_independent_rgba_x86 : forall c s rcp L f pool premultiply (store into : image Z), pool_ok pool ->
  resize_rgba_u8_x86 c s rcp L f pool premultiply store into = resize_rgba_u8_x86 c s rcp L f None premultiply store into.
Proof.
  intros. apply generic_resize_with_alpha_pool; auto.
  - apply x86_pool_blind.
  - apply x86_pool_blind_alpha.
Qed.
Print Assumptions C53_schedule_independent_rgba_x86.
(** Without the flag the RGBA call is the plain one. *)
Theorem C53_flag_off_x86 : forall c s rcp L f pool (store into : image Z),
  resize_rgba_u8_x86 c s rcp L f pool false store into = resize_u8_x86 c s L f 4 pool store into.
Proof. intros. unfold resize_rgba_u8_x86. rewrite with_alpha_off. reflexivity. Qed.
Print Assumptions C53_flag_off_x86.

(** ** C57 The alpha-aware resize on x86-64: premultiply when the alpha varies, resize,
    un-premultiply. *)
Definition associate_x86 (c : cpu) : Z -> Z -> Z -> Z -> list Z :=
  if avx2 c then associate8_avx else if sse41 c then associate8_sse else associate8.
Theorem C57_pipeline_x86_partial : forall c s rcp L f pool (store into : image Z),
  valid_call 4 false f store into -> changes_size store into -> f <> Nearest -> pool_ok pool -> samples_in 255 (buf store) ->
  tame f store into -> traps c s 4 (width store) (width into) = false -> rcp_accurate rcp ->
  exists src mid out,
    (alpha_varies store -> pixelwise (associate_x86 c) store src) /\ (~ alpha_varies store -> src = store) /\
    valid_call 4 false f src into /\
    resize_u8_x86 c s L f 4 pool src into = Returned Ok mid /\ only_pixels_differ 4 into mid /\
    resize_rgba_u8_x86 c s rcp L f pool true store into = Returned Ok out /\ only_pixels_differ 4 into out /\
    forall x y r g b a, x < width into -> y < height into -> pixel mid x y r g b a ->
      exists r' g' b', pixel out x y r' g' b' a /\
        (sse41 c || avx2 c = true -> a = 0%Z -> r' = 0%Z /\ g' = 0%Z /\ b' = 0%Z) /\
        (sse41 c || avx2 c = true -> (1 < a)%Z -> unassociated r a r' /\ unassociated g a g' /\ unassociated b a b').
Proof.
  intros c s rcp L f pool store into V D Hf HP HS Ht Tr Hr.
  destruct (rgba_pipeline_x86 c s rcp L f pool store into V D Hf HP HS Ht Tr) as (src & mid & out & A1 & A2 & A3 & A4 & A5 & A6 & A7 & A8 & A9 & A10 & A11).
  exists src, mid, out. split; [|split; [exact A2|split; [exact A3|split; [exact A7|split; [exact A8|split; [exact A9|split; [exact A11|]]]]]]].
  - intro VA. specialize (A1 VA). revert A1. apply pixelwise_ext.
    + intros x y k v _ _ _ Hv. exact (RgbaProofs.samples_bytes store x y k v HS Hv).
    + unfold AlphaArith.byte. intros r g b a Br Bg Bb Ba. unfold associate_x86. destruct (avx2 c) eqn:Ea; [apply px_pre_avx; auto; unfold SimdProofs.byte; lia|].
      destruct (sse41 c) eqn:Es; [apply px_pre_sse; auto; unfold SimdProofs.byte; lia|]. unfold px_pre. rewrite Ea, Es. apply premul_px_spec; unfold AlphaArith.byte; lia.
  - intros x y r g b a Hx Hy P. destruct A10 as (W & H & Q).
    assert (Hx' : x < width mid) by (rewrite (opd_width _ _ _ A8); exact Hx). assert (Hy' : y < height mid) by (rewrite (opd_height _ _ _ A8); exact Hy).
    destruct (Q x y r g b a Hx' Hy' P) as (r' & g' & b' & a' & E & P').
    assert (E4 : a' = a).
    { unfold px_un in E. destruct (avx2 c); [|destruct (sse41 c)]; apply list4_inj in E as (_ & _ & _ & <-); reflexivity. }
    subst a'. exists r', g', b'. split; [exact P'|].
    assert (Rg : SimdProofs.byte r /\ SimdProofs.byte g /\ SimdProofs.byte b /\ SimdProofs.byte a).
    { assert (Ds : changes_size src into) by (unfold changes_size in *; now rewrite A5, A6).
      pose proof (x86_call c s L f 4 pool src into A3 HP Hf Ds A4 ltac:(unfold tame, downscale_at_most in *; now rewrite A5, A6) ltac:(now rewrite A5)) as X.
      rewrite A7 in X. injection X as X. destruct P as (P0 & P1 & P2 & P3). rewrite X in P0, P1, P2, P3. destruct (valid_good V) as [_ Gi].
      rewrite (result_shows 4 _ into ltac:(lia) Gi x y 0 Hx Hy ltac:(lia)) in P0. rewrite (result_shows 4 _ into ltac:(lia) Gi x y 1 Hx Hy ltac:(lia)) in P1.
      rewrite (result_shows 4 _ into ltac:(lia) Gi x y 2 Hx Hy ltac:(lia)) in P2. rewrite (result_shows 4 _ into ltac:(lia) Gi x y 3 Hx Hy ltac:(lia)) in P3.
      injection P0 as <-. injection P1 as <-. injection P2 as <-. injection P3 as <-.
      split; [|split; [|split]]; now apply x86_resample_byte. }
    destruct Rg as (Br & Bg & Bb & Ba). unfold SimdProofs.byte in *. unfold px_un in E.
    split.
    + intros Hs ->. destruct (avx2 c); [|destruct (sse41 c); [|discriminate]]; apply list4_inj in E as (<- & <- & <- & _); auto.
    + intros Hs H1. destruct (avx2 c); [|destruct (sse41 c); [|discriminate]]; apply list4_inj in E as (<- & <- & <- & _);
      rewrite ?un_avx_cases by (auto; lia).
      * replace (a =? 1)%Z with false by lia. cbn [andb]. split; [|split]; apply un_sse_value; auto; lia.
      * split; [|split]; apply un_sse_value; auto; lia.
Qed.
Print Assumptions C57_pipeline_x86_partial.
Definition varying : image Z := mkImage [200; 0; 255; 128; 10; 20; 30; 255]%Z 4 2 1 8 0.
Definition wider : image Z := mkImage (repeat 0%Z 12) 4 3 1 12 0.
Example C57_nonvacuous : valid_call 4 false Bilinear varying wider /\ changes_size varying wider /\ samples_in 255 (buf varying) /\
  tame Bilinear varying wider /\ alpha_varies varying /\ traps with_avx2 PreferSpeed 4 2 3 = false /\ traps with_sse41 PreferQuality 4 2 3 = false.
Proof.
  split; [unfold varying, wider; valid_tac|]. split; [left; cbn; lia|]. split; [repeat constructor; lia|].
  split; [left; reflexivity|]. split; [exists 0, 0, 1, 0; repeat split; cbn; try lia; congruence|]. split; reflexivity.
Qed.

(** ** C59 Opaque images on x86-64: with AVX2 and PreferQuality the flag changes nothing. *)
Theorem C59_opaque_x86_partial : forall c rcp L f pool (store into : image Z),
  valid_call 4 false f store into -> changes_size store into -> f <> Nearest -> averaging f = true -> pool_ok pool -> samples_in 255 (buf store) ->
  downscale_at_most 61 store into -> avx2 c = true -> rcp_accurate rcp ->
  (forall x y, x < width store -> y < height store -> alpha_at store x y = Some 255%Z) ->
  exists plain out, resize_rgba_u8_x86 c PreferQuality rcp L f pool false store into = Returned Ok plain /\
    resize_rgba_u8_x86 c PreferQuality rcp L f pool true store into = Returned Ok out /\
    forall x y k, x < width into -> y < height into -> k < 4 -> sample 4 out x y k = sample 4 plain x y k.
Proof.
  intros c rcp L f pool store into V D Hf Av HP HS Dw Ha Hr Op.
  assert (Tr : traps c PreferQuality 4 (width store) (width into) = false) by reflexivity.
  destruct (C57_pipeline_x86_partial c PreferQuality rcp L f pool store into V D Hf HP HS (or_introl Av) Tr Hr) as (src & mid & out & _ & A2 & _ & A4 & A5 & A6 & A7 & A8).
  rewrite A2 in A4.
  2:{ intros (x & y & x' & y' & Hx & Hy & Hx' & Hy' & N). rewrite !Op in N by assumption. congruence. }
  exists mid, out. split; [rewrite C53_flag_off_x86; exact A4|]. split; [exact A6|].
  intros x y k Hx Hy Hk. destruct (valid_good V) as [Gs Gi].
  destruct (pixel_exists mid x y (good_opd _ _ _ Gi A5)) as (r & g & b & a & P).
  { now rewrite (opd_width _ _ _ A5). } { now rewrite (opd_height _ _ _ A5). }
  assert (a = 255)%Z.
  { destruct (quality_const c PreferQuality L f 4 pool store into V HP Hf D HS (or_introl Av) 255%Z x y 3 eq_refl Ha ltac:(lia) Av Dw) as (o & R & Sx); auto; try lia.
    rewrite A4 in R. injection R as <-. destruct P as (_ & _ & _ & P3). congruence. }
  subst a. destruct (A8 x y r g b 255%Z Hx Hy P) as (r' & g' & b' & (Q0 & Q1 & Q2 & Q3) & _ & U). rewrite Ha, orb_true_r in U.
  destruct (U eq_refl ltac:(lia)) as (U0 & U1 & U2). destruct P as (P0 & P1 & P2 & P3).
  assert (Rg : (r <= 255 /\ g <= 255 /\ b <= 255)%Z).
  { pose proof (x86_call c PreferQuality L f 4 pool store into V HP Hf D HS (or_introl Av) eq_refl) as X.
    rewrite A4 in X. injection X as X. rewrite X in P0, P1, P2.
    rewrite (result_shows 4 _ into ltac:(lia) Gi x y 0 Hx Hy ltac:(lia)) in P0. rewrite (result_shows 4 _ into ltac:(lia) Gi x y 1 Hx Hy ltac:(lia)) in P1.
    rewrite (result_shows 4 _ into ltac:(lia) Gi x y 2 Hx Hy ltac:(lia)) in P2.
    injection P0 as <-. injection P1 as <-. injection P2 as <-.
    pose proof (fun k => x86_resample_byte c PreferQuality 4 store into (vwin L f store into) (hwin L f store into) (picture_of 4 store) y x k D) as BB.
    unfold SimdProofs.byte in BB. pose proof (BB 0). pose proof (BB 1). pose proof (BB 2). lia. }
  unfold unassociated in U0, U1, U2.
  assert (r' = r /\ g' = g /\ b' = b) as (-> & -> & ->) by lia.
  destruct k as [|[|[|[|]]]]; try lia; congruence.
Qed.
Print Assumptions C59_opaque_x86_partial.
Definition opaque2 : image Z := mkImage [1; 2; 3; 255; 9; 8; 7; 255]%Z 4 2 1 8 0.
Example C59_nonvacuous : valid_call 4 false Bilinear opaque2 wider /\ changes_size opaque2 wider /\ samples_in 255 (buf opaque2) /\
  downscale_at_most 61 opaque2 wider /\ forall x y, x < width opaque2 -> y < height opaque2 -> alpha_at opaque2 x y = Some 255%Z.
Proof.
  split; [unfold opaque2, wider; valid_tac|]. split; [left; cbn; lia|]. split; [repeat constructor; lia|]. split; [split; cbn; lia|].
  intros [|[|x]] [|y] Hx Hy; cbn in *; try lia; reflexivity.
Qed.
