(** Property theorems C22-C27, C41, C43-C46: alpha. *)
From Coq Require Import ZArith List Bool Lia ZifyBool ZifyNat.
From Verif Require Import Base BaseProofs ImageStore FixedPoint Dispatch Resize Spec F32 Weights Sampler Api SpecApi SpecAlpha ImageProofs NoFail
  PoolProofs DispatchProofs ResizeProofs PortableProofs SamplerProofs Center QuantSums ApiProofs Witness
  Alpha AlphaProofs AlphaArith AlphaArith16 AlphaScan AlphaU16 ApiRgba RgbaProofs.
Import ListNotations.
Local Open Scope nat_scope.

(** ** C04, C05, C13 for RGBA calls, premultiply flag on or off. *)
Theorem C04_refusals_rgba : forall L f pool premultiply (store into : image Z),
  match first_error (refusal_table 4 false store into) with
  | Some e => resize_rgba_u8 L f pool premultiply store into = Returned (Err e) into
  | None => resize_rgba_u8 L f pool premultiply store into = Panicked \/
            exists out, resize_rgba_u8 L f pool premultiply store into = Returned Ok out
  end.
Proof.
  intros. apply (generic_resize_with_alpha_cases 4 (rgba_engine_u8 L f) pool premultiply store into).
  - apply scaler_passes_nofail.
  - apply rgba_alpha_nofail.
Qed.
Print Assumptions C04_refusals_rgba.

Theorem C05_failure_is_clean_rgba : forall L f pool premultiply (store into out : image Z) e,
  resize_rgba_u8 L f pool premultiply store into = Returned (Err e) out -> out = into.
Proof.
  intros L f pool p store into out e H. pose proof (C04_refusals_rgba L f pool p store into) as K.
  destruct (first_error _); [|destruct K as [K|[o K]]]; rewrite K in H; congruence.
Qed.
Print Assumptions C05_failure_is_clean_rgba.

Theorem C13_schedule_independent_rgba : forall L f pool premultiply (store into : image Z), pool_ok pool ->
  resize_rgba_u8 L f pool premultiply store into = resize_rgba_u8 L f None premultiply store into.
Proof.
  intros. apply generic_resize_with_alpha_pool; auto.
  - apply scaler_pool_blind.
  - apply rgba_pool_blind.
Qed.
Print Assumptions C13_schedule_independent_rgba.

(** ** C41 Premultiply flag off means plain resize: the same result for every input, refused,
    panicking or successful. *)
Theorem C41_flag_off_is_plain : forall L f pool (store into : image Z),
  resize_rgba_u8 L f pool false store into = resize_u8 L f 4 pool store into.
Proof. intros. unfold resize_rgba_u8. rewrite with_alpha_off. reflexivity. Qed.
Print Assumptions C41_flag_off_is_plain.
(** ** C22 8-bit premultiplication: colours are exact and at most alpha, padding is
    left alone.  Missing: alpha is not kept, it is squared (refuted below). *)
Theorem C22_premultiply_partial : forall pool (im into : image Z),
  proper 4 im -> proper 4 into -> width im = width into -> height im = height into -> pool_ok pool -> samples_in 255 (buf im) ->
  exists out, premul_u8 pool im into = Done out /\ only_pixels_differ 4 into out /\
    forall x y r g b a, x < width im -> y < height im -> pixel im x y r g b a ->
      pixel out x y (nearest_div (r * a) 255) (nearest_div (g * a) 255) (nearest_div (b * a) 255) (nearest_div (a * a) 255) /\
      (0 <= nearest_div (r * a) 255 <= a /\ 0 <= nearest_div (g * a) 255 <= a /\ 0 <= nearest_div (b * a) 255 <= a)%Z.
Proof.
  intros pool im into Pi Po W H HP S. apply proper_good in Pi. apply proper_good in Po.
  destruct (premul_u8_ok pool HP im into Pi Po W H) as (out & R & Rp).
  exists out. split; [exact R|]. split; [apply Rp|]. intros x y r g b a Hx Hy P.
  destruct (repainted_pixelwise _ _ _ _ four_u8 Pi W H Rp) as (_ & _ & Q).
  destruct (Q x y r g b a Hx Hy P) as (r' & g' & b' & a' & E & P'). destruct P as (P0 & P1 & P2 & P3).
  pose proof (samples_bytes _ _ _ _ _ S P0) as B0. pose proof (samples_bytes _ _ _ _ _ S P1) as B1.
  pose proof (samples_bytes _ _ _ _ _ S P2) as B2. pose proof (samples_bytes _ _ _ _ _ S P3) as B3.
  rewrite premul_px_spec in E by auto. unfold associate8 in E. inversion E; subst. split; [exact P'|]. unfold byte in *.
  split; [|split]; apply nearest_div_le; lia.
Qed.
Print Assumptions C22_premultiply_partial.

Theorem C22_alpha_kept_refuted : exists im into : image Z, proper 4 im /\ proper 4 into /\ samples_in 255 (buf im) /\
  pixel im 0 0 10%Z 20%Z 30%Z 128%Z /\ exists out, premul_u8 None im into = Done out /\ pixel out 0 0 5%Z 10%Z 15%Z 64%Z.
Proof.
  exists (mkImage [10; 20; 30; 128]%Z 4 1 1 4 0), (mkImage [0; 0; 0; 0]%Z 4 1 1 4 0).
  split; [cbv; lia|]. split; [cbv; lia|]. split; [repeat constructor; lia|]. split; [repeat split|].
  eexists. split; [vm_compute; reflexivity|repeat split].
Qed.
Print Assumptions C22_alpha_kept_refuted.

Definition px2 : image Z := mkImage [200; 0; 255; 128; 10; 20; 30; 255; 7; 7]%Z 4 2 1 10 0.
Example C22_nonvacuous : proper 4 px2 /\ samples_in 255 (buf px2) /\ pixel px2 0 0 200%Z 0%Z 255%Z 128%Z /\ pixel px2 1 0 10%Z 20%Z 30%Z 255%Z.
Proof. split; [cbv; lia|]. split; [repeat constructor; lia|]. repeat split. Qed.

(** ** C23 8-bit un-premultiplication keeps alpha, maps transparent pixels to black and
    divides colours not above alpha exactly; together with the colours of C22 the round
    trip is within half a quantisation step (in units of 1/(2a)), provided alpha is kept.
    Missing: premultiplication does not keep alpha, so the actual round trip fails. *)
Theorem C23_unpremultiply_partial : forall pool (im : image Z),
  proper 4 im -> pool_ok pool -> samples_in 255 (buf im) ->
  exists out, unpremul_u8 pool im = Done out /\ only_pixels_differ 4 im out /\
    forall x y r g b a, x < width im -> y < height im -> pixel im x y r g b a ->
      exists r' g' b', pixel out x y r' g' b' a /\
        (a = 0%Z -> r' = 0%Z /\ g' = 0%Z /\ b' = 0%Z) /\
        (0 < a -> (r <= a -> r' = (r * 255 + a / 2) / a) /\ (g <= a -> g' = (g * 255 + a / 2) / a) /\ (b <= a -> b' = (b * 255 + a / 2) / a))%Z.
Proof.
  intros pool im Pi HP S. apply proper_good in Pi.
  destruct (unpremul_u8_ok pool HP im Pi) as (out & R & Rp).
  exists out. split; [exact R|]. split; [apply Rp|]. intros x y r g b a Hx Hy P.
  destruct (repainted_pixelwise _ _ _ _ four_un_u8 Pi eq_refl eq_refl Rp) as (_ & _ & Q).
  destruct (Q x y r g b a Hx Hy P) as (r' & g' & b' & a' & E & P'). destruct P as (P0 & P1 & P2 & P3).
  pose proof (samples_bytes _ _ _ _ _ S P0) as B0. pose proof (samples_bytes _ _ _ _ _ S P1) as B1.
  pose proof (samples_bytes _ _ _ _ _ S P2) as B2. pose proof (samples_bytes _ _ _ _ _ S P3) as B3.
  unfold unpremul_px_u8 in E. apply list4_inj in E as (E0 & E1 & E2 & E3). subst a'. exists r', g', b'.
  split; [exact P'|]. rewrite <- E0, <- E1, <- E2. clear E0 E1 E2 P' r' g' b'. split.
  - intros ->. rewrite (unpremul_zero r B0), (unpremul_zero g B1), (unpremul_zero b B2). split; [exact eq_refl|split; exact eq_refl].
  - unfold byte in *. intro Ha. split; [|split]; intro; apply unpremul_exact; lia.
Qed.
Print Assumptions C23_unpremultiply_partial.

Theorem C23_round_trip_partial : forall c a p : Z, (0 <= c <= 255)%Z -> (0 < a <= 255)%Z -> p = nearest_div (c * a) 255 ->
  forall pool im out x y g b, proper 4 im -> pool_ok pool -> samples_in 255 (buf im) -> x < width im -> y < height im ->
  unpremul_u8 pool im = Done out -> pixel im x y p g b a ->
  exists r, sample 4 out x y 0 = Some r /\ (2 * a * Z.abs (r - c) <= 255 + a)%Z.
Proof.
  intros c a p Hc Ha -> pool im out x y g b Pi HP S Hx Hy R P. apply proper_good in Pi.
  destruct (unpremul_u8_ok pool HP im Pi) as (out' & R' & Rp). rewrite R in R'. inversion R'; subst out'.
  destruct (repainted_pixelwise _ _ _ _ four_un_u8 Pi eq_refl eq_refl Rp) as (_ & _ & Q).
  destruct (Q x y _ _ _ _ Hx Hy P) as (r' & g' & b' & a' & E & P'). unfold unpremul_px_u8 in E. apply list4_inj in E as (E0 & E1 & E2 & E3).
  exists r'. split; [apply P'|]. rewrite <- E0. now apply roundtrip_u8.
Qed.
Print Assumptions C23_round_trip_partial.

(** The real round trip of the portable code: colour 200 under alpha 128 comes back as 142. *)
Theorem C23_round_trip_refuted : exists im into : image Z, proper 4 im /\ proper 4 into /\
  sample 4 im 0 0 0 = Some 200%Z /\ alpha_at im 0 0 = Some 128%Z /\
  exists mid out, premul_u8 None im into = Done mid /\ unpremul_u8 None mid = Done out /\
    sample 4 out 0 0 0 = Some 142%Z /\ alpha_at out 0 0 = Some 64%Z.
Proof.
  exists (mkImage [200; 0; 0; 128]%Z 4 1 1 4 0), (mkImage [0; 0; 0; 0]%Z 4 1 1 4 0).
  split; [cbv; lia|]. split; [cbv; lia|]. split; [reflexivity|]. split; [reflexivity|].
  set (mid := mkImage [100; 0; 0; 64]%Z 4 1 1 4 0).
  destruct (unpremul_image None mid I) as (out & R & _ & _ & Q); [constructor; cbn; lia|repeat constructor; cbn; lia|].
  exists mid, out. split; [vm_compute; reflexivity|]. split; [exact R|].
  destruct (Q 0 0 100%Z 0%Z 0%Z 64%Z) as (r' & g' & b' & a' & E & P0 & _ & _ & P3); [cbn; lia|cbn; lia|repeat split|].
  change (unassociate8 100 0 0 64) with [142; 0; 0; 64]%Z in E. apply list4_inj in E as (<- & <- & <- & <-). split; assumption.
Qed.
Print Assumptions C23_round_trip_refuted.

Example C23_nonvacuous : proper 4 px2 /\ samples_in 255 (buf px2) /\
  (exists x y r g b a, x < width px2 /\ y < height px2 /\ pixel px2 x y r g b a /\ (0 < a)%Z /\ (r <= a)%Z) /\
  pixel (mkImage [100; 0; 0; 128]%Z 4 1 1 4 0) 0 0 (nearest_div (200 * 128) 255) 0%Z 0%Z 128%Z.
Proof.
  split; [cbv; lia|]. split; [repeat constructor; lia|]. split; [|repeat split].
  exists 1, 0, 10%Z, 20%Z, 30%Z, 255%Z. repeat split; cbn; lia.
Qed.

(** ** C24 16-bit premultiplication: exact for depths 10 and 16, within (-65/64, +1/2] units
    at every depth.  Missing: exactness at other depths and keeping alpha (refuted). *)
Theorem C24_premultiply16_partial : forall pool (im into : image Z) d,
  proper 4 im -> proper 4 into -> width im = width into -> height im = height into -> pool_ok pool ->
  bit_depth into = d -> 1 <= d <= 16 -> samples_in (2 ^ Z.of_nat d - 1) (buf im) ->
  let M := (2 ^ Z.of_nat d - 1)%Z in
  exists out, premul_u16 pool im into = Done out /\ only_pixels_differ 4 into out /\
    forall x y r g b a, x < width im -> y < height im -> pixel im x y r g b a ->
      exists r' g' b' a', pixel out x y r' g' b' a' /\
        forall c c', In (c, c') [(r, r'); (g, g'); (b, b'); (a, a')] ->
          (0 <= c' <= a /\ 2 * (M * c' - c * a) <= M /\ 64 * (c * a - M * c') < 65 * M)%Z /\
          (d = 10 \/ d = 16 -> c' = nearest_div (c * a) M).
Proof.
  intros pool im into d Pi Po W H HP Hd Rd S M. apply proper_good in Pi. apply proper_good in Po.
  destruct (premul_u16_ok pool HP im into Pi Po W H) as (out & R & Rp). rewrite Hd in Rp.
  exists out. split; [exact R|]. split; [apply Rp|]. intros x y r g b a Hx Hy P.
  destruct (repainted_pixelwise _ _ _ _ (four_u16 _) Pi W H Rp) as (_ & _ & Q).
  destruct (Q x y r g b a Hx Hy P) as (r' & g' & b' & a' & E & P'). destruct P as (P0 & P1 & P2 & P3).
  assert (B : forall c v, sample 4 im x y c = Some v -> (0 <= v <= M)%Z).
  { intros c v K. apply nth_error_In in K. unfold samples_in in S. rewrite Forall_forall in S. now apply S. }
  apply B in P0, P1, P2, P3. unfold premul_px_u16 in E. inversion E; subst r' g' b' a'.
  exists (premul_ch_u16 (max_colors d) r a), (premul_ch_u16 (max_colors d) g a), (premul_ch_u16 (max_colors d) b a), (premul_ch_u16 (max_colors d) a a).
  split; [exact P'|].
  assert (K : forall c, (0 <= c <= M)%Z -> let c' := premul_ch_u16 (max_colors d) c a in
    (0 <= c' <= a /\ 2 * (M * c' - c * a) <= M /\ 64 * (c * a - M * c') < 65 * M)%Z /\ (d = 10 \/ d = 16 -> c' = nearest_div (c * a) M)).
  { intros c Hc c'. destruct (premul_u16_close d c a Rd Hc P3) as (K1 & K2 & K3 & K4). 
    change (max_colors d) with M in K1, K2, K3, K4. change (premul_ch_u16 M c a) with c' in K1, K2, K3, K4. split; [lia|].
    intro Ed. unfold c'. change (max_colors d) with M.
    assert (E16 : exists k, (k = 10 \/ k = 16)%Z /\ M = (2 ^ k - 1)%Z).
    { destruct Ed as [E0|E0]; [exists 10%Z|exists 16%Z]; (split; [auto|]); unfold M; rewrite E0; reflexivity. }
    destruct E16 as (k & Hk & Ek). rewrite Ek in *. now apply premul_u16_exact. }
  intros c c' I. cbn [In] in I. destruct I as [I|[I|[I|[I|[]]]]]; injection I as <- <-; apply K; assumption.
Qed.
Print Assumptions C24_premultiply16_partial.

(** Depth 12: the fast exact branch is guarded by 4096 instead of 4095, so the truncating
    float branch runs: 1*4094/4095 is stored as 0, and alpha is squared. *)
Theorem C24_premultiply16_refuted : exists im into : image Z, proper 4 im /\ proper 4 into /\ bit_depth into = 12 /\
  samples_in 4095 (buf im) /\ pixel im 0 0 1%Z 0%Z 0%Z 4094%Z /\ nearest_div (1 * 4094) 4095 = 1%Z /\
  exists out a', premul_u16 None im into = Done out /\ pixel out 0 0 0%Z 0%Z 0%Z a' /\ a' <> 4094%Z.
Proof.
  exists (mkImage [1; 0; 0; 4094]%Z 4 1 1 4 12), (mkImage [0; 0; 0; 0]%Z 4 1 1 4 12).
  split; [cbv; lia|]. split; [cbv; lia|]. split; [reflexivity|]. split; [repeat constructor; lia|]. split; [repeat split|]. split; [reflexivity|].
  eexists. eexists. split; [vm_compute; reflexivity|]. split; [repeat split|discriminate].
Qed.
Print Assumptions C24_premultiply16_refuted.

Example C24_nonvacuous : proper 4 (mkImage [1; 1023; 0; 1022; 9; 9; 9; 1]%Z 4 2 1 8 10) /\
  samples_in (2 ^ Z.of_nat 10 - 1) [1; 1023; 0; 1022; 9; 9; 9; 1]%Z.
Proof. split; [cbv; lia|]. change (2 ^ Z.of_nat 10 - 1)%Z with 1023%Z. repeat constructor; lia. Qed.

(** ** C25 16-bit un-premultiplication.  Proved: transparent pixels are left alone; for
    colours not above alpha the result is at most 2^d-1 and within (-65/64, +1/64] units of
    colour*(2^d-1)/alpha.  The alpha sample is NOT kept: it becomes the maximum or one less. *)
Theorem C25_unpremultiply16_partial : forall pool (im : image Z) d,
  proper 4 im -> pool_ok pool -> bit_depth im = d -> 1 <= d <= 16 -> samples_in (2 ^ Z.of_nat d - 1) (buf im) ->
  let M := (2 ^ Z.of_nat d - 1)%Z in
  exists out, unpremul_u16 pool im = Done out /\ only_pixels_differ 4 im out /\
    forall x y r g b a, x < width im -> y < height im -> pixel im x y r g b a ->
      exists r' g' b' a', pixel out x y r' g' b' a' /\
        (a = 0%Z -> r' = r /\ g' = g /\ b' = b /\ a' = 0%Z) /\
        (a <> 0%Z -> (M - 1 <= a' <= M)%Z /\
           forall c c', In (c, c') [(r, r'); (g, g'); (b, b')] -> (c <= a)%Z ->
             (0 <= c' <= M /\ 64 * (a * c' - c * M) <= a /\ 64 * (c * M - a * c') < 65 * a)%Z).
Proof.
  intros pool im d Pi HP Hd Rd S M. apply proper_good in Pi.
  destruct (unpremul_u16_ok pool HP im Pi) as (out & R & Rp). rewrite Hd in Rp.
  exists out. split; [exact R|]. split; [apply Rp|]. intros x y r g b a Hx Hy P.
  destruct (repainted_pixelwise _ _ _ _ (four_un_u16 _) Pi eq_refl eq_refl Rp) as (_ & _ & Q).
  destruct (Q x y r g b a Hx Hy P) as (r' & g' & b' & a' & E & P'). destruct P as (P0 & P1 & P2 & P3).
  assert (B : forall c v, sample 4 im x y c = Some v -> (0 <= v <= M)%Z).
  { intros c v K. apply nth_error_In in K. unfold samples_in in S. rewrite Forall_forall in S. now apply S. }
  apply B in P0, P1, P2, P3. exists r', g', b', a'. split; [exact P'|]. unfold unpremul_px_u16 in E.
  destruct (Z.eqb_spec a 0) as [->|Na].
  - inversion E; subst. split; [auto|intro; lia].
  - inversion E; subst r' g' b' a'. split; [intro; lia|]. intros _.
    change (max_colors d) with M. split; [apply (unpremul_u16_alpha d a Rd); change (max_colors d) with M; lia|].
    intros c c' I Le. cbn [In] in I.
    destruct I as [I|[I|[I|[]]]]; injection I as <- <-; apply (unpremul_u16_close d _ a Rd); change (max_colors d) with M; lia.
Qed.
Print Assumptions C25_unpremultiply16_partial.

(** Alpha 100 becomes 1023; a colour above alpha leaves the 10-bit range. *)
Theorem C25_alpha_kept_refuted : exists im : image Z, proper 4 im /\ bit_depth im = 10 /\ samples_in 1023 (buf im) /\
  pixel im 0 0 50%Z 100%Z 1023%Z 100%Z /\
  exists r' g' b' out, unpremul_u16 None im = Done out /\ pixel out 0 0 r' g' b' 1023%Z /\ (1023 < b')%Z.
Proof.
  exists (mkImage [50; 100; 1023; 100]%Z 4 1 1 4 10).
  split; [cbv; lia|]. split; [reflexivity|]. split; [repeat constructor; lia|]. split; [repeat split|].
  do 4 eexists. split; [vm_compute; reflexivity|]. split; [repeat split|lia].
Qed.
Print Assumptions C25_alpha_kept_refuted.
Example C25_nonvacuous : proper 4 (mkImage [1; 100; 0; 1022; 9; 9; 9; 0]%Z 4 2 1 8 10) /\
  samples_in (2 ^ Z.of_nat 10 - 1) [1; 100; 0; 1022; 9; 9; 9; 0]%Z.
Proof. split; [cbv; lia|]. change (2 ^ Z.of_nat 10 - 1)%Z with 1023%Z. repeat constructor; lia. Qed.

(** ** C26 The alpha scan: exact for rows of up to 2^24 (8-bit), 2^48 (16-bit), 2^32 (float) pixels. *)
Theorem C26_scan_u8_partial : forall im : image Z, proper 4 im -> samples_in 255 (buf im) -> (Z.of_nat (width im) <= 2 ^ 24)%Z ->
  exists res, alpha_needed_u8 im = Done res /\ (res = true <-> alpha_varies im).
Proof. intros im P S W. apply proper_good in P. apply (scan_varies 8); auto using bytes_forall; lia. Qed.
Print Assumptions C26_scan_u8_partial.

Theorem C26_scan_u16_partial : forall im : image Z, proper 4 im -> samples_in 65535 (buf im) -> (Z.of_nat (width im) <= 2 ^ 48)%Z ->
  exists res, alpha_needed_u16 im = Done res /\ (res = true <-> alpha_varies im).
Proof.
  intros im P S W. apply proper_good in P. apply (scan_varies 16); auto; try lia.
  revert S. apply Forall_impl. intros. change (2 ^ 16)%Z with 65536%Z. lia.
Qed.
Print Assumptions C26_scan_u16_partial.

Theorem C26_scan_f32_partial : forall im : image f32, proper 4 im -> (Z.of_nat (width im) <= 2 ^ 32)%Z ->
  exists res, alpha_needed_f32 im = Done res /\
    (res = true <-> exists x y, x < width im /\ y < height im /\ alpha_at im x y <> alpha_at im 0 0).
Proof. intros im P W. apply proper_good in P. now apply scan_f32. Qed.
Print Assumptions C26_scan_f32_partial.

(** A row of 2^26+1 pixels: the 32-bit row sum wraps to 0 and the difference is missed. *)
Theorem C26_scan_refuted : exists im : image Z, proper 4 im /\ samples_in 255 (buf im) /\
  alpha_varies im /\ alpha_needed_u8 im = Done false.
Proof.
  set (n := Z.to_nat (2 ^ 26)). assert (Hn : Z.of_nat n = (2 ^ 26)%Z) by (unfold n; apply Z2Nat.id; lia). clearbody n.
  exists (wide_image n). split.
  { unfold proper, wide_image. cbn [width height stride buf]. rewrite wide_len. repeat split; lia. }
  split.
  { unfold wide_image, wide_row, samples_in. cbn [buf]. rewrite concat_cons. apply Forall_app. split; [repeat constructor; lia|].
    apply Forall_concat. apply Forall_forall. intros l Hl. apply repeat_spec in Hl. subst l. repeat constructor; lia. }
  split.
  { exists 0, 0, 1, 0. unfold wide_image. cbn [width height]. repeat split; try lia.
    destruct n as [|n]; [lia|]. unfold alpha_at, sample. cbn. discriminate. }
  apply wide_scan. rewrite Hn. reflexivity.
Qed.
Print Assumptions C26_scan_refuted.
Example C26_nonvacuous : alpha_varies px2 /\ proper 4 px2 /\ samples_in 255 (buf px2) /\ (Z.of_nat (width px2) <= 2 ^ 24)%Z.
Proof.
  split; [exists 0, 0, 1, 0; cbn; repeat split; try lia; discriminate|].
  split; [cbv; lia|]. split; [repeat constructor; lia|cbn; lia].
Qed.

(** ** C27 Constant alpha: alpha-aware resize equals plain resize.  Proved for opaque images
    under averaging filters: equal when only the width changes, otherwise colours differ by
    at most one.  Refuted for other constants. *)
Theorem C27_opaque_partial : forall L f pool (store into : image Z) t,
  averaging f = true -> f <> Nearest -> valid_call 4 false f store into -> changes_size store into -> pool_ok pool ->
  samples_in 255 (buf store) -> (1 <= t <= 61)%Z -> downscale_at_most t store into ->
  (forall x y, x < width store -> y < height store -> alpha_at store x y = Some 255%Z) ->
  exists plain out, resize_rgba_u8 L f pool false store into = Returned Ok plain /\
    resize_rgba_u8 L f pool true store into = Returned Ok out /\ only_pixels_differ 4 plain out /\
    forall x y, x < width into -> y < height into ->
      alpha_at out x y = alpha_at plain x y /\
      forall c u v, c < 4 -> sample 4 plain x y c = Some u -> sample 4 out x y c = Some v ->
        (u <= v <= u + 1)%Z /\ (height store = height into -> v = u).
Proof. intros. apply opaque_call with t; auto. Qed.
Print Assumptions C27_opaque_partial.

Theorem C27_constant_alpha_refuted : exists store into : image Z,
  valid_call 4 false Bilinear store into /\ changes_size store into /\ samples_in 255 (buf store) /\ ~ alpha_varies store /\
  forall L, exists plain out,
    resize_rgba_u8 L Bilinear None false store into = Returned Ok plain /\
    resize_rgba_u8 L Bilinear None true store into = Returned Ok out /\
    sample 4 plain 0 0 0 = Some 100%Z /\ sample 4 out 0 0 0 = Some 199%Z.
Proof.
  exists (mkImage [100; 0; 0; 128; 100; 0; 0; 128]%Z 4 2 1 8 0), (mkImage (repeat 0%Z 12) 4 3 1 12 0).
  split; [valid_tac|]. split; [left; cbn; lia|]. split; [repeat constructor; lia|]. split.
  { intros (x & y & x' & y' & H1 & H2 & H3 & H4 & D). cbn in H1, H2, H3, H4.
    assert (y = 0 /\ y' = 0) as [-> ->] by lia. destruct x as [|[|]], x' as [|[|]]; try lia; apply D; reflexivity. }
  intro L. set (store := mkImage [100; 0; 0; 128; 100; 0; 0; 128]%Z 4 2 1 8 0). set (into := mkImage (repeat 0%Z 12) 4 3 1 12 0).
  set (mid := mkImage [100; 0; 0; 128; 100; 0; 0; 128; 100; 0; 0; 128]%Z 4 3 1 12 0).
  destruct (rgba_concrete L Bilinear None store into store mid) as (out & R & _ & _ & Q).
  1, 2: reflexivity. 1: discriminate. 1: left; cbn; lia. 1, 2: reflexivity. 1, 2: vm_compute; reflexivity. 1: exact I.
  1: constructor; cbn; lia. 1: repeat constructor; cbn; lia.
  exists mid, out. split; [rewrite C41_flag_off_is_plain; vm_compute; reflexivity|]. split; [exact R|]. split; [reflexivity|].
  destruct (Q 0 0 100%Z 0%Z 0%Z 128%Z) as (r' & g' & b' & a' & E & P0 & _); [cbn; lia|cbn; lia|repeat split|].
  change (unassociate8 100 0 0 128) with [199; 0; 0; 128]%Z in E. apply list4_inj in E as (<- & <- & <- & <-). assumption.
Qed.
Print Assumptions C27_constant_alpha_refuted.

Definition opaque22 : image Z := mkImage [1;2;3;255; 9;8;7;255; 7;7; 4;5;6;255; 0;255;128;255; 7;7]%Z 4 2 2 10 0.
Definition dst32 : image Z := mkImage (repeat 0%Z 39) 4 3 3 13 0.
Example C27_nonvacuous : valid_call 4 false Bilinear opaque22 dst32 /\ changes_size opaque22 dst32 /\
  samples_in 255 (buf opaque22) /\ downscale_at_most 1 opaque22 dst32 /\ averaging Bilinear = true /\
  (forall x y, x < width opaque22 -> y < height opaque22 -> alpha_at opaque22 x y = Some 255%Z).
Proof.
  split; [unfold opaque22, dst32; valid_tac|]. split; [left; cbn; lia|]. split; [repeat constructor; lia|].
  split; [split; cbn; lia|]. split; [reflexivity|].
  intros x y Hx Hy. cbn in Hx, Hy. destruct x as [|[|]], y as [|[|]]; try lia; reflexivity.
Qed.

Example C41_nonvacuous : forall L, exists out, resize_rgba_u8 L Bilinear None false opaque22 dst32 = Returned Ok out.
Proof. intro L. eexists. rewrite C41_flag_off_is_plain. vm_compute. reflexivity. Qed.

(** ** C43 The alpha-aware resize is a pipeline. *)
Theorem C43_alpha_pipeline : forall L f pool (store into : image Z),
  valid_call 4 false f store into -> changes_size store into -> f <> Nearest -> pool_ok pool -> samples_in 255 (buf store) ->
  exists src mid out,
    (alpha_varies store -> pixelwise associate8 store src) /\ (~ alpha_varies store -> src = store) /\
    valid_call 4 false f src into /\
    resize_u8 L f 4 pool src into = Returned Ok mid /\ only_pixels_differ 4 into mid /\
    resize_rgba_u8 L f pool true store into = Returned Ok out /\
    pixelwise unassociate8 mid out /\ only_pixels_differ 4 into out.
Proof. exact rgba_pipeline. Qed.
Print Assumptions C43_alpha_pipeline.
Example C43_nonvacuous : valid_call 4 false Lanczos3 px2 dst32 /\ changes_size px2 dst32 /\ samples_in 255 (buf px2) /\ alpha_varies px2.
Proof.
  split; [unfold px2, dst32; valid_tac|]. split; [left; cbn; lia|]. split; [repeat constructor; lia|].
  exists 0, 0, 1, 0; cbn; repeat split; try lia; discriminate.
Qed.

(** ** C44 The flag does not change the alpha channel: proved when alpha does not vary,
    refuted when it does (it is squared before resampling). *)
Theorem C44_alpha_channel_partial : forall L f pool (store into : image Z),
  valid_call 4 false f store into -> changes_size store into -> f <> Nearest -> pool_ok pool -> samples_in 255 (buf store) ->
  ~ alpha_varies store ->
  exists plain out, resize_rgba_u8 L f pool false store into = Returned Ok plain /\
    resize_rgba_u8 L f pool true store into = Returned Ok out /\
    forall x y, x < width into -> y < height into -> alpha_at out x y = alpha_at plain x y.
Proof. exact constant_alpha_channel. Qed.
Print Assumptions C44_alpha_channel_partial.
Theorem C44_alpha_channel_refuted : exists store into : image Z,
  valid_call 4 false Bilinear store into /\ changes_size store into /\ samples_in 255 (buf store) /\
  forall L, exists plain out,
    resize_rgba_u8 L Bilinear None false store into = Returned Ok plain /\
    resize_rgba_u8 L Bilinear None true store into = Returned Ok out /\
    alpha_at plain 0 0 = Some 128%Z /\ alpha_at out 0 0 = Some 64%Z.
Proof.
  exists (mkImage [9; 9; 9; 128; 9; 9; 9; 128; 9; 9; 9; 200]%Z 4 3 1 12 0), (mkImage (repeat 0%Z 24) 4 6 1 24 0).
  split; [valid_tac|]. split; [left; cbn; lia|]. split; [repeat constructor; lia|].
  intro L. set (store := mkImage [9; 9; 9; 128; 9; 9; 9; 128; 9; 9; 9; 200]%Z 4 3 1 12 0). set (into := mkImage (repeat 0%Z 24) 4 6 1 24 0).
  assert (K : exists src mid, premultiply_stage 4 (scaler_engine L Bilinear 4 255 false premul_u8 no_unpremul alpha_needed_u8) None true store into = Done (src, true) /\
    resize_u8 L Bilinear 4 None src into = Returned Ok mid /\ checks 4 false src into = Done tt /\ width src = 3 /\ height src = 1 /\
    width mid = 6 /\ height mid = 1 /\ stride mid = 24 /\ length (buf mid) = 24 /\ samples_in 255 (buf mid) /\ pixel mid 0 0 5%Z 5%Z 5%Z 64%Z).
  { do 2 eexists. split; [vm_compute; reflexivity|]. split; [vm_compute; reflexivity|]. repeat split; repeat constructor; cbn; lia. }
  destruct K as (src & mid & K1 & K2 & K3 & K4 & K5 & K6 & K7 & K8 & K9 & K10 & K11).
  destruct (rgba_concrete L Bilinear None store into src mid) as (out & R & _ & _ & Q); auto.
  1: discriminate. 1: left; cbn; lia. 1: exact I. 1: constructor; lia.
  assert (Pl : exists plain, resize_rgba_u8 L Bilinear None false store into = Returned Ok plain /\ alpha_at plain 0 0 = Some 128%Z).
  { eexists. split; [rewrite C41_flag_off_is_plain; vm_compute; reflexivity|reflexivity]. }
  destruct Pl as (plain & Pl1 & Pl2). exists plain, out. split; [exact Pl1|]. split; [exact R|]. split; [exact Pl2|].
  destruct (Q 0 0 5%Z 5%Z 5%Z 64%Z) as (r' & g' & b' & a' & E & _ & _ & _ & P3); [lia|lia|exact K11|].
  apply list4_inj in E as (_ & _ & _ & <-). assumption.
Qed.
Print Assumptions C44_alpha_channel_refuted.
Example C44_nonvacuous : ~ alpha_varies opaque22.
Proof.
  intros (x & y & x' & y' & H1 & H2 & H3 & H4 & D). cbn in H1, H2, H3, H4. apply D.
  destruct x as [|[|]], y as [|[|]], x' as [|[|]], y' as [|[|]]; try lia; reflexivity.
Qed.

(** ** C45 Averaging filters keep the order of channels: an image whose colours do not exceed
    its alpha (a premultiplied image) stays so. *)
Theorem C45_channel_order : forall L f N pool (store into out : image Z) c c',
  averaging f = true -> f <> Nearest -> valid_call N false f store into -> pool_ok pool -> changes_size store into ->
  samples_in 255 (buf store) -> resize_u8 L f N pool store into = Returned Ok out -> c < N -> c' < N ->
  (forall x y a b, x < width store -> y < height store -> sample N store x y c = Some a -> sample N store x y c' = Some b -> (a <= b)%Z) ->
  forall x y a b, x < width into -> y < height into -> sample N out x y c = Some a -> sample N out x y c' = Some b -> (a <= b)%Z.
Proof.
  intros L f N pool store into out c c' A Hf V P D S R Hc Hc' Le.
  exact (call_channels_mono L f N 255 false no_premul no_unpremul no_alpha pool store into out ltac:(lia) A Hf V P D S R c c' Hc Hc' Le).
Qed.
Print Assumptions C45_channel_order.
Example C45_nonvacuous : forall x y a b, x < width opaque22 -> y < height opaque22 ->
  sample 4 opaque22 x y 0 = Some a -> sample 4 opaque22 x y 3 = Some b -> (a <= b)%Z.
Proof. intros x y a b Hx Hy. cbn in Hx, Hy. destruct x as [|[|]], y as [|[|]]; try lia; intros [= <-] [= <-]; lia. Qed.
