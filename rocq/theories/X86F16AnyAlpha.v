(** f16 alpha code of x86-64 on every processor, whatever its conversions. *)
From Coq Require Import ZArith List Lia Bool ZifyBool ZifyNat.
From Verif Require Import Base BaseProofs ImageStore FixedPoint Dispatch Resize Spec SpecApi SpecAlpha F32 FloatConv Weights Sampler Api
  KernelProofs DispatchProofs ResizeProofs NoFail ImageProofs PoolProofs PortableProofs Alpha AlphaProofs AlphaScan AlphaU16 ApiFloat ApiProofs DriverProofs FloatApiProofs RgbaProofs RgbaFloat
  X86Dispatch X86Float X86AlphaCalls X86FloatCalls X86AlphaF32 X86AlphaF32Proofs X86NoFail F16 F16Arith F16Calls X86F16 X86F16Calls X86F16Sums X86AlphaF16 X86AlphaF16Proofs X86AlphaF16Calls X86AlphaF16Facts SpecF16 Witness.
Import ListNotations.
Local Open Scope nat_scope.

(** Pixel x of a row of w pixels. *)
Definition pre_any (c : hcpu) (w x : nat) : f16 -> f16 -> f16 -> f16 -> list f16 :=
  if x <? block_f16 c * (w / block_f16 c) then premul_blk (cvt_up c) (cvt_down c) else premul_px_f16.
Definition un_any (c : hcpu) (w x : nat) : f16 -> f16 -> f16 -> f16 -> list f16 :=
  if x <? block_f16 c * (w / block_f16 c) then unmul_blk (cvt_up c) (cvt_down c) else unpremul_px_f16.
Lemma four_pre_any c w x : four (pre_any c w x).
Proof. unfold pre_any. destruct (_ <? _); [apply four_premul_blk|apply four_f16]. Qed.
Lemma four_un_any c w x : four (un_any c w x).
Proof. unfold un_any. destruct (_ <? _); [apply four_unmul_blk|apply four_un_f16]. Qed.

Lemma premul_row_any c w dst src : length dst = w * 4 -> length src = w * 4 ->
  premul_row_f16 c dst src = Done (map (fun j => pxval h0 (pre_any c w (j / 4)) (fun i => nth i src h0) (j / 4) (j mod 4)) (seq 0 (w * 4))).
Proof.
  intros Ld Ls. unfold pre_any, block_f16, premul_row_f16. destruct (avx2 (hbase c) && f16c c) eqn:EA; [|destruct (sse41 (hbase c)) eqn:ES].
  - apply andb_prop in EA. rewrite exact_up, exact_down by apply EA.
    exact (blocks_row (premul_blk as_f32 as_f16) premul_px_f16 16 _ four_f16 ltac:(lia) (avx_mul_h as_f32 as_f16) w dst src Ld Ls).
  - exact (blocks_row (premul_blk (cvt_up c) (cvt_down c)) premul_px_f16 8 _ four_f16 ltac:(lia) (sse_mul_h (cvt_up c) (cvt_down c)) w dst src Ld Ls).
  - apply (px_row_closed h0 premul_px_f16 w); auto using four_f16.
Qed.
Lemma unpremul_row_any c w b : length b = w * 4 ->
  unpremul_row_f16 c b = Done (map (fun j => pxval h0 (un_any c w (j / 4)) (fun i => nth i b h0) (j / 4) (j mod 4)) (seq 0 (w * 4))).
Proof.
  intros L. unfold un_any, block_f16, unpremul_row_f16. destruct (avx2 (hbase c) && f16c c) eqn:EA; [|destruct (sse41 (hbase c)) eqn:ES].
  - apply andb_prop in EA. rewrite exact_up, exact_down by apply EA.
    exact (blocks_row_in_place (unmul_blk as_f32 as_f16) unpremul_px_f16 16 _ four_un_f16 ltac:(lia) (avx_unmul_h as_f32 as_f16) w b L).
  - exact (blocks_row_in_place (unmul_blk (cvt_up c) (cvt_down c)) unpremul_px_f16 8 _ four_un_f16 ltac:(lia) (sse_unmul_h (cvt_up c) (cvt_down c)) w b L).
  - apply (px_row_in_place_closed h0 unpremul_px_f16 w); auto using four_un_f16.
Qed.

(** [repainted] and [pixelwise] with a pixel function that depends on the column. *)
Definition repainted_at {T} (px : nat -> T -> T -> T -> T -> list T) (im into out : image T) : Prop :=
  only_pixels_differ 4 into out /\
  forall x y r g b a, x < width into -> y < height into -> pixel im x y r g b a ->
    forall ch, ch < 4 -> sample 4 out x y ch = nth_error (px x r g b a) ch.
Definition pixelwise_at {T} (px : nat -> T -> T -> T -> T -> list T) (im out : image T) : Prop :=
  width im = width out /\ height im = height out /\
  forall x y r g b a, x < width im -> y < height im -> pixel im x y r g b a ->
    exists r' g' b' a', px x r g b a = [r'; g'; b'; a'] /\ pixel out x y r' g' b' a'.
Lemma repaint_at {T} (d : T) px (im into : image T) : (forall x, four (px x)) -> good 4 into ->
  repainted_at px im into (set_buf into (pixmap d (height into) (stride into) (width into * 4)
    (fun y j => pxval d (px (j / 4)) (fun i => nth (y * stride im + i) (buf im) d) (j / 4) (j mod 4)) (buf into))).
Proof.
  intros H4 G. split; [apply pixmap_opd; [lia|exact G]|].
  intros x y r g b a Hx Hy P c Hc. rewrite pixmap_sample by (auto; lia).
  replace ((x * 4 + c) / 4) with x by (apply Nat.div_unique with (r := c); lia).
  replace ((x * 4 + c) mod 4) with c by (apply Nat.mod_unique with (q := x); lia).
  destruct (pixel_nth d _ _ _ _ _ _ _ P) as (P0 & P1 & P2 & P3). unfold pxval. rewrite P0, P1, P2, P3.
  symmetry. apply nth_error_nth_lt. now rewrite H4.
Qed.
Lemma repainted_pixelwise_at {T} px (im into out : image T) : (forall x, four (px x)) -> good 4 im -> width im = width into -> height im = height into ->
  repainted_at px im into out -> pixelwise_at px im out.
Proof.
  intros F4 G Hw Hh [O S]. split; [rewrite (opd_width _ _ _ O); congruence|]. split; [rewrite (opd_height _ _ _ O); congruence|].
  intros x y r g b a Hx Hy P.
  pose proof (F4 x r g b a) as L4. destruct (px x r g b a) as [|r' [|g' [|b' [|a' [|]]]]] eqn:E; try discriminate.
  exists r', g', b', a'. split; [reflexivity|].
  repeat split; rewrite (S x y r g b a) by (auto; lia); rewrite E; reflexivity.
Qed.

Section Cpu.
Variable c : hcpu.
Lemma premul_rows_any pool (im into : image f16) : pool_ok pool -> good 4 im -> good 4 into -> width im = width into -> height im = height into ->
  premul_rows (premul_row_f16 c) (width im * 4) (stride_of 4 into) (stride_of 4 im) pool (buf im) (buf into) =
  Done (pixmap h0 (height into) (stride into) (width into * 4)
    (fun y j => pxval h0 (pre_any c (width im) (j / 4)) (fun i => nth (y * stride im + i) (buf im) h0) (j / 4) (j mod 4)) (buf into)).
Proof.
  intros HP Gi Go Hw Hh. unfold premul_rows.
  rewrite !good_stride_of by (assumption || lia).
  pose proof (good_stride_pos 4 im ltac:(lia) Gi) as Pi. pose proof (good_stride_pos 4 into ltac:(lia) Go) as Po.
  destruct Gi as [_ _ Si Li], Go as [_ _ So Lo].
  rewrite !chunks_exact_o_ok by assumption. cbn [bind].
  assert (Ci : length (chunks_exact (stride im) (buf im)) = height into) by
    (rewrite chunks_exact_length, Li, Hh; apply div_mul_exact; lia).
  assert (Co : length (chunks_exact (stride into) (buf into)) = height into) by
    (rewrite chunks_exact_length, Lo; apply div_mul_exact; lia).
  rewrite (for_each_seq _ _ _ _ _ (map (fun y => rowmap (width into * 4)
     (fun j => pxval h0 (pre_any c (width im) (j / 4)) (fun i => nth (y * stride im + i) (buf im) h0) (j / 4) (j mod 4))
     (chunk (stride into) (buf into) y)) (seq 0 (height into)))); auto.
  - cbn [bind]. unfold unchunk. rewrite (chunks_rem_exact _ _ (height into)), app_nil_r by (lia || assumption).
    f_equal. now apply pixmap_rows.
  - erewrite zip_mut_idx; [| |lia].
    + rewrite Ci, skipn_all2, app_nil_r by lia. reflexivity.
    + intros i dd s Hd Hs. cbn beta. rewrite nth_error_chunks in Hd, Hs.
      rewrite Lo, div_mul_exact in Hd by lia. rewrite Li, div_mul_exact in Hs by lia.
      destruct (Nat.ltb_spec i (height into)) as [Hi|]; [|discriminate].
      destruct (Nat.ltb_spec i (height im)) as [Hi'|]; [|discriminate].
      injection Hd as <-. injection Hs as <-.
      assert (Ld : length (chunk (stride into) (buf into) i) = stride into) by
        (apply chunk_length; rewrite Lo, div_mul_exact; lia).
      assert (Ls : length (chunk (stride im) (buf im) i) = stride im) by
        (apply chunk_length; rewrite Li, div_mul_exact; lia).
      rewrite !slice_ok by lia. cbn [bind skipn]. rewrite !Nat.sub_0_r.
      rewrite (premul_row_any c (width im)); [|rewrite firstn_length; lia|rewrite firstn_length; lia].
      cbn [bind]. f_equal. rewrite splice_prefix by (rewrite map_length, seq_length; lia).
      rewrite map_length, seq_length, Hw. unfold rowmap. f_equal. apply map_seq_ext. intros j Hj.
      assert (j / 4 < width into) by (apply Nat.div_lt_upper_bound; lia).
      unfold pxval. rewrite !nth_firstn, !nth_chunk by lia. reflexivity.
Qed.


Lemma premul_any_ok pool im into : pool_ok pool -> good 4 im -> good 4 into -> width im = width into -> height im = height into ->
  exists out, premul_f16_x86 c pool im into = Done out /\ repainted_at (pre_any c (width im)) im into out.
Proof.
  intros HP Gi Go Hw Hh. unfold premul_f16_x86. rewrite premul_rows_any by assumption. cbn [bind]. eexists. split; [reflexivity|].
  apply repaint_at; [apply four_pre_any|exact Go].
Qed.
Lemma unpremul_rows_any pool im : pool_ok pool -> good 4 im ->
  unpremul_rows (unpremul_row_f16 c) (width im * 4) (stride_of 4 im) pool (buf im) =
  Done (pixmap h0 (height im) (stride im) (width im * 4)
    (fun y j => pxval h0 (un_any c (width im) (j / 4)) (fun i => nth (y * stride im + i) (buf im) h0) (j / 4) (j mod 4)) (buf im)).
Proof.
  intros HP Gi. unfold unpremul_rows.
  rewrite !good_stride_of by (assumption || lia).
  pose proof (good_stride_pos 4 im ltac:(lia) Gi) as Pi.
  destruct Gi as [_ _ Si Li].
  rewrite !chunks_exact_o_ok by assumption. cbn [bind].
  assert (Ci : length (chunks_exact (stride im) (buf im)) = height im) by
    (rewrite chunks_exact_length, Li; apply div_mul_exact; lia).
  rewrite (for_each_seq _ _ _ _ _ (map (fun y => rowmap (width im * 4)
     (fun j => pxval h0 (un_any c (width im) (j / 4)) (fun i => nth (y * stride im + i) (buf im) h0) (j / 4) (j mod 4))
     (chunk (stride im) (buf im) y)) (seq 0 (height im)))); auto.
  - cbn [bind]. unfold unchunk. rewrite (chunks_rem_exact _ _ (height im)), app_nil_r by (lia || assumption).
    f_equal. now apply pixmap_rows.
  - erewrite zip_mut_idx; [| |rewrite seq_length; lia].
    + rewrite seq_length, Ci, skipn_all2, app_nil_r by lia. reflexivity.
    + intros i dd s Hd Hs. cbn beta. rewrite nth_error_chunks in Hd.
      rewrite Li, div_mul_exact in Hd by lia.
      destruct (Nat.ltb_spec i (height im)) as [Hi|]; [|discriminate].
      injection Hd as <-.
      assert (Ld : length (chunk (stride im) (buf im) i) = stride im) by
        (apply chunk_length; rewrite Li, div_mul_exact; lia).
      rewrite !slice_ok by lia. cbn [bind skipn]. rewrite !Nat.sub_0_r.
      rewrite (unpremul_row_any c (width im)) by (rewrite firstn_length; lia).
      cbn [bind]. f_equal. rewrite splice_prefix by (rewrite map_length, seq_length; lia).
      rewrite map_length, seq_length. unfold rowmap. f_equal. apply map_seq_ext. intros j Hj.
      assert (j / 4 < width im) by (apply Nat.div_lt_upper_bound; lia).
      unfold pxval. rewrite !nth_firstn, !nth_chunk by lia. reflexivity.
Qed.
Lemma unpremul_any_ok pool im : pool_ok pool -> good 4 im ->
  exists out, unpremul_f16_x86 c pool im = Done out /\ only_pixels_differ 4 im out /\
    forall x y r g b a, x < width im -> y < height im -> pixel im x y r g b a ->
      forall i, i < 4 -> sample 4 out x y i = nth_error (un_any c (width im) x r g b a) i.
Proof.
  intros HP G. unfold unpremul_f16_x86. rewrite unpremul_rows_any by assumption. cbn [bind].
  eexists. split; [reflexivity|]. split; [apply pixmap_opd; [lia|exact G]|].
  intros x y r g b a Hx Hy P i Hi. rewrite pixmap_sample by (auto; lia).
  replace ((x * 4 + i) / 4) with x by (apply Nat.div_unique with (r := i); lia).
  replace ((x * 4 + i) mod 4) with i by (apply Nat.mod_unique with (q := x); lia).
  destruct (pixel_nth h0 _ _ _ _ _ _ _ P) as (P0 & P1 & P2 & P3). unfold pxval. rewrite P0, P1, P2, P3.
  symmetry. apply nth_error_nth_lt. now rewrite four_un_any.
Qed.
End Cpu.

Lemma stage_on_at {T F} (E : engine T F) px pool (store into : image T) needed :
  (forall x, four (px x)) -> (forall into', good 4 store -> good 4 into' -> width store = width into' -> height store = height into' ->
    bit_depth into' = bit_depth into -> exists out, premul E pool store into' = Done out /\ repainted_at px store into' out) ->
  alpha_needed E store = Done needed -> good 4 store -> fits_usize (length (buf store)) ->
  exists src, premultiply_stage 4 E pool true store into = Done (src, true) /\ (needed = false -> src = store) /\
    (needed = true -> pixelwise_at px store src /\ good 4 src /\ channels src = 4 /\ stride src = width store * 4 /\
       bit_depth src = bit_depth into /\ length (buf src) = height store * (width store * 4)).
Proof.
  intros F4 Hpre Hn G Hf. unfold premultiply_stage. rewrite Hn. cbn [bind]. destruct needed.
  2: { exists store. split; [reflexivity|]. split; [reflexivity|discriminate]. }
  destruct (good_fits _ _ G Hf) as [F1 F2].
  assert (W : wmul (wmul (width store) (height store)) 4 = width store * height store * 4).
  { pose proof (g_w _ _ G). pose proof (g_h _ _ G). unfold fits_usize in F1.
    rewrite (wmul_small (width store) (height store)) by (unfold fits_usize in *; nia). apply wmul_small. lia. }
  unfold from_slice. rewrite repeat_length, Nat.eqb_refl. cbn [negb bind].
  set (ns := set_bit_depth (mkImage (repeat (dflt E) (wmul (wmul (width store) (height store)) 4)) 4 (width store) (height store) (wmul (width store) 4) 0) (bit_depth into)).
  assert (Gn : good 4 ns).
  { destruct G as [G1 G2 G3 G4]. constructor; cbn [ns set_bit_depth width height stride buf]; auto.
    - rewrite wmul_small by (unfold fits_usize in F2; lia). lia.
    - rewrite repeat_length, W. rewrite (wmul_small (width store) 4) by (unfold fits_usize in F2; lia). lia. }
  destruct (Hpre ns G Gn eq_refl eq_refl eq_refl) as (out & R & P). rewrite R. cbn [bind].
  eexists. split; [reflexivity|]. split; [discriminate|]. intros _.
  pose proof (repainted_pixelwise_at px store ns out F4 G eq_refl eq_refl P) as [Q1 [Q2 Q3]].
  destruct P as [O _]. pose proof (good_opd _ _ _ Gn O) as Go.
  assert (St : stride out = width store * 4).
  { rewrite (opd_stride _ _ _ O). cbn. apply wmul_small. unfold fits_usize in F2. lia. }
  assert (Wd : wmul (width store) 4 = width store * 4) by (apply wmul_small; unfold fits_usize in F2; lia).
  rewrite Wd. repeat split; cbn [width height stride buf channels bit_depth]; try reflexivity; try congruence.
  - intros x y r g b a Hx Hy P. destruct (Q3 x y r g b a Hx Hy P) as (r' & g' & b' & a' & Ep & P').
    exists r', g', b', a'. split; [exact Ep|]. unfold pixel, sample in *. cbn [stride buf]. rewrite <- St. exact P'.
  - apply G. 
  - apply G.
  - rewrite (g_len _ _ Go), <- Q2, St. reflexivity.
  - rewrite (g_len _ _ Go), <- Q2, St. reflexivity.
Qed.


Section Calls.
Variables (k : mlaf_kind) (c : hcpu) (L : libm) (f : resampling_function).
Notation E := (x86_engine_f16 k c L f 4 (premul_f16_x86 c) (unpremul_f16_x86 c) (fun _ => Done true)).
Theorem rgba_pipeline_f16_any pool (store into : image f16) :
  valid_call 4 false f store into -> changes_size store into -> f <> Nearest -> pool_ok pool ->
  exists src mid out,
    pixelwise_at (pre_any c (width store)) store src /\
    valid_call 4 false f src into /\ width src = width store /\ height src = height store /\
    resize_f16_x86 k c L f 4 pool src into = Returned Ok mid /\ only_pixels_differ 4 (x86_prepared c 4 store into) mid /\
    resize_rgba_f16_x86 k c L f pool true store into = Returned Ok out /\
    (forall x y r g b a, x < width mid -> y < height mid -> pixel mid x y r g b a ->
      forall i, i < 4 -> sample 4 out x y i = nth_error (un_any c (width mid) x r g b a) i) /\
    only_pixels_differ 4 (x86_prepared c 4 store into) out.
Proof.
  intros V D Hf HP. destruct (valid_good V) as [Gs Gi].
  destruct (stage_on_at E (pre_any c (width store)) pool store into true (four_pre_any c (width store))) as (src & P & _ & P1); auto.
  { intros into' G1 G2 W H B. now apply premul_any_ok. }
  { apply V. }
  destruct (P1 eq_refl) as (Q1 & Q2 & Q3 & Q4 & Q5 & _).
  assert (Ws : width src = width store) by (symmetry; apply Q1). assert (Hs : height src = height store) by (symmetry; apply Q1).
  assert (VS : valid_call 4 false f src into) by (apply (valid_source V); auto).
  assert (D' : changes_size src into) by (unfold changes_size in *; now rewrite Ws, Hs).
  destruct (x86_f16_paints k c L f 4 pool src into Hf VS D' HP) as (mid & Rm & Om & Sm).
  assert (EP : x86_prepared c 4 src into = x86_prepared c 4 store into) by (unfold x86_prepared, prepared; now rewrite Ws).
  rewrite EP in Om.
  assert (Gp : good 4 (x86_prepared c 4 store into)) by (apply (valid_good (x86_prepared_valid c _ _ _ _ _ V))).
  pose proof (good_opd _ _ _ Gp Om) as Gm.
  destruct (unpremul_any_ok c pool mid HP Gm) as (out & Ro & O & Po).
  exists src, mid, out. split; [exact Q1|]. split; [exact VS|]. split; [exact Ws|]. split; [exact Hs|]. split; [exact Rm|]. split; [exact Om|].
  split.
  { unfold resize_rgba_f16_x86. rewrite (with_alpha_on 4 E pool store into src); auto.
    - rewrite (x86h_plain k c L f), Rm. cbn [unpremul x86_engine_f16]. rewrite Ro. reflexivity.
    - apply (sane_checks (valid_sane L V)).
    - apply (sane_checks (valid_sane L VS)).
    - cbn. destruct f; try reflexivity; congruence. }
  split. { exact Po. }
  destruct Om as [A1 A2 A3 A4 A5 A6 A7], O as [B1 B2 B3 B4 B5 B6 B7].
  constructor; try congruence. intros i Hi. rewrite B7 by (rewrite A1, A3; exact Hi). apply A7. exact Hi.
Qed.
End Calls.

Lemma un_alpha_any c w x r g b a : nth_error (un_any c w x r g b a) 3 = Some a.
Proof. unfold un_any, unmul_blk, unpremul_px_f16. destruct (_ <? _); [reflexivity|]. destruct (feqb _ f0); reflexivity. Qed.
Lemma pre_alpha_any c w x r g b a r' g' b' a' : pre_any c w x r g b a = [r'; g'; b'; a'] -> a' = a.
Proof.
  unfold pre_any. destruct (_ <? _); [unfold premul_blk; intro E; now inversion E|].
  unfold premul_px_f16. intro E. inversion E. apply as_f16_f32.
Qed.
Section Channel.
Variables (k : mlaf_kind) (c : hcpu) (L : libm) (f : resampling_function) (pool : pool_t) (store into : image f16).
Hypothesis V : valid_call 4 false f store into.
Hypothesis D : changes_size store into.
Hypothesis Hf : f <> Nearest.
Hypothesis HP : pool_ok pool.
Theorem x86_alpha_channel_any (plain out : image f16) :
  resize_f16_x86 k c L f 4 pool store into = Returned Ok plain ->
  resize_rgba_f16_x86 k c L f pool true store into = Returned Ok out ->
  forall x y, x < width into -> y < height into -> alpha_at out x y = alpha_at plain x y.
Proof using All.
  intros Rp Ro x y Hx Hy.
  destruct (rgba_pipeline_f16_any k c L f pool store into V D Hf HP) as (src & mid & o & P1 & VS & Ws & Hs & Rm & Om & Ro' & Pu & Oo).
  rewrite Ro in Ro'. inversion Ro'; subst o. destruct (valid_good V) as [Gs Gi].
  destruct (x86_pixel_mid c f store into V mid x y Om Hx Hy) as (r & g & b & a & Pm).
  destruct (x86_prepared_fields c 4 store into) as (E1 & E2 & _).
  assert (Ao : alpha_at out x y = Some a).
  { unfold alpha_at. rewrite (Pu x y r g b a) by (rewrite ?(opd_width _ _ _ Om), ?(opd_height _ _ _ Om); auto; lia). apply un_alpha_any. }
  rewrite Ao. destruct Pm as (_ & _ & _ & Am). unfold alpha_at. rewrite <- Am. clear Ao Am r g b a.
  apply (x86_f16_local k c L f 4 pool pool src store into into mid plain x y 3); auto.
  - unfold changes_size in *. now rewrite Ws, Hs.
  - intros sx sy Hin.
    destruct (in_window_bounds L 4 false f src into x y sx sy VS Hx Hy Hin) as [Bx By]. rewrite Ws in Bx. rewrite Hs in By.
    destruct (pixel_exists store sx sy Gs Bx By) as (r & g & b & a & Q).
    destruct P1 as (_ & _ & Q'). destruct (Q' sx sy r g b a Bx By Q) as (r' & g' & b' & a' & E & P').
    destruct P' as (_ & _ & _ & ->). destruct Q as (_ & _ & _ & ->). apply pre_alpha_any in E. now rewrite E.
Qed.

End Channel.

(** Two calls with alpha compared. *)
Theorem rgba_local_any k c L f pool pool' (store store' into into' out out' : image f16) x y ch : f <> Nearest ->
  valid_call 4 false f store into -> valid_call 4 false f store' into' -> pool_ok pool -> pool_ok pool' ->
  width store = width store' -> height store = height store' -> width into = width into' -> height into = height into' ->
  changes_size store into ->
  resize_rgba_f16_x86 k c L f pool true store into = Returned Ok out -> resize_rgba_f16_x86 k c L f pool' true store' into' = Returned Ok out' ->
  x < width into -> y < height into -> ch < 4 ->
  (forall sx sy i, in_window (resampling_filter L f) store into x y sx sy -> i < 4 -> sample 4 store sx sy i = sample 4 store' sx sy i) ->
  sample 4 out x y ch = sample 4 out' x y ch.
Proof.
  intros Hf V V' HP HP' E1 E2 E3 E4 D R R' Hx Hy Hc Hw.
  assert (D' : changes_size store' into') by (unfold changes_size in *; lia).
  destruct (rgba_pipeline_f16_any k c L f pool store into V D Hf HP) as (src & mid & o & Q & VS & Ws & Hs & Rm & Om & Ro & Pu & Oo).
  destruct (rgba_pipeline_f16_any k c L f pool' store' into' V' D' Hf HP') as (src' & mid' & o' & Q' & VS' & Ws' & Hs' & Rm' & Om' & Ro' & Pu' & Oo').
  rewrite R in Ro. rewrite R' in Ro'. inversion Ro; inversion Ro'; subst o o'. clear Ro Ro'.
  destruct (valid_good V) as [Gs _]. destruct (valid_good V') as [Gs' _].
  assert (M : forall i, i < 4 -> sample 4 mid x y i = sample 4 mid' x y i).
  { intros i Hi. apply (x86_f16_local k c L f 4 pool pool' src src' into into' mid mid' x y i); auto; try congruence.
    - unfold changes_size in *. now rewrite Ws, Hs.
    - intros sx sy Hin. destruct (in_window_bounds L 4 false f src into x y sx sy VS Hx Hy Hin) as [Bx By]. rewrite Ws in Bx. rewrite Hs in By.
      assert (Hin' : in_window (resampling_filter L f) store into x y sx sy) by (unfold in_window in *; now rewrite Ws, Hs in Hin).
      destruct (pixel_exists store sx sy Gs Bx By) as (r & g & b & a & P).
      assert (P' : pixel store' sx sy r g b a).
      { destruct P as (P0 & P1 & P2 & P3). repeat split; rewrite <- Hw by (auto; lia); assumption. }
      destruct Q as (_ & _ & Q). destruct Q' as (_ & _ & Q').
      destruct (Q sx sy r g b a Bx By P) as (r1 & g1 & b1 & a1 & EP & (S0 & S1 & S2 & S3)).
      destruct (Q' sx sy r g b a ltac:(lia) ltac:(lia) P') as (r2 & g2 & b2 & a2 & EP' & (T0 & T1 & T2 & T3)).
      rewrite <- E1, EP in EP'. inversion EP'; subst. destruct i as [|[|[|[|i]]]]; try lia; congruence. }
  destruct (x86_prepared_fields c 4 store into) as (A1 & A2 & _). destruct (x86_prepared_fields c 4 store' into') as (B1 & B2 & _).
  destruct (x86_pixel_mid c f store into V mid x y Om Hx Hy) as (r & g & b & a & Pm).
  assert (Pm' : pixel mid' x y r g b a).
  { destruct Pm as (P0 & P1 & P2 & P3). repeat split; rewrite <- M by lia; assumption. }
  rewrite (Pu x y r g b a), (Pu' x y r g b a); auto; rewrite ?(opd_width _ _ _ Om), ?(opd_width _ _ _ Om'), ?(opd_height _ _ _ Om), ?(opd_height _ _ _ Om'); try lia.
  rewrite A1, B1, E3. reflexivity.
Qed.

Theorem rgba_rows_any k c L f pool pool' (store into out out' : image f16) y : f <> Nearest ->
  valid_call 4 false f store into -> pool_ok pool -> pool_ok pool' ->
  height store = height into -> width store <> width into -> y < height into ->
  resize_rgba_f16_x86 k c L f pool true store into = Returned Ok out ->
  resize_rgba_f16_x86 k c L f pool' true (row_image store y) (row_image into y) = Returned Ok out' ->
  forall x ch, x < width into -> ch < 4 -> sample 4 out x y ch = sample 4 out' x 0 ch.
Proof.
  intros Hf V HP HP' Hh Hw Hy R R' x ch Hx Hc.
  pose proof (row_valid L f 4 false _ _ _ (x86_tidy_conv k c 4 L f (fun _ _ _ => Panic) (fun _ _ => Panic) (fun _ => Panic)) store into y V Hh Hy) as V'.
  assert (D : changes_size store into) by (left; exact Hw).
  assert (D' : changes_size (row_image store y) (row_image into y)) by (left; exact Hw).
  destruct (rgba_pipeline_f16_any k c L f pool store into V D Hf HP) as (src & mid & o & Q & VS & Ws & Hs & Rm & Om & Ro & Pu & Oo).
  destruct (rgba_pipeline_f16_any k c L f pool' _ _ V' D' Hf HP') as (src' & mid' & o' & Q' & VS' & Ws' & Hs' & Rm' & Om' & Ro' & Pu' & Oo').
  rewrite R in Ro. rewrite R' in Ro'. inversion Ro; inversion Ro'; subst o o'. clear Ro Ro'.
  cbn [row_image width height] in Ws', Hs', Om', Pu'.
  destruct (valid_good V) as [Gs _]. destruct (valid_good VS) as [Gr _].
  assert (Hss : height src = height into) by lia. assert (Wss : width src <> width into) by lia.
  pose proof (row_valid L f 4 false _ _ _ (x86_tidy_conv k c 4 L f (fun _ _ _ => Panic) (fun _ _ => Panic) (fun _ => Panic)) src into y VS Hss Hy) as VR.
  assert (DR : changes_size (row_image src y) (row_image into y)) by (left; exact Wss).
  destruct (x86_f16_paints k c L f 4 pool' (row_image src y) (row_image into y) Hf VR DR HP') as (midr & Rr & _ & _).
  assert (M : forall i, i < 4 -> sample 4 mid x y i = sample 4 mid' x 0 i).
  { intros i Hi. rewrite (x86_f16_rows k c L f 4 pool pool' src into mid midr y Hf VS HP HP' Hss Wss Hy Rm Rr x i Hx Hi).
    apply (x86_f16_local k c L f 4 pool' pool' (row_image src y) src' (row_image into y) (row_image into y) midr mid' x 0 i); auto; cbn [row_image width height]; try lia.
    intros sx sy Hin. destruct (in_window_bounds L 4 false f (row_image src y) (row_image into y) x 0 sx sy VR Hx ltac:(cbn; lia) Hin) as [Bx By].
    cbn [row_image width height] in Bx, By. assert (sy = 0) by lia. subst sy.
    rewrite (row_image_sample src sx y i Gr) by lia.
    destruct (pixel_exists store sx y Gs ltac:(lia) ltac:(lia)) as (r & g & b & a & P).
    assert (P' : pixel (row_image store y) sx 0 r g b a).
    { destruct P as (P0 & P1 & P2 & P3). repeat split; rewrite row_image_sample by (auto; lia); assumption. }
    destruct Q as (_ & _ & Q). destruct Q' as (_ & _ & Q').
    destruct (Q sx y r g b a ltac:(lia) ltac:(lia) P) as (r1 & g1 & b1 & a1 & EP & (S0 & S1 & S2 & S3)).
    destruct (Q' sx 0 r g b a ltac:(cbn; lia) ltac:(cbn; lia) P') as (r2 & g2 & b2 & a2 & EP' & (T0 & T1 & T2 & T3)).
    cbn [row_image width] in EP'. rewrite EP in EP'. inversion EP'; subst. destruct i as [|[|[|[|i]]]]; try lia; congruence. }
  destruct (x86_prepared_fields c 4 store into) as (A1 & A2 & _).
  destruct (x86_prepared_fields c 4 (row_image store y) (row_image into y)) as (B1 & B2 & _). cbn [row_image width height] in B1, B2.
  destruct (x86_pixel_mid c f store into V mid x y Om Hx Hy) as (r & g & b & a & Pm).
  assert (Pm' : pixel mid' x 0 r g b a).
  { destruct Pm as (P0 & P1 & P2 & P3). repeat split; rewrite <- M by lia; assumption. }
  pose proof (opd_width _ _ _ Om) as O1. pose proof (opd_height _ _ _ Om) as O2. pose proof (opd_width _ _ _ Om') as O1'. pose proof (opd_height _ _ _ Om') as O2'.
  rewrite (Pu x y r g b a), (Pu' x 0 r g b a); auto; try lia.
  replace (width mid') with (width mid) by congruence. reflexivity.
Qed.
