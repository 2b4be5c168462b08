(** The C interface. *)
From Coq Require Import ZArith Reals List Bool Lia Lra ZifyBool ZifyNat.
From Flocq Require Import Core.Core IEEE754.BinarySingleNaN.
From Verif Require Import Base BaseProofs ImageStore Resize F32 F32Proofs Sampler Alpha AlphaU16 Spec SpecApi CApi SpecC.
Import ListNotations.
Local Open Scope nat_scope.

(** ** Elements *)
Record lays_out {T} (e : elem T) : Prop := {
  lo_size : 0 < esize e;
  lo_len : forall v, length (eenc e v) = esize e;
  lo_dec : forall v, edec e (eenc e v) = v }.
Definition faithful {T} (e : elem T) : Prop := forall b, length b = esize e -> bytes b -> eenc e (edec e b) = b.

(** Reading and writing back the samples of [m] changes nothing. *)
Definition intact {T} (e : elem T) (m : list Z) : Prop :=
  forall j, j * esize e + esize e <= length m -> eenc e (edec e (sub m (j * esize e) (esize e))) = sub m (j * esize e) (esize e).
Lemma sub_len (m : list Z) o n : o + n <= length m -> length (sub m o n) = n.
Proof. intro H. unfold sub. rewrite firstn_length, skipn_length. lia. Qed.
Lemma Forall_sub P (m : list Z) o n : Forall P m -> Forall P (sub m o n).
Proof.
  intro H. apply Forall_forall. intros x Hx. apply In_nth_error in Hx as (i & Hi). unfold sub in Hi.
  rewrite nth_error_firstn, nth_error_skipn in Hi. destruct (i <? n); [|discriminate]. rewrite Forall_forall in H. apply H. eapply nth_error_In; eauto.
Qed.
Lemma faithful_intact {T} (e : elem T) m : faithful e -> bytes m -> intact e m.
Proof. intros F B j Hj. apply F; [now apply sub_len|now apply Forall_sub]. Qed.
Lemma lays_u8 : lays_out elem_u8. Proof. split; cbn; auto. Qed.
Lemma faithful_u8 : faithful elem_u8.
Proof. intros b Hb _. destruct b as [|x [|]]; cbn in *; try lia. reflexivity. Qed.
Lemma lays_u16 : lays_out elem_u16.
Proof. split; cbn [esize eenc edec elem_u16 length nth]; auto; intro v. pose proof (Z.div_mod v 256 ltac:(lia)). lia. Qed.
Lemma faithful_u16 : faithful elem_u16.
Proof.
  intros b Hb B. destruct b as [|x [|y [|]]]; cbn [length esize elem_u16] in *; try lia.
  pose proof (Forall_inv B) as Bx. cbv beta in Bx. cbn [edec eenc elem_u16 nth]. f_equal; [|f_equal].
  - symmetry. apply Z.mod_unique with y; lia.
  - symmetry. apply Z.div_unique with x; lia.
Qed.

(** ** f32 *)
Lemma fZ_finite s m e (H : SpecFloat.bounded 24 128 m e = true) : fZ (if (s : bool) then Z.neg m else Z.pos m) e = B754_finite s m e H.
Proof.
  assert (V : F2R (Float radix2 (if s then Z.neg m else Z.pos m) e) = B2R (B754_finite s m e H : f32)) by (destruct s; reflexivity).
  pose proof (binary_normalize_correct 24 128 prec_pos prec_emax mode_NE (if s then Z.neg m else Z.pos m) e false) as C.
  cbv zeta in C. rewrite V in C.
  rewrite round_generic in C by (try apply valid_rnd_round_mode; apply generic_format_B2R).
  rewrite Rlt_bool_true in C by apply abs_B2R_lt_emax.
  destruct C as (C1 & C2 & C3). 
  apply B2R_Bsign_inj; auto.
  - unfold fZ. rewrite C3. cbn [Bsign]. 
    destruct s; [rewrite Rcompare_Lt; [reflexivity|]|rewrite Rcompare_Gt; [reflexivity|]]; cbn [B2R SpecFloat.cond_Zopp].
    + apply F2R_lt_0. reflexivity.
    + apply F2R_gt_0. reflexivity.
Qed.
Lemma bits_round_trip x : f32_of_bits (f32_bits x) = x.
Proof.
  destruct x as [s|s| |s m e H].
  - destruct s; reflexivity.
  - destruct s; reflexivity.
  - reflexivity.
  - transitivity (fZ (if s then Z.neg m else Z.pos m) e); [|apply fZ_finite]. destruct (finite_parts s m e H) as (H1 & H2 & H3).
    unfold f32_bits, f32_of_bits.
    change (2 ^ 23)%Z with 8388608%Z in *. change (2 ^ 31)%Z with 2147483648%Z in *. change (2 ^ 24)%Z with 16777216%Z in *.
    destruct (Z.ltb_spec (Z.pos m) 8388608).
    + specialize (H3 ltac:(lia)). subst e.
      set (w := ((if s then 2147483648 else 0) + Z.pos m)%Z).
      assert (E1 : (w / 8388608 = if s then 256 else 0)%Z) by (unfold w; destruct s; symmetry; apply Z.div_unique with (Z.pos m); lia).
      assert (E2 : (w mod 8388608 = Z.pos m)%Z) by (unfold w; destruct s; symmetry; [apply Z.mod_unique with 256%Z|apply Z.mod_unique with 0%Z]; lia).
      assert (E3 : (2147483648 <=? w)%Z = s) by (unfold w; destruct s; lia).
      cbv zeta. rewrite E1, E2, E3. replace ((if s then 256 else 0) mod 256)%Z with 0%Z by (destruct s; reflexivity).
      cbn [Z.eqb]. destruct s; reflexivity.
    + set (w := ((if s then 2147483648 else 0) + ((e + 150) * 8388608 + (Z.pos m - 8388608)))%Z).
      assert (E1 : (w / 8388608 = (if s then 256 else 0) + (e + 150))%Z) by (unfold w; destruct s; symmetry; apply Z.div_unique with (Z.pos m - 8388608)%Z; lia).
      assert (E2 : (w mod 8388608 = Z.pos m - 8388608)%Z) by (unfold w; destruct s; symmetry; [apply Z.mod_unique with (256 + (e + 150))%Z|apply Z.mod_unique with (e + 150)%Z]; lia).
      assert (E3 : (2147483648 <=? w)%Z = s) by (unfold w; destruct s; lia).
      cbv zeta. rewrite E1, E2, E3.
      replace (((if s then 256 else 0) + (e + 150)) mod 256)%Z with (e + 150)%Z.
      2:{ destruct s; [apply Z.mod_unique with 1%Z|symmetry; apply Z.mod_small]; lia. }
      replace (e + 150 =? 255)%Z with false by lia. replace (e + 150 =? 0)%Z with false by lia.
      replace (Z.pos m - 8388608 + 8388608)%Z with (Z.pos m) by lia. replace (e + 150 - 150)%Z with e by lia. destruct s; reflexivity.
Qed.
Lemma lays_f32 : lays_out elem_f32.
Proof.
  split; cbn [esize eenc edec elem_f32 length nth]; [lia|auto|]. intro v. 
  replace (_ + _)%Z with (f32_bits v); [apply bits_round_trip|].
  set (w := f32_bits v). pose proof (Z.div_mod w 256 ltac:(lia)). pose proof (Z.div_mod (w / 256) 256 ltac:(lia)). pose proof (Z.div_mod (w / 65536) 256 ltac:(lia)).
  rewrite Zdiv.Zdiv_Zdiv in * by lia. change (256 * 256)%Z with 65536%Z in *. change (65536 * 256)%Z with 16777216%Z in *. lia.
Qed.

Lemma bounded_intro m e : (Z.pos m < 2 ^ 24 -> -149 <= e <= 104 -> (2 ^ 23 <= Z.pos m \/ e = -149) -> SpecFloat.bounded 24 128 m e = true)%Z.
Proof.
  intros H1 H2 H3. unfold SpecFloat.bounded, SpecFloat.canonical_mantissa. apply andb_true_intro. split; [|apply Z.leb_le; lia].
  apply Zeq_bool_true. unfold SpecFloat.fexp, SpecFloat.emin. change (3 - 128 - 24)%Z with (-149)%Z.
  rewrite Digits.Zpos_digits2_pos.
  assert (D : (Zdigits radix2 (Z.pos m) <= 24)%Z) by (apply Zdigits_le_Zpower; cbn [Z.abs]; exact H1).
  assert (P : (0 < Zdigits radix2 (Z.pos m))%Z) by (apply Zdigits_gt_0; lia).
  destruct H3 as [H3| ->]; [|lia].
  assert (G : (23 < Zdigits radix2 (Z.pos m))%Z) by (apply Zdigits_gt_Zpower; cbn [Z.abs]; exact H3). lia.
Qed.
Lemma bits_of_bits w : (0 <= w < 2 ^ 32)%Z -> f32_of_bits w <> B754_nan -> f32_bits (f32_of_bits w) = w.
Proof.
  intros R N. unfold f32_of_bits in *. cbv zeta in *.
  change (2 ^ 31)%Z with 2147483648%Z in *. change (2 ^ 32)%Z with 4294967296%Z in *. change (2 ^ 23)%Z with 8388608%Z in *.
  set (s := (2147483648 <=? w)%Z) in *. set (e := ((w / 8388608) mod 256)%Z) in *. set (m := (w mod 8388608)%Z) in *.
  assert (Rm : (0 <= m < 8388608)%Z) by (apply Z.mod_pos_bound; lia).
  assert (Re : (0 <= e < 256)%Z) by (apply Z.mod_pos_bound; lia).
  assert (Ew : w = ((if s then 2147483648 else 0) + (e * 8388608 + m))%Z).
  { unfold s. pose proof (Z.div_mod w 8388608 ltac:(lia)) as D. fold m in D. pose proof (Z.div_mod (w / 8388608) 256 ltac:(lia)) as D2. fold e in D2.
    destruct (Z.leb_spec 2147483648 w); lia. }
  clearbody s e m. subst w. clear R.
  destruct (Z.eqb_spec e 255) as [E1|E1].
  { destruct (Z.eqb_spec m 0) as [E2|E2]; [|congruence]. rewrite E1, E2. clear. destruct s; reflexivity. }
  destruct (Z.eqb_spec e 0) as [E2|E2].
  - destruct (Z.eqb_spec m 0) as [E3|E3]; [rewrite E2, E3; clear; destruct s; reflexivity|]. destruct m as [|m|m]; try lia. clear N.
    assert (B : SpecFloat.bounded 24 128 m (-149) = true) by (apply bounded_intro; lia).
    replace (if s then (- Z.pos m)%Z else Z.pos m) with (if s then Z.neg m else Z.pos m) by (destruct s; reflexivity).
    rewrite (fZ_finite s m (-149) B). unfold f32_bits. change (2 ^ 23)%Z with 8388608%Z. change (2 ^ 31)%Z with 2147483648%Z.
    replace (Z.pos m <? 8388608)%Z with true by lia. lia.
  - destruct (m + 8388608)%Z as [|p|p] eqn:Ep; try lia.
    assert (B : SpecFloat.bounded 24 128 p (e - 150) = true) by (apply bounded_intro; lia).
    replace (if s then (- Z.pos p)%Z else Z.pos p) with (if s then Z.neg p else Z.pos p) by (destruct s; reflexivity).
    rewrite (fZ_finite s p (e - 150) B). unfold f32_bits. change (2 ^ 23)%Z with 8388608%Z. change (2 ^ 31)%Z with 2147483648%Z.
    replace (Z.pos p <? 8388608)%Z with false by lia. lia.
Qed.
Lemma intact_f32 m : bytes m -> no_nans m -> intact elem_f32 m.
Proof.
  intros B N j Hj. specialize (N j Hj). cbn [esize elem_f32] in *. fold (sub m (j * 4) 4) in N.
  assert (Bs : bytes (sub m (j * 4) 4)) by (now apply Forall_sub). pose proof (sub_len m (j * 4) 4 Hj) as Ls.
  set (l := sub m (j * 4) 4) in *. clearbody l. destruct l as [|a [|b [|c [|d [|]]]]]; try discriminate Ls.
  inversion Bs as [|? ? Ba B1]; subst. inversion B1 as [|? ? Bb B2]; subst. inversion B2 as [|? ? Bc B3]; subst. inversion B3 as [|? ? Bd _]; subst.
  cbn [edec eenc elem_f32 nth] in *. rewrite bits_of_bits by (auto; lia).
  set (w := (a + 256 * b + 65536 * c + 16777216 * d)%Z).
  replace (w mod 256)%Z with a by (apply Z.mod_unique with (b + 256 * c + 65536 * d)%Z; unfold w; lia).
  replace (w / 256)%Z with (b + 256 * (c + 256 * d))%Z by (apply Z.div_unique with a; unfold w; lia).
  replace ((b + 256 * (c + 256 * d)) mod 256)%Z with b by (apply Z.mod_unique with (c + 256 * d)%Z; lia).
  replace (w / 65536)%Z with (c + 256 * d)%Z by (apply Z.div_unique with (a + 256 * b)%Z; unfold w; lia).
  replace ((c + 256 * d) mod 256)%Z with c by (apply Z.mod_unique with d; lia).
  replace (w / 16777216)%Z with d by (apply Z.div_unique with (a + 256 * b + 65536 * c)%Z; unfold w; lia). reflexivity.
Qed.

(** Arithmetic used below. *)
Lemma row_fits y h p : y < h -> y * p + p <= h * p.
Proof. intro H. assert ((y + 1) * p <= h * p) by (apply Nat.mul_le_mono_r; lia). lia. Qed.
Lemma pixel_fits x w N k : x < w -> k < N -> x * N + k < w * N.
Proof. intros H K. pose proof (row_fits x w N H). lia. Qed.
Lemma below_mul j n s b : j * s + b < n * s -> j < n.
Proof. intro H. destruct (Nat.lt_ge_cases j n) as [|G]; [assumption|]. assert (n * s <= j * s) by (apply Nat.mul_le_mono_r; lia). lia. Qed.
Lemma div_le_self p s h : 0 < s -> h * (p / s) <= p * h.
Proof. intro H. rewrite (Nat.mul_comm p). apply Nat.mul_le_mono_l. apply Nat.div_le_upper_bound; [lia|]. rewrite <- (Nat.mul_1_l p) at 1. apply Nat.mul_le_mono_r. lia. Qed.

(** ** Decoding and encoding memory *)
Section Mem.
Context {T : Type}.
Variable e : elem T.
Hypothesis L : lays_out e.
Let sz := esize e.
Lemma sz_pos : 0 < sz. Proof. apply L. Qed.
Lemma decode_length m n : length (decode e m n) = n.
Proof. unfold decode. now rewrite map_length, seq_length. Qed.
Lemma decode_nth m n i : i < n -> nth_error (decode e m n) i = Some (edec e (sub m (i * sz) sz)).
Proof. intro H. unfold decode. rewrite nth_error_map_seq. replace (i <? n) with true by lia. reflexivity. Qed.
Lemma encode_length l : length (encode e l) = length l * sz.
Proof. unfold encode. induction l as [|a l IH]; cbn [flat_map length]; [reflexivity|]. rewrite app_length, IH, (lo_len e L). fold sz. lia. Qed.
Lemma encode_nth l i b v : nth_error l i = Some v -> b < sz -> nth_error (encode e l) (i * sz + b) = nth_error (eenc e v) b.
Proof.
  intros H Hb. unfold encode. rewrite flat_map_concat_map.
  assert (U : Forall (fun c => length c = sz) (map (eenc e) l)).
  { apply Forall_forall. intros c Hc. apply in_map_iff in Hc as (x & <- & _). apply (lo_len e L). }
  rewrite (nth_error_concat_uniform sz) by (auto; lia).
  rewrite (Nat.add_comm (i * sz)), Nat.div_add, Nat.mod_add by lia. rewrite Nat.div_small, Nat.mod_small by lia.
  cbn [Nat.add]. rewrite nth_error_map, H. reflexivity.
Qed.
Lemma sub_eq (m m' : list Z) o n : (forall b, b < n -> nth_error m (o + b) = nth_error m' b) -> length m' = n -> sub m o n = m'.
Proof.
  intros H Hl. apply list_ext. intro i. unfold sub. rewrite nth_error_firstn, nth_error_skipn.
  destruct (Nat.ltb_spec i n); [now apply H|]. symmetry. apply nth_error_None_ge. lia.
Qed.
Section Back.
Variables (out : list T) (m : list Z).
Hypothesis Fit : length out * sz <= length m.
Let m' := encode e out ++ skipn (length out * sz) m.
Lemma back_length : length m' = length m.
Proof using Fit L. unfold m'. rewrite app_length, encode_length, skipn_length. lia. Qed.
Lemma back_elem i v : nth_error out i = Some v -> sub m' (i * sz) sz = eenc e v.
Proof using Fit L.
  intro H. apply sub_eq; [|apply (lo_len e L)]. intros b Hb. unfold m'. rewrite nth_error_app_case, encode_length.
  pose proof (nth_error_Some_lt _ _ _ H). replace (i * sz + b <? length out * sz) with true by nia. now apply encode_nth.
Qed.
Lemma back_rest i : length out * sz <= i -> nth_error m' i = nth_error m i.
Proof using Fit L.
  intro H. unfold m'. rewrite nth_error_app_case, encode_length. replace (i <? length out * sz) with false by lia.
  rewrite nth_error_skipn. f_equal. lia.
Qed.
Lemma back_same j b : intact e m -> b < sz -> nth_error out j = Some (edec e (sub m (j * sz) sz)) ->
  nth_error m' (j * sz + b) = nth_error m (j * sz + b).
Proof using Fit L.
  intros F Hb H. pose proof (nth_error_Some_lt _ _ _ H). unfold m'. rewrite nth_error_app_case, encode_length.
  replace (j * sz + b <? length out * sz) with true by nia. rewrite (encode_nth out j b _ H Hb).
  rewrite F by (fold sz; nia).
  unfold sub. rewrite nth_error_firstn, nth_error_skipn. fold sz. replace (b <? sz) with true by lia. reflexivity.
Qed.
End Back.

(** ** The source *)
Lemma cmap_done {A B} (f : A -> cres B) (g : A -> B) l : (forall a, In a l -> f a = CDone (g a)) -> cmap f l = CDone (map g l).
Proof. induction l as [|a l IH]; intro H; cbn [cmap map]; [reflexivity|]. rewrite (H a) by (now left). cbn [cbind]. rewrite IH by (intros; apply H; now right). reflexivity. Qed.

Lemma c_sample_some N m pitch x y k : y * pitch + (x * N + k) * sz + sz <= length m ->
  c_sample e N m pitch x y k = Some (edec e (sub m (y * pitch + (x * N + k) * sz) sz)).
Proof. intro H. unfold c_sample. cbv zeta. fold sz. replace (_ <=? _) with true by lia. reflexivity. Qed.

Lemma copy_source_ok N (src : block) pitch w h :
  0 < w -> 0 < h -> w * N * sz <= pitch -> pitch * h <= length (mem src) -> fits_usize (pitch * h) -> N = sz ->
  copy_source e N src pitch w h =
  CDone (map (fun i => edec e (sub (mem src) (i / (w * N) * pitch + i mod (w * N) * N) sz)) (seq 0 (h * (w * N)))).
Proof using L.
  intros Hw Hh Hp Hm Hf En. pose proof sz_pos as Hsz.
  assert (B0 : w * N * h * sz <= pitch * h) by nia. assert (B1 : w * N * h <= pitch * h) by nia. assert (B2 : w * h <= pitch * h) by nia. assert (B3 : w * N <= w * N * h) by nia.
  assert (W1 : wmul w N = w * N) by (apply wmul_small; unfold fits_usize in *; lia).
  assert (W2 : wmul (wmul w h) N = w * h * N) by (rewrite (wmul_small w h), wmul_small; unfold fits_usize in *; lia).
  assert (W3 : wmul pitch h = pitch * h) by (apply wmul_small; unfold fits_usize in *; lia).
  unfold copy_source. rewrite W1, W2, W3. replace (length (mem src) <? pitch * h) with false by lia.
  assert (P1 : 0 < w * N) by nia. assert (P2 : w * N * 1 <= w * N * sz) by (apply Nat.mul_le_mono_l; lia).
  replace (w * N =? 0) with false by lia. replace (pitch =? 0) with false by lia. replace (N =? 0) with false by lia. cbn [orb].
  replace (w * h * N / (w * N)) with h by (replace (w * h * N) with (h * (w * N)) by lia; now rewrite Nat.div_mul by lia).
  replace (pitch * h / pitch) with h by (rewrite Nat.mul_comm; now rewrite Nat.div_mul by lia).
  rewrite Nat.min_id. replace (w * h * N - h * (w * N)) with 0 by lia. cbn [repeat].
  rewrite (cmap_done _ (fun y => map (fun i => edec e (sub (mem src) (y * pitch + i * N) sz)) (seq 0 (w * N)))).
  - cbn [cbind]. rewrite app_nil_r. rewrite KernelProofs.concat_map_rows by lia. reflexivity.
  - intros y Hy. apply in_seq in Hy. unfold read_row.
    assert (Pp : w * N <= pitch / N) by (apply Nat.div_le_lower_bound; [lia|]; rewrite En at 1; lia).
    rewrite Nat.min_l by lia. replace (w * N - pitch / N) with 0 by lia. cbn [repeat].
    rewrite (cmap_done _ (fun i => edec e (sub (mem src) (y * pitch + i * N) sz))); [cbn [cbind]; now rewrite app_nil_r|].
    intros i Hi. apply in_seq in Hi. unfold read_at. fold sz.
    replace (y * pitch + i * N + sz <=? length (mem src)) with true; [reflexivity|].
    symmetry. apply Nat.leb_le. assert (y * pitch + pitch <= h * pitch) by (apply row_fits; lia).
    assert (i * N + N <= w * N * N) by (apply row_fits; lia). assert (w * N * N = w * N * sz) by (rewrite En at 2; reflexivity). lia.
Qed.

Definition from_memory (m : list Z) (im : image T) : Prop :=
  Forall (fun v => exists o, o + sz <= length m /\ v = edec e (sub m o sz)) (buf im).
Lemma source_ok N (src : block) pitch w h depth :
  0 < N -> 0 < w -> 0 < h -> w * N * sz <= pitch -> pitch * h <= length (mem src) -> fits_usize (pitch * h) ->
  (addr src mod ealign e = 0 /\ pitch mod sz = 0) \/ N = sz ->
  exists store, c_source e N src pitch w h depth = CDone store /\ describes e N (mem src) pitch w h depth store /\ from_memory (mem src) store.
Proof using L.
  intros HN Hw Hh Hp Hm Hf Hal. pose proof sz_pos as Hsz. unfold c_source. fold sz.
  assert (Pp : w * N <= pitch / sz) by (apply Nat.div_le_lower_bound; nia).
  destruct (Nat.eqb_spec (addr src mod ealign e) 0) as [Ea|Na]; [destruct (Nat.eqb_spec (pitch mod sz) 0) as [Ed|Nd]|]; cbn [negb orb].
  1:{ assert (Ep : pitch = pitch / sz * sz) by (pose proof (Nat.div_mod pitch sz ltac:(lia)); nia).
      set (st := pitch / sz) in *. assert (Wm : wmul st h = st * h).
      { apply wmul_small. unfold fits_usize in *. pose proof (div_le_self pitch sz h Hsz). fold st in H. lia. }
      unfold raw_parts. fold sz. rewrite Ea, Wm. cbn [Nat.eqb negb]. replace (length (mem src) <? st * h * sz) with false by nia.
      cbn [cbind]. eexists. split; [reflexivity|]. split.
      2:{ unfold from_memory. cbn [buf]. unfold decode. apply Forall_forall. intros v Hv. apply in_map_iff in Hv as (i & <- & Hi). apply in_seq in Hi.
          exists (i * sz). split; [|reflexivity]. assert (i * sz + sz <= st * h * sz) by (apply row_fits; lia). nia. }
      assert (stp : st <= pitch) by (rewrite Ep; rewrite <- (Nat.mul_1_r st) at 1; apply Nat.mul_le_mono_l; lia).
      unfold describes. cbn [width height channels bit_depth stride buf].
      do 5 (split; [reflexivity || lia|]). split; [rewrite decode_length; lia|].
      intros x y k Hx Hy Hk. assert (X1 : x * N + k < w * N) by (now apply pixel_fits). unfold sample. cbn [buf stride].
      pose proof (row_fits y h st Hy). rewrite decode_nth by lia. rewrite c_sample_some.
      - f_equal. f_equal. f_equal. assert (Ey : y * pitch = y * (st * sz)) by (f_equal; exact Ep). rewrite Ey. ring.
      - assert (y * pitch + pitch <= h * pitch) by (now apply row_fits). assert ((x * N + k) * sz + sz <= w * N * sz) by (now apply row_fits). lia. }
  all: destruct Hal as [[]|En]; [congruence|].
  all: assert (Wb : w * N * 1 <= w * N * sz) by (apply Nat.mul_le_mono_l; lia);
       assert (W1 : wmul w N = w * N) by (apply wmul_small; unfold fits_usize in *; assert (w * N * 1 <= pitch * h) by nia; lia).
  all: rewrite copy_source_ok by assumption; cbn [cbind]; rewrite W1.
  all: eexists; (split; [reflexivity|]); split.
  2,4: unfold from_memory; cbn [buf]; apply Forall_forall; intros v Hv; apply in_map_iff in Hv as (i & <- & Hi); apply in_seq in Hi;
       assert (P1 : 0 < w * N) by nia; exists (i / (w * N) * pitch + i mod (w * N) * N); (split; [|reflexivity]);
       assert (i / (w * N) < h) by (apply Nat.div_lt_upper_bound; lia); pose proof (row_fits (i / (w * N)) h pitch ltac:(lia));
       pose proof (Nat.mod_upper_bound i (w * N) ltac:(lia)) as Mu; pose proof (row_fits (i mod (w * N)) (w * N) sz Mu) as Rf;
       replace (i mod (w * N) * N) with (i mod (w * N) * sz) by (f_equal; lia); lia.
  all: unfold describes; cbn [width height channels bit_depth stride buf].
  all: do 5 (split; [reflexivity || lia|]); (split; [rewrite map_length, seq_length; lia|]).
  all: intros x y k Hx Hy Hk; assert (X1 : x * N + k < w * N) by (now apply pixel_fits); unfold sample; cbn [buf stride].
  all: rewrite nth_error_map_seq; replace (y * (w * N) + x * N + k <? h * (w * N)) with true by (pose proof (row_fits y h (w * N) Hy); lia); cbn [Nat.add].
  all: rewrite c_sample_some; [|assert (y * pitch + pitch <= h * pitch) by (now apply row_fits); assert ((x * N + k) * sz + sz <= w * N * sz) by (now apply row_fits); lia].
  all: replace (y * (w * N) + x * N + k) with (x * N + k + y * (w * N)) by lia.
  all: rewrite Nat.div_add, Nat.mod_add by lia; rewrite Nat.div_small, Nat.mod_small by lia; cbn [Nat.add].
  all: replace ((x * N + k) * N) with ((x * N + k) * sz) by (now rewrite En at 3); reflexivity.
Qed.
(** ** The call, destination aligned *)
(** Memory [m'] holds image [out] where [m] held [into]. *)
Definition written N pitch w h (m m' : list Z) (out : image T) : Prop :=
  length m' = length m /\
  (forall x y k, x < w -> y < h -> k < N -> c_sample e N m' pitch x y k = sample N out x y k) /\
  (intact e m -> forall i, ~ pixel_byte N sz pitch w h i -> nth_error m' i = nth_error m i).

Lemma write_back N pitch w h m (into out : image T) :
  0 < N -> 0 < w -> 0 < h -> w * N * sz <= pitch -> pitch mod sz = 0 -> pitch * h <= length m ->
  into = mkImage (decode e m (h * (pitch / sz))) N w h (pitch / sz) (bit_depth into) ->
  only_pixels_differ N into out ->
  written N pitch w h m (encode e (buf out) ++ skipn (h * (pitch / sz) * sz) m) out.
Proof using L.
  intros HN Hw Hh Hp Hd Hm Ei O. pose proof sz_pos as Hsz.
  assert (Ep : pitch = pitch / sz * sz) by (pose proof (Nat.div_mod pitch sz ltac:(lia)); lia).
  set (st := pitch / sz) in *. clearbody st. subst pitch.
  assert (Hst : w * N <= st) by (apply Nat.mul_le_mono_pos_r with sz; lia).
  assert (Fit : h * st * sz <= length m) by lia.
  assert (Lo : length (buf out) = h * st) by (rewrite (opd_length _ _ _ O), Ei; apply decode_length).
  assert (So : stride out = st) by (rewrite (opd_stride _ _ _ O), Ei; reflexivity).
  rewrite <- Lo. rewrite <- Lo in Fit.
  split; [now apply back_length|]. split.
  - intros x y k Hx Hy Hk. assert (X1 : x * N + k < w * N) by (now apply pixel_fits). assert (X2 : y * st + st <= h * st) by (now apply row_fits).
    rewrite c_sample_some.
    + unfold sample. rewrite So. assert (X3 : y * st + x * N + k < length (buf out)) by lia.
      destruct (nth_error (buf out) (y * st + x * N + k)) as [v|] eqn:Ev; [|apply nth_error_None in Ev; lia].
      replace (y * (st * sz) + (x * N + k) * sz) with ((y * st + x * N + k) * sz) by lia.
      rewrite (back_elem _ _ Fit _ _ Ev). now rewrite (lo_dec e L).
    + rewrite back_length by exact Fit. rewrite Lo in Fit.
      assert ((y * st + x * N + k + 1) * sz <= h * st * sz) by (apply Nat.mul_le_mono_r; lia). lia.
  - intros F i Hi. destruct (Nat.le_gt_cases (length (buf out) * sz) i) as [G|G]; [now apply back_rest|].
    set (j := i / sz). set (b := i mod sz). assert (Eb : i = j * sz + b) by (unfold j, b; pose proof (Nat.div_mod i sz ltac:(lia)); lia).
    assert (Hb : b < sz) by (apply Nat.mod_upper_bound; lia). clearbody j b. subst i.
    assert (Hj : j < h * st) by (rewrite <- Lo; now apply (below_mul j (length (buf out)) sz b)).
    apply back_same; auto.
    rewrite (opd_padding _ _ _ O).
    + rewrite Ei. cbn [buf]. now apply decode_nth.
    + rewrite Ei. cbn [width stride]. destruct (Nat.le_gt_cases (w * N) (j mod st)) as [|Lt]; [assumption|]. exfalso. apply Hi.
      assert (Hs : 0 < st) by lia.
      pose proof (Nat.div_mod j st ltac:(lia)) as Dj. pose proof (Nat.div_mod (j mod st) N ltac:(lia)) as Dk.
      exists (j mod st / N), (j / st), ((j mod st) mod N), b.
      split; [apply Nat.div_lt_upper_bound; lia|]. split; [apply Nat.div_lt_upper_bound; lia|].
      split; [apply Nat.mod_upper_bound; lia|]. split; [exact Hb|].
      set (q := j / st) in *. set (r := j mod st) in *. set (rq := r / N) in *. set (rr := r mod N) in *.
      replace (rq * N + rr) with r by lia. replace (q * (st * sz) + r * sz) with ((st * q + r) * sz) by lia. now rewrite <- Dj.
Qed.

Lemma aligned_call N scale (src dst : block) pitch w h pitch' w' h' depth :
  0 < N -> 0 < w -> 0 < h -> 0 < w' -> 0 < h' ->
  w * N * sz <= pitch -> pitch * h <= length (mem src) -> fits_usize (pitch * h) ->
  w' * N * sz <= pitch' -> pitch' * h' <= length (mem dst) -> fits_usize (pitch' * h') ->
  (addr src mod ealign e = 0 /\ pitch mod sz = 0) \/ N = sz ->
  addr dst mod ealign e = 0 -> pitch' mod sz = 0 ->
  exists store into, describes e N (mem src) pitch w h depth store /\ describes e N (mem dst) pitch' w' h' depth into /\ from_memory (mem src) store /\
    match scale store into with
    | Panicked => c_scale e N scale src pitch w h dst pitch' w' h' depth = CAbort
    | Returned v out => exists m',
        c_scale e N scale src pitch w h dst pitch' w' h' depth = CDone (code_of v, m') /\
        (intact e (mem dst) -> out = into -> m' = mem dst) /\
        (only_pixels_differ N into out -> written N pitch' w' h' (mem dst) m' out)
    end.
Proof using L.
  intros HN Hw Hh Hw' Hh' Hp Hm Hf Hp' Hm' Hf' Hal Ha' Hd'. pose proof sz_pos as Hsz.
  destruct (source_ok N src pitch w h depth) as (store & E & D & FM); auto.
  assert (Ep : pitch' = pitch' / sz * sz) by (pose proof (Nat.div_mod pitch' sz ltac:(lia)); lia).
  assert (Wm : wmul h' (pitch' / sz) = h' * (pitch' / sz)).
  { apply wmul_small. unfold fits_usize in *. pose proof (div_le_self pitch' sz h' Hsz). lia. }
  set (into := mkImage (decode e (mem dst) (h' * (pitch' / sz))) N w' h' (pitch' / sz) depth).
  assert (Fit : h' * (pitch' / sz) * sz <= length (mem dst)) by (rewrite Ep in Hm'; lia).
  exists store, into. split; [exact D|]. split.
  { destruct (source_ok N (mkBlock 0 (mem dst)) pitch' w' h' depth) as (i2 & E2 & D2 & _); auto.
    { left. cbn [addr]. split; [|exact Hd']. destruct (ealign e); [reflexivity|]. now apply Nat.mod_0_l. }
    unfold c_source in E2. fold sz in E2. rewrite Hd' in E2.
    replace (addr {| addr := 0; mem := mem dst |} mod ealign e) with 0 in E2.
    2:{ cbn [addr]. destruct (ealign e); [reflexivity|]. now rewrite Nat.mod_0_l. }
    cbn [Nat.eqb negb orb] in E2. rewrite Nat.mul_comm in Wm. unfold raw_parts in E2. fold sz in E2.
    replace (addr {| addr := 0; mem := mem dst |} mod ealign e) with 0 in E2.
    2:{ cbn [addr]. destruct (ealign e); [reflexivity|]. now rewrite Nat.mod_0_l. }
    cbn [Nat.eqb negb mem] in E2.
    assert (Wm2 : wmul (pitch' / sz) h' = h' * (pitch' / sz)).
    { rewrite wmul_small; [lia|]. unfold fits_usize in *. pose proof (div_le_self pitch' sz h' Hsz). lia. }
    rewrite Wm2 in E2. replace (length (mem dst) <? h' * (pitch' / sz) * sz) with false in E2 by lia. cbn [cbind] in E2.
    injection E2 as <-. exact D2. }
  split; [exact FM|].
  unfold c_scale. rewrite E. cbn [cbind]. fold sz. rewrite Ha'. cbn [Nat.eqb negb andb]. rewrite Wm. unfold raw_parts. fold sz.
  rewrite Ha'. cbn [Nat.eqb negb]. replace (length (mem dst) <? h' * (pitch' / sz) * sz) with false by lia. cbn [cbind].
  fold into. destruct (scale store into) as [v out|] eqn:Sc; [|reflexivity].
  eexists. split; [reflexivity|]. split.
  - intros F ->. apply list_ext. intro i.
    assert (Lb : length (buf into) = h' * (pitch' / sz)) by apply decode_length. rewrite <- Lb. rewrite <- Lb in Fit.
    destruct (Nat.le_gt_cases (length (buf into) * sz) i) as [G|G]; [now apply back_rest|].
    set (j := i / sz). set (b := i mod sz). assert (Eb : i = j * sz + b) by (unfold j, b; pose proof (Nat.div_mod i sz ltac:(lia)); lia).
    assert (Hb : b < sz) by (apply Nat.mod_upper_bound; lia). clearbody j b. subst i.
    apply back_same; auto. cbn [into buf]. apply decode_nth. rewrite <- Lb. now apply (below_mul j (length (buf into)) sz b).
  - intro O. apply (write_back N pitch' w' h' (mem dst) into out); auto.
Qed.
End Mem.

(** ** Writing back an unaligned destination with an odd stride *)
Lemma cfold_flat {A B S} (f : S -> A -> cres S) (g : B -> list A) l s :
  cfold (fun s b => cfold f (g b) s) l s = cfold f (flat_map g l) s.
Proof.
  revert s. induction l as [|b l IH]; intro s; cbn [cfold flat_map]; [reflexivity|].
  assert (App : forall (x y : list A) s, cfold f (x ++ y) s = cbind (cfold f x s) (cfold f y)).
  { clear. induction x as [|a x IH]; intros y s; cbn [cfold app cbind]; [reflexivity|]. destruct (f s a); cbn [cbind]; auto. }
  rewrite App. destruct (cfold f (g b) s); cbn [cbind]; auto.
Qed.
Lemma cfold_map {A B S} (f : S -> A -> cres S) (g : B -> A) l s : cfold (fun s b => f s (g b)) l s = cfold f (map g l) s.
Proof. revert s. induction l as [|b l IH]; intro s; cbn [cfold map]; [reflexivity|]. destruct (f s (g b)); cbn [cbind]; auto. Qed.
Lemma cfold_ext {A S} (f g : S -> A -> cres S) l s : (forall s a, f s a = g s a) -> cfold f l s = cfold g l s.
Proof. intro H. revert s. induction l as [|b l IH]; intro s; cbn [cfold]; [reflexivity|]. rewrite H. destruct (g s b); cbn [cbind]; auto. Qed.

Lemma nth_error_seq0 n i : nth_error (seq 0 n) i = if i <? n then Some i else None.
Proof. rewrite <- (map_id (seq 0 n)). rewrite nth_error_map_seq. reflexivity. Qed.
Section Writes.
Context {T : Type}.
Variable e : elem T.
Hypothesis L : lays_out e.
Let sz := esize e.
Definition put (m : list Z) (w : nat * T) : cres (list Z) := write_at e m (fst w) (snd w).
Lemma puts l : forall m, (forall w, In w l -> fst w + sz <= length m) ->
  (forall a b, In a l -> In b l -> a = b \/ fst a + sz <= fst b \/ fst b + sz <= fst a) ->
  exists m', cfold put l m = CDone m' /\ length m' = length m /\
    (forall w, In w l -> sub m' (fst w) sz = eenc e (snd w)) /\
    (forall i, (forall w, In w l -> i < fst w \/ fst w + sz <= i) -> nth_error m' i = nth_error m i).
Proof using L.
  pose proof (lo_size e L) as Hsz. fold sz in Hsz.
  induction l as [|[o v] l IH]; intros m Fit Dis.
  { exists m. cbn [cfold]. repeat split; auto. intros w []. }
  pose proof (Fit (o, v) (or_introl eq_refl)) as F0. cbn [fst] in F0.
  assert (Lv : length (eenc e v) = sz) by apply (lo_len e L).
  assert (L1 : length (splice m o (eenc e v)) = length m) by (apply splice_length; lia).
  destruct (IH (splice m o (eenc e v))) as (m' & E & Len & Wr & Keep).
  { intros w Hw. rewrite L1. apply Fit. now right. } { intros a b Ha Hb. apply Dis; now right. }
  exists m'. split.
  { cbn [cfold]. unfold put at 1. unfold write_at. cbn [fst snd]. fold sz. replace (o + sz <=? length m) with true by lia. exact E. }
  split; [lia|].
  assert (Head : sub m' o sz = eenc e v).
  { destruct (in_dec Nat.eq_dec o (map fst l)) as [I|I].
    - apply in_map_iff in I as (w & Ew & Hw). specialize (Wr w Hw).
      destruct (Dis (o, v) w (or_introl eq_refl) (or_intror Hw)) as [<-|[D|D]]; cbn [fst snd] in *; [exact Wr|lia|lia].
    - apply (@sub_eq T e); [|exact Lv]. intros b Hb. fold sz in Hb. rewrite Keep.
      + rewrite nth_error_splice by lia. replace ((o <=? o + b) && (o + b <? o + length (eenc e v))) with true by lia. f_equal. lia.
      + intros w Hw. destruct (Dis (o, v) w (or_introl eq_refl) (or_intror Hw)) as [<-|[D|D]]; cbn [fst] in *; try lia.
        exfalso. apply I. apply in_map_iff. exists (o, v). auto. }
  split.
  - intros w [<-|Hw]; [exact Head|now apply Wr].
  - intros i Hi. rewrite Keep by (intros w Hw; apply Hi; now right). rewrite nth_error_splice by lia.
    specialize (Hi (o, v) (or_introl eq_refl)). cbn [fst] in Hi. replace ((o <=? i) && (i <? o + length (eenc e v))) with false by lia. reflexivity.
Qed.

Lemma copy_back_ok N (out : image T) pitch w h m :
  N = sz -> 0 < w -> 0 < h -> h <= w -> w * N * sz <= pitch -> w * pitch <= length m -> fits_usize (w * pitch) ->
  stride out = w * N -> length (buf out) = h * (w * N) ->
  exists m', copy_back e N out pitch w m = CDone m' /\ replaced e N m m' pitch w h out.
Proof using L.
  intros En Hw Hh Hhw Hp Hm Hf So Lo. pose proof (lo_size e L) as Hsz. fold sz in Hsz.
  assert (P0 : 0 < w * N) by nia. assert (P1 : w * N * 1 <= w * N * sz) by (apply Nat.mul_le_mono_l; lia).
  unfold copy_back. rewrite (wmul_small w pitch) by (unfold fits_usize in *; lia). unfold stride_of. rewrite So.
  replace (length m <? w * pitch) with false by lia. replace (w * N =? 0) with false by lia. replace (w * N =? 0) with false by lia.
  replace (pitch =? 0) with false by lia. replace (N =? 0) with false by lia. cbn [orb].
  rewrite Nat.div_mul by lia.
  rewrite (cfold_ext _ (fun m yr => cfold put (map (fun iv => (fst yr * pitch + fst iv * N, snd iv)) (combine (seq 0 (pitch / N)) (snd yr))) m)).
  2:{ intros s a. unfold write_row. rewrite <- cfold_map. reflexivity. }
  rewrite (cfold_flat put). set (W := flat_map _ _).
  assert (Spec : forall o v, In (o, v) W <-> exists y i, y < h /\ i < w * N /\ o = y * pitch + i * N /\ nth_error (buf out) (y * (w * N) + i) = Some v).
  { intros o v. unfold W. rewrite in_flat_map.
    assert (Pd : w * N <= pitch / N) by (apply Nat.div_le_lower_bound; [lia|]; rewrite En at 1; lia).
    assert (Row : forall y r, In (y, r) (combine (seq 0 w) (chunks_exact (w * N) (buf out))) <-> y < h /\ r = chunk (w * N) (buf out) y).
    { intros y r. assert (Dv : length (buf out) / (w * N) = h) by (rewrite Lo; apply Nat.div_mul; lia). split.
      - intro I. apply In_nth_error in I as (j & J). rewrite nth_error_combine, nth_error_chunks, Dv, nth_error_seq0 in J.
        destruct (Nat.ltb_spec j w); [|discriminate]. destruct (Nat.ltb_spec j h); [|discriminate]. injection J as <- <-. auto.
      - intros [Hy ->]. apply nth_error_In with y. rewrite nth_error_combine, nth_error_chunks, Dv, nth_error_seq0.
        replace (y <? w) with true by lia. replace (y <? h) with true by lia. reflexivity. }
    assert (El : forall y i v, y < h -> In (i, v) (combine (seq 0 (pitch / N)) (chunk (w * N) (buf out) y)) <-> i < w * N /\ nth_error (buf out) (y * (w * N) + i) = Some v).
    { intros y i v0 Hy. assert (Nc : forall i, nth_error (chunk (w * N) (buf out) y) i = if i <? w * N then nth_error (buf out) (y * (w * N) + i) else None) by (intro; apply nth_error_chunk).
      split.
      - intro I. apply In_nth_error in I as (j & J). rewrite nth_error_combine, Nc, nth_error_seq0 in J.
        destruct (Nat.ltb_spec j (pitch / N)); [|discriminate]. destruct (Nat.ltb_spec j (w * N)); [|discriminate].
        destruct (nth_error (buf out) (y * (w * N) + j)) eqn:En2; [|discriminate]. injection J as <- <-. auto.
      - intros [Hi E]. apply nth_error_In with i. rewrite nth_error_combine, Nc, nth_error_seq0, E.
        replace (i <? pitch / N) with true by lia. replace (i <? w * N) with true by lia. reflexivity. }
    split.
    - intros ((y & r) & I & J). apply Row in I as [Hy ->]. apply in_map_iff in J as ((i & v') & E & J). cbn [fst snd] in *. injection E as <- <-.
      apply El in J as [Hi J]; auto. exists y, i. auto.
    - intros (y & i & Hy & Hi & -> & E). exists (y, chunk (w * N) (buf out) y). split; [now apply Row|]. apply in_map_iff. exists (i, v).
      split; [reflexivity|]. cbn [snd]. now apply El. }
  assert (Pos : forall y i, y < h -> i < w * N -> y * pitch + i * N + sz <= length m /\ i * N + sz <= pitch).
  { intros y i Hy Hi. pose proof (row_fits y w pitch ltac:(lia)). pose proof (row_fits i (w * N) sz Hi). rewrite En at 1 2. lia. }
  destruct (puts W m) as (m' & E & Len & Wr & Keep).
  - intros (o & v) Hin. apply Spec in Hin as (y & i & Hy & Hi & -> & _). cbn [fst]. now apply Pos.
  - intros (o & v) (o' & v') H1 H2. apply Spec in H1 as (y & i & Hy & Hi & -> & E1). apply Spec in H2 as (y' & i' & Hy' & Hi' & -> & E2). cbn [fst].
    destruct (Nat.lt_trichotomy y y') as [Lt|[Eq|Lt]].
    + right. left. pose proof (row_fits y y' pitch Lt). destruct (Pos y i Hy Hi). lia.
    + subst y'. destruct (Nat.lt_trichotomy i i') as [Lt|[Eq|Lt]].
      * right. left. pose proof (row_fits i i' N Lt). lia.
      * left. subst i'. congruence.
      * right. right. pose proof (row_fits i' i N Lt). lia.
    + right. right. pose proof (row_fits y' y pitch Lt). destruct (Pos y' i' Hy' Hi'). lia.
  - exists m'. split; [exact E|]. split; [exact Len|]. split.
    + intros x y k Hx Hy Hk. assert (X1 : x * N + k < w * N) by (now apply pixel_fits).
      destruct (Pos y (x * N + k) Hy X1) as [P _].
      unfold c_sample. cbv zeta. fold sz. replace ((x * N + k) * sz) with ((x * N + k) * N) by (now rewrite <- En).
      rewrite Len. replace (_ <=? _) with true by lia. unfold sample. rewrite So.
      pose proof (row_fits y h (w * N) Hy). replace (y * (w * N) + x * N + k) with (y * (w * N) + (x * N + k)) by lia.
      destruct (nth_error (buf out) (y * (w * N) + (x * N + k))) as [v|] eqn:Ev; [|apply nth_error_None in Ev; lia].
      assert (Hin : In (y * pitch + (x * N + k) * N, v) W) by (apply Spec; exists y, (x * N + k); auto).
      specialize (Wr _ Hin). cbn [fst snd] in Wr. unfold sub in Wr. rewrite Wr. now rewrite (lo_dec e L).
    + intros i Hi. apply Keep. intros (o & v) Hin. apply Spec in Hin as (y & j & Hy & Hj & -> & _). cbn [fst].
      destruct (Nat.lt_ge_cases i (y * pitch + j * N)) as [|G]; [now left|]. right.
      destruct (Nat.le_gt_cases (y * pitch + j * N + sz) i) as [|G2]; [assumption|]. exfalso. apply Hi.
      exists (j / N), y, (j mod N), (i - (y * pitch + j * N)). pose proof (Nat.div_mod j N ltac:(lia)).
      split; [apply Nat.div_lt_upper_bound; lia|]. split; [lia|]. split; [apply Nat.mod_upper_bound; lia|]. fold sz. split; [lia|].
      replace (j / N * N + j mod N) with j by lia. replace (j * sz) with (j * N) by (now rewrite En). lia.
Qed.
End Writes.
