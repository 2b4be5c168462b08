(** Closed forms of the one-pixel kernels of X86Horizontal.v with 16-bit accumulators. *)
From Coq Require Import ZifyBool ZifyNat.
From Verif Require Import Base BaseProofs Spec FixedPoint KernelProofs Simd SimdProofs
  X86Vertical X86VerticalProofs X86VerticalLp X86VerticalLpProofs X86Horizontal X86HorizontalProofs X86Pixels.
Local Open Scope Z_scope.

(** ** Congruence modulo 2^16 *)
Definition cg (x y : Z) : Prop := exists k, x = y + k * 65536.
Lemma cg_refl x : cg x x.
Proof. exists 0. lia. Qed.
Lemma cg_trans x y z : cg x y -> cg y z -> cg x z.
Proof. intros [k ->] [m ->]. exists (k + m). lia. Qed.
Lemma cg_add a b c d : cg a b -> cg c d -> cg (a + c) (b + d).
Proof. intros [k ->] [m ->]. exists (k + m). lia. Qed.
Lemma cg_mod x : cg (x mod 65536) x.
Proof. exists (- (x / 65536)). pose proof (Z.div_mod x 65536 ltac:(lia)). lia. Qed.
Lemma s16_cg a b c : cg a c -> c = b -> s16 a = s16 b.
Proof. intros [k ->] ->. apply s16_shift. Qed.
Lemma cg_of x y : s16 x = s16 y -> cg x y.
Proof. intros H. destruct (s16_cong x) as [k Hk], (s16_cong y) as [m Hm]. exists (m - k). lia. Qed.
Ltac cg_norm := lazymatch goal with
  | |- cg (_ mod 65536) _ => eapply cg_trans; [apply cg_mod|cg_norm]
  | |- cg (_ + _) _ => eapply cg_add; cg_norm
  | _ => first [eassumption | apply cg_refl] end.

(** ** Accumulators *)
Lemma acc16_mul p w ps wl : swords p = ps -> swords w = wl -> acc16 (mulhrs_epi16 p w) (zipw mulhrs ps wl).
Proof. intros <- <-. unfold acc16. apply swords_mulhrs. Qed.
Lemma acc16_add s t l m : acc16 s l -> acc16 t m -> acc16 (add_epi16 s t) (zipw Z.add l m).
Proof.
  unfold acc16. intros Hs Ht. rewrite swords_add, Hs, Ht, zipw_map2, map_zipw.
  apply zipw_ext. intros. rewrite s16_add_l, s16_add_r. reflexivity.
Qed.
Lemma acc16_mhrs s p w l ps wl : acc16 s l -> swords p = ps -> swords w = wl ->
  acc16 (mhrs s p w) (zipw Z.add l (zipw mulhrs ps wl)).
Proof. apply acc16_mdot. Qed.
Definition is_w (s : m128) : Prop := exists l, s = of_words l.
Lemma is_w_add s t : is_w (add_epi16 s t).
Proof. eexists. reflexivity. Qed.
Lemma is_w_mhrs s p w : is_w (mhrs s p w).
Proof. eexists. reflexivity. Qed.
Lemma add_of_words l l' : add_epi16 (of_words l) (of_words l') =
  of_words (zipw (fun x y => x mod 65536 + y mod 65536) l l').
Proof. unfold add_epi16. rewrite !words_of_words, zipw_map2. reflexivity. Qed.

(** The eight lanes of a register that accumulates. *)
Lemma lanes8 s l0 l1 l2 l3 l4 l5 l6 l7 : is_w s -> acc16 s [l0; l1; l2; l3; l4; l5; l6; l7] ->
  exists x0 x1 x2 x3 x4 x5 x6 x7, s = of_words [x0; x1; x2; x3; x4; x5; x6; x7] /\
    cg x0 l0 /\ cg x1 l1 /\ cg x2 l2 /\ cg x3 l3 /\ cg x4 l4 /\ cg x5 l5 /\ cg x6 l6 /\ cg x7 l7.
Proof.
  intros (l & ->) H. unfold acc16 in H. rewrite swords_of_words in H.
  do 8 (destruct l as [|? l]; [discriminate H|]). destruct l; [|discriminate H].
  cbn [map] in H. injection H as H0 H1 H2 H3 H4 H5 H6 H7.
  do 8 eexists. split; [reflexivity|]. auto 9 using cg_of.
Qed.

Lemma lp_lane x v : cg x v -> sat 0 255 (s16 (s16 x / 64)) = lp_narrow v.
Proof. intros H. rewrite div64_small. unfold lp_narrow. rewrite (s16_cg x v v H eq_refl). reflexivity. Qed.

Lemma reduce_x4_ok s l0 l1 l2 l3 l4 l5 l6 l7 : is_w s -> acc16 s [l0; l1; l2; l3; l4; l5; l6; l7] ->
  reduce_x4 s = [lp_narrow (l0 + l4); lp_narrow (l1 + l5); lp_narrow (l2 + l6); lp_narrow (l3 + l7)].
Proof.
  intros W H. destruct (lanes8 _ _ _ _ _ _ _ _ _ W H) as (x0 & x1 & x2 & x3 & x4 & x5 & x6 & x7 & -> & C). clear H W.
  destruct C as (C0 & C1 & C2 & C3 & C4 & C5 & C6 & C7).
  unfold reduce_x4.
  change (unpackhi_epi64 (of_words [x0; x1; x2; x3; x4; x5; x6; x7]) (of_words [x0; x1; x2; x3; x4; x5; x6; x7]))
    with (of_words [x4; x5; x6; x7; x4; x5; x6; x7]).
  rewrite add_of_words. unfold packus_epi16. rewrite swords_srai, swords_of_words. cbn [zipw map app firstn].
  change (2 ^ 6) with 64. repeat (apply f_equal2; [apply lp_lane; cg_norm|]). reflexivity.
Qed.

Lemma hadd_of_words l l' : hadd_epi16 (of_words l) (of_words l') =
  of_words (pair_sums (map (fun w => w mod 65536) l) ++ pair_sums (map (fun w => w mod 65536) l')).
Proof. unfold hadd_epi16. rewrite !words_of_words. reflexivity. Qed.

Lemma hsum_16_ok s l0 l1 l2 l3 l4 l5 l6 l7 : is_w s -> acc16 s [l0; l1; l2; l3; l4; l5; l6; l7] ->
  hsum_16 s = lp_narrow (l0 + l1 + (l4 + l5) + (l2 + l3 + (l6 + l7))).
Proof.
  intros W H. destruct (lanes8 _ _ _ _ _ _ _ _ _ W H) as (x0 & x1 & x2 & x3 & x4 & x5 & x6 & x7 & -> & C). clear H W.
  destruct C as (C0 & C1 & C2 & C3 & C4 & C5 & C6 & C7).
  unfold hsum_16. rewrite hadd_of_words. cbn [map pair_sums app].
  match goal with |- context [shuffle_epi32 0 0 0 1 (of_words [?a; ?b; ?c; ?d; ?e; ?f; ?g; ?h])] =>
    change (shuffle_epi32 0 0 0 1 (of_words [a; b; c; d; e; f; g; h])) with (of_words [c; d; a; b; a; b; a; b]) end.
  rewrite add_of_words. cbn [zipw]. rewrite hadd_of_words. cbn [map pair_sums app].
  unfold packus_epi16. rewrite swords_srai, swords_of_words. cbn [map app nth].
  change (2 ^ 6) with 64. apply lp_lane. cg_norm.
Qed.

Lemma reduce_x2_ok s l0 l1 l2 l3 l4 l5 l6 l7 : is_w s -> acc16 s [l0; l1; l2; l3; l4; l5; l6; l7] ->
  reduce_x2 s = [lp_narrow (l0 + l2 + (l4 + l6)); lp_narrow (l1 + l3 + (l5 + l7))].
Proof.
  intros W H. destruct (lanes8 _ _ _ _ _ _ _ _ _ W H) as (x0 & x1 & x2 & x3 & x4 & x5 & x6 & x7 & -> & C). clear H W.
  destruct C as (C0 & C1 & C2 & C3 & C4 & C5 & C6 & C7).
  unfold reduce_x2.
  change (shuffle_epi8 (of_words [x0; x1; x2; x3; x4; x5; x6; x7]) (setr_epi8 [0;1;4;5;2;3;6;7;8;9;12;13;10;11;14;15]))
    with (of_words [x0; x2; x1; x3; x4; x6; x5; x7]).
  rewrite hadd_of_words. cbn [map pair_sums app].
  match goal with |- context [shuffle_epi32 3 2 0 1 (of_words [?a; ?b; ?c; ?d; ?e; ?f; ?g; ?h])] =>
    change (shuffle_epi32 3 2 0 1 (of_words [a; b; c; d; e; f; g; h])) with (of_words [c; d; a; b; e; f; g; h]) end.
  rewrite add_of_words. cbn [zipw].
  unfold packus_epi16. rewrite swords_srai, swords_of_words. cbn [map app firstn].
  change (2 ^ 6) with 64. repeat (apply f_equal2; [apply lp_lane; cg_norm|]). reflexivity.
Qed.

(** ** The widened bytes *)
Section Wide.
Variables a0 a1 a2 a3 a4 a5 a6 a7 c0 c1 c2 c3 c4 c5 c6 c7 : Z.
Notation r := [a0; a1; a2; a3; a4; a5; a6; a7; c0; c1; c2; c3; c4; c5; c6; c7].
Definition wide8 (x : Z) : Z := 257 * x / 4.
Lemma wide_lo_ok : byte a0 -> byte a1 -> byte a2 -> byte a3 -> byte a4 -> byte a5 -> byte a6 -> byte a7 ->
  swords (wide_lo r) = [wide8 a0; wide8 a1; wide8 a2; wide8 a3; wide8 a4; wide8 a5; wide8 a6; wide8 a7].
Proof. intros. unfold wide_lo. cbn [unpacklo_epi8 firstn inter1]. apply words_dup; assumption. Qed.
Lemma wide_hi_ok : byte c0 -> byte c1 -> byte c2 -> byte c3 -> byte c4 -> byte c5 -> byte c6 -> byte c7 ->
  swords (wide_hi r) = [wide8 c0; wide8 c1; wide8 c2; wide8 c3; wide8 c4; wide8 c5; wide8 c6; wide8 c7].
Proof. intros. unfold wide_hi. cbn [unpackhi_epi8 skipn inter1]. apply words_dup; assumption. Qed.
End Wide.
Lemma lp_term_0 w : lp_term 0 w = 0.
Proof. reflexivity. Qed.
Lemma byte_0 : byte 0.
Proof. unfold byte; lia. Qed.

Lemma lb_w u v : i16 u -> i16 v -> swords (shuffle_epi8 (of_words ([u; v] ++ repeat 0 6)) lb_ws) = [u; u; u; u; v; v; v; v].
Proof.
  intros. change (shuffle_epi8 (of_words ([u; v] ++ repeat 0 6)) lb_ws) with (of_words [u; u; u; u; v; v; v; v]).
  apply swords_w. auto 10 using Forall_cons, Forall_nil.
Qed.
Lemma lb_pair u v : i16 u -> i16 v ->
  swords (shuffle_epi8 (set1_epi32 (wrap32 (u mod 65536 + 65536 * (v mod 65536)))) lb_ws) = [u; u; u; u; v; v; v; v].
Proof.
  intros. set (x := wrap32 _).
  change (shuffle_epi8 (set1_epi32 x) lb_ws) with
    (let p := x mod 256 in let q := x / 256 mod 256 in let r := x / 65536 mod 256 in let s := x / 16777216 mod 256 in
     [p; q; p; q; p; q; p; q; r; s; r; s; r; s; r; s]).
  unfold swords. cbv zeta. cbn [words map]. rewrite !s16_bytes, !s16_hi. unfold x. rewrite pair_lo, pair_hi by assumption. reflexivity.
Qed.
Lemma dup8 u : i16 u -> swords (set1_epi16 u) = [u; u; u; u; u; u; u; u].
Proof. intros. rewrite swords_set1_16, s16_small by assumption. reflexivity. Qed.
Lemma cbcr_w_lo w0 w1 w2 w3 w4 w5 w6 w7 : i16 w0 -> i16 w1 -> i16 w2 -> i16 w3 ->
  swords (shuffle_epi8 (of_words [w0; w1; w2; w3; w4; w5; w6; w7]) cbcr_lo) = [w0; w0; w1; w1; w2; w2; w3; w3].
Proof.
  intros. change (shuffle_epi8 (of_words [w0; w1; w2; w3; w4; w5; w6; w7]) cbcr_lo) with (of_words [w0; w0; w1; w1; w2; w2; w3; w3]).
  apply swords_w. auto 10 using Forall_cons, Forall_nil.
Qed.
Lemma cbcr_w_hi w0 w1 w2 w3 w4 w5 w6 w7 : i16 w4 -> i16 w5 -> i16 w6 -> i16 w7 ->
  swords (shuffle_epi8 (of_words [w0; w1; w2; w3; w4; w5; w6; w7]) cbcr_hi) = [w4; w4; w5; w5; w6; w6; w7; w7].
Proof.
  intros. change (shuffle_epi8 (of_words [w0; w1; w2; w3; w4; w5; w6; w7]) cbcr_hi) with (of_words [w4; w4; w5; w5; w6; w6; w7; w7]).
  apply swords_w. auto 10 using Forall_cons, Forall_nil.
Qed.
Lemma lp_fold p w : mulhrs (wide8 p) w = lp_term p w.
Proof. reflexivity. Qed.

Section Kernels.
Variables (src : list Z) (b : fbound) (ws : list Z).
Hypothesis Hsrc : bytes src.
Hypothesis Hws : (bsize b <= length ws)%nat.
Hypothesis Hi16 : Forall i16 ws.

Section RgbaLb.
Hypothesis Hlen : ((bstart b + bsize b) * 4 <= length src)%nat.
Notation P := (px 4 src b).
Notation W := (wt ws).

(** A sum [v j c] over the first j taps, kept as two half sums in lanes c and c + 4. *)
Definition halves (v : nat -> nat -> Z) (j : nat) (s : m128) : Prop := is_w s /\
  exists l0 l1 l2 l3 l4 l5 l6 l7, acc16 s [l0; l1; l2; l3; l4; l5; l6; l7] /\
    l0 + l4 = v j 0%nat /\ l1 + l5 = v j 1%nat /\ l2 + l6 = v j 2%nat /\ l3 + l7 = v j 3%nat.
Lemma halves_ext v v' j s : (forall c, (c < 4)%nat -> v j c = v' j c) -> halves v j s -> halves v' j s.
Proof.
  intros E (A & l0 & l1 & l2 & l3 & l4 & l5 & l6 & l7 & H & E0 & E1 & E2 & E3).
  split; [exact A|]. exists l0, l1, l2, l3, l4, l5, l6, l7. rewrite <- !E by lia. auto.
Qed.
Lemma lb_reduce v j s : halves v j s -> reduce_x4 s = [lp_narrow (v j 0%nat); lp_narrow (v j 1%nat); lp_narrow (v j 2%nat); lp_narrow (v j 3%nat)].
Proof.
  intros (A & l0 & l1 & l2 & l3 & l4 & l5 & l6 & l7 & H & <- & <- & <- & <-). apply reduce_x4_ok; assumption.
Qed.
(** One tap. *)
Lemma lb_one v j s : (forall c, (c < 4)%nat -> v (j + 1)%nat c = v j c + lp_term (P (j + 0) c) (W (j + 0))) ->
  halves v j s -> halves v (j + 1) (mhrs s (wide_lo (flat_map (fun k => map (P (j + k)) (seq 0 4)) (seq 0 1) ++ repeat 0 12)) (set1_epi16 (W (j + 0)))).
Proof using Hsrc Hi16 Hws Hlen.
  intros Hv (_ & l0 & l1 & l2 & l3 & l4 & l5 & l6 & l7 & H & E0 & E1 & E2 & E3).
  assert (HP : forall k c, byte (P k c)) by (intros; apply px_b; assumption).
  assert (HW : forall k, i16 (W k)) by (intros; apply wt_i16; assumption).
  split; [apply is_w_mhrs|]. rewrite !Hv by lia. cbn [flat_map map seq app repeat Nat.sub Nat.mul Nat.add].
  do 8 eexists. split.
  - eapply acc16_eq; [eapply acc16_mhrs; [exact H| |]|].
    + apply wide_lo_ok; first [apply HP | apply byte_0].
    + apply dup8, HW.
    + cbn [zipw]. reflexivity.
  - rewrite !lp_fold, !lp_term_0. lia.
Qed.
Lemma lb_single_ok v j s : (j <= bsize b)%nat ->
  (forall k c, (j <= k < bsize b)%nat -> (c < 4)%nat -> v (k + 1)%nat c = v k c + lp_term (P (k + 0) c) (W (k + 0))) ->
  halves v j s -> exists s', lb_single src b ws j s = Done (bsize b, s') /\ halves v (bsize b) s'.
Proof using Hsrc Hi16 Hws Hlen.
  intros Hj Hv H. unfold lb_single.
  match goal with |- exists s', taps _ _ _ ?f _ _ = _ /\ _ => set (body1 := f) end.
  destruct (taps_ok (halves v) b 1 0 body1 j s) as ([j3 s3] & E3 & H3 & B3 & B4); [lia|lia|lia|exact H| |].
  { intros k s' Hk Hb HI. unfold body1. rewrite (idx_wt ws) by lia. cbn [bind].
    rewrite (load_px 4 src b 1 4 k) by lia. cbn [bind]. eexists; split; [reflexivity|].
    apply lb_one; [intros; apply Hv; lia|exact HI]. }
  cbn [fst snd] in *. exists s3. replace j3 with (bsize b) in * by lia. auto.
Qed.

Notation h := (hs 4 src b ws lp_term LP_ROUNDING).
Lemma lb_start : acc16 (setr_epi16 [LP_ROUNDING; LP_ROUNDING; LP_ROUNDING; LP_ROUNDING; 0; 0; 0; 0])
  [LP_ROUNDING; LP_ROUNDING; LP_ROUNDING; LP_ROUNDING; 0; 0; 0; 0].
Proof. unfold acc16, setr_epi16. rewrite swords_of_words. reflexivity. Qed.

Lemma rgba_sse_lb_ok : rgba_sse_lb src b ws =
  Done [lp_narrow (h (bsize b) 0); lp_narrow (h (bsize b) 1); lp_narrow (h (bsize b) 2); lp_narrow (h (bsize b) 3)].
Proof using Hsrc Hi16 Hws Hlen.
  assert (HP : forall k c, byte (P k c)) by (intros; apply px_b; assumption).
  assert (HW : forall k, i16 (W k)) by (intros; apply wt_i16; assumption).
  unfold rgba_sse_lb.
  match goal with |- bind (taps _ _ _ ?f _ ?s) _ = _ => set (body8 := f); set (s0 := s) end.
  destruct (taps_ok (halves h) b 8 8 body8 0 s0) as ([j1 s1] & E1 & H1 & B1 & _); [lia|lia|lia| | |].
  { split; [eexists; reflexivity|]. do 8 eexists. split; [apply lb_start|]. rewrite !hs_0. lia. }
  { intros j s Hj Hb (_ & l0 & l1 & l2 & l3 & l4 & l5 & l6 & l7 & H & E0 & E1 & E2 & E3).
    unfold body8, lb_weight. rewrite !(load_wt ws) by lia. cbn [bind].
    rewrite (load_px 4 src b 4 16 j) by lia. cbn [bind].
    replace ((bstart b + j) * 4 + 16)%nat with ((bstart b + (j + 4)) * 4)%nat by lia.
    rewrite (load_px 4 src b 4 16 (j + 4)) by lia. cbn [bind].
    eexists; split; [reflexivity|].
    split; [apply is_w_add|]. rewrite !hs_8. cbn [flat_map map seq app repeat Nat.sub Nat.mul Nat.add].
    do 8 eexists. split.
    - eapply acc16_eq; [eapply acc16_add; [exact H|eapply acc16_mhrs; [eapply acc16_mhrs; [eapply acc16_mhrs; [eapply acc16_mul|..]|..]|..]]|].
      + apply wide_lo_ok; apply HP.
      + apply lb_w; apply HW.
      + apply wide_hi_ok; apply HP.
      + apply lb_w; apply HW.
      + apply wide_lo_ok; apply HP.
      + apply lb_w; apply HW.
      + apply wide_hi_ok; apply HP.
      + apply lb_w; apply HW.
      + cbn [zipw]. reflexivity.
    - rewrite !lp_fold, <- !Nat.add_assoc. cbn [Nat.add]. lia. }
  rewrite E1. cbn [bind fst snd] in *. clear E1 body8.
  match goal with |- bind (taps _ _ _ ?f _ _) _ = _ => set (body4 := f) end.
  destruct (taps_ok (halves h) b 4 4 body4 j1 s1) as ([j2 s2] & E2 & H2 & B2 & _); [lia|lia|lia|exact H1| |].
  { intros j s Hj Hb (_ & l0 & l1 & l2 & l3 & l4 & l5 & l6 & l7 & H & E0 & E1 & E2 & E3).
    unfold body4, lb_weight. rewrite !(load_wt ws) by lia. cbn [bind].
    rewrite (load_px 4 src b 4 16 j) by lia. cbn [bind].
    eexists; split; [reflexivity|].
    split; [apply is_w_add|]. rewrite !hs_4. cbn [flat_map map seq app repeat Nat.sub Nat.mul Nat.add].
    do 8 eexists. split.
    - eapply acc16_eq; [eapply acc16_add; [exact H|eapply acc16_mhrs; [eapply acc16_mul|..]]|].
      + apply wide_lo_ok; apply HP.
      + apply lb_w; apply HW.
      + apply wide_hi_ok; apply HP.
      + apply lb_w; apply HW.
      + cbn [zipw]. reflexivity.
    - rewrite !lp_fold, <- !Nat.add_assoc. cbn [Nat.add]. lia. }
  rewrite E2. cbn [bind fst snd] in *. clear E2 body4.
  match goal with |- bind (taps _ _ _ ?f _ _) _ = _ => set (body2 := f) end.
  destruct (taps_ok (halves h) b 2 2 body2 j2 s2) as ([j3 s3] & E3 & H3 & B3 & _); [lia|lia|lia|exact H2| |].
  { intros j s Hj Hb (_ & l0 & l1 & l2 & l3 & l4 & l5 & l6 & l7 & H & E0 & E1 & E2 & E3).
    unfold body2, lb_weight. rewrite !(load_wt ws) by lia. cbn [bind].
    rewrite (load_px 4 src b 2 8 j) by lia. cbn [bind].
    eexists; split; [reflexivity|].
    split; [apply is_w_mhrs|]. rewrite !hs_2. cbn [flat_map map seq app repeat Nat.sub Nat.mul Nat.add].
    do 8 eexists. split.
    - eapply acc16_eq; [eapply acc16_mhrs; [exact H|..]|].
      + apply wide_lo_ok; apply HP.
      + apply lb_w; apply HW.
      + cbn [zipw]. reflexivity.
    - rewrite !lp_fold. lia. }
  rewrite E3. cbn [bind fst snd] in *. clear E3 body2.
  destruct (lb_single_ok h j3 s3) as (s4 & E4 & H4); [lia|intros; apply hs_1|exact H3|].
  rewrite E4. cbn [bind]. f_equal. apply (lb_reduce h). exact H4.
Qed.

(** *** AVX2 *)
(** The weight the AVX2 kernel applies to tap k of channel c. *)
Definition avx_lb_at (k c : nat) : nat :=
  if ((c =? 3) && (k mod 8 =? 4) && (k <? 8 * ((bsize b - 1) / 8)))%nat then (k + 1)%nat else k.
Definition vlb (j c : nat) : Z := LP_ROUNDING + zsum j (fun k => lp_term (P k c) (W (avx_lb_at k c))).
Lemma vlb_1 j c : vlb (j + 1) c = vlb j c + lp_term (P (j + 0) c) (W (avx_lb_at (j + 0) c)).
Proof. unfold vlb. rewrite Nat.add_1_r, Nat.add_0_r. cbn [zsum]. lia. Qed.
Lemma vlb_2 j c : vlb (j + 2) c = vlb j c + lp_term (P (j + 0) c) (W (avx_lb_at (j + 0) c)) + lp_term (P (j + 1) c) (W (avx_lb_at (j + 1) c)).
Proof. replace (j + 2)%nat with (j + 1 + 1)%nat by lia. rewrite !vlb_1, !Nat.add_0_r. reflexivity. Qed.
Lemma vlb_4 j c : vlb (j + 4) c = vlb j c + lp_term (P (j + 0) c) (W (avx_lb_at (j + 0) c)) + lp_term (P (j + 1) c) (W (avx_lb_at (j + 1) c))
  + lp_term (P (j + 2) c) (W (avx_lb_at (j + 2) c)) + lp_term (P (j + 3) c) (W (avx_lb_at (j + 3) c)).
Proof. replace (j + 4)%nat with (j + 2 + 2)%nat by lia. rewrite !vlb_2, <- !Nat.add_assoc. reflexivity. Qed.
Lemma vlb_8 j c : vlb (j + 8) c = vlb j c + lp_term (P (j + 0) c) (W (avx_lb_at (j + 0) c)) + lp_term (P (j + 1) c) (W (avx_lb_at (j + 1) c))
  + lp_term (P (j + 2) c) (W (avx_lb_at (j + 2) c)) + lp_term (P (j + 3) c) (W (avx_lb_at (j + 3) c))
  + lp_term (P (j + 4) c) (W (avx_lb_at (j + 4) c)) + lp_term (P (j + 5) c) (W (avx_lb_at (j + 5) c))
  + lp_term (P (j + 6) c) (W (avx_lb_at (j + 6) c)) + lp_term (P (j + 7) c) (W (avx_lb_at (j + 7) c)).
Proof. replace (j + 8)%nat with (j + 4 + 4)%nat by lia. rewrite !vlb_4, <- !Nat.add_assoc. reflexivity. Qed.
Lemma at_full i m c : (8 * i + 8 < bsize b)%nat -> (m < 8)%nat ->
  avx_lb_at (8 * i + m) c = (if ((c =? 3) && (m =? 4))%nat then 8 * i + 5 else 8 * i + m)%nat.
Proof.
  intros H Hm. unfold avx_lb_at.
  assert (i + 1 <= (bsize b - 1) / 8)%nat by (apply Nat.div_le_lower_bound; lia).
  replace ((8 * i + m) mod 8)%nat with m.
  2:{ rewrite Nat.add_comm, Nat.mul_comm, Nat.mod_add by lia. symmetry. apply Nat.mod_small. lia. }
  replace (8 * i + m <? 8 * ((bsize b - 1) / 8))%nat with true by lia. rewrite andb_true_r.
  destruct ((c =? 3) && (m =? 4))%nat eqn:E; lia.
Qed.
Lemma at_rest k c : (8 * ((bsize b - 1) / 8) <= k)%nat -> avx_lb_at k c = k.
Proof. intros H. unfold avx_lb_at. replace (k <? 8 * ((bsize b - 1) / 8))%nat with false by lia. rewrite andb_false_r. reflexivity. Qed.

Definition quarters (j : nat) (s : m256) : Prop :=
  exists l0 l1 l2 l3 l4 l5 l6 l7 m0 m1 m2 m3 m4 m5 m6 m7,
    acc16 (fst s) [l0; l1; l2; l3; l4; l5; l6; l7] /\ acc16 (snd s) [m0; m1; m2; m3; m4; m5; m6; m7] /\
    l0 + l4 + m0 + m4 = vlb j 0%nat /\ l1 + l5 + m1 + m5 = vlb j 1%nat /\
    l2 + l6 + m2 + m6 = vlb j 2%nat /\ l3 + l7 + m3 + m7 = vlb j 3%nat.

Lemma w8 u v : i16 u -> i16 v -> swords (setr_epi16 [u; u; u; u; v; v; v; v]) = [u; u; u; u; v; v; v; v].
Proof. intros. apply swords_w. auto 10 using Forall_cons, Forall_nil. Qed.
Lemma w8_bug u v : i16 u -> i16 v -> swords (setr_epi16 [u; u; u; v; v; v; v; v]) = [u; u; u; v; v; v; v; v].
Proof. intros. apply swords_w. auto 10 using Forall_cons, Forall_nil. Qed.

Lemma rgba_avx_lb_ok : (1 <= bsize b)%nat -> rgba_avx_lb src b ws =
  Done [lp_narrow (vlb (bsize b) 0); lp_narrow (vlb (bsize b) 1); lp_narrow (vlb (bsize b) 2); lp_narrow (vlb (bsize b) 3)].
Proof using Hsrc Hi16 Hws Hlen.
  assert (HP : forall k c, byte (P k c)) by (intros; apply px_b; assumption).
  assert (HW : forall k, i16 (W k)) by (intros; apply wt_i16; assumption).
  intros Hsz. unfold rgba_avx_lb.
  match goal with |- bind (taps _ _ _ ?f _ ?s) _ = _ => set (body8 := f); set (s0 := s) end.
  destruct (taps_ok (fun j s => quarters j s /\ (j < bsize b)%nat /\ exists i, j = (8 * i)%nat) b 8 8 body8 0 s0)
    as ([j1 s1] & E1 & (H1 & L1 & i1 & I1) & B1 & C1); [lia|lia|lia| | |].
  { split; [|split; [lia|exists 0%nat; lia]]. do 16 eexists. split; [apply lb_start|]. split; [|unfold vlb; cbn [zsum]].
    - unfold acc16, s0. cbn [snd]. instantiate (1 := 0). instantiate (1 := 0). instantiate (1 := 0). instantiate (1 := 0).
      instantiate (1 := 0). instantiate (1 := 0). instantiate (1 := 0). instantiate (1 := 0). reflexivity.
    - lia. }
  { intros j s Hj Hb ((l0 & l1 & l2 & l3 & l4 & l5 & l6 & l7 & m0 & m1 & m2 & m3 & m4 & m5 & m6 & m7 & H & H' & E0 & E1 & E2 & E3) & Lj & i & Ij).
    unfold body8. rewrite !(idx_wt ws) by lia. cbn [bind]. unfold load256.
    rewrite (load_px 4 src b 4 16 j) by lia. cbn [bind].
    replace ((bstart b + j) * 4 + 16)%nat with ((bstart b + (j + 4)) * 4)%nat by lia.
    rewrite (load_px 4 src b 4 16 (j + 4)) by lia. cbn [bind].
    eexists; split; [reflexivity|]. split; [|split; [lia|exists (i + 1)%nat; lia]].
    unfold quarters. rewrite !vlb_8. subst j. rewrite !at_full by lia. cbn [Nat.eqb andb].
    cbn [flat_map map seq app repeat Nat.sub lane1 lane2 fst snd].
    do 16 eexists. split; [|split].
    - eapply acc16_eq; [eapply acc16_add; [exact H|eapply acc16_add; [eapply acc16_mul|eapply acc16_mul]]|].
      + apply wide_lo_ok; apply HP.
      + apply w8; apply HW.
      + apply wide_hi_ok; apply HP.
      + apply w8; apply HW.
      + cbn [zipw]. reflexivity.
    - eapply acc16_eq; [eapply acc16_add; [exact H'|eapply acc16_add; [eapply acc16_mul|eapply acc16_mul]]|].
      + apply wide_lo_ok; apply HP.
      + apply w8_bug; apply HW.
      + apply wide_hi_ok; apply HP.
      + apply w8; apply HW.
      + cbn [zipw]. reflexivity.
    - rewrite !lp_fold, <- !Nat.add_assoc. cbn [Nat.add]. lia. }
  rewrite E1. cbn [bind fst snd] in *. clear E1 body8.
  assert (J1 : j1 = (8 * ((bsize b - 1) / 8))%nat).
  { subst j1. pose proof (Nat.div_mod (bsize b - 1) 8 ltac:(lia)). pose proof (Nat.mod_upper_bound (bsize b - 1) 8 ltac:(lia)). lia. }
  match goal with |- bind (taps _ _ _ ?f _ _) _ = _ => set (body4 := f) end.
  destruct (taps_ok quarters b 4 4 body4 j1 s1) as ([j2 s2] & E2 & H2 & B2 & _); [lia|lia|lia|exact H1| |].
  { intros j s Hj Hb (l0 & l1 & l2 & l3 & l4 & l5 & l6 & l7 & m0 & m1 & m2 & m3 & m4 & m5 & m6 & m7 & H & H' & E0 & E1 & E2 & E3).
    unfold body4. rewrite !(idx_wt ws) by lia. cbn [bind].
    rewrite (load_px 4 src b 4 16 j) by lia. cbn [bind].
    eexists; split; [reflexivity|].
    unfold quarters. rewrite !vlb_4. rewrite !at_rest by lia.
    cbn [flat_map map seq app repeat Nat.sub lane1 lane2 fst snd].
    unfold permute4x64, qw, bytes256, cast256, zeros. cbn [fst snd app repeat Nat.mul Nat.add firstn skipn].
    do 16 eexists. split; [|split].
    - eapply acc16_eq; [eapply acc16_add; [exact H|eapply acc16_mul]|].
      + apply wide_lo_ok; apply HP.
      + apply w8; apply HW.
      + cbn [zipw]. reflexivity.
    - eapply acc16_eq; [eapply acc16_add; [exact H'|eapply acc16_mul]|].
      + apply wide_lo_ok; apply HP.
      + apply w8; apply HW.
      + cbn [zipw]. reflexivity.
    - rewrite !lp_fold, <- !Nat.add_assoc. cbn [Nat.add]. lia. }
  rewrite E2. cbn [bind fst snd] in *. clear E2 body4.
  assert (H2' : halves vlb j2 (add_epi16 (fst s2) (snd s2))).
  { destruct H2 as (l0 & l1 & l2 & l3 & l4 & l5 & l6 & l7 & m0 & m1 & m2 & m3 & m4 & m5 & m6 & m7 & H & H' & E0 & E1 & E2 & E3).
    split; [apply is_w_add|]. do 8 eexists. split; [eapply acc16_eq; [eapply acc16_add; eassumption|]|].
    - cbn [zipw]. reflexivity.
    - lia. }
  match goal with |- bind (taps _ _ _ ?f _ _) _ = _ => set (body2 := f) end.
  destruct (taps_ok (halves vlb) b 2 2 body2 j2 (add_epi16 (fst s2) (snd s2))) as ([j3 s3] & E3 & H3 & B3 & _); [lia|lia|lia|exact H2'| |].
  { intros j s Hj Hb (_ & l0 & l1 & l2 & l3 & l4 & l5 & l6 & l7 & H & E0 & E1 & E2 & E3).
    unfold body2. rewrite (pair_wt ws) by lia. cbn [bind].
    rewrite (load_px 4 src b 2 8 j) by lia. cbn [bind].
    eexists; split; [reflexivity|].
    split; [apply is_w_mhrs|]. rewrite !vlb_2. rewrite !at_rest by lia.
    cbn [flat_map map seq app repeat Nat.sub Nat.mul Nat.add].
    do 8 eexists. split.
    - eapply acc16_eq; [eapply acc16_mhrs; [exact H|..]|].
      + apply wide_lo_ok; apply HP.
      + apply lb_pair; apply HW.
      + cbn [zipw]. reflexivity.
    - rewrite !lp_fold. lia. }
  rewrite E3. cbn [bind fst snd] in *. clear E3 body2.
  destruct (lb_single_ok vlb j3 s3) as (s4 & E4 & H4); [lia| |exact H3|].
  { intros k c Hk Hc. rewrite vlb_1, at_rest by lia. reflexivity. }
  rewrite E4. cbn [bind]. f_equal. apply (lb_reduce vlb). exact H4.
Qed.
End RgbaLb.

Section PlaneHrs.
Hypothesis Hlen : ((bstart b + bsize b) * 1 <= length src)%nat.
Notation P := (px 1 src b).
Notation W := (wt ws).
Notation h := (hs 1 src b ws lp_term LP_ROUNDING).
Definition eighths (j : nat) (s : m128) : Prop := is_w s /\
  exists l0 l1 l2 l3 l4 l5 l6 l7, acc16 s [l0; l1; l2; l3; l4; l5; l6; l7] /\
    l0 + l1 + (l4 + l5) + (l2 + l3 + (l6 + l7)) = h j 0%nat.

Lemma plane_sse_hrs_ok : plane_sse_hrs src b ws = Done [lp_narrow (h (bsize b) 0)].
Proof using Hsrc Hi16 Hws Hlen.
  assert (HP : forall k c, byte (P k c)) by (intros; apply px_b; assumption).
  assert (HW : forall k, i16 (W k)) by (intros; apply wt_i16; assumption).
  assert (H0 : i16 0) by (unfold i16; lia).
  unfold plane_sse_hrs.
  match goal with |- bind (taps _ _ _ ?f _ ?s) _ = _ => set (body16 := f); set (s0 := s) end.
  destruct (taps_ok eighths b 16 16 body16 0 s0) as ([j1 s1] & E1 & H1 & B1 & _); [lia|lia|lia| | |].
  { split; [eexists; reflexivity|]. exists LP_ROUNDING, 0, 0, 0, 0, 0, 0, 0. rewrite hs_0. split; [|lia].
    unfold acc16, s0, setr_epi16. rewrite swords_of_words. reflexivity. }
  { intros j s Hj Hb (_ & l0 & l1 & l2 & l3 & l4 & l5 & l6 & l7 & H & E0).
    unfold body16. rewrite !(load_wt ws) by lia. cbn [bind].
    replace (bstart b + j)%nat with ((bstart b + j) * 1)%nat by lia.
    rewrite (load_px 1 src b 16 16 j) by lia. cbn [bind]. eexists; split; [reflexivity|].
    split; [apply is_w_mhrs|].
    replace (j + 16)%nat with (j + 8 + 8)%nat by lia. rewrite !hs_8.
    cbn [flat_map map seq app repeat Nat.sub Nat.mul Nat.add].
    do 8 eexists. split.
    - eapply acc16_eq; [eapply acc16_mhrs; [eapply acc16_mhrs; [exact H|..]|..]|].
      + apply wide_lo_ok; apply HP.
      + apply swords_w. auto 10 using Forall_cons, Forall_nil.
      + apply wide_hi_ok; apply HP.
      + apply swords_w. auto 10 using Forall_cons, Forall_nil.
      + cbn [zipw]. reflexivity.
    - rewrite !lp_fold, <- !Nat.add_assoc. cbn [Nat.add]. lia. }
  rewrite E1. cbn [bind fst snd] in *. clear E1 body16.
  match goal with |- bind (taps _ _ _ ?f _ _) _ = _ => set (body8 := f) end.
  destruct (taps_ok eighths b 8 8 body8 j1 s1) as ([j2 s2] & E2 & H2 & B2 & _); [lia|lia|lia|exact H1| |].
  { intros j s Hj Hb (_ & l0 & l1 & l2 & l3 & l4 & l5 & l6 & l7 & H & E0).
    unfold body8. rewrite !(load_wt ws) by lia. cbn [bind].
    replace (bstart b + j)%nat with ((bstart b + j) * 1)%nat by lia.
    rewrite (load_px 1 src b 8 8 j) by lia. cbn [bind]. eexists; split; [reflexivity|].
    split; [apply is_w_mhrs|]. rewrite !hs_8.
    cbn [flat_map map seq app repeat Nat.sub Nat.mul Nat.add].
    do 8 eexists. split.
    - eapply acc16_eq; [eapply acc16_mhrs; [exact H|..]|].
      + apply wide_lo_ok; apply HP.
      + apply swords_w. auto 10 using Forall_cons, Forall_nil.
      + cbn [zipw]. reflexivity.
    - rewrite !lp_fold. lia. }
  rewrite E2. cbn [bind fst snd] in *. clear E2 body8.
  match goal with |- bind (taps _ _ _ ?f _ _) _ = _ => set (body4 := f) end.
  destruct (taps_ok eighths b 4 4 body4 j2 s2) as ([j3 s3] & E3 & H3 & B3 & _); [lia|lia|lia|exact H2| |].
  { intros j s Hj Hb (_ & l0 & l1 & l2 & l3 & l4 & l5 & l6 & l7 & H & E0).
    unfold body4. rewrite !(load_wt ws) by lia. cbn [bind].
    replace (bstart b + j)%nat with ((bstart b + j) * 1)%nat by lia.
    rewrite (load_px 1 src b 4 4 j) by lia. cbn [bind]. eexists; split; [reflexivity|].
    split; [apply is_w_mhrs|]. rewrite !hs_4.
    cbn [flat_map map seq app repeat Nat.sub Nat.mul Nat.add].
    do 8 eexists. split.
    - eapply acc16_eq; [eapply acc16_mhrs; [exact H|..]|].
      + apply wide_lo_ok; first [apply HP | apply byte_0].
      + apply swords_w. auto 10 using Forall_cons, Forall_nil.
      + cbn [zipw]. reflexivity.
    - rewrite !lp_fold, !lp_term_0. lia. }
  rewrite E3. cbn [bind fst snd] in *. clear E3 body4.
  match goal with |- bind (taps _ _ _ ?f _ _) _ = _ => set (body1 := f) end.
  destruct (taps_ok eighths b 1 0 body1 j3 s3) as ([j4 s4] & E4 & H4 & B4 & C4); [lia|lia|lia|exact H3| |].
  { intros j s Hj Hb (_ & l0 & l1 & l2 & l3 & l4 & l5 & l6 & l7 & H & E0).
    unfold body1. rewrite !(load_wt ws) by lia. cbn [bind]. rewrite (idx_ok src _ 0) by lia. cbn [bind].
    eexists; split; [reflexivity|].
    assert (nth (bstart b + j) src 0 = P (j + 0) 0) as -> by (unfold px; f_equal; lia).
    split; [apply is_w_mhrs|]. rewrite !hs_1.
    cbn [flat_map map seq app repeat Nat.sub Nat.mul Nat.add].
    do 8 eexists. split.
    - eapply acc16_eq; [eapply acc16_mhrs; [exact H|..]|].
      + apply words_dup; first [apply HP | apply byte_0].
      + apply swords_w. auto 10 using Forall_cons, Forall_nil.
      + cbn [zipw]. reflexivity.
    - change (257 * P (j + 0) 0 / 4) with (wide8 (P (j + 0) 0)). change (257 * 0 / 4) with (wide8 0).
      rewrite !lp_fold, !lp_term_0. lia. }
  rewrite E4. cbn [bind fst snd] in *. replace j4 with (bsize b) in H4 by lia.
  destruct H4 as (A & l0 & l1 & l2 & l3 & l4 & l5 & l6 & l7 & H & <-).
  rewrite (hsum_16_ok _ _ _ _ _ _ _ _ _ A H). reflexivity.
Qed.
End PlaneHrs.

Section CbCrHrs.
Hypothesis Hlen : ((bstart b + bsize b) * 2 <= length src)%nat.
Notation P := (px 2 src b).
Notation W := (wt ws).
Notation h := (hs 2 src b ws lp_term LP_ROUNDING).
Definition fourths (j : nat) (s : m128) : Prop := is_w s /\
  exists l0 l1 l2 l3 l4 l5 l6 l7, acc16 s [l0; l1; l2; l3; l4; l5; l6; l7] /\
    l0 + l2 + (l4 + l6) = h j 0%nat /\ l1 + l3 + (l5 + l7) = h j 1%nat.

Lemma cbcr_sse_hrs_ok : cbcr_sse_hrs src b ws = Done [lp_narrow (h (bsize b) 0); lp_narrow (h (bsize b) 1)].
Proof using Hsrc Hi16 Hws Hlen.
  assert (HP : forall k c, byte (P k c)) by (intros; apply px_b; assumption).
  assert (HW : forall k, i16 (W k)) by (intros; apply wt_i16; assumption).
  assert (H0 : i16 0) by (unfold i16; lia).
  unfold cbcr_sse_hrs.
  match goal with |- bind (taps _ _ _ ?f _ ?s) _ = _ => set (body8 := f); set (s0 := s) end.
  destruct (taps_ok fourths b 8 8 body8 0 s0) as ([j1 s1] & E1 & H1 & B1 & _); [lia|lia|lia| | |].
  { split; [eexists; reflexivity|]. exists LP_ROUNDING, LP_ROUNDING, 0, 0, 0, 0, 0, 0. rewrite !hs_0. split; [|lia].
    unfold acc16, s0, setr_epi16. rewrite swords_of_words. reflexivity. }
  { intros j s Hj Hb (_ & l0 & l1 & l2 & l3 & l4 & l5 & l6 & l7 & H & E0 & E1).
    unfold body8. rewrite !(load_wt ws) by lia. cbn [bind].
    rewrite (load_px 2 src b 8 16 j) by lia. cbn [bind]. eexists; split; [reflexivity|].
    split; [apply is_w_mhrs|]. rewrite !hs_8.
    cbn [flat_map map seq app repeat Nat.sub Nat.mul Nat.add].
    do 8 eexists. split.
    - eapply acc16_eq; [eapply acc16_mhrs; [eapply acc16_mhrs; [exact H|..]|..]|].
      + apply wide_lo_ok; apply HP.
      + apply cbcr_w_lo; apply HW.
      + apply wide_hi_ok; apply HP.
      + apply cbcr_w_hi; apply HW.
      + cbn [zipw]. reflexivity.
    - rewrite !lp_fold. lia. }
  rewrite E1. cbn [bind fst snd] in *. clear E1 body8.
  match goal with |- bind (taps _ _ _ ?f _ _) _ = _ => set (body4 := f) end.
  destruct (taps_ok fourths b 4 4 body4 j1 s1) as ([j2 s2] & E2 & H2 & B2 & _); [lia|lia|lia|exact H1| |].
  { intros j s Hj Hb (_ & l0 & l1 & l2 & l3 & l4 & l5 & l6 & l7 & H & E0 & E1).
    unfold body4. rewrite !(load_wt ws) by lia. cbn [bind].
    rewrite (load_px 2 src b 4 8 j) by lia. cbn [bind]. eexists; split; [reflexivity|].
    split; [apply is_w_mhrs|]. rewrite !hs_4.
    cbn [flat_map map seq app repeat Nat.sub Nat.mul Nat.add].
    do 8 eexists. split.
    - eapply acc16_eq; [eapply acc16_mhrs; [exact H|..]|].
      + apply wide_lo_ok; apply HP.
      + apply cbcr_w_lo; apply HW.
      + cbn [zipw]. reflexivity.
    - rewrite !lp_fold. lia. }
  rewrite E2. cbn [bind fst snd] in *. clear E2 body4.
  match goal with |- bind (taps _ _ _ ?f _ _) _ = _ => set (body2 := f) end.
  destruct (taps_ok fourths b 2 2 body2 j2 s2) as ([j3 s3] & E3 & H3 & B3 & _); [lia|lia|lia|exact H2| |].
  { intros j s Hj Hb (_ & l0 & l1 & l2 & l3 & l4 & l5 & l6 & l7 & H & E0 & E1).
    unfold body2. rewrite !(load_wt ws) by lia. cbn [bind].
    rewrite (load_px 2 src b 2 4 j) by lia. cbn [bind]. eexists; split; [reflexivity|].
    split; [apply is_w_mhrs|]. rewrite !hs_2.
    cbn [flat_map map seq app repeat Nat.sub Nat.mul Nat.add].
    do 8 eexists. split.
    - eapply acc16_eq; [eapply acc16_mhrs; [exact H|..]|].
      + apply wide_lo_ok; first [apply HP | apply byte_0].
      + apply cbcr_w_lo; first [apply HW | exact H0].
      + cbn [zipw]. reflexivity.
    - rewrite !lp_fold, !lp_term_0. lia. }
  rewrite E3. cbn [bind fst snd] in *. clear E3 body2.
  match goal with |- bind (taps _ _ _ ?f _ _) _ = _ => set (body1 := f) end.
  destruct (taps_ok fourths b 1 0 body1 j3 s3) as ([j4 s4] & E4 & H4 & B4 & C4); [lia|lia|lia|exact H3| |].
  { intros j s Hj Hb (_ & l0 & l1 & l2 & l3 & l4 & l5 & l6 & l7 & H & E0 & E1).
    unfold body1. rewrite !(load_wt ws) by lia. cbn [bind].
    rewrite (load_px 2 src b 1 2 j) by lia. cbn [bind]. eexists; split; [reflexivity|].
    split; [apply is_w_mhrs|]. rewrite !hs_1.
    cbn [flat_map map seq app repeat Nat.sub Nat.mul Nat.add].
    do 8 eexists. split.
    - eapply acc16_eq; [eapply acc16_mhrs; [exact H|..]|].
      + apply wide_lo_ok; first [apply HP | apply byte_0].
      + apply cbcr_w_lo; first [apply HW | exact H0].
      + cbn [zipw]. reflexivity.
    - rewrite !lp_fold, !lp_term_0. lia. }
  rewrite E4. cbn [bind fst snd] in *. replace j4 with (bsize b) in H4 by lia.
  destruct H4 as (A & l0 & l1 & l2 & l3 & l4 & l5 & l6 & l7 & H & <- & <-).
  rewrite (reduce_x2_ok _ _ _ _ _ _ _ _ _ A H). reflexivity.
Qed.
End CbCrHrs.
End Kernels.
