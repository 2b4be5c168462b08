(** C36 for f16 images, and C80: `scale` of f16 images. *)
From Coq Require Import ZArith List Bool Lia ZifyBool ZifyNat.
From Flocq Require Import IEEE754.BinarySingleNaN.
From Verif Require Import Base BaseProofs ImageStore Resize F32 Sampler Api Alpha ApiRgba ApiFloat Threading Spec SpecApi SpecAlpha SpecThreading
  CApi SpecC CApiProofs ResizeProofs ImageProofs Parallel Witness Properties6 Properties11 F16 F16Proofs F16Calls F16Alpha SpecF16 Properties17 CApiF16 CApiF16Proofs.
Import ListNotations.
Local Open Scope nat_scope.

(** The convenience call does what the Scaler method does with the same filter and
    premultiply flag, threads or not. *)
Theorem C80_scale_is_resize_f16 : forall hs L k N o, sane_host hs ->
  (forall store into, scale_f16 hs L k N o store into = resize_f16 k L (o_function o) N None store into) /\
  (forall store into, scale_rgba_f16 hs L k o store into = resize_rgba_f16 k L (o_function o) None (o_premultiply o) store into).
Proof.
  intros hs L k N o H. assert (Ef : sfunction (scaler_of_options o) = o_function o) by (unfold scaler_of_options; destruct (o_multithreading o); reflexivity).
  split; intros store into; unfold scale_f16, scale_rgba_f16; cbv zeta; rewrite Ef.
  - exact (proj1 (C80_schedule_independent_f16 k L (o_function o) N _ (o_premultiply o) store into (pool_for_ok hs (scaler_of_options o) f16 into H))).
  - exact (proj2 (C80_schedule_independent_f16 k L (o_function o) N _ (o_premultiply o) store into (pool_for_ok hs (scaler_of_options o) f16 into H))).
Qed.
Print Assumptions C80_scale_is_resize_f16.

(** ** Helpers *)
Definition f16_method (k : mlaf_kind) (L : libm) (N : nat) (f : scaling_filter) (flags : Z) (store into : image f16) : callres f16 :=
  if (N =? 4) && negb (Z.land flags 1 =? 0)%Z then resize_rgba_f16 k L (to_resampling f) None true store into
  else resize_f16 k L (to_resampling f) N None store into.
Lemma method_result k L N f flags store into : f <> FNearest -> valid_call N false (to_resampling f) store into -> changes_size store into ->
  exists out, f16_method k L N f flags store into = Returned Ok out /\ only_pixels_differ N (prepared store into) out.
Proof.
  intros Hf V D. pose proof (filter_not_nearest f Hf) as Hn. unfold f16_method.
  destruct (Nat.eqb_spec N 4) as [->|]; cbn [andb]; [destruct (negb _)|].
  - destruct (rgba_pipeline_f16 k L (to_resampling f) None store into V D Hn I) as (s & m & o & _ & _ & _ & _ & _ & _ & R & _ & O). now exists o.
  - destruct (f16_paints k L (to_resampling f) 4 None store into Hn V D I) as (o & R & O & _). now exists o.
  - destruct (f16_paints k L (to_resampling f) N None store into Hn V D I) as (o & R & O & _). now exists o.
Qed.
Lemma intact_cleared m n : bytes m -> no_nans16 m -> n * 2 <= length m -> intact elem_f16 (repeat 0%Z (n * 2) ++ skipn (n * 2) m).
Proof.
  intros B NN Hn j Hj. pose proof (intact_f16 m B NN) as I. cbn [esize elem_f16] in *.
  rewrite app_length, repeat_length, skipn_length in Hj.
  destruct (Nat.lt_ge_cases j n) as [G|G].
  - assert (E : sub (repeat 0%Z (n * 2) ++ skipn (n * 2) m) (j * 2) 2 = [0; 0]%Z).
    { apply (sub_eq elem_f16); [|reflexivity]. intros b Hb. rewrite nth_error_app1 by (rewrite repeat_length; lia).
      rewrite nth_error_repeat_case. replace (j * 2 + b <? n * 2) with true by lia. destruct b as [|[|]]; [reflexivity|reflexivity|lia]. }
    rewrite E. reflexivity.
  - assert (E : sub (repeat 0%Z (n * 2) ++ skipn (n * 2) m) (j * 2) 2 = sub m (j * 2) 2).
    { apply (sub_eq elem_f16); [|apply sub_len; lia]. intros b Hb. rewrite nth_error_app2 by (rewrite repeat_length; lia). rewrite repeat_length.
      unfold sub. rewrite nth_error_firstn, !nth_error_skipn. replace (b <? 2) with true by lia. f_equal. lia. }
    rewrite E. apply I. cbn [esize elem_f16]. lia.
Qed.
Lemma repeat_zeros n : repeat (edec elem_f16 [0; 0]%Z) n = repeat h0 n.
Proof. reflexivity. Qed.

(** ** C36 f16 images: the destination must be aligned with an even stride, and so must the
    source unless pixels have two channels.  The pixels of the destination receive the result
    of the Rust call.  Its other bytes are kept if the width stays the same; if not, those
    between the rows become zero (so the full claim, that only pixels are written, is refuted
    below).  Missing: Nearest, calls that keep the size, misaligned memory. *)
Theorem C36_f16_aligned_partial : forall hs k L N src pitch w h dst pitch' w' h' f flags,
  sane_host hs -> f <> FNearest -> supported_sizes N w h w' h' ->
  holds_rows elem_f16 N src pitch w h -> holds_rows elem_f16 N dst pitch' w' h' ->
  well_aligned elem_f16 src pitch \/ N = 2 -> well_aligned elem_f16 dst pitch' -> bytes (mem dst) -> no_nans16 (mem dst) ->
  exists store into out m',
    describes elem_f16 N (mem src) pitch w h 16 store /\ describes elem_f16 N (mem dst) pitch' w' h' 16 into /\
    (if (N =? 4) && negb (Z.land flags 1 =? 0)%Z then resize_rgba_f16 k L (to_resampling f) None true store into
     else resize_f16 k L (to_resampling f) N None store into) = Returned Ok out /\
    c_resize_f16 hs L k N src pitch w h dst pitch' w' h' f flags = CDone (0, m') /\
    length m' = length (mem dst) /\
    (forall x y c, x < w' -> y < h' -> c < N -> c_sample elem_f16 N m' pitch' x y c = sample N out x y c) /\
    (forall i, ~ pixel_byte N 2 pitch' w' h' i ->
       nth_error m' i = if (w =? w') || (pitch' * h' <=? i) then nth_error (mem dst) i else Some 0%Z).
Proof.
  intros hs k L N src pitch w h dst pitch' w' h' f flags HS Hf (HN & Hs & Hx & Dd) HR HR' As [Ad1 Ad2] Bd NN.
  pose proof HR as (S1 & S2 & S3 & S4 & S5). pose proof HR' as (D1 & D2 & D3 & D4 & D5).
  destruct (C80_scale_is_resize_f16 hs L k N (options_of f flags) HS) as (E1 & E2).
  assert (Es : forall store into, (if N =? 4 then scale_rgba_f16 hs L k (options_of f flags) else scale_f16 hs L k N (options_of f flags)) store into
                                  = f16_method k L N f flags store into).
  { intros. unfold f16_method. destruct (Nat.eqb_spec N 4) as [->|]; cbn [andb]; [|apply E1]. rewrite E2, premul_flag_cases.
    destruct (negb _); [reflexivity|]. apply C80_flag_off_f16. now left. }
  destruct (aligned_form elem_f16 lays_f16 N src dst pitch w h pitch' w' h' 16) as (store & Ds & Di & _ & R); auto; try lia.
  cbn [esize elem_f16] in *. set (st := pitch' / 2) in *.
  assert (Ep : pitch' = st * 2) by (unfold st; pose proof (Nat.div_mod pitch' 2 ltac:(lia)); lia).
  set (into := mkImage (decode elem_f16 (mem dst) (h' * st)) N w' h' st 16) in *.
  assert (V : valid_call N false (to_resampling f) store into).
  { eapply (describes_valid _ N _ _ _ _ pitch w h pitch' w' h'); [exact HN|exact S1|exact S2|exact D1|exact D2|exact Ds|exact Di|exact S5|exact D5|exact Hx|discriminate|exact Hs|apply filter_not_area]. }
  assert (Ww : width store = w) by (destruct Ds; assumption).
  assert (Ch : changes_size store into) by (destruct Ds as (X1 & X2 & _); destruct Di as (Y1 & Y2 & _); unfold changes_size; rewrite X1, X2, Y1, Y2; exact Dd).
  destruct (method_result k L N f flags store into Hf V Ch) as (out & Rm & O).
  specialize (R _ Ok out (eq_trans (Es store into) Rm)). fold st in R.
  exists store, into, out. eexists. split; [exact Ds|]. split; [exact Di|]. split; [exact Rm|]. split; [exact R|].
  unfold prepared in O. rewrite Ww in O. change (width into) with w' in O.
  destruct (Nat.eqb_spec w w') as [Ew|Ew].
  - pose proof (write_back elem_f16 lays_f16 N pitch' w' h' (mem dst) into out ltac:(lia) D1 D2 D3 Ad2 D4 eq_refl O) as (W1 & W2 & W3).
    cbn [esize elem_f16] in *. fold st in W1, W2, W3. split; [exact W1|]. split; [exact W2|]. intros i Hi. cbn [orb].
    apply W3; [now apply intact_f16|exact Hi].
  - assert (Hl : h' * st * 2 <= length (mem dst)) by lia.
    set (m0 := repeat 0%Z (h' * st * 2) ++ skipn (h' * st * 2) (mem dst)).
    assert (L0 : length m0 = length (mem dst)) by (unfold m0; rewrite app_length, repeat_length, skipn_length; lia).
    assert (Eb : blanked into = mkImage (decode elem_f16 m0 (h' * st)) N w' h' st (bit_depth (blanked into))).
    { unfold m0. rewrite (cleared_decode elem_f16). unfold blanked, into. cbn [buf bit_depth set_buf width height channels stride]. rewrite decode_length. reflexivity. }
    assert (D4' : pitch' * h' <= length m0) by (rewrite L0; exact D4).
    pose proof (write_back elem_f16 lays_f16 N pitch' w' h' m0 (blanked into) out ltac:(lia) D1 D2 D3 Ad2 D4' Eb O) as (W1 & W2 & W3).
    cbn [esize elem_f16] in *. fold st in W1, W2, W3.
    assert (Ek : skipn (h' * st * 2) m0 = skipn (h' * st * 2) (mem dst)).
    { unfold m0. rewrite skipn_app, repeat_length, Nat.sub_diag. rewrite skipn_all2 by (rewrite repeat_length; lia). reflexivity. }
    rewrite Ek in W1, W2, W3. split; [lia|]. split; [exact W2|]. intros i Hi. cbn [orb].
    rewrite (W3 (intact_cleared (mem dst) (h' * st) Bd NN Hl) i Hi). unfold m0. rewrite nth_error_app_case, repeat_length, nth_error_repeat_case, nth_error_skipn.
    replace (pitch' * h') with (h' * st * 2) by lia. destruct (Nat.ltb_spec i (h' * st * 2)).
    + now replace (h' * st * 2 <=? i) with false by lia.
    + replace (h' * st * 2 <=? i) with true by lia. f_equal. lia.
Qed.
Print Assumptions C36_f16_aligned_partial.

(** So with rows that follow each other without a gap, or with an unchanged width, only the
    pixels are written. *)
Theorem C36_f16_packed_partial : forall hs k L N src pitch w h dst pitch' w' h' f flags,
  sane_host hs -> f <> FNearest -> supported_sizes N w h w' h' ->
  holds_rows elem_f16 N src pitch w h -> holds_rows elem_f16 N dst pitch' w' h' ->
  well_aligned elem_f16 src pitch \/ N = 2 -> well_aligned elem_f16 dst pitch' -> bytes (mem dst) -> no_nans16 (mem dst) ->
  w = w' \/ pitch' = w' * N * 2 ->
  exists store into out m',
    describes elem_f16 N (mem src) pitch w h 16 store /\ describes elem_f16 N (mem dst) pitch' w' h' 16 into /\
    (if (N =? 4) && negb (Z.land flags 1 =? 0)%Z then resize_rgba_f16 k L (to_resampling f) None true store into
     else resize_f16 k L (to_resampling f) N None store into) = Returned Ok out /\
    c_resize_f16 hs L k N src pitch w h dst pitch' w' h' f flags = CDone (0, m') /\
    replaced elem_f16 N (mem dst) m' pitch' w' h' out.
Proof.
  intros hs k L N src pitch w h dst pitch' w' h' f flags HS Hf Hz HR HR' As Ad Bd NN P.
  destruct (C36_f16_aligned_partial hs k L N src pitch w h dst pitch' w' h' f flags HS Hf Hz HR HR' As Ad Bd NN)
    as (store & into & out & m' & A1 & A2 & A3 & A4 & A5 & A6 & A7).
  exists store, into, out, m'. split; [exact A1|]. split; [exact A2|]. split; [exact A3|]. split; [exact A4|].
  split; [exact A5|]. split; [exact A6|]. cbn [esize elem_f16]. intros i Hi. rewrite (A7 i Hi).
  destruct (Nat.eqb_spec w w') as [|Nw]; [reflexivity|]. destruct P as [P|P]; [contradiction|]. cbn [orb].
  destruct (Nat.leb_spec (pitch' * h') i) as [G|G]; [reflexivity|]. exfalso. apply Hi. destruct Hz as (HN & _). destruct HR' as (D1 & D2 & _).
  set (q := i / pitch'). set (r := i mod pitch'). assert (Pp : 0 < pitch') by nia.
  pose proof (Nat.div_mod i pitch' ltac:(lia)) as Dv. fold q r in Dv. pose proof (Nat.mod_upper_bound i pitch' ltac:(lia)) as Mu. fold r in Mu.
  assert (Hq : q < h') by (unfold q; apply Nat.div_lt_upper_bound; lia).
  set (s := r / 2). set (b := r mod 2). pose proof (Nat.div_mod r 2 ltac:(lia)) as D2'. fold s b in D2'. assert (Hb : b < 2) by (unfold b; apply Nat.mod_upper_bound; lia).
  assert (Hs : s < w' * N) by lia.
  set (x := s / N). set (c := s mod N). pose proof (Nat.div_mod s N ltac:(lia)) as D3'. fold x c in D3'. assert (Hc : c < N) by (unfold c; apply Nat.mod_upper_bound; lia).
  assert (Hx : x < w') by (unfold x; apply Nat.div_lt_upper_bound; lia).
  exists x, q, c, b. repeat split; try assumption. clearbody q r s b x c. nia.
Qed.
Print Assumptions C36_f16_packed_partial.

(** A 1x1 planar f16 image made 2x1 in memory with two more bytes per row: valid, and those
    two bytes, which belong to no pixel, are overwritten. *)
Definition c_src16f : block := mkBlock 1000 [0; 60]%Z.
Definition c_dst16f : block := mkBlock 500 [0; 0; 0; 0; 1; 2]%Z.
Lemma bits_h1 : f16_of_bits 15360 = h1.
Proof. apply B2SF_inj. vm_compute. reflexivity. Qed.
Lemma bits_nums : Forall (fun w => f16_of_bits w <> B754_nan) [0; 513]%Z.
Proof. repeat constructor; intro E; apply (f_equal is_nan) in E; vm_compute in E; discriminate. Qed.
Lemma c_f16_case : supported_sizes 1 1 1 2 1 /\ holds_rows elem_f16 1 c_src16f 2 1 1 /\ holds_rows elem_f16 1 c_dst16f 6 2 1 /\
  well_aligned elem_f16 c_src16f 2 /\ well_aligned elem_f16 c_dst16f 6 /\ bytes (mem c_dst16f) /\ no_nans16 (mem c_dst16f) /\
  ~ pixel_byte 1 2 6 2 1 4 /\ pixel_byte 1 2 6 2 1 3 /\ c_sample elem_f16 1 (mem c_src16f) 2 0 0 0 = Some h1.
Proof.
  split; [unfold supported_sizes, fits_usize, usize_mod; lia|].
  split; [unfold holds_rows, fits_usize, usize_mod, c_src16f; cbn [mem length esize elem_f16]; lia|].
  split; [unfold holds_rows, fits_usize, usize_mod, c_dst16f; cbn [mem length esize elem_f16]; lia|].
  split; [split; reflexivity|]. split; [split; reflexivity|]. split; [repeat constructor; lia|]. split.
  { intros j Hj. cbn [c_dst16f mem length] in *. destruct j as [|[|[|]]]; try lia.
    - exact (Forall_inv bits_nums).
    - exact (Forall_inv bits_nums).
    - exact (Forall_inv (Forall_inv_tail bits_nums)). }
  split; [intros (x & y & c & b & Hx & Hy & Hc & Hb & E); lia|]. split; [exists 1, 0, 0, 1; lia|].
  unfold c_sample. cbn [esize elem_f16 c_src16f mem length Nat.mul Nat.add Nat.leb]. rewrite <- bits_h1. reflexivity.
Qed.
Theorem C36_f16_padding_kept_refuted : forall hs k L, sane_host hs ->
  ~ forall N src pitch w h dst pitch' w' h' f flags m',
      f <> FNearest -> supported_sizes N w h w' h' ->
      holds_rows elem_f16 N src pitch w h -> holds_rows elem_f16 N dst pitch' w' h' ->
      well_aligned elem_f16 src pitch -> well_aligned elem_f16 dst pitch' -> bytes (mem dst) -> no_nans16 (mem dst) ->
      c_resize_f16 hs L k N src pitch w h dst pitch' w' h' f flags = CDone (0, m') ->
      forall i, ~ pixel_byte N 2 pitch' w' h' i -> nth_error m' i = nth_error (mem dst) i.
Proof.
  intros hs k L HS H. destruct c_f16_case as (A & B & C & D & E & F & G & P & _).
  destruct (C36_f16_aligned_partial hs k L 1 c_src16f 2 1 1 c_dst16f 6 2 1 FBilinear 0%Z HS ltac:(discriminate) A B C (or_introl D) E F G)
    as (store & into & out & m' & _ & _ & _ & R & _ & _ & Q).
  pose proof (H 1 c_src16f 2 1 1 c_dst16f 6 2 1 FBilinear 0%Z m' ltac:(discriminate) A B C D E F G R 4 P) as X.
  rewrite (Q 4 P) in X. cbn in X. discriminate.
Qed.
Print Assumptions C36_f16_padding_kept_refuted.
(** Values in memory: every number has one bit pattern, and reading inverts writing. *)
Theorem C36_f16_bits : (forall x, f16_of_bits (f16_bits x) = x /\ (0 <= f16_bits x < 2 ^ 16)%Z) /\
  (forall w, (0 <= w < 2 ^ 16)%Z -> f16_of_bits w <> B754_nan -> f16_bits (f16_of_bits w) = w).
Proof. split; [intro x; split; [apply bits16_round_trip|apply bits16_range]|exact bits16_of_bits]. Qed.
Print Assumptions C36_f16_bits.
