(** C36: the C interface. *)
From Coq Require Import ZArith List Bool Lia ZifyBool ZifyNat.
From Flocq Require Import IEEE754.BinarySingleNaN.
From Verif Require Import Base BaseProofs ImageStore Resize F32 Sampler Api Alpha ApiRgba ApiFloat Threading Spec SpecApi SpecAlpha SpecThreading
  CApi SpecC CApiProofs ResizeProofs Parallel Witness Properties1 Properties2 Properties3 Properties4 Properties6.
Import ListNotations.
Local Open Scope nat_scope.

(** ** Helpers *)
Lemma describes_valid {T} (e : elem T) N nd f m m' pitch w h pitch' w' h' depth (store into : image T) :
  1 <= N <= 4 -> 0 < w -> 0 < h -> 0 < w' -> 0 < h' ->
  describes e N m pitch w h depth store -> describes e N m' pitch' w' h' depth into ->
  fits_usize (pitch * h) -> fits_usize (pitch' * h') -> fits_usize (w * h' * N) ->
  (nd = true -> 1 <= depth <= 16) -> (Z.of_nat w <= 2 ^ 23 /\ Z.of_nat h <= 2 ^ 23)%Z -> f <> Area ->
  valid_call N nd f store into.
Proof.
  intros HN Hw Hh Hw' Hh' (A1 & A2 & A3 & A4 & A5 & A6 & _) (B1 & B2 & B3 & B4 & B5 & B6 & _) F1 F2 F3 Hd Hs Hf.
  assert (length (buf store) <= pitch * h) by (rewrite A6, (Nat.mul_comm pitch); apply Nat.mul_le_mono_l; lia).
  assert (length (buf into) <= pitch' * h') by (rewrite B6, (Nat.mul_comm pitch'); apply Nat.mul_le_mono_l; lia).
  constructor; rewrite ?A1, ?A2, ?B1, ?B2, ?B4; auto; try tauto.
  unfold fits_usize in *. split; [lia|]. split; [lia|exact F3].
Qed.
Lemma filter_not_area f : to_resampling f <> Area.
Proof. destruct f; discriminate. Qed.
Lemma filter_not_nearest f : f <> FNearest -> to_resampling f <> Nearest.
Proof. destruct f; congruence || discriminate. Qed.

(** A successful call, from what the Rust call does. *)
Lemma call_succeeds {T} (e : elem T) (L : lays_out e) N scale (src dst : block) pitch w h pitch' w' h' depth :
  1 <= N -> holds_rows e N src pitch w h -> holds_rows e N dst pitch' w' h' ->
  well_aligned e src pitch \/ N = esize e -> well_aligned e dst pitch' -> intact e (mem dst) ->
  (forall store into, describes e N (mem src) pitch w h depth store -> describes e N (mem dst) pitch' w' h' depth into ->
     from_memory e (mem src) store ->
     exists out, scale store into = Returned Ok out /\ only_pixels_differ N into out) ->
  exists store into out m', describes e N (mem src) pitch w h depth store /\ describes e N (mem dst) pitch' w' h' depth into /\
    scale store into = Returned Ok out /\
    c_scale e N scale src pitch w h dst pitch' w' h' depth = CDone (0, m') /\ replaced e N (mem dst) m' pitch' w' h' out.
Proof.
  intros HN (S1 & S2 & S3 & S4 & S5) (D1 & D2 & D3 & D4 & D5) A [B1 B2] I H.
  destruct (aligned_call e L N scale src dst pitch w h pitch' w' h' depth) as (store & into & E1 & E2 & FM & R); auto; try lia.
  destruct (H store into E1 E2 FM) as (out & Sc & O). rewrite Sc in R. destruct R as (m' & R & _ & W).
  exists store, into, out, m'. split; [exact E1|]. split; [exact E2|]. split; [exact Sc|]. split; [exact R|].
  destruct (W O) as (W1 & W2 & W3). split; [exact W1|]. split; [exact W2|]. exact (W3 I).
Qed.

(** What the C caller needs besides memory: sizes the crate supports. *)
Definition supported_sizes (N w h w' h' : nat) : Prop :=
  1 <= N <= 4 /\ (Z.of_nat w <= 2 ^ 23 /\ Z.of_nat h <= 2 ^ 23)%Z /\ fits_usize (w * h' * N) /\ (w <> w' \/ h <> h').

Lemma premul_flag_cases f flags : o_premultiply (options_of f flags) = negb (Z.land flags 1 =? 0)%Z.
Proof. reflexivity. Qed.

(** ** C36 for 8-bit images: every address and every byte stride.
    Missing: Nearest and calls that keep the size (both write outside the pixels, refuted
    below). *)
Theorem C36_u8_partial : forall hs L N src pitch w h dst pitch' w' h' f flags,
  sane_host hs -> f <> FNearest -> supported_sizes N w h w' h' ->
  holds_rows elem_u8 N src pitch w h -> holds_rows elem_u8 N dst pitch' w' h' -> bytes (mem src) -> bytes (mem dst) -> 
  exists store into out m',
    describes elem_u8 N (mem src) pitch w h 8 store /\ describes elem_u8 N (mem dst) pitch' w' h' 8 into /\
    (if (N =? 4) && negb (Z.land flags 1 =? 0)%Z then resize_rgba_u8 L (to_resampling f) None true store into
     else resize_u8 L (to_resampling f) N None store into) = Returned Ok out /\
    c_resize_u8 hs L N src pitch w h dst pitch' w' h' f flags = CDone (0, m') /\
    replaced elem_u8 N (mem dst) m' pitch' w' h' out.
Proof.
  intros hs L N src pitch w h dst pitch' w' h' f flags HS Hf (HN & Hs & Hx & Dd) HR HR' Bs Bd.
  pose proof (filter_not_nearest f Hf) as Hn. pose proof HR as (S1 & S2 & _ & _ & S5). pose proof HR' as (D1 & D2 & _ & _ & D5).
  destruct (C29_scale_is_resize hs L Fused N (options_of f flags) HS) as (E1 & E2 & _).
  set (scale := fun store into => if (N =? 4) && negb (Z.land flags 1 =? 0)%Z then resize_rgba_u8 L (to_resampling f) None true store into
     else resize_u8 L (to_resampling f) N None store into).
  assert (Es : forall store into, (if N =? 4 then scale_rgba_u8 hs L (options_of f flags) else scale_u8 hs L N (options_of f flags)) store into = scale store into).
  { intros. unfold scale. destruct (Nat.eqb_spec N 4) as [->|]; cbn [andb]; [|apply E1]. rewrite E2, premul_flag_cases.
    destruct (negb _); [reflexivity|]. apply C41_flag_off_is_plain. }
  destruct (call_succeeds elem_u8 lays_u8 N (if N =? 4 then scale_rgba_u8 hs L (options_of f flags) else scale_u8 hs L N (options_of f flags))
    src dst pitch w h pitch' w' h' 8) as (store & into & out & m' & A1 & A2 & A3 & A4 & A5).
  - lia.
  - exact HR.
  - exact HR'.
  - left; split; apply Nat.mod_1_r.
  - split; apply Nat.mod_1_r.
  - apply faithful_intact; [exact faithful_u8|exact Bd].
  - intros store into Ds Di FM. rewrite Es. unfold scale.
    assert (V : valid_call N false (to_resampling f) store into).
    { eapply (describes_valid _ N _ _ _ _ pitch w h pitch' w' h'); [exact HN|exact S1|exact S2|exact D1|exact D2|exact Ds|exact Di|exact S5|exact D5|exact Hx|discriminate|exact Hs|apply filter_not_area]. }
    assert (Ch : changes_size store into) by (destruct Ds as (X1 & X2 & _); destruct Di as (Y1 & Y2 & _); unfold changes_size; rewrite X1, X2, Y1, Y2; exact Dd).
    destruct (Nat.eqb_spec N 4) as [->|]; cbn [andb]; [destruct (negb _)|].
    + destruct (C43_alpha_pipeline L (to_resampling f) None store into) as (s2 & mid & out & _ & _ & _ & _ & _ & R & _ & O); auto.
      * exact I.
      * revert FM. apply Forall_impl. intros v (o & Ho & ->). cbn [edec elem_u8].
        pose proof (Forall_sub (fun b => 0 <= b < 256)%Z (mem src) o 1 Bs) as F. cbn [esize elem_u8].
        pose proof (sub_len (mem src) o 1 Ho) as Ls. destruct (sub (mem src) o 1) as [|b [|]]; try discriminate Ls. cbn [nth]. inversion F; subst. lia.
      * now exists out.
    + destruct (C10_valid_calls_succeed_partial L (to_resampling f) 4 None store into Hn V I) as (out & R). exists out. split; [exact R|].
      eapply C14_padding_partial; eauto. exact I.
    + destruct (C10_valid_calls_succeed_partial L (to_resampling f) N None store into Hn V I) as (out & R). exists out. split; [exact R|].
      eapply C14_padding_partial; eauto. exact I.
  - exists store, into, out, m'. split; [exact A1|]. split; [exact A2|]. split; [rewrite <- A3; symmetry; apply Es|]. split; [exact A4|exact A5].
Qed.
Print Assumptions C36_u8_partial.

(** 16-bit images: the destination must be aligned with an even stride, and so must the
    source unless pixels have two channels.  Missing: the other cases (refuted below). *)
Theorem C36_u16_aligned_partial : forall hs k L N src pitch w h dst pitch' w' h' depth f flags,
  sane_host hs -> f <> FNearest -> 1 <= depth <= 16 -> supported_sizes N w h w' h' ->
  holds_rows elem_u16 N src pitch w h -> holds_rows elem_u16 N dst pitch' w' h' -> well_aligned elem_u16 src pitch \/ N = 2 -> well_aligned elem_u16 dst pitch' -> bytes (mem src) -> bytes (mem dst) -> 
  exists store into out m',
    describes elem_u16 N (mem src) pitch w h depth store /\ describes elem_u16 N (mem dst) pitch' w' h' depth into /\
    (if (N =? 4) && negb (Z.land flags 1 =? 0)%Z then resize_rgba_u16 k L (to_resampling f) None true store into
     else resize_u16 k L (to_resampling f) N None store into) = Returned Ok out /\
    c_resize_u16 hs L k N src pitch w h dst pitch' w' h' depth f flags = CDone (0, m') /\
    replaced elem_u16 N (mem dst) m' pitch' w' h' out.
Proof.
  intros hs k L N src pitch w h dst pitch' w' h' depth f flags HS Hf Hdp (HN & Hs & Hx & Dd) HR HR' As Ad Bs Bd.
  pose proof (filter_not_nearest f Hf) as Hn. pose proof HR as (S1 & S2 & _ & _ & S5). pose proof HR' as (D1 & D2 & _ & _ & D5).
  destruct (C29_scale_is_resize hs L k N (options_of f flags) HS) as (_ & _ & E1 & E2 & _).
  set (scale := fun store into => if (N =? 4) && negb (Z.land flags 1 =? 0)%Z then resize_rgba_u16 k L (to_resampling f) None true store into
     else resize_u16 k L (to_resampling f) N None store into).
  assert (Es : forall store into, (if N =? 4 then scale_rgba_u16 hs L k (options_of f flags) else scale_u16 hs L k N (options_of f flags)) store into = scale store into).
  { intros. unfold scale. destruct (Nat.eqb_spec N 4) as [->|]; cbn [andb]; [|apply E1]. rewrite E2, premul_flag_cases.
    destruct (negb _); [reflexivity|]. apply C41_flag_off_is_plain_u16. }
  destruct (call_succeeds elem_u16 lays_u16 N (if N =? 4 then scale_rgba_u16 hs L k (options_of f flags) else scale_u16 hs L k N (options_of f flags))
    src dst pitch w h pitch' w' h' depth) as (store & into & out & m' & A1 & A2 & A3 & A4 & A5).
  - lia.
  - exact HR.
  - exact HR'.
  - exact As.
  - exact Ad.
  - apply faithful_intact; [exact faithful_u16|exact Bd].
  - intros store into Ds Di FM. rewrite Es. unfold scale.
    assert (V : valid_call N true (to_resampling f) store into).
    { eapply (describes_valid _ N _ _ _ _ pitch w h pitch' w' h'); [exact HN|exact S1|exact S2|exact D1|exact D2|exact Ds|exact Di|exact S5|exact D5|exact Hx|intros _; exact Hdp|exact Hs|apply filter_not_area]. }
    assert (Ch : changes_size store into) by (destruct Ds as (X1 & X2 & _); destruct Di as (Y1 & Y2 & _); unfold changes_size; rewrite X1, X2, Y1, Y2; exact Dd).
    destruct (Nat.eqb_spec N 4) as [->|]; cbn [andb]; [destruct (negb _)|].
    + destruct (C43_alpha_pipeline_u16 k L (to_resampling f) None store into) as (s2 & mid & out & _ & _ & _ & _ & _ & _ & _ & R & _ & O); auto.
      * exact I.
      * revert FM. apply Forall_impl. intros v (o & Ho & ->). cbn [edec elem_u16].
        pose proof (Forall_sub (fun b => 0 <= b < 256)%Z (mem src) o 2 Bs) as F. cbn [esize elem_u16].
        pose proof (sub_len (mem src) o 2 Ho) as Ls. destruct (sub (mem src) o 2) as [|a [|b [|]]]; try discriminate Ls. cbn [nth].
        inversion F as [|? ? Fa F2]; subst. inversion F2; subst. lia.
      * now exists out.
    + destruct (C10_valid_calls_succeed_u16 k L (to_resampling f) 4 None store into Hn V I) as (out & R). exists out. split; [exact R|].
      eapply C14_padding_u16_partial; eauto. exact I.
    + destruct (C10_valid_calls_succeed_u16 k L (to_resampling f) N None store into Hn V I) as (out & R). exists out. split; [exact R|].
      eapply C14_padding_u16_partial; eauto. exact I.
  - exists store, into, out, m'. split; [exact A1|]. split; [exact A2|]. split; [rewrite <- A3; symmetry; apply Es|]. split; [exact A4|exact A5].
Qed.
Print Assumptions C36_u16_aligned_partial.

(** f32 images: likewise; an unaligned source works when pixels have four channels.
    Missing: the other cases, and NaN payloads, of which the model has one. *)
Theorem C36_f32_aligned_partial : forall hs k L N src pitch w h dst pitch' w' h' f flags,
  sane_host hs -> f <> FNearest -> supported_sizes N w h w' h' ->
  holds_rows elem_f32 N src pitch w h -> holds_rows elem_f32 N dst pitch' w' h' -> well_aligned elem_f32 src pitch \/ N = 4 -> well_aligned elem_f32 dst pitch' -> bytes (mem dst) -> no_nans (mem dst) ->
  exists store into out m',
    describes elem_f32 N (mem src) pitch w h 16 store /\ describes elem_f32 N (mem dst) pitch' w' h' 16 into /\
    (if (N =? 4) && negb (Z.land flags 1 =? 0)%Z then resize_rgba_f32 k L (to_resampling f) None true store into
     else resize_f32 k L (to_resampling f) N None store into) = Returned Ok out /\
    c_resize_f32 hs L k N src pitch w h dst pitch' w' h' f flags = CDone (0, m') /\
    replaced elem_f32 N (mem dst) m' pitch' w' h' out.
Proof.
  intros hs k L N src pitch w h dst pitch' w' h' f flags HS Hf (HN & Hs & Hx & Dd) HR HR' As Ad Bd Nn.
  pose proof (filter_not_nearest f Hf) as Hn. pose proof HR as (S1 & S2 & _ & _ & S5). pose proof HR' as (D1 & D2 & _ & _ & D5).
  destruct (C29_scale_is_resize hs L k N (options_of f flags) HS) as (_ & _ & _ & _ & E1 & E2).
  set (scale := fun store into => if (N =? 4) && negb (Z.land flags 1 =? 0)%Z then resize_rgba_f32 k L (to_resampling f) None true store into
     else resize_f32 k L (to_resampling f) N None store into).
  assert (Es : forall store into, (if N =? 4 then scale_rgba_f32 hs L k (options_of f flags) else scale_f32 hs L k N (options_of f flags)) store into = scale store into).
  { intros. unfold scale. destruct (Nat.eqb_spec N 4) as [->|]; cbn [andb]; [|apply E1]. rewrite E2, premul_flag_cases.
    destruct (negb _); [reflexivity|]. apply C41_flag_off_is_plain_f32. }
  destruct (call_succeeds elem_f32 lays_f32 N (if N =? 4 then scale_rgba_f32 hs L k (options_of f flags) else scale_f32 hs L k N (options_of f flags))
    src dst pitch w h pitch' w' h' 16) as (store & into & out & m' & A1 & A2 & A3 & A4 & A5).
  - lia.
  - exact HR.
  - exact HR'.
  - exact As.
  - exact Ad.
  - apply intact_f32; [exact Bd|exact Nn].
  - intros store into Ds Di FM. rewrite Es. unfold scale.
    assert (V : valid_call N false (to_resampling f) store into).
    { eapply (describes_valid _ N _ _ _ _ pitch w h pitch' w' h'); [exact HN|exact S1|exact S2|exact D1|exact D2|exact Ds|exact Di|exact S5|exact D5|exact Hx|discriminate|exact Hs|apply filter_not_area]. }
    assert (Ch : changes_size store into) by (destruct Ds as (X1 & X2 & _); destruct Di as (Y1 & Y2 & _); unfold changes_size; rewrite X1, X2, Y1, Y2; exact Dd).
    destruct (Nat.eqb_spec N 4) as [->|]; cbn [andb]; [destruct (negb _)|].
    + destruct (C43_alpha_pipeline_f32 k L (to_resampling f) None store into) as (s2 & mid & out & _ & _ & _ & _ & _ & _ & _ & R & _ & O); auto.
      * exact I.
      * now exists out.
    + destruct (C10_valid_calls_succeed_f32 k L (to_resampling f) 4 None store into Hn V I) as (out & R). exists out. split; [exact R|].
      eapply C14_padding_f32_partial; eauto. exact I.
    + destruct (C10_valid_calls_succeed_f32 k L (to_resampling f) N None store into Hn V I) as (out & R). exists out. split; [exact R|].
      eapply C14_padding_f32_partial; eauto. exact I.
  - exists store, into, out, m'. split; [exact A1|]. split; [exact A2|]. split; [rewrite <- A3; symmetry; apply Es|]. split; [exact A4|exact A5].
Qed.
Print Assumptions C36_f32_aligned_partial.

(** A concrete call: a 2x1 RGBA8 image at an odd address with 3 bytes of padding, made 3x2. *)
Definition c_src8 : block := mkBlock 1001 [1; 2; 3; 4; 5; 6; 7; 8; 99; 98; 97]%Z.
Definition c_dst8 : block := mkBlock 77 (repeat 0%Z 27).
Example C36_u8_nonvacuous : FBilinear <> FNearest /\ supported_sizes 4 2 1 3 2 /\
  holds_rows elem_u8 4 c_src8 11 2 1 /\ holds_rows elem_u8 4 c_dst8 13 3 2 /\ bytes (mem c_src8) /\ bytes (mem c_dst8) /\
  ~ pixel_byte 4 1 13 3 2 12 /\ pixel_byte 4 1 13 3 2 13.
Proof.
  split; [discriminate|]. split; [unfold supported_sizes, fits_usize, usize_mod; lia|].
  split; [unfold holds_rows, fits_usize, usize_mod, c_src8; cbn [mem length esize elem_u8]; lia|].
  split; [unfold holds_rows, fits_usize, usize_mod, c_dst8; cbn [mem length esize elem_u8 repeat]; lia|].
  split; [repeat constructor; lia|]. split; [apply Forall_forall; intros v Hv; apply repeat_spec in Hv; subst v; lia|].
  split; [intros (x & y & k & b & Hx & Hy & Hk & Hb & E); destruct x as [|[|[|]]], y as [|[|]]; lia|].
  exists 0, 1, 0, 0. lia.
Qed.
(** A CbCr16 image at an odd address, and a four channel f32 image at address 6. *)
Example C36_u16_nonvacuous : let src := mkBlock 1001 [1; 0; 2; 0; 3; 0; 4; 0; 99]%Z in let dst := mkBlock 500 (repeat 0%Z 24) in
  supported_sizes 2 2 1 3 2 /\ holds_rows elem_u16 2 src 9 2 1 /\ holds_rows elem_u16 2 dst 12 3 2 /\
  2 = 2 /\ ~ well_aligned elem_u16 src 9 /\ well_aligned elem_u16 dst 12.
Proof.
  cbv zeta. split; [unfold supported_sizes, fits_usize, usize_mod; lia|].
  split; [unfold holds_rows, fits_usize, usize_mod; cbn [mem length esize elem_u16]; lia|].
  split; [unfold holds_rows, fits_usize, usize_mod; cbn [mem length esize elem_u16 repeat]; lia|].
  split; [reflexivity|]. split; [intros []; discriminate|split; reflexivity].
Qed.
Example C36_f32_nonvacuous : let src := mkBlock 6 [0; 0; 128; 63; 0; 0; 0; 63; 0; 0; 128; 191; 0; 0; 128; 63]%Z in let dst := mkBlock 8 (repeat 0%Z 32) in
  supported_sizes 4 1 1 2 1 /\ holds_rows elem_f32 4 src 16 1 1 /\ holds_rows elem_f32 4 dst 32 2 1 /\ ~ well_aligned elem_f32 src 16 /\
  well_aligned elem_f32 dst 32 /\ no_nans (mem dst) /\ c_sample elem_f32 4 (mem src) 16 0 0 1 = Some fhalf.
Proof.
  cbv zeta. split; [unfold supported_sizes, fits_usize, usize_mod; lia|].
  split; [unfold holds_rows, fits_usize, usize_mod; cbn [mem length esize elem_f32]; lia|].
  split; [unfold holds_rows, fits_usize, usize_mod; cbn [mem length esize elem_f32 repeat]; lia|].
  split; [intros []; discriminate|]. split; [split; reflexivity|]. split.
  - intros j Hj. cbn [mem length repeat] in *. destruct j as [|[|[|[|[|[|[|[|]]]]]]]]; try lia; discriminate.
  - unfold c_sample. cbn [esize elem_f32 mem length Nat.mul Nat.add Nat.leb]. f_equal. apply AlphaU16.f32_bits_inj. vm_compute. reflexivity.
Qed.

(** The code the C caller gets: 0 only for success, otherwise that of the error. *)
Theorem C36_codes : forall v, (code_of v = 0 <-> v = Ok) /\ forall e, v = Err e -> code_of v = error_code e.
Proof.
  intros [|e]; split; try split; try reflexivity; try discriminate; cbn [code_of].
  - intro H. destruct (C04_error_codes e e). lia.
  - intros e' [= ->]. reflexivity.
Qed.
Print Assumptions C36_codes.

(** What the numbers of the C interface mean: filters as in the header, bit 0 of the flags for
    premultiplication, bit 1 for multithreading; other bits are ignored. *)
Theorem C36_numbers : forall f flags,
  In (scaling_filter_number f, o_function (options_of f flags)) header_filters /\
  o_premultiply (options_of f flags) = Z.testbit flags 0 /\
  o_multithreading (options_of f flags) = Z.testbit flags 1 /\
  (forall n g, In (n, g) header_filters -> exists f', scaling_filter_number f' = n /\ o_function (options_of f' flags) = g).
Proof.
  intros f flags. split; [destruct f; cbn; auto 10|].
  assert (P : forall i, (0 <= i)%Z -> negb (Z.land flags (2 ^ i) =? 0)%Z = Z.testbit flags i).
  { intros i Hi. destruct (Z.eqb_spec (Z.land flags (2 ^ i)) 0) as [E|E]; cbn [negb]; symmetry.
    - apply (f_equal (fun z => Z.testbit z i)) in E. rewrite Z.land_spec, Z.pow2_bits_true, Z.bits_0, andb_true_r in E; auto.
    - destruct (Z.testbit flags i) eqn:T; auto. exfalso. apply E. apply Z.bits_inj'. intros j Hj.
      rewrite Z.land_spec, Z.bits_0, Z.pow2_bits_eqb by exact Hi. destruct (Z.eqb_spec i j) as [<-|N]; [now rewrite T|apply andb_false_r]. }
  split; [exact (P 0%Z ltac:(lia))|]. split; [exact (P 1%Z ltac:(lia))|].
  intros n g H. cbn in H. destruct H as [H|[H|[H|[H|[H|[H|[]]]]]]]; injection H as <- <-;
    [exists FNearest|exists FBilinear|exists FLanczos3|exists FMitchellNetravalli|exists FBicubic|exists FCatmullRom]; split; reflexivity.
Qed.
Print Assumptions C36_numbers.

(** A refused 8-bit call returns the code of the first error of the table of C04 and leaves
    the destination memory alone. *)
Theorem C36_refusals_u8 : forall hs L N src pitch w h dst pitch' w' h' f flags,
  pitch * h <= length (mem src) -> pitch' * h' <= length (mem dst) -> fits_usize (pitch * h) -> fits_usize (pitch' * h') ->
  bytes (mem dst) ->
  let store := mkImage (firstn (pitch * h) (mem src)) N w h pitch 8 in
  let into := mkImage (firstn (pitch' * h') (mem dst)) N w' h' pitch' 8 in
  match first_error (refusal_table N false store into) with
  | Some e => c_resize_u8 hs L N src pitch w h dst pitch' w' h' f flags = CDone (error_code e, mem dst)
  | None => c_resize_u8 hs L N src pitch w h dst pitch' w' h' f flags = CAbort \/
            exists m', c_resize_u8 hs L N src pitch w h dst pitch' w' h' f flags = CDone (0, m')
  end.
Proof.
  intros hs L N src pitch w h dst pitch' w' h' f flags Hm Hm' Hf Hf' B store into.
  assert (Dec : forall m n, n <= length m -> decode elem_u8 m n = firstn n m).
  { intros m n Hn. apply list_ext. intro i. rewrite nth_error_firstn. destruct (Nat.ltb_spec i n) as [Hi|Hi].
    - rewrite (decode_nth elem_u8) by assumption. cbn [esize elem_u8 edec]. rewrite Nat.mul_1_r. unfold sub.
      destruct (nth_error m i) as [v|] eqn:Ev; [|apply nth_error_None in Ev; lia]. f_equal.
      destruct (skipn i m) as [|b t] eqn:Es.
      + exfalso. pose proof (skipn_length i m) as Ls. rewrite Es in Ls. cbn in Ls. lia.
      + cbn [firstn nth]. pose proof (nth_error_skipn m i 0) as X. rewrite Es in X. cbn in X. rewrite Nat.add_0_r in X. congruence.
    - apply nth_error_None. now rewrite (decode_length elem_u8). }
  assert (Enc : forall l, encode elem_u8 l = l) by (intro l; unfold encode; induction l as [|a l IH]; [reflexivity|]; cbn [flat_map]; rewrite IH; reflexivity).
  unfold c_resize_u8. cbv zeta. set (scale := if N =? 4 then _ else _).
  assert (C : c_scale elem_u8 N scale src pitch w h dst pitch' w' h' 8 =
    match scale store into with Panicked => CAbort | Returned v out => CDone (code_of v, buf out ++ skipn (pitch' * h') (mem dst)) end).
  { unfold c_scale, c_source. cbn [ealign esize elem_u8]. rewrite !Nat.mod_1_r. cbn [Nat.eqb negb orb andb]. rewrite !Nat.div_1_r.
    unfold raw_parts. cbn [ealign esize elem_u8]. rewrite !Nat.mod_1_r. cbn [Nat.eqb negb]. rewrite !Nat.mul_1_r.
    rewrite (wmul_small pitch h) by (unfold fits_usize in *; lia). rewrite (wmul_small h' pitch') by (unfold fits_usize in *; lia).
    rewrite (Nat.mul_comm h' pitch'). replace (length (mem src) <? pitch * h) with false by lia. replace (length (mem dst) <? pitch' * h') with false by lia.
    cbn [cbind]. rewrite !Dec by assumption. fold store into. destruct (scale store into); [|reflexivity]. now rewrite Enc. }
  rewrite C. clear C.
  assert (R : match first_error (refusal_table N false store into) with
    | Some e => scale store into = Returned (Err e) into
    | None => scale store into = Panicked \/ exists out, scale store into = Returned Ok out end).
  { unfold scale. destruct (Nat.eqb_spec N 4) as [->|].
    - apply C04_refusals_rgba.
    - apply C04_refusals. }
  destruct (first_error _).
  - rewrite R. cbn [code_of]. f_equal. f_equal. cbn [into buf]. apply firstn_skipn.
  - destruct R as [R|(out & R)]; rewrite R; [now left|]. right. eexists. reflexivity.
Qed.
Print Assumptions C36_refusals_u8.
Example C36_refusals_nonvacuous : forall hs L, c_resize_u8 hs L 3 (mkBlock 1 (repeat 7%Z 10)) 5 2 2 (mkBlock 9 [1; 2; 3; 4]%Z) 4 1 1 FBicubic 0 = CDone (5, [1; 2; 3; 4]%Z).
Proof. intros. lazy. reflexivity. Qed.

(** A misaligned destination with an odd stride works when a pixel has as many channels as a
    sample has bytes, the image has at least as many columns as rows, and the caller owns
    new_width rows.  Missing: all other misaligned destinations (refuted below). *)
Lemma call_unaligned {T} (e : elem T) (L : lays_out e) N scale (src dst : block) pitch w h pitch' w' h' depth :
  1 <= N -> N = esize e -> holds_rows e N src pitch w h -> 0 < h' -> h' <= w' -> holds_rows e N dst pitch' w' w' ->
  addr dst mod ealign e <> 0 -> pitch' mod esize e <> 0 ->
  (forall store into, describes e N (mem src) pitch w h depth store -> proper N into -> width into = w' -> height into = h' ->
     bit_depth into = depth -> stride into = w' * N -> from_memory e (mem src) store ->
     exists out, scale store into = Returned Ok out /\ only_pixels_differ N into out) ->
  exists store into out m', describes e N (mem src) pitch w h depth store /\
    proper N into /\ width into = w' /\ height into = h' /\ bit_depth into = depth /\
    scale store into = Returned Ok out /\
    c_scale e N scale src pitch w h dst pitch' w' h' depth = CDone (0, m') /\ replaced e N (mem dst) m' pitch' w' h' out.
Proof.
  intros HN En (S1 & S2 & S3 & S4 & S5) Hh Hhw (D1 & _ & D3 & D4 & D5) A B H.
  pose proof (lo_size e L) as Hsz.
  destruct (source_ok e L N src pitch w h depth) as (store & R & Ds & FM); auto; try lia.
  set (into := alloc_with_depth (ezero e) N w' h' depth).
  assert (Bd : w' * N * 1 <= w' * N * esize e) by (apply Nat.mul_le_mono_l; lia).
  assert (Bd2 : w' * N * h' <= pitch' * w') by (apply Nat.mul_le_mono; lia).
  assert (Bd3 : w' * N * 1 <= w' * N * h') by (apply Nat.mul_le_mono_l; lia).
  assert (W1 : wmul w' N = w' * N) by (apply wmul_small; unfold fits_usize in *; lia).
  assert (W2 : wmul (w' * N) h' = w' * N * h') by (apply wmul_small; unfold fits_usize in *; lia).
  assert (Li : length (buf into) = h' * (w' * N)) by (unfold into, alloc_with_depth; cbn [buf]; rewrite repeat_length, W1, W2; lia).
  assert (Si : stride into = w' * N) by (unfold into, alloc_with_depth; cbn [stride]; exact W1).
  assert (Pi : proper N into) by (unfold proper; rewrite Li, Si; cbn [width height into alloc_with_depth]; lia).
  destruct (H store into Ds Pi eq_refl eq_refl eq_refl Si FM) as (out & Sc & O).
  destruct (copy_back_ok e L N out pitch' w' h' (mem dst)) as (m' & C & Re); auto; try lia.
  { unfold fits_usize in *. lia. } { now rewrite (opd_stride _ _ _ O). } { now rewrite (opd_length _ _ _ O). }
  exists store, into, out, m'. split; [exact Ds|]. split; [exact Pi|]. do 3 (split; [reflexivity|]). split; [exact Sc|]. split; [|exact Re].
  unfold c_scale. rewrite R. cbn [cbind]. replace (addr dst mod ealign e =? 0) with false by (symmetry; now apply Nat.eqb_neq).
  replace (pitch' mod esize e =? 0) with false by (symmetry; now apply Nat.eqb_neq). cbn [negb andb]. fold into. rewrite Sc. cbn [code_of Nat.eqb negb].
  rewrite C. reflexivity.
Qed.
Theorem C36_cbcr16_unaligned_partial : forall hs k L src pitch w h dst pitch' w' h' depth f flags,
  sane_host hs -> f <> FNearest -> 1 <= depth <= 16 -> supported_sizes 2 w h w' h' ->
  holds_rows elem_u16 2 src pitch w h -> 0 < h' -> h' <= w' -> holds_rows elem_u16 2 dst pitch' w' w' ->
  addr dst mod 2 <> 0 -> pitch' mod 2 <> 0 ->
  exists store into out m',
    describes elem_u16 2 (mem src) pitch w h depth store /\ width into = w' /\ height into = h' /\ bit_depth into = depth /\
    resize_u16 k L (to_resampling f) 2 None store into = Returned Ok out /\
    c_resize_u16 hs L k 2 src pitch w h dst pitch' w' h' depth f flags = CDone (0, m') /\
    replaced elem_u16 2 (mem dst) m' pitch' w' h' out.
Proof.
  intros hs k L src pitch w h dst pitch' w' h' depth f flags HS Hf Hdp (HN & Hs & Hx & Dd) HR Hh Hhw HR' A B.
  pose proof (filter_not_nearest f Hf) as Hn. pose proof HR as (S1 & S2 & _ & _ & S5). pose proof HR' as (D1 & _ & D3 & _ & D5).
  destruct (C29_scale_is_resize hs L k 2 (options_of f flags) HS) as (_ & _ & E1 & _).
  destruct (call_unaligned elem_u16 lays_u16 2 (scale_u16 hs L k 2 (options_of f flags)) src dst pitch w h pitch' w' h' depth)
    as (store & into & out & m' & A1 & A2 & A3 & A4 & A5 & A6 & A7 & A8); auto.
  - intros store into Ds Pi Wi Hi Di Si FM. rewrite E1. change (o_function (options_of f flags)) with (to_resampling f).
    assert (Ch : changes_size store into) by (destruct Ds as (X1 & X2 & _); unfold changes_size; rewrite X1, X2, Wi, Hi; exact Dd).
    assert (V : valid_call 2 true (to_resampling f) store into).
    { destruct Ds as (X1 & X2 & X3 & X4 & X5 & X6 & _). destruct Pi as (Y1 & Y2 & Y3 & Y4).
      assert (length (buf store) <= pitch * h) by (rewrite X6, (Nat.mul_comm pitch); apply Nat.mul_le_mono_l; lia).
      assert (length (buf into) <= pitch' * w').
      { rewrite Y4, Hi, Si, (Nat.mul_comm pitch'). cbn [esize elem_u16] in D3. apply Nat.mul_le_mono; lia. }
      constructor; rewrite ?X1, ?X2, ?Wi, ?Hi, ?Di; auto; try tauto.
      - rewrite Y4, Hi, Si. lia.
      - unfold fits_usize in *. split; [lia|]. split; [lia|exact Hx].
      - intro F. exfalso. exact (filter_not_area f F). }
    destruct (C10_valid_calls_succeed_u16 k L (to_resampling f) 2 None store into Hn V I) as (out & R). exists out. split; [exact R|].
    eapply C14_padding_u16_partial; eauto. exact I.
  - exists store, into, out, m'. split; [exact A1|]. do 3 (split; [assumption|]). split; [rewrite <- A6; symmetry; apply E1|]. split; [exact A7|exact A8].
Qed.
Print Assumptions C36_cbcr16_unaligned_partial.
Example C36_cbcr16_unaligned_nonvacuous : let src := mkBlock 1001 [1; 0; 2; 0; 3; 0; 4; 0; 99]%Z in let dst := mkBlock 501 (repeat 0%Z 39) in
  supported_sizes 2 2 1 3 2 /\ holds_rows elem_u16 2 src 9 2 1 /\ holds_rows elem_u16 2 dst 13 3 3 /\ 2 <= 3 /\ addr dst mod 2 <> 0 /\ 13 mod 2 <> 0.
Proof.
  cbv zeta. split; [unfold supported_sizes, fits_usize, usize_mod; lia|].
  split; [unfold holds_rows, fits_usize, usize_mod; cbn [mem length esize elem_u16]; lia|].
  split; [unfold holds_rows, fits_usize, usize_mod; cbn [mem length esize elem_u16 repeat]; lia|].
  split; [lia|]. split; discriminate.
Qed.

(** ** What fails *)
(** The unaligned copy of a source advances one byte per sample of a planar 16-bit image:
    the second sample, 2, is read as 512. *)
Theorem C36_unaligned_source_refuted : exists src dst m',
  holds_rows elem_u16 1 src 4 2 1 /\ holds_rows elem_u16 1 dst 4 2 1 /\ well_aligned elem_u16 dst 4 /\ bytes (mem src) /\ addr src mod 2 = 1 /\
  (forall hs L k f flags, c_resize_u16 hs L k 1 src 4 2 1 dst 4 2 1 16 f flags = CDone (0, m')) /\
  c_sample elem_u16 1 (mem src) 4 1 0 0 = Some 2%Z /\ c_sample elem_u16 1 m' 4 1 0 0 = Some 512%Z.
Proof.
  exists (mkBlock 1 [1; 0; 2; 0]%Z), (mkBlock 0 [0; 0; 0; 0]%Z), [1; 0; 0; 2]%Z.
  split; [unfold holds_rows, fits_usize, usize_mod; cbn [mem length esize elem_u16]; lia|].
  split; [unfold holds_rows, fits_usize, usize_mod; cbn [mem length esize elem_u16]; lia|].
  split; [split; reflexivity|]. split; [repeat constructor; lia|]. split; [reflexivity|].
  split; [intros; lazy; reflexivity|]. split; reflexivity.
Qed.
Print Assumptions C36_unaligned_source_refuted.
(** An aligned destination whose stride is odd: the second row is written a byte too early. *)
Theorem C36_odd_stride_refuted : exists src dst m',
  holds_rows elem_u16 1 src 4 2 2 /\ holds_rows elem_u16 1 dst 5 2 2 /\ well_aligned elem_u16 src 4 /\ addr dst mod 2 = 0 /\ bytes (mem src) /\
  (forall hs L k f flags, c_resize_u16 hs L k 1 src 4 2 2 dst 5 2 2 16 f flags = CDone (0, m')) /\
  c_sample elem_u16 1 (mem src) 4 0 1 0 = Some 3%Z /\ c_sample elem_u16 1 m' 5 0 1 0 = Some 1024%Z.
Proof.
  exists (mkBlock 0 [1; 0; 2; 0; 3; 0; 4; 0]%Z), (mkBlock 0 (repeat 0%Z 10)), [1; 0; 2; 0; 3; 0; 4; 0; 0; 0]%Z.
  split; [unfold holds_rows, fits_usize, usize_mod; cbn [mem length esize elem_u16]; lia|].
  split; [unfold holds_rows, fits_usize, usize_mod; cbn [mem length esize elem_u16 repeat]; lia|].
  split; [split; reflexivity|]. split; [reflexivity|]. split; [repeat constructor; lia|].
  split; [intros; lazy; reflexivity|]. split; reflexivity.
Qed.
Print Assumptions C36_odd_stride_refuted.
(** A misaligned destination with a suitable stride is undefined behaviour, whatever the call. *)
Theorem C36_unaligned_destination_refuted : forall hs L k N src pitch w h dst pitch' w' h' depth f flags,
  1 <= N -> holds_rows elem_u16 N src pitch w h -> well_aligned elem_u16 src pitch -> addr dst mod 2 <> 0 -> pitch' mod 2 = 0 ->
  c_resize_u16 hs L k N src pitch w h dst pitch' w' h' depth f flags = CUndefined.
Proof.
  intros hs L k N src pitch w h dst pitch' w' h' depth f flags HN (H1 & H2 & H3 & H4 & H5) A D E.
  unfold c_resize_u16. cbv zeta. set (scale := if N =? 4 then _ else _). unfold c_scale.
  destruct (source_ok elem_u16 lays_u16 N src pitch w h depth) as (store & R & _); auto; try lia. rewrite R. cbn [cbind esize ealign elem_u16].
  rewrite E. replace (negb (addr dst mod 2 =? 0) && negb (0 =? 0)) with false by (now rewrite andb_false_r).
  unfold raw_parts. cbn [ealign elem_u16]. replace (addr dst mod 2 =? 0) with false by (symmetry; now apply Nat.eqb_neq). reflexivity.
Qed.
Print Assumptions C36_unaligned_destination_refuted.
(** A misaligned destination with an odd stride: the code wants new_width rather than
    new_height rows of memory.  More columns than rows: undefined although the caller owns the
    whole image.  Fewer columns than rows: rows are left unwritten and the call returns 0. *)
Theorem C36_destination_rows_refuted :
  (exists src dst, holds_rows elem_u16 2 src 8 2 1 /\ well_aligned elem_u16 src 8 /\ holds_rows elem_u16 2 dst 9 2 1 /\ addr dst mod 2 = 1 /\
     forall hs L k f flags, c_resize_u16 hs L k 2 src 8 2 1 dst 9 2 1 16 f flags = CUndefined) /\
  (exists src dst m', holds_rows elem_u16 2 src 4 1 2 /\ well_aligned elem_u16 src 4 /\ holds_rows elem_u16 2 dst 5 1 2 /\ addr dst mod 2 = 1 /\
     (forall hs L k f flags, c_resize_u16 hs L k 2 src 4 1 2 dst 5 1 2 16 f flags = CDone (0, m')) /\
     c_sample elem_u16 2 (mem src) 4 0 1 0 = Some 3%Z /\ c_sample elem_u16 2 m' 5 0 1 0 = Some 0%Z).
Proof.
  split.
  - exists (mkBlock 0 (repeat 7%Z 8)), (mkBlock 1 (repeat 0%Z 9)).
    split; [unfold holds_rows, fits_usize, usize_mod; cbn [mem length esize elem_u16 repeat]; lia|]. split; [split; reflexivity|].
    split; [unfold holds_rows, fits_usize, usize_mod; cbn [mem length esize elem_u16 repeat]; lia|]. split; [reflexivity|].
    intros. lazy. reflexivity.
  - exists (mkBlock 0 [1; 0; 2; 0; 3; 0; 4; 0]%Z), (mkBlock 1 (repeat 0%Z 10)), [1; 0; 2; 0; 0; 0; 0; 0; 0; 0]%Z.
    split; [unfold holds_rows, fits_usize, usize_mod; cbn [mem length esize elem_u16 repeat]; lia|]. split; [split; reflexivity|].
    split; [unfold holds_rows, fits_usize, usize_mod; cbn [mem length esize elem_u16 repeat]; lia|]. split; [reflexivity|].
    split; [intros; lazy; reflexivity|]. split; reflexivity.
Qed.
Print Assumptions C36_destination_rows_refuted.
(** A call that keeps the size, and the Nearest filter, write into the row padding. *)
Theorem C36_padding_refuted : exists src dst m' m'',
  holds_rows elem_u8 1 src 2 1 1 /\ holds_rows elem_u8 1 dst 2 1 1 /\ holds_rows elem_u8 1 dst 3 2 2 /\ bytes (mem src) /\ bytes (mem dst) /\
  (forall hs L f flags, c_resize_u8 hs L 1 src 2 1 1 dst 2 1 1 f flags = CDone (0, m')) /\
  ~ pixel_byte 1 1 2 1 1 1 /\ nth_error m' 1 <> nth_error (mem dst) 1 /\
  (forall hs L, c_resize_u8 hs L 1 src 2 1 1 dst 3 2 2 FNearest 0 = CDone (0, m'')) /\
  ~ pixel_byte 1 1 3 2 2 2 /\ nth_error m'' 2 <> nth_error (mem dst) 2.
Proof.
  exists (mkBlock 0 [5; 6]%Z), (mkBlock 0 [1; 2; 3; 4; 7; 8]%Z), [5; 6; 3; 4; 7; 8]%Z, [5; 5; 5; 5; 5; 5]%Z.
  split; [unfold holds_rows, fits_usize, usize_mod; cbn [mem length esize elem_u8]; lia|].
  split; [unfold holds_rows, fits_usize, usize_mod; cbn [mem length esize elem_u8]; lia|].
  split; [unfold holds_rows, fits_usize, usize_mod; cbn [mem length esize elem_u8]; lia|].
  split; [repeat constructor; lia|]. split; [repeat constructor; lia|].
  split; [intros; lazy; reflexivity|].
  split; [intros (x & y & k & b & Hx & Hy & Hk & Hb & E); destruct x as [|[|]], y as [|]; lia|]. split; [discriminate|].
  split; [intros; lazy; reflexivity|].
  split; [intros (x & y & k & b & Hx & Hy & Hk & Hb & E); destruct x as [|[|]], y as [|[|]]; lia|]. discriminate.
Qed.
Print Assumptions C36_padding_refuted.
