(** Calls on deep (13..16 bit) images with averaging filters. *)
From Coq Require Import ZArith Reals Lra Lia Bool List Psatz ZifyBool ZifyNat.
From Verif Require Import Base BaseProofs ImageStore FixedPoint Dispatch Resize Spec SpecApi SpecFloat F32 F32Proofs Weights WeightsProofs Sampler SamplerProofs
  WeightSum FilterSums Center QuantSums KernelProofs DispatchProofs ResizeProofs PortableProofs PoolProofs ApiProofs Witness Alpha Api ApiFloat DriverProofs FloatApiProofs RgbaFloat DeepSums.
Import ListNotations.
Local Open Scope nat_scope.

(** The two passes over a 16-bit picture, spelled out. *)
Definition u16_resample (k : mlaf_kind) (L : libm) (f : resampling_function) (d : nat) (store into : image Z) : picture -> picture :=
  float_resample f0 fmul (mlaf k) u16_as_f32 (to_mixed_u16 d)
    (negb (height store =? height into)) (negb (width store =? width into))
    (filter_taps (resampling_filter L f) (height store) (height into))
    (filter_taps (resampling_filter L f) (width store) (width into)).

Lemma shown_picture N (im : image Z) : shown 0%Z N im = picture_of N im.
Proof. reflexivity. Qed.

Lemma deep_paints k L f N pool (store into : image Z) :
  f <> Nearest -> valid_call N true f store into -> changes_size store into -> pool_ok pool -> 12 < bit_depth into ->
  exists out, resize_u16 k L f N pool store into = Returned Ok out /\ only_pixels_differ N into out /\
    shows N out (u16_resample k L f (bit_depth into) store into (picture_of N store)).
Proof.
  intros Hf V D P Hd.
  destruct (g_paints L f N true _ _ _ (engine_u16_conv k L f N no_premul no_unpremul no_alpha) pool store into Hf V D P) as (out & R & O & S).
  exists out. split; [exact R|]. split; [exact O|].
  intros x y c Hx Hy Hc. rewrite S by (rewrite ?(opd_width _ _ _ O), ?(opd_height _ _ _ O) in *; auto).
  f_equal. unfold g_passes, two_passes, u16_resample, float_resample.
  cbn [engine_u16 gen dflt]. unfold u16_v, u16_h. replace (12 <? bit_depth into) with true by lia. reflexivity.
Qed.

Section Deep.
Variables (k : mlaf_kind) (L : libm) (f : resampling_function) (d : nat).
Hypothesis A : averaging f = true.
Hypothesis Hd : 1 <= d <= 16.

Lemma support_averaging : (e_support (filter_entry f) <= 2)%Z.
Proof. destruct f; cbn in *; try discriminate A; lia. Qed.

Lemma taps_size insz outsz t o : sides_ok f insz outsz -> (1 <= t <= 10000)%Z -> (Zn insz <= t * Zn outsz)%Z -> o < outsz ->
  (Zn (tsize (filter_taps (resampling_filter L f) insz outsz) o) <= 2 * t)%Z /\
  tstart (filter_taps (resampling_filter L f) insz outsz) o + tsize (filter_taps (resampling_filter L f) insz outsz) o <= insz.
Proof.
  intros S T Hr Ho. pose proof (window_length L f insz outsz t o S T Hr Ho) as W. pose proof support_averaging.
  pose proof (filter_windows_in _ _ _ o (sides_wf L f insz outsz S) Ho) as [_ B].
  split; [|exact B]. change (tsize (filter_taps (resampling_filter L f) insz outsz) o) with (wsize (filter_windows (resampling_filter L f) insz outsz) o).
  nia.
Qed.

Section Pass.
Variables (insz outsz : nat) (t : Z).
Hypothesis HS : sides_ok f insz outsz.
Hypothesis Hr : (Zn insz <= t * Zn outsz)%Z.

Lemma pass_bounds o (v : nat -> Z) m M : o < outsz -> (1 <= t <= 15)%Z ->
  (0 <= m <= M)%Z -> (M <= max_colors d)%Z -> (forall i, i < insz -> (m <= v i <= M)%Z) ->
  let T := filter_taps (resampling_filter L f) insz outsz in
  (m <= to_mixed_u16 d (weighted f0 fmul (mlaf k) (tsize T o) (fun i => u16_as_f32 (v (tstart T o + i)%nat)) (tweight T o))
     <= Z.min (M + 1) (max_colors d))%Z.
Proof.
  intros Ho Ht Hm HM Hv T. destruct (taps_size insz outsz t o HS ltac:(lia) Hr Ho) as [Z1 Z2].
  pose proof (max_colors_range d Hd).
  apply (deep_bounds k L f insz outsz o (fun i => v (tstart T o + i)%nat) m M A HS Ho); auto; try lia.
  intros i Hi. apply Hv. unfold T. lia.
Qed.

Lemma pass_mono o (v v' : nat -> Z) : o < outsz -> (1 <= t <= 10000)%Z ->
  (forall i, i < insz -> (0 <= v i <= v' i)%Z /\ (v' i <= 65535)%Z) ->
  let T := filter_taps (resampling_filter L f) insz outsz in
  (to_mixed_u16 d (weighted f0 fmul (mlaf k) (tsize T o) (fun i => u16_as_f32 (v (tstart T o + i)%nat)) (tweight T o)) <=
   to_mixed_u16 d (weighted f0 fmul (mlaf k) (tsize T o) (fun i => u16_as_f32 (v' (tstart T o + i)%nat)) (tweight T o)))%Z.
Proof.
  intros Ho Ht Hv T. destruct (taps_size insz outsz t o HS Ht Hr Ho) as [Z1 Z2].
  apply (deep_mono k L f insz outsz o d (fun i => v (tstart T o + i)%nat) (fun i => v' (tstart T o + i)%nat) A HS Ho); auto; try lia.
  intros i Hi. apply Hv. unfold T. lia.
Qed.
End Pass.

Lemma mixed_range' x : (0 <= to_mixed_u16 d x <= 65535)%Z.
Proof. pose proof (to_mixed_range d x Hd). pose proof (max_colors_range d Hd). lia. Qed.

Variables (store into : image Z) (t : Z).
Hypothesis Sv : sides_ok f (height store) (height into).
Hypothesis Sh : sides_ok f (width store) (width into).
Hypothesis Hdown : downscale_at_most t store into.

Lemma resample_bounds p m M c : (1 <= t <= 15)%Z -> (0 <= m <= M)%Z -> (M <= max_colors d)%Z ->
  (forall y x, y < height store -> x < width store -> (m <= p y x c <= M)%Z) ->
  forall y x, y < height into -> x < width into ->
  (m <= u16_resample k L f d store into p y x c <= Z.min (M + 2) (max_colors d))%Z /\
  ((width store = width into \/ height store = height into) -> (u16_resample k L f d store into p y x c <= M + 1)%Z).
Proof.
  intros Ht Hm HM Hp. destruct Hdown as [Dw Dh]. pose proof (max_colors_range d Hd).
  unfold u16_resample, float_resample.
  assert (V : forall y x, y < height into -> x < width store ->
     (m <= float_v f0 fmul (mlaf k) u16_as_f32 (to_mixed_u16 d) (filter_taps (resampling_filter L f) (height store) (height into)) p y x c
        <= Z.min (M + 1) (max_colors d))%Z).
  { intros y x Hy Hx. apply (pass_bounds (height store) (height into) t Sv Dh y (fun i => p i x c)); auto. }
  destruct (Nat.eqb_spec (height store) (height into)) as [Eh|Eh]; cbn [negb];
  destruct (Nat.eqb_spec (width store) (width into)) as [Ew|Ew]; cbn [negb]; intros y x Hy Hx.
  - pose proof (Hp y x ltac:(lia) ltac:(lia)). lia.
  - assert (Q := pass_bounds (width store) (width into) t Sh Dw x (fun i => p y i c) m M Hx Ht Hm HM ltac:(intros; apply Hp; lia)).
    cbv beta zeta in Q. unfold float_h. lia.
  - pose proof (V y x Hy ltac:(lia)). lia.
  - assert (Q := pass_bounds (width store) (width into) t Sh Dw x
      (fun i => float_v f0 fmul (mlaf k) u16_as_f32 (to_mixed_u16 d) (filter_taps (resampling_filter L f) (height store) (height into)) p y i c)
      m (Z.min (M + 1) (max_colors d)) Hx Ht ltac:(lia) ltac:(lia) ltac:(intros; apply V; auto)).
    cbv beta zeta in Q. unfold float_h. lia.
Qed.

Lemma resample_mono_deep p q c : (1 <= t <= 10000)%Z ->
  (forall y x, y < height store -> x < width store -> (0 <= p y x c <= q y x c)%Z /\ (q y x c <= 65535)%Z) ->
  forall y x, y < height into -> x < width into ->
  (u16_resample k L f d store into p y x c <= u16_resample k L f d store into q y x c)%Z.
Proof.
  intros Ht Hp. destruct Hdown as [Dw Dh]. unfold u16_resample, float_resample.
  assert (V : forall y x, y < height into -> x < width store ->
     (float_v f0 fmul (mlaf k) u16_as_f32 (to_mixed_u16 d) (filter_taps (resampling_filter L f) (height store) (height into)) p y x c
     <= float_v f0 fmul (mlaf k) u16_as_f32 (to_mixed_u16 d) (filter_taps (resampling_filter L f) (height store) (height into)) q y x c)%Z).
  { intros y x Hy Hx. apply (pass_mono (height store) (height into) t Sv Dh y (fun i => p i x c) (fun i => q i x c)); auto. }
  destruct (Nat.eqb_spec (height store) (height into)) as [Eh|Eh]; cbn [negb];
  destruct (Nat.eqb_spec (width store) (width into)) as [Ew|Ew]; cbn [negb]; intros y x Hy Hx.
  - pose proof (Hp y x ltac:(lia) ltac:(lia)). lia.
  - apply (pass_mono (width store) (width into) t Sh Dw x (fun i => p y i c) (fun i => q y i c)); auto. intros; apply Hp; lia.
  - apply V; lia.
  - apply (pass_mono (width store) (width into) t Sh Dw x
      (fun i => float_v f0 fmul (mlaf k) u16_as_f32 (to_mixed_u16 d) (filter_taps (resampling_filter L f) (height store) (height into)) p y i c)
      (fun i => float_v f0 fmul (mlaf k) u16_as_f32 (to_mixed_u16 d) (filter_taps (resampling_filter L f) (height store) (height into)) q y i c)); auto.
    intros i Hi. split; [split; [apply mixed_range'|apply V; auto]|apply mixed_range'].
Qed.
End Deep.
