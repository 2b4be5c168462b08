(** Consequences of the closed form of the x86 calls. *)
From Coq Require Import ZArith List Lia Bool ZifyBool ZifyNat ZifyN.
From Verif Require Import Base BaseProofs ImageStore FixedPoint Dispatch Resize Spec SpecApi F32 Weights WeightsProofs Sampler SamplerProofs
  KernelProofs DispatchProofs Center QuantSums PortableProofs Api ApiProofs
  SimdProofs X86Dispatch SpecX86 X86DispatchProofs X86Calls.
Import ListNotations.
Local Open Scope Z_scope.

(** ** Safety of the sums *)
Lemma narrow_of_safe W n : accumulator_safe 512 W n -> narrow_safe W n.
Proof.
  intros H o Ho. specialize (H o Ho). set (S := zsum _ _) in *. change (2 ^ 31) with 2147483648 in H.
  change (2 ^ 14) with 16384 in *. change (2 ^ 30) with 1073741824. lia.
Qed.
Definition tame {T} (f : resampling_function) (store into : image T) : Prop :=
  averaging f = true \/ downscale_at_most 21 store into.
Lemma tame_narrow L f N store into : valid_call N false f store into -> tame f store into ->
  narrow_safe (vwin L f store into) (height into) /\ narrow_safe (hwin L f store into) (width into).
Proof.
  intros V [A|D].
  - destruct (averaging_no_overflow L f N false 512 store into A V ltac:(lia)). split; now apply narrow_of_safe.
  - destruct (any_no_overflow L f N false 512 21 store into V ltac:(lia) ltac:(lia) ltac:(lia) D). split; now apply narrow_of_safe.
Qed.
Lemma tame_no_overflow L f N store into : valid_call N false f store into -> tame f store into -> no_overflow L f 255 store into.
Proof.
  intros V [A|D].
  - apply (averaging_no_overflow L f N false); auto. lia.
  - apply (any_no_overflow L f N false 255 21); auto; lia.
Qed.

(** ** Low precision arithmetic *)
Lemma lp_product_bounds v w : 0 <= w -> 
  2 ^ 17 * lp_product v w - 2 ^ 16 <= 257 * (w * v) <= 2 ^ 17 * lp_product v w + 2 ^ 16 + 3 * w.
Proof.
  intros Hw. unfold lp_product. set (X := 257 * v / 4).
  assert (HX : 4 * X <= 257 * v <= 4 * X + 3) by (unfold X; lia).
  set (Y := X * w) in *.
  assert (HY : 4 * Y <= 257 * (w * v) <= 4 * Y + 3 * w) by (unfold Y; nia).
  change (2 ^ 17) with 131072. change (2 ^ 16) with 65536. change (2 ^ 14) with 16384. lia.
Qed.

Lemma lp_sum_bounds n (w v : nat -> Z) : (forall k, (k < n)%nat -> 0 <= w k) ->
  let T := zsum n (fun k => lp_product (v k) (w k)) in
  let Q := zsum n (fun k => w k * v k) in
  2 ^ 17 * T - 2 ^ 16 * Z.of_nat n <= 257 * Q <= 2 ^ 17 * T + 2 ^ 16 * Z.of_nat n + 3 * zsum n w.
Proof.
  intros Hw T Q. unfold T, Q. clear T Q. induction n as [|n IH]; cbn [zsum]; [lia|].
  specialize (IH ltac:(intros; apply Hw; lia)). pose proof (lp_product_bounds (v n) (w n) ltac:(apply Hw; lia)). lia.
Qed.

Lemma lp_store_bounds T Q S n : 0 <= n <= 60 -> 0 <= Q <= 255 * S -> 0 <= S -> 64 * Z.abs (S - 2 ^ 15) <= 33 * n + 34 ->
  2 ^ 17 * T - 2 ^ 16 * n <= 257 * Q <= 2 ^ 17 * T + 2 ^ 16 * n + 3 * S ->
  floor_q15 255 Q <= lp_store T <= floor_q15 255 Q + 2.
Proof.
  intros Hn HQ HS HSn HT. unfold lp_store, floor_q15, clampZ, to_i16.
  change (2 ^ 17) with 131072 in *. change (2 ^ 16) with 65536 in *. change (2 ^ 15) with 32768 in *.
  assert (-32 <= T <= 17000) by lia.
  rewrite Z.mod_small by lia. replace (32 + T + 32768 - 32768) with (32 + T) by lia.
  set (f := Q / 32768). assert (32768 * f <= Q <= 32768 * f + 32767) by (unfold f; lia).
  set (o := (32 + T) / 64). assert (64 * o <= 32 + T <= 64 * o + 63) by (unfold o; lia).
  assert (0 <= f <= 255) by lia.
  assert (f <= o <= f + 2) by lia. lia.
Qed.

(** A window of an averaging filter, applied to bytes. *)
Record mild (W : windows) (n : nat) (lim : Z) : Prop := mkMild {
  m_pos : forall o k, (o < n)%nat -> (k < wsize W o)%nat -> 0 <= wcoef W o k;
  m_sum : forall o, (o < n)%nat -> 64 * Z.abs (zsum (wsize W o) (wcoef W o) - 2 ^ 15) <= 33 * Z.of_nat (wsize W o) + 34;
  m_len : forall o, (o < n)%nat -> Z.of_nat (wsize W o) <= lim
}.

Lemma zsum_byte_bounds n (w v : nat -> Z) : (forall k, (k < n)%nat -> 0 <= w k) -> (forall k, (k < n)%nat -> byte (v k)) ->
  0 <= zsum n (fun k => w k * v k) <= 255 * zsum n w /\ 0 <= zsum n w.
Proof.
  intros Hw Hv. induction n as [|n IH]; cbn [zsum]; [lia|].
  specialize (IH ltac:(intros; apply Hw; lia) ltac:(intros; apply Hv; lia)).
  pose proof (Hw n ltac:(lia)). pose proof (Hv n ltac:(lia)) as B. unfold byte in B. nia.
Qed.

Lemma lp_window W n o (v : nat -> Z) : mild W n 60 -> (o < n)%nat -> (forall k, (k < wsize W o)%nat -> byte (v k)) ->
  floor_q15 255 (zsum (wsize W o) (fun k => wcoef W o k * v k)) <=
  lp_store (zsum (wsize W o) (fun k => lp_product (v k) (wcoef W o k))) <=
  floor_q15 255 (zsum (wsize W o) (fun k => wcoef W o k * v k)) + 2.
Proof.
  intros [P S Ln] Ho Hv. destruct (zsum_byte_bounds (wsize W o) (wcoef W o) v (fun k => P o k Ho) Hv) as (A & B).
  apply (lp_store_bounds _ _ (zsum (wsize W o) (wcoef W o)) (Z.of_nat (wsize W o))); auto; try lia.
  - specialize (Ln o Ho). lia.
  - apply lp_sum_bounds. intros. apply P; auto.
Qed.

Lemma floor_round Q : floor_q15 255 Q <= round_q15 255 Q <= floor_q15 255 Q + 1.
Proof. unfold floor_q15, round_q15, clampZ. change (2 ^ 15) with 32768. change (2 ^ 14) with 16384. lia. Qed.

(** Shifting the samples of a window by at most [d]. *)
Lemma zsum_shift n (w v v' : nat -> Z) d : (forall k, (k < n)%nat -> 0 <= w k) ->
  (forall k, (k < n)%nat -> v k <= v' k <= v k + d) ->
  zsum n (fun k => w k * v k) <= zsum n (fun k => w k * v' k) <= zsum n (fun k => w k * v k) + d * zsum n w.
Proof.
  intros Hw Hv. induction n as [|n IH]; cbn [zsum]; [lia|].
  specialize (IH ltac:(intros; apply Hw; lia) ltac:(intros; apply Hv; lia)).
  pose proof (Hw n ltac:(lia)). pose proof (Hv n ltac:(lia)). nia.
Qed.
Lemma floor_shift Q Q' d S : 0 <= d <= 30 -> S <= 2 ^ 15 + 32 -> Q <= Q' <= Q + d * S ->
  floor_q15 255 Q <= floor_q15 255 Q' <= floor_q15 255 Q + d + 1.
Proof.
  intros Hd HS H. assert (Q' <= Q + d * (2 ^ 15) + d * 32) by nia. unfold floor_q15, clampZ.
  change (2 ^ 15) with 32768 in *. lia.
Qed.
Lemma round_shift Q Q' d S : 0 <= d <= 30 -> S <= 2 ^ 15 + 32 -> Q <= Q' <= Q + d * S ->
  round_q15 255 Q <= round_q15 255 Q' <= round_q15 255 Q + d + 1.
Proof.
  intros Hd HS H. assert (Q' <= Q + d * (2 ^ 15) + d * 32) by nia. unfold round_q15, clampZ.
  change (2 ^ 15) with 32768 in *. change (2 ^ 14) with 16384. lia.
Qed.
Lemma mild_sum W n o : mild W n 60 -> (o < n)%nat -> zsum (wsize W o) (wcoef W o) <= 2 ^ 15 + 32.
Proof. intros [P S Ln] Ho. specialize (S o Ho). specialize (Ln o Ho). change (2 ^ 15) with 32768 in *. lia. Qed.

Lemma averaging_mild L f insz outsz t : averaging f = true -> sides_ok f insz outsz -> 1 <= t <= 10000 ->
  Z.of_nat insz <= t * Z.of_nat outsz -> mild (filter_windows (resampling_filter L f) insz outsz) outsz (2 * t).
Proof.
  intros A S Ht D. constructor.
  - intros o k Ho. apply (averaging_windows L f insz outsz o A S Ho).
  - intros o Ho. apply (averaging_windows L f insz outsz o A S Ho).
  - intros o Ho. pose proof (window_length L f insz outsz t o S Ht D Ho) as W.
    assert (e_support (filter_entry f) = 2) as E by (destruct f; try discriminate A; reflexivity). rewrite E in W. lia.
Qed.
Lemma mild_weaken W n a b : a <= b -> mild W n a -> mild W n b.
Proof. intros H [P S Ln]. constructor; auto. intros o Ho. specialize (Ln o Ho). lia. Qed.

(** ** Pictures *)
Lemma lp_v_near (V : windows) (hs ws hd : nat) (p : picture) c y x :
  (forall o, (o < hd)%nat -> (wstart V o + wsize V o <= hs)%nat) ->
  (forall y x, (y < hs)%nat -> (x < ws)%nat -> byte (p y x c)) -> mild V hd 60 -> (y < hd)%nat -> (x < ws)%nat ->
  resample_v 255 V p y x c <= lp_v V p y x c <= resample_v 255 V p y x c + 2.
Proof.
  intros InV Bp M Hy Hx. unfold resample_v, lp_v.
  apply (lp_window V hd y (fun k => p (wstart V y + k)%nat x c)); auto.
  intros k Hk. apply Bp; auto. specialize (InV y Hy). lia.
Qed.
Lemma round_v_near V p y x c : resample_v 255 V p y x c <= round_v V p y x c <= resample_v 255 V p y x c + 1.
Proof. unfold resample_v, round_v, sum_v. apply floor_round. Qed.

Section PicturesH.
Variables (H : windows) (ws wd : nat).
Hypothesis InH : forall o, (o < wd)%nat -> (wstart H o + wsize H o <= ws)%nat.
Variable (p : picture) (c : nat).
(** Horizontal pass on a picture [q] that exceeds [p] by at most [d]. *)
Lemma lp_h_near q d y x : mild H wd 60 -> 0 <= d <= 30 -> (x < wd)%nat ->
  (forall x, (x < ws)%nat -> byte (p y x c) /\ byte (q y x c) /\ p y x c <= q y x c <= p y x c + d) ->
  resample_h 255 H p y x c - 1 <= lp_h H q y x c <= resample_h 255 H p y x c + d + 3 /\
  (d = 0 -> lp_h H q y x c <= resample_h 255 H p y x c + 2).
Proof using InH.
  intros M Hd Hx Hq. specialize (InH x Hx).
  pose proof (lp_window H wd x (fun k => q y (wstart H x + k)%nat c) M Hx ltac:(intros; apply Hq; lia)) as A.
  pose proof (zsum_shift (wsize H x) (wcoef H x) (fun k => p y (wstart H x + k)%nat c) (fun k => q y (wstart H x + k)%nat c) d
     (fun k => m_pos _ _ _ M x k Hx) ltac:(intros; apply Hq; lia)) as B. cbv beta in *.
  pose proof (floor_shift _ _ d _ Hd (mild_sum H wd x M Hx) B) as C.
  unfold lp_h, resample_h.
  pose proof (floor_round (zsum (wsize H x) (fun k => wcoef H x k * p y (wstart H x + k)%nat c))) as R.
  split; [lia|]. intros ->. assert (E : zsum (wsize H x) (fun k => wcoef H x k * q y (wstart H x + k)%nat c) = zsum (wsize H x) (fun k => wcoef H x k * p y (wstart H x + k)%nat c)) by lia.
  rewrite E in A. lia.
Qed.
Lemma round_h_near q d y x : mild H wd 60 -> 0 <= d <= 30 -> (x < wd)%nat ->
  (forall x, (x < ws)%nat -> p y x c <= q y x c <= p y x c + d) ->
  resample_h 255 H p y x c <= resample_h 255 H q y x c <= resample_h 255 H p y x c + d + 1.
Proof using InH.
  intros M Hd Hx Hq. specialize (InH x Hx). unfold resample_h.
  eapply round_shift; [exact Hd|apply (mild_sum H wd x M Hx)|]. apply zsum_shift.
  - intros k Hk. apply (m_pos _ _ _ M); auto.
  - intros k Hk. apply Hq. lia.
Qed.
End PicturesH.

(** ** Calls *)
(** Two successful calls whose pictures are close. *)
Lemma differ_results N p q into lo hi : (0 < N)%nat -> good N into ->
  (forall x y c, (x < width into)%nat -> (y < height into)%nat -> (c < N)%nat -> lo <= p y x c - q y x c <= hi) ->
  differ_by lo hi N (result_image N p into) (result_image N q into).
Proof.
  intros HN G H x y c v w Hx Hy Hc E1 E2.
  rewrite result_sample in E1, E2 by (auto; exact Hx || exact Hy). injection E1 as <-. injection E2 as <-. apply H; auto.
Qed.

Section Compare.
Variables (c : cpu) (s : strategy) (L : libm) (f : resampling_function) (N : nat).
Variables (pool : pool_t) (store into : image Z).
Hypothesis VC : valid_call N false f store into.
Hypothesis HP : pool_ok pool.
Hypothesis Hf : f <> Nearest.
Hypothesis Hd : changes_size store into.
Hypothesis Hb : samples_in 255 (buf store).
Hypothesis Ht : tame f store into.

Lemma x86_call : traps c s N (width store) (width into) = false ->
  resize_u8_x86 c s L f N pool store into =
  Returned Ok (result_image N (x86_resample c s N (width store) (height store) (width into) (height into)
    (vwin L f store into) (hwin L f store into) (picture_of N store)) into).
Proof. intros T. destruct (tame_narrow L f N store into VC Ht). apply x86_returns; auto. Qed.

Lemma portable_call : resize_u8 L f N pool store into =
  Returned Ok (result_image N
    (resample 255 (negb (height store =? height into)%nat) (negb (width store =? width into)%nat)
       (vwin L f store into) (hwin L f store into) (picture_of N store)) into).
Proof.
  unfold resize_u8. apply call_closed; auto; try lia. apply (tame_no_overflow L f N); auto.
Qed.
End Compare.

Section Calls.
Variables (c : cpu) (s : strategy) (L : libm) (f : resampling_function) (N : nat).
Variables (pool : pool_t) (store into : image Z).
Hypothesis VC : valid_call N false f store into.
Hypothesis HP : pool_ok pool.
Hypothesis Hf : f <> Nearest.
Hypothesis Hd : changes_size store into.
Hypothesis Hb : samples_in 255 (buf store).
Hypothesis Ht : tame f store into.
Let VW := vwin L f store into.
Let HW := hwin L f store into.
Let P := picture_of N store.

Lemma call_bounds : (0 < N)%nat /\ good N into /\
  (forall o, (o < height into)%nat -> (wstart VW o + wsize VW o <= height store)%nat) /\
  (forall o, (o < width into)%nat -> (wstart HW o + wsize HW o <= width store)%nat) /\
  (forall y x ch, byte (P y x ch)).
Proof using VC Hb.
  pose proof (vc_N _ _ _ _ _ VC). destruct (valid_good VC) as (Gs & Gi). pose proof (valid_sane L VC) as S1.
  split; [lia|]. split; [exact Gi|]. split; [|split].
  - intros o Ho. apply (filter_windows_in _ _ _ o (sane_wf_v S1) Ho).
  - intros o Ho. apply (filter_windows_in _ _ _ o (sane_wf_h S1) Ho).
  - intros. apply shown_byte. apply samples_bytes. exact Hb.
Qed.

Lemma byte_resample_v W p y x ch : byte (resample_v 255 W p y x ch).
Proof using Type. unfold byte, resample_v, floor_q15, clampZ. lia. Qed.
Lemma byte_lp_v W p y x ch : byte (lp_v W p y x ch).
Proof using Type. unfold byte, lp_v, lp_store, clampZ. lia. Qed.
Lemma byte_round_v W p y x ch : byte (round_v W p y x ch).
Proof using Type. unfold byte, round_v, round_q15, clampZ. lia. Qed.

(** Comparing the two builds: it suffices to compare the pictures. *)
Lemma compare_calls lo hi : traps c s N (width store) (width into) = false ->
  (forall x y ch, (x < width into)%nat -> (y < height into)%nat -> (ch < N)%nat ->
    lo <= x86_resample c s N (width store) (height store) (width into) (height into) VW HW P y x ch -
      resample 255 (negb (height store =? height into)%nat) (negb (width store =? width into)%nat) VW HW P y x ch <= hi) ->
  exists a b, resize_u8_x86 c s L f N pool store into = Returned Ok a /\
    resize_u8 L f N pool store into = Returned Ok b /\ differ_by lo hi N a b.
Proof.
  intros HT H. rewrite (x86_call c s L f N pool store into) by assumption. rewrite (portable_call L f N pool store into) by assumption.
  do 2 eexists. split; [reflexivity|]. split; [reflexivity|].
  destruct call_bounds as (HN & G & _). apply differ_results; auto.
Qed.

(** Quality, only the width changes. *)
Lemma quality_h : s = PreferQuality -> (N <> 3%nat \/ avx2 c = false) -> height store = height into ->
  resize_u8_x86 c s L f N pool store into = resize_u8 L f N pool store into.
Proof.
  intros Es HN3 Eh. assert (traps c s N (width store) (width into) = false) as HT.
  { unfold traps. rewrite Es. cbn [speed]. now rewrite andb_false_r. }
  rewrite (x86_call c s L f N pool store into) by assumption. rewrite (portable_call L f N pool store into) by assumption.
  f_equal. f_equal. unfold x86_resample, resample. replace (height store =? height into)%nat with true by lia.
  assert (Ew : width store <> width into) by (destruct Hd; lia). replace (width store =? width into)%nat with false by lia.
  cbn [negb]. unfold x86_h. rewrite Es. cbn [speed]. rewrite ?andb_false_r. cbn [andb].
  destruct N as [|[|[|[|]]]]; try reflexivity. destruct HN3 as [|E2]; [lia|]. rewrite E2. reflexivity.
Qed.

(** Quality with AVX2, only the height changes: rounding instead of truncation. *)
Lemma quality_v : s = PreferQuality -> avx2 c = true -> width store = width into ->
  exists a b, resize_u8_x86 c s L f N pool store into = Returned Ok a /\
    resize_u8 L f N pool store into = Returned Ok b /\ differ_by 0 1 N a b.
Proof.
  intros Es Ea Ew. apply compare_calls.
  - unfold traps. rewrite Ea. cbn [negb]. rewrite !andb_false_r. reflexivity.
  - intros x y ch Hx Hy Hc. unfold x86_resample, resample.
    replace (width store =? width into)%nat with true by lia.
    assert (Eh : height store <> height into) by (destruct Hd; lia). replace (height store =? height into)%nat with false by lia.
    cbn [negb]. unfold x86_v. rewrite Es, Ea. cbn [speed andb].
    pose proof (round_v_near VW P y x ch). lia.
Qed.

Lemma mild_windows t : averaging f = true -> 1 <= t <= 30 -> downscale_at_most t store into ->
  mild VW (height into) 60 /\ mild HW (width into) 60.
Proof.
  intros A Ht' [D1 D2]. destruct (valid_sides VC) as (S1 & S2).
  split; (eapply mild_weaken; [|apply averaging_mild with (t := t); auto; lia]); lia.
Qed.

(** Quality with AVX2, both directions. *)
Lemma quality_both : s = PreferQuality -> avx2 c = true -> N <> 3%nat -> averaging f = true -> downscale_at_most 30 store into ->
  exists a b, resize_u8_x86 c s L f N pool store into = Returned Ok a /\
    resize_u8 L f N pool store into = Returned Ok b /\ differ_by 0 2 N a b.
Proof.
  intros Es Ea HN3 A D. destruct (mild_windows 30 A ltac:(lia) D) as (MV & MH). destruct call_bounds as (HN & G & InV & InH & BP).
  apply compare_calls.
  - unfold traps. rewrite Ea. cbn [negb]. rewrite !andb_false_r. reflexivity.
  - intros x y ch Hx Hy Hc. unfold x86_resample, resample.
    set (q := if negb (height store =? height into)%nat then x86_v _ _ _ _ _ _ _ P else P).
    set (p := if negb (height store =? height into)%nat then resample_v 255 VW P else P).
    assert (PQ : forall x, p y x ch <= q y x ch <= p y x ch + 1).
    { intros x'. unfold p, q. destruct (negb (height store =? height into)%nat); [|lia].
      unfold x86_v. rewrite Es, Ea. cbn [speed andb]. apply round_v_near. }
    destruct (negb (width store =? width into)%nat).
    + unfold x86_h. rewrite Es. cbn [speed]. rewrite ?andb_false_r.
      pose proof (round_h_near HW (width store) (width into) InH p ch q 1 y x MH ltac:(lia) Hx (fun x' _ => PQ x')) as R.
      pose proof (vc_N _ _ _ _ _ VC).
      destruct N as [|[|[|[|]]]]; cbn [andb]; try lia.
    + specialize (PQ x). lia.
Qed.

(** Speed: the 16-bit arithmetic. *)
Lemma speed_v : s = PreferSpeed -> sse41 c = true \/ avx2 c = true -> averaging f = true -> width store = width into ->
  below_8 (height store) (height into) = true ->
  exists a b, resize_u8_x86 c s L f N pool store into = Returned Ok a /\
    resize_u8 L f N pool store into = Returned Ok b /\ differ_by 0 2 N a b.
Proof.
  intros Es Ea A Ew B. destruct call_bounds as (HN & G & InV & InH & BP). apply compare_calls.
  - unfold traps. replace (width store =? width into)%nat with true by lia. cbn [negb]. apply andb_false_r.
  - intros x y ch Hx Hy Hc. unfold x86_resample, resample.
    replace (width store =? width into)%nat with true by lia.
    assert (Eh : height store <> height into) by (destruct Hd; lia). replace (height store =? height into)%nat with false by lia.
    cbn [negb]. unfold x86_v. rewrite Es, B. cbn [speed andb].
    replace (sse41 c || avx2 c) with true by (destruct Ea as [->| ->]; rewrite ?orb_true_r; reflexivity).
    assert (D : Z.of_nat (height store) <= 8 * Z.of_nat (height into)) by (unfold below_8 in B; lia).
    destruct (valid_sides VC) as (S1 & _).
    pose proof (averaging_mild L f _ _ 8 A S1 ltac:(lia) D) as M. apply (mild_weaken _ _ _ 60) in M; [|lia].
    pose proof (lp_v_near VW (height store) (width store) (height into) P ch y x InV ltac:(intros; apply BP) M Hy ltac:(lia)). lia.
Qed.

Lemma speed_both : s = PreferSpeed -> sse41 c = true -> averaging f = true -> (N = 1 \/ N = 2)%nat ->
  below_8 (height store) (height into) = true -> below_8 (width store) (width into) = true ->
  exists a b, resize_u8_x86 c s L f N pool store into = Returned Ok a /\
    resize_u8 L f N pool store into = Returned Ok b /\ differ_by (-1) 5 N a b /\
    (height store = height into -> differ_by (-1) 2 N a b).
Proof.
  intros Es Ea A HN2 BV BH. destruct call_bounds as (HN & G & InV & InH & BP).
  assert (D : downscale_at_most 8 store into) by (unfold below_8 in *; split; lia).
  destruct (mild_windows 8 A ltac:(lia) D) as (MV & MH).
  assert (HT : traps c s N (width store) (width into) = false).
  { unfold traps. destruct HN2 as [-> | ->]; reflexivity. }
  rewrite (x86_call c s L f N pool store into) by assumption. rewrite (portable_call L f N pool store into) by assumption.
  do 2 eexists. split; [reflexivity|]. split; [reflexivity|].
  enough (K : forall x y ch, (x < width into)%nat -> (y < height into)%nat -> (ch < N)%nat ->
    let a := x86_resample c s N (width store) (height store) (width into) (height into) VW HW P y x ch in
    let b := resample 255 (negb (height store =? height into)%nat) (negb (width store =? width into)%nat) VW HW P y x ch in
    -1 <= a - b <= 5 /\ (height store = height into -> a - b <= 2)).
  { split; [|intros Eh]; apply differ_results; auto; intros; specialize (K x y c0); cbv zeta in K; fold VW HW P; lia. }
  intros x y ch Hx Hy Hc a b. unfold a, b, x86_resample, resample.
  set (q := if negb (height store =? height into)%nat then x86_v _ _ _ _ _ _ _ P else P).
  set (p := if negb (height store =? height into)%nat then resample_v 255 VW P else P).
  assert (PQ : forall x, (x < width store)%nat -> byte (p y x ch) /\ byte (q y x ch) /\ p y x ch <= q y x ch <= p y x ch + 2).
  { intros x' Hx'. unfold p, q. destruct (negb (height store =? height into)%nat).
    - unfold x86_v. rewrite Es, BV, Ea. cbn [speed andb orb]. split; [apply byte_resample_v|]. split; [apply byte_lp_v|].
      apply (lp_v_near VW (height store) (width store) (height into) P ch y x' InV ltac:(intros; apply BP) MV Hy Hx').
    - split; [apply BP|]. split; [apply BP|]. lia. }
  assert (PE : height store = height into -> q = p).
  { intros E. unfold p, q. replace (height store =? height into)%nat with true by lia. reflexivity. }
  destruct (Nat.eqb_spec (width store) (width into)) as [Ew|Ew]; cbn [negb].
  - specialize (PQ x ltac:(lia)). split; [lia|]. intros E. rewrite PE by assumption. lia.
  - replace (x86_h c s N (width store) (width into) HW q) with (lp_h HW q).
    + destruct (lp_h_near HW (width store) (width into) InH p ch q 2 y x MH ltac:(lia) Hx PQ) as (K1 & _).
      split; [lia|]. intros E. rewrite (PE E) in *.
      destruct (lp_h_near HW (width store) (width into) InH p ch p 0 y x MH ltac:(lia) Hx) as (K2 & K3); [|lia].
      intros x' Hx'. destruct (PQ x' Hx') as (Q1 & Q2 & Q3). split; [exact Q1|]. split; [exact Q2|]. lia.
    + unfold x86_h. rewrite Es, Ea, BH. destruct HN2 as [-> | ->]; reflexivity.
Qed.

(** The SSE4.1 vertical kernel: the vector part of every row is white. *)
Lemma sse_white x y ch : s = PreferQuality \/ below_8 (height store) (height into) = false ->
  avx2 c = false -> sse41 c = true -> averaging f = true ->
  width store = width into -> (x < width into)%nat -> (y < height into)%nat -> (ch < N)%nat ->
  (x * N + ch < 32 * ((width into * N - 1) / 32))%nat ->
  exists out, resize_u8_x86 c s L f N pool store into = Returned Ok out /\ sample N out x y ch = Some 255.
Proof.
  intros Hs Ha Hsse A Ew Hx Hy Hc Hin. destruct call_bounds as (HN & G & InV & InH & BP).
  assert (HT : traps c s N (width store) (width into) = false).
  { unfold traps. replace (width store =? width into)%nat with true by lia. cbn [negb]. apply andb_false_r. }
  rewrite (x86_call c s L f N pool store into) by assumption. eexists. split; [reflexivity|].
  rewrite result_sample by auto. f_equal. unfold x86_resample.
  replace (width store =? width into)%nat with true by lia.
  assert (Eh : height store <> height into) by (destruct Hd; lia). replace (height store =? height into)%nat with false by lia.
  cbn [negb]. unfold x86_v. replace (speed s && below_8 (height store) (height into)) with false.
  2:{ destruct Hs as [-> | ->]; [reflexivity|now rewrite andb_false_r]. }
  rewrite Ha, Hsse. cbn [andb]. unfold sse_v, undivided. rewrite Ew.
  replace (x * N + ch <? 32 * ((width into * N - 1) / 32))%nat with true by lia.
  destruct (valid_sides VC) as (S1 & _).
  destruct (averaging_windows L f _ _ y A S1 Hy) as (W1 & _).
  destruct (zsum_byte_bounds (wsize VW y) (wcoef VW y) (fun k => P (wstart VW y + k)%nat x ch) W1 ltac:(intros; apply BP)) as (B1 & _).
  unfold clampZ, sum_v. change (2 ^ 14) with 16384. change (picture_of N store) with P. change (vwin L f store into) with VW. lia.
Qed.

(** The AVX2 horizontal kernel of RGB images: enlarging repeats red and green of the first column. *)
Lemma rgb_first_column x y ch : avx2 c = true -> N = 3%nat -> averaging f = true -> height store = height into ->
  (width store < width into)%nat -> (x < width into)%nat -> (y < height into)%nat -> (ch < 2)%nat ->
  exists out, resize_u8_x86 c s L f N pool store into = Returned Ok out /\
    sample N out x y ch = sample N store 0 y ch.
Proof.
  intros Ha EN A Eh Hw Hx Hy Hc. destruct call_bounds as (HN & G & InV & InH & BP).
  assert (HT : traps c s N (width store) (width into) = false).
  { unfold traps. rewrite EN. reflexivity. }
  rewrite (x86_call c s L f N pool store into) by assumption. eexists. split; [reflexivity|].
  destruct (valid_good VC) as (Gs & _). destruct (vc_src _ _ _ _ _ VC) as (w0 & _).
  rewrite result_sample by (auto; lia). rewrite (good_sample N store 0 y ch Gs) by lia. f_equal.
  unfold x86_resample. replace (width store =? width into)%nat with false by lia.
  replace (height store =? height into)%nat with true by lia. cbn [negb]. rewrite EN at 1. unfold x86_h. rewrite Ha.
  destruct (valid_sides VC) as (_ & S2).
  assert (M : mild HW (width into) (2 * 1)) by (apply averaging_mild; auto; lia).
  pose proof (m_len _ _ _ M x Hx) as Ln. unfold avx_rgb_h.
  rewrite (zsum_ext _ _ (fun k => wcoef HW x k * P y 0%nat ch)).
  2:{ intros k Hk. fold HW P. fold HW in Hk. f_equal. unfold misread.
      replace (ch <? 2)%nat with true by lia. replace (2 * ((wsize HW x - 1) / 2) <=? k)%nat with true by (cbn [Nat.mul] in *; lia). reflexivity. }
  rewrite (zsum_const _ _ (P y 0%nat ch)) by reflexivity.
  pose proof (BP y 0%nat ch) as B. unfold byte in B.
  apply (const_pass_h HW 2 x 255); try lia.
  - intros k Hk. apply (m_pos _ _ _ M); auto.
  - apply (m_sum _ _ _ M); auto.
  - fold HW P. fold P in B. lia.
  - fold P. lia.
Qed.

(** Constant images, quality, AVX2. *)
Lemma quality_const v x y ch : s = PreferQuality -> avx2 c = true -> N <> 3%nat -> averaging f = true -> downscale_at_most 61 store into ->
  (forall sx sy, (sx < width store)%nat -> (sy < height store)%nat -> sample N store sx sy ch = Some v) ->
  (x < width into)%nat -> (y < height into)%nat -> (ch < N)%nat ->
  exists out, resize_u8_x86 c s L f N pool store into = Returned Ok out /\ sample N out x y ch = Some v.
Proof.
  intros Es Ea HN3 A [D1 D2] Hv Hx Hy Hc. destruct call_bounds as (HN & G & InV & InH & BP).
  assert (HT : traps c s N (width store) (width into) = false).
  { unfold traps. rewrite Ea. cbn [negb]. rewrite !andb_false_r. reflexivity. }
  rewrite (x86_call c s L f N pool store into) by assumption. eexists. split; [reflexivity|].
  rewrite result_sample by auto. f_equal.
  assert (Pv : forall sx sy, (sx < width store)%nat -> (sy < height store)%nat -> P sy sx ch = v).
  { intros sx sy H1 H2. apply picture_sample. apply Hv; assumption. }
  destruct (vc_src _ _ _ _ _ VC) as (w0 & h0 & _).
  assert (Bv : 0 <= v <= 255) by (rewrite <- (Pv 0%nat 0%nat w0 h0); pose proof (BP 0%nat 0%nat ch) as B; unfold byte in B; lia).
  destruct (valid_sides VC) as (S1 & S2).
  pose proof (averaging_mild L f _ _ 61 A S1 ltac:(lia) D2) as MV.
  pose proof (averaging_mild L f _ _ 61 A S2 ltac:(lia) D1) as MH.
  unfold x86_resample.
  set (q := if negb (height store =? height into)%nat then x86_v _ _ _ _ _ _ _ _ else _).
  assert (Q : forall sx, (sx < width store)%nat -> q y sx ch = v).
  { intros sx Hsx. unfold q. destruct (Nat.eqb_spec (height store) (height into)) as [E|E]; cbn [negb]; [apply Pv; lia|].
    unfold x86_v. rewrite Es, Ea. cbn [speed andb]. unfold round_v, sum_v.
    rewrite (zsum_const _ _ v) by (intros k Hk; apply Pv; auto; specialize (InV y Hy); fold VW in Hk |- *; lia).
    apply (const_pass_h _ 122 y 255); try lia.
    - intros k Hk. apply (m_pos _ _ _ MV); auto.
    - apply (m_sum _ _ _ MV); auto.
    - apply (m_len _ _ _ MV); auto. }
  destruct (Nat.eqb_spec (width store) (width into)) as [E|E]; cbn [negb]; [apply Q; lia|].
  replace (x86_h c s N (width store) (width into) (hwin L f store into) q) with (resample_h 255 HW q).
  - unfold resample_h. rewrite (zsum_const _ _ v) by (intros k Hk; apply Q; specialize (InH x Hx); lia).
    apply (const_pass_h _ 122 x 255); try lia.
    + intros k Hk. apply (m_pos _ _ _ MH); auto.
    + apply (m_sum _ _ _ MH); auto.
    + apply (m_len _ _ _ MH); auto.
  - unfold x86_h. rewrite Es. cbn [speed]. rewrite ?andb_false_r. destruct N as [|[|[|[|]]]]; try reflexivity. lia.
Qed.
End Calls.
