(** Property theorems for the packed 30-bit formats on every processor, without overflow
    conditions: more of C33 and C86. *)
From Coq Require Import ZArith List Bool Lia ZifyBool ZifyNat ZifyN Permutation.
From Verif Require Import Base BaseProofs ImageStore Dispatch Resize F32 Weights Sampler Api Spec SpecApi
  SamplerProofs QuantSums ApiProofs Witness PoolProofs
  Ar30 SpecAr30 Ar30Calls Properties5 X86Ar30 SpecX86Ar30 Properties19 X86Ar30Success.
Import ListNotations.
Local Open Scope nat_scope.

(** The condition of C33: strides are honoured except when only the height changes. *)
Definition strides_usable (sw dw ss ds : nat) : Prop := sw = dw -> ss = ds.

(** Every valid convolving call returns [Ok] and changes visible bytes only. *)
Theorem C86_valid_calls_succeed_partial : forall t sse o L f pool src ss sw sh dst ds dw dh,
  valid30 f src ss sw sh dst ds dw dh -> f <> Nearest -> sizes_differ sw sh dw dh -> pool_ok pool -> strides_usable sw dw ss ds ->
  exists out, resize30_x86 t sse L f pool src ss sw sh dst ds dw dh o = BytesReturned Ok out /\ only_visible_differ ds dw dst out.
Proof.
  intros t sse o L f pool src ss sw sh dst ds dw dh V Hf Hc HP Hs. rewrite resize30_x86_impl.
  destruct (ar30_total t o sse L f pool src ss sw sh dst ds dw dh V Hf Hc HP Hs) as (out & R & O & _). exists out. auto.
Qed.
Print Assumptions C86_valid_calls_succeed_partial.

(** Two calls whose sources show the same picture, whatever their strides, paddings, alpha
    bits, destinations and schedules, write the same visible bytes. *)
Theorem C86_layouts_partial : forall t sse o L f pool pool' src ss src' ss' sw sh dst ds dst' ds' dw dh,
  valid30 f src ss sw sh dst ds dw dh -> valid30 f src' ss' sw sh dst' ds' dw dh ->
  f <> Nearest -> sizes_differ sw sh dw dh -> pool_ok pool -> pool_ok pool' ->
  strides_usable sw dw ss ds -> strides_usable sw dw ss' ds' ->
  (forall x y c, x < sw -> y < sh -> c < 3 -> picture30 t o src ss y x c = picture30 t o src' ss' y x c) ->
  exists out out',
    resize30_x86 t sse L f pool src ss sw sh dst ds dw dh o = BytesReturned Ok out /\
    resize30_x86 t sse L f pool' src' ss' sw sh dst' ds' dw dh o = BytesReturned Ok out' /\
    only_visible_differ ds dw dst out /\ only_visible_differ ds' dw dst' out' /\
    forall y j, y < dh -> j < dw * 4 -> nth (y * ds + j) out 0%Z = nth (y * ds' + j) out' 0%Z.
Proof.
  intros t sse o L f pool pool' src ss src' ss' sw sh dst ds dst' ds' dw dh V V' Hf Hc HP HP' Hs Hs' A. rewrite !resize30_x86_impl.
  destruct (ar30_total t o sse L f pool src ss sw sh dst ds dw dh V Hf Hc HP Hs) as (out & R & O & B).
  destruct (ar30_total t o sse L f pool' src' ss' sw sh dst' ds' dw dh V' Hf Hc HP' Hs') as (out' & R' & O' & B').
  exists out, out'. split; [exact R|]. split; [exact R'|]. split; [exact O|]. split; [exact O'|].
  intros y j Hy Hj. rewrite B, B' by assumption. destruct (valid30_sides _ _ _ _ _ _ _ _ _ V) as [Sv Sh].
  apply result30_local; auto.
Qed.
Print Assumptions C86_layouts_partial.

(** The same for the portable kernels. *)
Theorem C33_valid_calls_succeed_partial : forall t o L f pool src ss sw sh dst ds dw dh,
  valid30 f src ss sw sh dst ds dw dh -> f <> Nearest -> sizes_differ sw sh dw dh -> pool_ok pool -> strides_usable sw dw ss ds ->
  exists out, resize30 t L f pool src ss sw sh dst ds dw dh o = BytesReturned Ok out /\ only_visible_differ ds dw dst out.
Proof.
  intros t o L f pool src ss sw sh dst ds dw dh V Hf Hc HP Hs. rewrite <- C86_portable_without_sse.
  now apply C86_valid_calls_succeed_partial.
Qed.
Print Assumptions C33_valid_calls_succeed_partial.
Theorem C33_layouts_partial : forall t o L f pool pool' src ss src' ss' sw sh dst ds dst' ds' dw dh,
  valid30 f src ss sw sh dst ds dw dh -> valid30 f src' ss' sw sh dst' ds' dw dh ->
  f <> Nearest -> sizes_differ sw sh dw dh -> pool_ok pool -> pool_ok pool' ->
  strides_usable sw dw ss ds -> strides_usable sw dw ss' ds' ->
  (forall x y c, x < sw -> y < sh -> c < 3 -> picture30 t o src ss y x c = picture30 t o src' ss' y x c) ->
  exists out out',
    resize30 t L f pool src ss sw sh dst ds dw dh o = BytesReturned Ok out /\
    resize30 t L f pool' src' ss' sw sh dst' ds' dw dh o = BytesReturned Ok out' /\
    only_visible_differ ds dw dst out /\ only_visible_differ ds' dw dst' out' /\
    forall y j, y < dh -> j < dw * 4 -> nth (y * ds + j) out 0%Z = nth (y * ds' + j) out' 0%Z.
Proof. intros t o L f pool pool' src ss src' ss' sw sh dst ds dst' ds' dw dh. rewrite <- !C86_portable_without_sse. apply C86_layouts_partial. Qed.
Print Assumptions C33_layouts_partial.

(** A picture shown by buffers of different strides, paddings and alpha bits. *)
Example C86_layouts_nonvacuous :
  let a := [1; 2; 3; 4; 5; 6; 7; 8; 9; 10; 11; 12]%Z in
  let b := [1; 2; 3; 196; 5; 6; 7; 200; 9; 10; 11; 76]%Z in
  valid30 Lanczos3 (a ++ a) 12 3 2 (repeat 0%Z 54) 18 4 3 /\ valid30 Lanczos3 ((b ++ [0; 0; 0; 0]) ++ b ++ [7; 7; 7; 7])%Z 16 3 2 (repeat 9%Z 48) 16 4 3 /\
  pool_ok (Some (fun _ n => rev (seq 0 n))) /\ sizes_differ 3 2 4 3 /\ strides_usable 3 4 12 18 /\
  (forall x y c, x < 3 -> y < 2 -> c < 3 ->
    picture30 Ar30 HostOrder (a ++ a) 12 y x c = picture30 Ar30 HostOrder ((b ++ [0; 0; 0; 0]) ++ b ++ [7; 7; 7; 7])%Z 16 y x c).
Proof.
  cbv zeta. split; [cbn [app]; valid30_tac|]. split; [cbn [app]; valid30_tac|]. split; [apply pool_two|]. split; [left; lia|].
  split; [intro; lia|].
  intros x y c Hx Hy Hc. destruct x as [|[|[|x]]]; try lia; destruct y as [|[|y]]; try lia; destruct c as [|[|[|c]]]; try lia; reflexivity.
Qed.

(** Where only the height changes, strides that differ still fail on x86. *)
Theorem C86_strides_refuted : forall L, exists src dst,
  valid30 Bilinear src 4 1 1 dst 6 1 2 /\
  resize_ar30_x86 true L Bilinear None src 4 1 1 dst 6 1 2 HostOrder = BytesPanicked.
Proof.
  intro L. exists (white30 Ar30 HostOrder), (repeat 0%Z 12).
  split; [vm_compute white30; valid30_tac|]. vm_compute; reflexivity.
Qed.
Print Assumptions C86_strides_refuted.
