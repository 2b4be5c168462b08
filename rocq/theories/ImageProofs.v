(** Constructors, validation, copies; error table of the resize drivers. *)
From Coq Require Import ZifyBool ZifyNat ZifyN.
From Verif Require Export SpecApi.
From Verif Require Import Base BaseProofs ImageStore ColorGroup FixedPoint Dispatch Resize Spec
  KernelProofs DispatchProofs ResizeProofs NoFail.

Lemma good_addressable {T} N (im : image T) : good N im -> addressable N im.
Proof. intros [H1 H2 H3 H4] x y c Hx Hy Hc. rewrite H4. nia. Qed.

(** ** Constructors *)
Lemma from_slice_spec {T} N (s : list T) w h :
  fits_usize (w * h * N) ->
  (length s = w * h * N ->
     exists im, from_slice N s w h = Done im /\ buf im = s /\ width im = w /\ height im = h /\
       channels im = N /\ bit_depth im = 0 /\ validate N im = Done tt /\ addressable N im) /\
  (length s <> w * h * N -> from_slice N s w h = Fail (BufferMismatch (w * h * N) w h N (length s))).
Proof.
  intro F. unfold fits_usize in F.
  assert (E : N <> 0 -> wmul (wmul w h) N = w * h * N).
  { intro HN. rewrite (wmul_small w h) by nia. apply wmul_small. lia. }
  assert (E' : wmul (wmul w h) N = w * h * N).
  { destruct (Nat.eq_dec N 0) as [->|HN]; [|auto]. unfold wmul. rewrite N.mul_0_r. cbn. lia. }
  unfold from_slice. rewrite E'. split; intro L.
  - replace (length s =? w * h * N) with true by lia. cbn [negb].
    eexists; split; [reflexivity|]. cbn [buf width height channels bit_depth]. repeat (split; [reflexivity|]).
    split.
    + unfold validate, stride_of. cbn [stride width height buf].
      assert (V : length s = wmul (if wmul w N =? 0 then wmul w N else wmul w N) h).
      { destruct (wmul w N =? 0); (destruct (Nat.eq_dec h 0) as [->|Hh];
          [unfold wmul; rewrite N.mul_0_r; cbn; lia|
           rewrite (wmul_small w N) by nia; rewrite wmul_small by nia; nia]). }
      rewrite <- V, Nat.eqb_refl. cbn [negb]. rewrite Nat.ltb_irrefl. reflexivity.
    + intros x y c Hx Hy Hc. cbn [stride width height buf] in *. rewrite (wmul_small w N) by nia. rewrite L.
      assert (x * N + c < w * N) by nia. assert (S y * (w * N) <= h * (w * N)) by (apply Nat.mul_le_mono_r; lia). nia.
  - replace (length s =? w * h * N) with false by lia. reflexivity.
Qed.

Lemma wmul_pow32 : wmul (N.to_nat (2 ^ 32)) (N.to_nat (2 ^ 32)) = 0.
Proof. unfold wmul. rewrite !N2Nat.id. reflexivity. Qed.

Lemma from_slice_wrap : exists (w h : nat) (im : image Z),
  from_slice 1 [] w h = Done im /\ validate 1 im = Done tt /\ 0 < w /\ 0 < h /\
  sample 1 im 0 0 0 = None.
Proof.
  exists (N.to_nat (2 ^ 32)), (N.to_nat (2 ^ 32)).
  unfold from_slice. rewrite wmul_pow32. replace (wmul 0 1) with 0 by reflexivity.
  cbn [length Nat.eqb negb]. eexists; split; [reflexivity|].
  assert (E : wmul (N.to_nat (2 ^ 32)) 1 = N.to_nat (2 ^ 32)).
  { unfold wmul. rewrite N2Nat.id. reflexivity. }
  rewrite E. split; [|split; [lia|split; [lia|reflexivity]]].
  unfold validate, stride_of. cbn [stride width height buf].
  replace (N.to_nat (2 ^ 32) =? 0) with false by lia. rewrite wmul_pow32.
  cbn [length Nat.eqb negb]. rewrite E, Nat.ltb_irrefl. reflexivity.
Qed.

(** ** Validation *)
Lemma validate_addressable {T} N (im : image T) :
  validate N im = Done tt -> 0 < N -> fits_usize (stride im * height im) -> fits_usize (width im * N) ->
  addressable N im.
Proof.
  intros V HN F1 F2 x y c Hx Hy Hc.
  assert (G : good N im) by (apply validate_good; auto; lia).
  now apply good_addressable.
Qed.

Lemma validate_wrap : exists im : image Z,
  validate 1 im = Done tt /\ 0 < width im /\ 0 < height im /\
  check_image_size_overflow (width im) (height im) 1 = false /\ sample 1 im 0 0 0 = None.
Proof.
  exists (mkImage [] 1 1 2 (N.to_nat (2 ^ 63)) 0). cbn [width height].
  split; [|split; [lia|split; [lia|split; [reflexivity|reflexivity]]]].
  unfold validate, stride_of. cbn [stride width height buf].
  replace (N.to_nat (2 ^ 63) =? 0) with false by lia.
  assert (E : wmul (N.to_nat (2 ^ 63)) 2 = 0) by (unfold wmul; rewrite N2Nat.id; reflexivity).
  rewrite E. cbn [length Nat.eqb negb].
  assert (E1 : wmul 1 1 = 1) by reflexivity. rewrite E1.
  replace (N.to_nat (2 ^ 63) <? 1) with false by lia. reflexivity.
Qed.

(** A stride of zero is rejected for every non-empty row. *)
Lemma validate_stride0 {T} N (im : image T) :
  stride im = 0 -> 0 < width im -> 0 < N -> fits_usize (width im * N) ->
  length (buf im) = width im * N * height im -> fits_usize (width im * N * height im) ->
  validate N im = Fail (InvalidStride (width im * N) 0).
Proof.
  intros H0 Hw HN F L FL. unfold validate, stride_of, fits_usize in *. rewrite H0. cbn [Nat.eqb].
  rewrite (wmul_small (width im) N) by lia. rewrite (wmul_small (width im * N)) by lia.
  replace (length (buf im) =? width im * N * height im) with true by lia. cbn [negb].
  replace (0 <? width im * N) with true by nia. reflexivity.
Qed.

(** ** copied_to_mut *)
(** Row y of the destination receives the first min(src stride, dst stride)
    elements of row y of the source. *)
Lemma copied_to_mut_spec {T} N (d0 : T) (im into : image T) :
  0 < N -> good N im -> good N into -> height im = height into ->
  copied_to_mut N im into =
  Done (set_buf into (pixmap d0 (height into) (stride into) (Nat.min (stride im) (stride into))
    (fun y j => nth (y * stride im + j) (buf im) d0) (buf into))).
Proof.
  intros HN Gs Gi Hh. unfold copied_to_mut.
  rewrite (good_stride_of N im HN Gs), (good_stride_of N into HN Gi).
  pose proof (good_stride_pos N im HN Gs) as Ps. pose proof (good_stride_pos N into HN Gi) as Pi.
  rewrite !chunks_exact_o_ok by assumption. cbn [bind].
  rewrite (zip_mut_spec _ (fun d s => copy_row d s)) by (intros; reflexivity). cbn [bind].
  f_equal. apply set_buf_ext.
  assert (Ls : length (buf im) = height into * stride im) by (rewrite (g_len _ _ Gs); lia).
  assert (Li : length (buf into) = height into * stride into) by apply (g_len _ _ Gi).
  rewrite (chunks_rem_exact (stride into) (buf into) (height into) Pi Li).
  unfold unchunk. rewrite app_nil_r.
  rewrite <- (pixmap_rows d0 (height into) (stride into)) by (auto; lia).
  f_equal. apply list_ext. intro y. rewrite nth_error_zip_result, !nth_error_chunks, nth_error_map_seq.
  rewrite Ls, Li, !Nat.div_mul by lia. cbn [Nat.add].
  destruct (y <? height into) eqn:E; [|reflexivity]. f_equal.
  assert (Lc : length (chunk (stride im) (buf im) y) = stride im) by (apply chunk_length; rewrite Ls, Nat.div_mul; lia).
  assert (Ld : length (chunk (stride into) (buf into) y) = stride into) by (apply chunk_length; rewrite Li, Nat.div_mul; lia).
  unfold copy_row, rowmap. rewrite Lc, Ld. f_equal. apply list_ext. intro j.
  rewrite nth_error_firstn, nth_error_map_seq.
  destruct (j <? Nat.min (stride im) (stride into)) eqn:Ej; [|reflexivity].
  rewrite nth_error_chunk. replace (j <? stride im) with true by lia.
  apply nth_error_nth_lt. rewrite Ls. nia.
Qed.

(** ** copied / to_immutable *)
Lemma copied_dense {T} N (im : image T) :
  0 < N -> good N im -> stride im = width im * N -> fits_usize (width im * N) ->
  good N (copied N im) /\ same_picture N im (copied N im).
Proof.
  intros HN [H1 H2 H3 H4] Hs F. unfold fits_usize in F.
  assert (E : wmul (width im) N = width im * N) by (apply wmul_small; lia).
  unfold copied. rewrite E. split.
  - constructor; cbn; auto. now rewrite H4, Hs.
  - repeat split. intros x y c Hx Hy Hc. unfold sample. cbn [stride buf]. now rewrite Hs.
Qed.

(** ** Error table *)
Lemma overflow_too_large w h c : h <> 0 -> check_image_size_overflow w h c = too_large w h c.
Proof.
  intro Hh. unfold check_image_size_overflow, too_large, mul_overflows, usize_mod.
  destruct (2 ^ 64 <=? N.of_nat w * N.of_nat c)%N eqn:E.
  - nia.
  - rewrite wmul_small by (unfold usize_mod; lia). nia.
Qed.

Lemma checks_table {T} N nd (store into : image T) :
  checks N nd store into =
  match first_error (refusal_table N nd store into) with Some e => Fail e | None => Done tt end.
Proof.
  unfold checks, validate, first_error, refusal_table.
  change (@stride_of T) with (@row_len T). change wmul with mulmod.
  cbn [find fst].
  destruct (negb (length (buf into) =? _)); [reflexivity|].
  destruct (stride into <? _); [reflexivity|]. cbn [bind].
  destruct (negb (length (buf store) =? _)); [reflexivity|].
  destruct (stride store <? _); [reflexivity|]. cbn [bind].
  destruct ((width store =? 0) || (height store =? 0) || (width into =? 0) || (height into =? 0)) eqn:E; [reflexivity|].
  rewrite !overflow_too_large by lia.
  destruct (too_large (width store) _ _); [reflexivity|].
  destruct (too_large (width into) _ _); [reflexivity|].
  replace (negb ((1 <=? bit_depth into) && (bit_depth into <=? 16))) with ((bit_depth into =? 0) || (16 <? bit_depth into)) by lia.
  destruct (nd && _); reflexivity.
Qed.

(** An engine whose passes return no error value. *)
Record passes_nofail {T F} (E : engine T F) : Prop := mkPNF {
  pnf_v : forall fw pool a b, nofail (vconv E fw pool a b);
  pnf_h : forall fw pool a b, nofail (hconv E fw pool a b)
}.

Lemma from_slice_exact {T} N (z : T) w h : exists im,
  from_slice N (repeat z (wmul (wmul w h) N)) w h = Done im.
Proof. unfold from_slice. rewrite repeat_length, Nat.eqb_refl. cbn. eexists; reflexivity. Qed.

Definition ok_or_panic {T} (r : callres T) : Prop := r = Panicked \/ exists b, r = Returned Ok b.

Lemma try_okp {T A} (m : outcome A) (into : image T) k :
  nofail m -> (forall a, ok_or_panic (k a)) -> ok_or_panic (try m into k).
Proof.
  intros H K. destruct m as [a|e|]; cbn [try]; [apply K|exfalso; now apply (H e)|left; reflexivity].
Qed.
Lemma okp_ok {T} (b : image T) : ok_or_panic (Returned Ok b). Proof. right; eauto. Qed.
Lemma okp_panic {T} : ok_or_panic (@Panicked T). Proof. left; reflexivity. Qed.
Lemma nofail_alloc {T} N (z : T) w h : nofail (from_slice N (repeat z (wmul (wmul w h) N)) w h).
Proof. destruct (from_slice_exact N z w h) as [im ->]. apply nofail_Done. Qed.

(** A plain resize that is not refused returns Ok (or panics). *)
Lemma generic_resize_cases {T F} N (E : engine T F) pool store into :
  passes_nofail E ->
  match first_error (refusal_table N (needs_depth E) store into) with
  | Some e => generic_resize N E pool store into = Returned (Err e) into
  | None => ok_or_panic (generic_resize N E pool store into)
  end.
Proof.
  intros [PV PH]. unfold generic_resize. rewrite checks_table.
  destruct (first_error _) as [e|]; [reflexivity|]. cbn [try].
  repeat first [ apply okp_ok | apply okp_panic | apply try_okp; [|intro; cbv zeta]
    | apply nf_copied_to_mut | apply nf_nearest | apply nofail_alloc | apply PV | apply PH
    | match goal with |- ok_or_panic (if ?b then _ else _) => destruct b end | progress cbv zeta ].
Qed.

Record alpha_nofail {T F} (E : engine T F) : Prop := mkANF {
  anf_pre : forall pool a b, nofail (premul E pool a b);
  anf_un : forall pool a, nofail (unpremul E pool a);
  anf_need : forall a, nofail (alpha_needed E a)
}.

Lemma premultiply_stage_nofail {T F} N (E : engine T F) pool r store into :
  alpha_nofail E -> nofail (premultiply_stage N E pool r store into).
Proof.
  intros [A1 A2 A3]. unfold premultiply_stage. destruct r; [|apply nofail_Done].
  apply nofail_bind; [apply A3|]. intros [|]; [|apply nofail_Done].
  destruct (from_slice_exact N (dflt E) (width store) (height store)) as [ns ->]. cbn [bind].
  apply nofail_bind; [apply A1|]. intro. apply nofail_Done.
Qed.

Lemma unpremultiply_stage_cases {T F} (E : engine T F) pool r has into :
  alpha_nofail E -> ok_or_panic (unpremultiply_stage E pool r has into).
Proof.
  intros [A1 A2 A3]. unfold unpremultiply_stage. destruct (r && has); [|apply okp_ok].
  apply try_okp; [apply A2|]. intro. apply okp_ok.
Qed.

Lemma generic_resize_with_alpha_cases {T F} N (E : engine T F) pool r store into :
  passes_nofail E -> alpha_nofail E ->
  match first_error (refusal_table N (needs_depth E) store into) with
  | Some e => generic_resize_with_alpha N E pool r store into = Returned (Err e) into
  | None => ok_or_panic (generic_resize_with_alpha N E pool r store into)
  end.
Proof.
  intros [PV PH] AN. unfold generic_resize_with_alpha. rewrite checks_table.
  destruct (first_error _) as [e|]; [reflexivity|]. cbn [try].
  unfold forward_resize_with_alpha, forward_resize_vertical_with_alpha, forward_resize_horizontal_with_alpha.
  repeat first [ apply okp_ok | apply okp_panic | apply try_okp; [|intro; cbv zeta]
    | apply nf_copied_to_mut | apply nf_nearest | apply nofail_alloc | apply PV | apply PH
    | apply premultiply_stage_nofail; exact AN | apply unpremultiply_stage_cases; exact AN
    | match goal with |- ok_or_panic (if ?b then _ else _) => destruct b
        | |- ok_or_panic (let '(_, _) := ?p in _) => destruct p end | progress cbv zeta ].
Qed.
