(** The x86 passes return no error value and do not depend on the pool, for all inputs. *)
From Coq Require Import ZArith List Bool.
From Verif Require Import Base BaseProofs ImageStore FixedPoint Dispatch Resize NoFail F32 Weights Sampler Api Alpha PoolProofs ImageProofs
  Simd X86Vertical X86VerticalLp X86Horizontal X86Dispatch.

Lemma nf_loadm n mem off : nofail (load n mem off). Proof. unfold load. nf. Qed.
Lemma nf_loadw n mem off : nofail (load_w n mem off). Proof. unfold load_w. nf. Qed.
Lemma nf_pair mem off : nofail (read_pair mem off). Proof. unfold read_pair. nf. Qed.
Lemma nf_storeb d off v : nofail (store_bytes d off v). Proof. unfold store_bytes. nf. Qed.
Lemma nf_load256 mem off : nofail (load256 mem off). Proof. unfold load256. repeat first [apply nf_loadm | progress nf]. Qed.
Lemma nf_groups {G} (f : G -> nat -> outcome G) st i : (forall g i, nofail (f g i)) -> nofail (map_groups f st i).
Proof. intro H. revert i. induction st as [|g st IH]; intro i; cbn [map_groups]; [nf|]. nf; [apply H|apply IH]. Qed.
Ltac nfx := repeat first
  [ apply nf_loadm | apply nf_loadw | apply nf_pair | apply nf_storeb | apply nf_load256
  | apply nf_groups; intros | progress nf | progress cbv beta zeta ].
Lemma nf_taps {S} b st sl (body : S -> nat -> outcome S) jx s : (forall s x, nofail (body s x)) -> nofail (taps b st sl body jx s).
Proof. intros. unfold taps. nfx. auto. Qed.
Ltac headof t := match t with ?f _ => headof f | ?f => f end.
Ltac nfall := repeat first [ progress nfx | apply nf_taps; intros
  | match goal with |- nofail ?t => let h := headof t in unfold h end ].
Lemma nf_vsse b src dst ss ws : nofail (vertical_sse_row b src dst ss ws).
Proof. nfall. Qed.
Lemma nf_vavx b src dst ss ws : nofail (vertical_avx_row b src dst ss ws).
Proof. nfall. Qed.
Lemma nf_vsselp b src dst ss ws : nofail (vertical_sse_row_lp b src dst ss ws).
Proof. nfall. Qed.
Lemma nf_vavxlp b src dst ss ws : nofail (vertical_avx_row_lp b src dst ss ws).
Proof. nfall. Qed.
Lemma nf_runv k b src dst ss ws : nofail (run_v k b src dst ss ws).
Proof. destruct k; cbn [run_v]; [apply nf_column_handler|apply nf_vsse|apply nf_vsselp|apply nf_vavx|apply nf_vavxlp]. Qed.
Lemma nf_hpixel k src b ws : nofail (h_pixel k src b ws).
Proof. destruct k; cbn [h_pixel]; nfall. Qed.
Lemma nf_hrow N p src dst fw : (forall s b w, nofail (p s b w)) -> nofail (hrow N p src dst fw).
Proof. intro H. unfold hrow. nfx. apply H. Qed.
Lemma nf_hrow4 N p src ss dst ds fw : (forall s b w, nofail (p s b w)) -> nofail (hrow4 N p src ss dst ds fw).
Proof. intro H. unfold hrow4. repeat first [apply H | progress nfx | unfold split_at]. Qed.
Lemma nf_runh1 N k fw src dst : nofail (run_h1 N k fw src dst).
Proof. unfold run_h1. destruct k; try (apply nf_hrow; intros; apply nf_hpixel). apply nf_row_handler. Qed.
Lemma nf_runh4 N k fw src ss dst ds : nofail (run_h4 N k fw src ss dst ds).
Proof. unfold run_h4. destruct k; try (apply nf_hrow4; intros; apply nf_hpixel). apply nf_row_handler_4. Qed.
Section E.
Variables (c : cpu) (s : strategy) (N : nat).
Lemma nf_x86_hpass fw pool im into : nofail (x86_hpass c s N fw pool im into).
Proof.
  unfold x86_hpass. destruct (negb _); [nf|]. unfold horizontal_dispatch.
  repeat first [apply nf_numapprox | apply nf_runh4 | apply nf_runh1 | progress nf].
Qed.
Lemma nf_x86_vpass fw pool im into : nofail (x86_vpass c s N fw pool im into).
Proof.
  unfold x86_vpass. destruct (negb _); [nf|]. unfold vertical_dispatch.
  repeat first [apply nf_numapprox | apply nf_runv | progress nf].
Qed.
Lemma x86_hpass_pool fw p im into : pool_ok p -> x86_hpass c s N fw p im into = x86_hpass c s N fw None im into.
Proof.
  intro HP. unfold x86_hpass. destruct (negb _); auto. destruct (numerical_approximation _ 0 fw) as [a| |]; cbn [bind]; auto.
  unfold horizontal_dispatch.
  destruct (chunks_exact_o (stride_of N into * 4) (buf into)) as [d4| |]; cbn [bind]; auto.
  destruct (chunks_exact_o (stride_of N im * 4) (buf im)) as [s4| |]; cbn [bind]; auto.
  rewrite (for_each_any p) by (auto; intros; apply nf_runh4).
  destruct (for_each None _ _ _ _) as [d4'| |]; cbn [bind]; auto.
  destruct (chunks_exact_o (stride_of N into) _) as [d1| |]; cbn [bind]; auto.
  destruct (chunks_exact_o (stride_of N im) _) as [s1| |]; cbn [bind]; auto.
  rewrite (for_each_any p) by (auto; intros; apply nf_runh1). reflexivity.
Qed.
Lemma x86_vpass_pool fw p im into : pool_ok p -> x86_vpass c s N fw p im into = x86_vpass c s N fw None im into.
Proof.
  intro HP. unfold x86_vpass. destruct (negb _); auto. destruct (numerical_approximation _ 0 fw) as [a| |]; cbn [bind]; auto.
  unfold vertical_dispatch.
  destruct (chunks_exact_o _ _) as [rows| |]; cbn [bind]; auto.
  rewrite (for_each_any p); auto. intros d y.
  repeat first [apply nf_runv | progress nf].
Qed.
Variables (L : libm) (f : resampling_function).
Variables (pre : pool_t -> image Z -> image Z -> outcome (image Z))
  (un : pool_t -> image Z -> outcome (image Z)) (need : image Z -> outcome bool).
Lemma x86_passes_nofail : passes_nofail (x86_engine c s L f N pre un need).
Proof. constructor; intros; [apply nf_x86_vpass|apply nf_x86_hpass]. Qed.
Lemma x86_pool_blind : pool_blind (x86_engine c s L f N pre un need).
Proof. constructor; intros; [now apply x86_vpass_pool|now apply x86_hpass_pool]. Qed.
End E.
