(** Model of /repo/src/color_group.rs: the struct ColorGroup<COMPS, J>, its
    operators and the load/store macros, generic in the accumulator type J.
    `unimplemented!()` (COMPS outside 1..4) is [Panic]. *)
From Verif Require Import Base.

(** struct ColorGroup, 36-41. *)
Record cg (J : Type) : Type := mkCG { cr : J; cgr : J; cb : J; ca : J }.
Arguments mkCG {J}. Arguments cr {J}. Arguments cgr {J}. Arguments cb {J}. Arguments ca {J}.

(** dup, 63-70. *)
Definition cg_dup {J} (v : J) : cg J := mkCG v v v v.

(** The recurring "only the first COMPS lanes are combined" shape of the
    operators. [f] combines lane of self and lane of rhs. *)
Definition cg_lanes2 {J} (comps : nat) (f : J -> J -> J) (s o : cg J) : outcome (cg J) :=
  match comps with
  | 1 => Done (mkCG (f (cr s) (cr o)) (cgr s) (cb s) (ca s))
  | 2 => Done (mkCG (f (cr s) (cr o)) (f (cgr s) (cgr o)) (cb s) (ca s))
  | 3 => Done (mkCG (f (cr s) (cr o)) (f (cgr s) (cgr o)) (f (cb s) (cb o)) (ca s))
  | 4 => Done (mkCG (f (cr s) (cr o)) (f (cgr s) (cgr o)) (f (cb s) (cb o)) (f (ca s) (ca o)))
  | _ => Panic
  end.

(** impl Mul<J>, 73-93. *)
Definition cg_mul {J} (mul : J -> J -> J) (comps : nat) (s : cg J) (k : J) : outcome (cg J) :=
  match comps with
  | 1 => Done (mkCG (mul (cr s) k) (cgr s) (cb s) (ca s))
  | 2 => Done (mkCG (mul (cr s) k) (mul (cgr s) k) (cb s) (ca s))
  | 3 => Done (mkCG (mul (cr s) k) (mul (cgr s) k) (mul (cb s) k) (ca s))
  | 4 => Done (mkCG (mul (cr s) k) (mul (cgr s) k) (mul (cb s) k) (mul (ca s) k))
  | _ => Panic
  end.

(** impl Add, 232-257. *)
Definition cg_add {J} (add : J -> J -> J) (comps : nat) (s o : cg J) : outcome (cg J) :=
  cg_lanes2 comps add s o.

(** impl AddAssign, 359-381 (leaves self unchanged for COMPS outside 1..4,
    where no caller exists; modelled as Panic like the other operators). *)
Definition cg_add_assign {J} (add : J -> J -> J) (comps : nat) (s o : cg J) : outcome (cg J) :=
  cg_lanes2 comps add s o.

(** impl MulAdd, 327-357: lane-wise mlaf(self, a, b); [mlaf] is a parameter
    because /repo/src/mlaf.rs 32-61 compiles to fused or unfused multiply-add. *)
Definition cg_mul_add {J} (mlaf : J -> J -> J -> J) (comps : nat) (s a : cg J) (b : J)
  : outcome (cg J) :=
  cg_lanes2 comps (fun x y => mlaf x y b) s a.

(** saturate_narrow, 100-134: COMPS lanes converted, the others set to default. *)
Definition cg_narrow {J V} (sat : J -> V) (dflt : V) (comps : nat) (s : cg J) : cg V :=
  match comps with
  | 1 => mkCG (sat (cr s)) dflt dflt dflt
  | 2 => mkCG (sat (cr s)) (sat (cgr s)) dflt dflt
  | 3 => mkCG (sat (cr s)) (sat (cgr s)) (sat (cb s)) dflt
  | _ => mkCG (sat (cr s)) (sat (cgr s)) (sat (cb s)) (sat (ca s))
  end.

(** load_color_group_with_offset!, 505-539; load_color_group!, 467-501, is the
    case offset 0 (with get_unchecked in place of checked indexing). [as_] is
    the sample-to-accumulator cast. *)
Definition load_cg {T J} (as_ : T -> J) (zero : J) (comps : nat) (s : list T) (off : nat)
  : outcome (cg J) :=
  match comps with
  | 1 => r <- idx s off ;; Done (mkCG (as_ r) zero zero zero)
  | 2 => r <- idx s off ;; g <- idx s (off + 1) ;; Done (mkCG (as_ r) (as_ g) zero zero)
  | 3 => r <- idx s off ;; g <- idx s (off + 1) ;; b <- idx s (off + 2) ;;
         Done (mkCG (as_ r) (as_ g) (as_ b) zero)
  | 4 => r <- idx s off ;; g <- idx s (off + 1) ;; b <- idx s (off + 2) ;; a <- idx s (off + 3) ;;
         Done (mkCG (as_ r) (as_ g) (as_ b) (as_ a))
  | _ => Panic
  end.

(** fast_store_color_group!, 543-556 and fast_mixed_store_color_group!, 560-573
    (the latter applies to_mixed first): overwrite the first lanes of the chunk. *)
Definition store_cg {T} (comps : nat) (g : cg T) (s : list T) : outcome (list T) :=
  s <- set_idx s 0 (cr g) ;;
  s <- (if 1 <? comps then set_idx s 1 (cgr g) else Done s) ;;
  s <- (if 2 <? comps then set_idx s 2 (cb g) else Done s) ;;
  (if comps =? 4 then set_idx s 3 (ca g) else Done s).
