(** Model of the x86 vector registers and of the intrinsics of core::arch::x86_64
    that the 8-bit kernels under /repo/src/sse and /repo/src/avx2 use.

    A 128-bit register is the list of its 16 bytes, lowest address first, each in
    [0, 256).  A 256-bit register is its two 128-bit lanes.  Every operation follows
    the pseudo code of Intel's intrinsics guide; this file is part of the trusted
    reading of the code (what the processor does), not of the code itself. *)
From Verif Require Import Base.
Local Open Scope Z_scope.

Definition m128 := list Z.
Definition m256 := (m128 * m128)%type.

(** ** Views of a register *)
Fixpoint words (r : list Z) : list Z :=
  match r with a :: b :: t => a + 256 * b :: words t | _ => [] end.
Fixpoint dwords (r : list Z) : list Z :=
  match r with a :: b :: c :: d :: t => a + 256 * b + 65536 * c + 16777216 * d :: dwords t | _ => [] end.
Definition word_bytes (w : Z) : list Z := [w mod 256; w / 256 mod 256].
Definition dword_bytes (w : Z) : list Z :=
  [w mod 256; w / 256 mod 256; w / 65536 mod 256; w / 16777216 mod 256].
Definition of_words (l : list Z) : m128 := flat_map word_bytes l.
Definition of_dwords (l : list Z) : m128 := flat_map dword_bytes l.

(** Two's complement reading of 16 bits. *)
Definition s16 (z : Z) : Z := (z + 2 ^ 15) mod 2 ^ 16 - 2 ^ 15.
Definition swords (r : m128) : list Z := map s16 (words r).
Definition sdwords (r : m128) : list Z := map wrap32 (dwords r).

Fixpoint zipw (f : Z -> Z -> Z) (a b : list Z) : list Z :=
  match a, b with x :: a', y :: b' => f x y :: zipw f a' b' | _, _ => [] end.

(** ** Constants and broadcasts *)
Definition zeros : m128 := repeat 0 16.                       (* _mm_setzero_si128 *)
Definition set1_epi8 (x : Z) : m128 := repeat (x mod 256) 16. (* _mm_set1_epi8 *)
Definition set1_epi16 (x : Z) : m128 := of_words (repeat x 8). (* _mm_set1_epi16 *)
Definition set1_epi32 (x : Z) : m128 := of_dwords (repeat x 4). (* _mm_set1_epi32 *)
Definition setr_epi8 (l : list Z) : m128 := map (fun x => x mod 256) l.
Definition setr_epi16 (l : list Z) : m128 := of_words l.
Definition setr_epi32 (l : list Z) : m128 := of_dwords l.

(** ** Interleaving *)
Fixpoint inter1 (a b : list Z) : list Z :=
  match a, b with x :: a', y :: b' => x :: y :: inter1 a' b' | _, _ => [] end.
Fixpoint inter2 (a b : list Z) : list Z :=
  match a, b with
  | x0 :: x1 :: a', y0 :: y1 :: b' => x0 :: x1 :: y0 :: y1 :: inter2 a' b' | _, _ => [] end.
Fixpoint inter4 (a b : list Z) : list Z :=
  match a, b with
  | x0 :: x1 :: x2 :: x3 :: a', y0 :: y1 :: y2 :: y3 :: b' =>
      x0 :: x1 :: x2 :: x3 :: y0 :: y1 :: y2 :: y3 :: inter4 a' b' | _, _ => [] end.
Definition unpacklo_epi8 (a b : m128) : m128 := inter1 (firstn 8 a) (firstn 8 b).
Definition unpackhi_epi8 (a b : m128) : m128 := inter1 (skipn 8 a) (skipn 8 b).
Definition unpacklo_epi16 (a b : m128) : m128 := inter2 (firstn 8 a) (firstn 8 b).
Definition unpackhi_epi16 (a b : m128) : m128 := inter2 (skipn 8 a) (skipn 8 b).
Definition unpacklo_epi32 (a b : m128) : m128 := inter4 (firstn 8 a) (firstn 8 b).
Definition unpackhi_epi32 (a b : m128) : m128 := inter4 (skipn 8 a) (skipn 8 b).
Definition unpackhi_epi64 (a b : m128) : m128 := skipn 8 a ++ skipn 8 b.

(** ** Permutations *)
(** _mm_shuffle_epi8: index with the top bit set gives 0, else its low four bits select. *)
Definition shuffle_epi8 (a m : m128) : m128 :=
  map (fun i => if i <? 128 then nth (Z.to_nat (i mod 16)) a 0 else 0) m.
Definition dw (a : m128) (i : nat) : list Z := firstn 4 (skipn (4 * i) a).
(** _mm_shuffle_epi32::<shuffle(z,y,x,w)> *)
Definition shuffle_epi32 (z y x w : nat) (a : m128) : m128 := dw a w ++ dw a x ++ dw a y ++ dw a z.
Definition wd (a : m128) (i : nat) : list Z := firstn 2 (skipn (2 * i) a).
(** _mm_shufflelo_epi16::<shuffle(z,y,x,w)> *)
Definition shufflelo_epi16 (z y x w : nat) (a : m128) : m128 :=
  wd a w ++ wd a x ++ wd a y ++ wd a z ++ skipn 8 a.
(** _mm_alignr_epi8::<n>(a, b) *)
Definition alignr_epi8 (n : nat) (a b : m128) : m128 := firstn 16 (skipn n (b ++ a)).

(** ** Arithmetic *)
Definition add_epi16 (a b : m128) : m128 := of_words (zipw Z.add (words a) (words b)).
Definition add_epi32 (a b : m128) : m128 := of_dwords (zipw Z.add (dwords a) (dwords b)).
Fixpoint pair_sums (l : list Z) : list Z :=
  match l with a :: b :: t => a + b :: pair_sums t | _ => [] end.
Definition madd_epi16 (a b : m128) : m128 := of_dwords (pair_sums (zipw Z.mul (swords a) (swords b))).
(** _mm_mulhrs_epi16: ((a*b) >> 14 + 1) >> 1 *)
Definition mulhrs (a b : Z) : Z := (a * b / 2 ^ 14 + 1) / 2.
Definition mulhrs_epi16 (a b : m128) : m128 := of_words (zipw mulhrs (swords a) (swords b)).
Definition mullo_epi16 (a b : m128) : m128 := of_words (zipw Z.mul (swords a) (swords b)).
Definition hadd_epi16 (a b : m128) : m128 := of_words (pair_sums (words a) ++ pair_sums (words b)).
Definition srli_epi16 (n : Z) (a : m128) : m128 := of_words (map (fun x => x / 2 ^ n) (words a)).
Definition srai_epi16 (n : Z) (a : m128) : m128 := of_words (map (fun x => x / 2 ^ n) (swords a)).
Definition srai_epi32 (n : Z) (a : m128) : m128 := of_dwords (map (fun x => x / 2 ^ n) (sdwords a)).

(** ** Saturating packs and widening *)
Definition sat (lo hi v : Z) : Z := Z.max lo (Z.min hi v).
Definition packs_epi32 (a b : m128) : m128 :=
  of_words (map (sat (-32768) 32767) (sdwords a ++ sdwords b)).
Definition packus_epi32 (a b : m128) : m128 :=
  of_words (map (sat 0 65535) (sdwords a ++ sdwords b)).
Definition packus_epi16 (a b : m128) : m128 := map (sat 0 255) (swords a ++ swords b).
Definition cvtepi16_epi32 (a : m128) : m128 := of_dwords (firstn 4 (swords a)).

(** ** Loads and stores.  [load n mem off] reads n <= 16 bytes (loadu_si16/si32/si64/si128,
    cvtsi32_si128 of an unaligned read) and clears the rest of the register; a read outside
    the slice is undefined behaviour in the code and [Panic] here. *)
Definition load (n : nat) (mem : list Z) (off : nat) : outcome m128 :=
  if (off + n <=? length mem)%nat
  then Done (firstn n (skipn off mem) ++ repeat 0 (16 - n)) else Panic.
(** The same for a slice of i16 weights ([n] weights). *)
Definition load_w (n : nat) (mem : list Z) (off : nat) : outcome m128 :=
  if (off + n <=? length mem)%nat
  then Done (of_words (firstn n (skipn off mem) ++ repeat 0 (8 - n))) else Panic.
(** Reading two consecutive i16 as one i32 (`as *const i32).read_unaligned()`). *)
Definition read_pair (mem : list Z) (off : nat) : outcome Z :=
  a <- idx mem off ;; b <- idx mem (off + 1) ;;
  Done (wrap32 (a mod 65536 + 65536 * (b mod 65536))).
(** Storing [v] at [off] through get_unchecked_mut. *)
Definition store_bytes (dst : list Z) (off : nat) (v : list Z) : outcome (list Z) :=
  if (off + length v <=? length dst)%nat then Done (splice dst off v) else Panic.

(** ** 256-bit registers: the AVX2 integer operations work on each 128-bit lane. *)
Definition lane1 (f : m128 -> m128) (a : m256) : m256 := (f (fst a), f (snd a)).
Definition lane2 (f : m128 -> m128 -> m128) (a b : m256) : m256 :=
  (f (fst a) (fst b), f (snd a) (snd b)).
Definition both (a : m128) : m256 := (a, a).
Definition bytes256 (a : m256) : list Z := fst a ++ snd a.
Definition load256 (mem : list Z) (off : nat) : outcome m256 :=
  a <- load 16 mem off ;; b <- load 16 mem (off + 16) ;; Done (a, b).
Definition qw (a : m256) (i : nat) : list Z := firstn 8 (skipn (8 * i) (bytes256 a)).
(** _mm256_permute4x64_epi64::<shuffle(z,y,x,w)> *)
Definition permute4x64 (z y x w : nat) (a : m256) : m256 := (qw a w ++ qw a x, qw a y ++ qw a z).
(** _mm256_permutevar8x32_epi32 *)
Definition permutevar8x32 (a : m256) (i : list nat) : m256 :=
  let d k := firstn 4 (skipn (4 * nth k i 0%nat) (bytes256 a)) in
  (d 0%nat ++ d 1%nat ++ d 2%nat ++ d 3%nat, d 4%nat ++ d 5%nat ++ d 6%nat ++ d 7%nat).
(** _mm256_castsi128_si256: the upper lane is unspecified; the kernels never use it.
    It is modelled as zeros. *)
Definition cast256 (a : m128) : m256 := (a, zeros).
(** _mm256_cvtepu16_epi32 *)
Definition cvtepu16_epi32 (a : m128) : m256 :=
  (of_dwords (firstn 4 (words a)), of_dwords (skipn 4 (words a))).
