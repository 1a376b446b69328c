(** * Sha512Spec: SHA-512 as FIPS 180-4 describes it, as a relation

    Independent of Sha512.v: no common helper. Words are numbers below 2^64. *)
From Verif Require Import Base Spec.
Open Scope N_scope.

(** 3.2: addition modulo 2^64, circular right shift, right shift *)
Definition plus64 (a b : N) : N := (a + b) mod 2 ^ 64.
Definition ror (k x : N) : N := x / 2 ^ k + x * 2 ^ (64 - k) mod 2 ^ 64.
Definition shr (k x : N) : N := x / 2 ^ k.

(** 4.1.3: choose and majority, bit by bit *)
Definition is_ch (x y z r : N) : Prop :=
  r < 2 ^ 64 /\ forall i, i < 64 -> N.testbit r i = if N.testbit x i then N.testbit y i else N.testbit z i.
Definition is_maj (x y z r : N) : Prop :=
  r < 2 ^ 64 /\ forall i, i < 64 ->
    N.testbit r i = (N.testbit x i && N.testbit y i) || (N.testbit x i && N.testbit z i) || (N.testbit y i && N.testbit z i).
(** 4.1.3: the four sums of shifts *)
Definition xor3 (a b c : N) : N := N.lxor a (N.lxor b c).
Definition big0 (x : N) : N := xor3 (ror 28 x) (ror 34 x) (ror 39 x).
Definition big1 (x : N) : N := xor3 (ror 14 x) (ror 18 x) (ror 41 x).
Definition small0 (x : N) : N := xor3 (ror 1 x) (ror 8 x) (shr 7 x).
Definition small1 (x : N) : N := xor3 (ror 19 x) (ror 61 x) (shr 6 x).

(** the first eighty primes *)
Definition divides_none (n : nat) : bool := forallb (fun d => negb (n mod d =? 0)%nat) (seq 2 (n - 2)).
Definition eighty_primes : list nat := filter divides_none (seq 2 408).
Definition nth_prime (t : nat) : N := N.of_nat (nth t eighty_primes 0%nat).
(** 4.2.3: the first 64 bits of the fractional part of the cube root of the t-th prime *)
Definition is_constant512 (t : nat) (c : N) : Prop :=
  c < 2 ^ 64 /\ exists i, (i * 2 ^ 64 + c) ^ 3 <= nth_prime t * 2 ^ 192 < (i * 2 ^ 64 + c + 1) ^ 3.

(** 5.1.2: one bit 1, as few zeros as make the length 896 mod 1024 (here in bytes), the length in bits on 128 bits *)
Definition is_padded512 (m p : list byte) : Prop :=
  exists z, (z < 128)%nat /\
    p = m ++ [x80] ++ repeat x00 z ++ u128_bytes (8 * len m) /\
    (length (m ++ [x80] ++ repeat x00 z) mod 128 = 112)%nat.

(** 6.4.2 step 1: the message schedule of a block of 128 bytes *)
Definition is_schedule512 (b : list byte) (W : nat -> N) : Prop :=
  (forall t, (t < 16)%nat -> W t = u64_at b (8 * t)) /\
  (forall t, (16 <= t < 80)%nat ->
     W t = plus64 (plus64 (plus64 (small1 (W (t - 2)%nat)) (W (t - 7)%nat)) (small0 (W (t - 15)%nat))) (W (t - 16)%nat)).

(** the eight working variables *)
Definition eight := (N * N * N * N * N * N * N * N)%type.
(** 5.3.5: the first 64 bits of the fractional parts of the square roots of the first eight primes *)
Definition start (t : nat) : N := N.sqrt (nth_prime t * 2 ^ 128) mod 2 ^ 64.
Definition initial512 : eight :=
  (start 0, start 1, start 2, start 3, start 4, start 5, start 6, start 7).

(** 6.4.2 steps 2 to 4 for one block *)
Definition is_compression512 (h : eight) (b : list byte) (h' : eight) : Prop :=
  exists (W : nat -> N) (st : nat -> eight),
    is_schedule512 b W /\ st 0%nat = h /\
    (forall t, (t < 80)%nat ->
       let '(a, b, c, d, e, f, g, h) := st t in
       exists ch maj k, is_ch e f g ch /\ is_maj a b c maj /\ is_constant512 t k /\
         let T1 := plus64 (plus64 (plus64 (plus64 h (big1 e)) ch) k) (W t) in
         let T2 := plus64 (big0 a) maj in
         st (S t) = (plus64 T1 T2, a, b, c, plus64 d T1, e, f, g)) /\
    h' = let '(a, b, c, d, e, f, g, h1) := st 80%nat in
         let '(a0, b0, c0, d0, e0, f0, g0, h0) := h in
         (plus64 a a0, plus64 b b0, plus64 c c0, plus64 d d0, plus64 e e0, plus64 f f0, plus64 g g0, plus64 h1 h0).

(** 6.4.2: all blocks *)
Inductive is_hash512 : list byte -> eight -> eight -> Prop :=
| hash512_nil h : is_hash512 [] h h
| hash512_block b r h h' h'' :
    length b = 128%nat -> is_compression512 h b h' -> is_hash512 r h' h'' -> is_hash512 (b ++ r) h h''.

(** SHA-512 of fewer than 2^125 bytes *)
Definition is_sha512 (m digest : list byte) : Prop :=
  len m < 2 ^ 125 /\
  exists p a b c d e f g h,
    is_padded512 m p /\ is_hash512 p initial512 (a, b, c, d, e, f, g, h) /\
    digest = u64_bytes a ++ u64_bytes b ++ u64_bytes c ++ u64_bytes d ++
             u64_bytes e ++ u64_bytes f ++ u64_bytes g ++ u64_bytes h.
