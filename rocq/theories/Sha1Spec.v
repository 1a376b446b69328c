(** * Sha1Spec: SHA-1 as FIPS 180-4 describes it, as a relation

    Independent of Sha1.v: no common helper. Words are numbers below 2^32. *)
From Verif Require Import Base Spec.
Open Scope N_scope.

(** 3.2: addition modulo 2^32 and circular left shift *)
Definition plus (a b : N) : N := (a + b) mod 2 ^ 32.
Definition rot (k x : N) : N := x * 2 ^ k mod 2 ^ 32 + x / 2 ^ (32 - k).

(** 4.1.1: the functions, bit by bit: choose, parity, majority, parity *)
Definition f_bit (t : nat) (x y z : bool) : bool :=
  if (t <? 20)%nat then (if x then y else z)
  else if (40 <=? t)%nat && (t <? 60)%nat then (x && y) || (x && z) || (y && z)
  else xorb x (xorb y z).
Definition is_f (t : nat) (x y z r : N) : Prop :=
  r < 2 ^ 32 /\ forall i, i < 32 -> N.testbit r i = f_bit t (N.testbit x i) (N.testbit y i) (N.testbit z i).

(** 4.2.1: the constants, the first 32 bits of the square roots of 2, 3, 5 and 10 over 4 *)
Definition constant (t : nat) : N :=
  N.sqrt ((if (t <? 20)%nat then 2 else if (t <? 40)%nat then 3 else if (t <? 60)%nat then 5 else 10) * 2 ^ 60).

(** 5.1.1: one bit 1, as few zeros as make the length 448 mod 512 (here in bytes), the length in bits on 64 bits *)
Definition is_padded (m p : list byte) : Prop :=
  exists z, (z < 64)%nat /\ p = m ++ [x80] ++ repeat x00 z ++ u64_bytes (8 * len m) /\
            (length (m ++ [x80] ++ repeat x00 z) mod 64 = 56)%nat.

(** 6.1.2 step 1: the message schedule of a block of 64 bytes *)
Definition is_schedule (b : list byte) (W : nat -> N) : Prop :=
  (forall t, (t < 16)%nat -> W t = u32_at b (4 * t)) /\
  (forall t, (16 <= t < 80)%nat ->
     W t = rot 1 (N.lxor (N.lxor (N.lxor (W (t - 3)%nat) (W (t - 8)%nat)) (W (t - 14)%nat)) (W (t - 16)%nat))).

(** the five working variables *)
Definition five := (N * N * N * N * N)%type.
(** 5.3.1 *)
Definition initial : five := (0x67452301, 0xefcdab89, 0x98badcfe, 0x10325476, 0xc3d2e1f0).

(** 6.1.2 steps 2 to 4 for one block *)
Definition is_compression (h : five) (b : list byte) (h' : five) : Prop :=
  exists (W : nat -> N) (st : nat -> five),
    is_schedule b W /\ st 0%nat = h /\
    (forall t, (t < 80)%nat ->
       let '(a, b, c, d, e) := st t in
       exists f, is_f t b c d f /\
         st (S t) = (plus (plus (plus (plus (rot 5 a) f) e) (constant t)) (W t), a, rot 30 b, c, d)) /\
    h' = let '(a, b, c, d, e) := st 80%nat in
         let '(a0, b0, c0, d0, e0) := h in
         (plus a a0, plus b b0, plus c c0, plus d d0, plus e e0).

(** 6.1.2: all blocks *)
Inductive is_hash : list byte -> five -> five -> Prop :=
| hash_nil h : is_hash [] h h
| hash_block b r h h' h'' :
    length b = 64%nat -> is_compression h b h' -> is_hash r h' h'' -> is_hash (b ++ r) h h''.

(** SHA-1 of fewer than 2^61 bytes *)
Definition is_sha1 (m digest : list byte) : Prop :=
  len m < 2 ^ 61 /\
  exists p a b c d e,
    is_padded m p /\ is_hash p initial (a, b, c, d, e) /\
    digest = u32_bytes a ++ u32_bytes b ++ u32_bytes c ++ u32_bytes d ++ u32_bytes e.
