(** * Sha1: the digest community/peer.rs asks [ring] for

    [ring::digest::digest(&SHA1, key)] (community/peer.rs:5, 32). ring is a dependency; what is written
    here is the SHA-1 of FIPS 180-4, on words modelled as [N] modulo 2^32. *)
From Verif Require Import Base.
Open Scope N_scope.

Definition w32 : N := 4294967296.
Definition add32 (a b : N) : N := (a + b) mod w32.
Definition rotl (k x : N) : N := N.lor (N.shiftl x k mod w32) (N.shiftr x (32 - k)).
Definition not32 (x : N) : N := N.lxor x 4294967295.

(** FIPS 180-4, 4.1.1 *)
Definition f_t (t : nat) (x y z : N) : N :=
  if (t <? 20)%nat then N.lxor (N.land x y) (N.land (not32 x) z)
  else if (t <? 40)%nat then N.lxor (N.lxor x y) z
  else if (t <? 60)%nat then N.lxor (N.lxor (N.land x y) (N.land x z)) (N.land y z)
  else N.lxor (N.lxor x y) z.
(** 4.2.1 *)
Definition k_t (t : nat) : N :=
  if (t <? 20)%nat then 0x5a827999
  else if (t <? 40)%nat then 0x6ed9eba1
  else if (t <? 60)%nat then 0x8f1bbcdc
  else 0xca62c1d6.

(** 5.1.1: append 0x80, zeros up to 56 mod 64, and the bit length on 8 bytes *)
Definition pad (m : list byte) : list byte :=
  let l := length m in
  let z := ((119 - l mod 64) mod 64)%nat in
  m ++ [x80] ++ repeat x00 z ++ be 8 (8 * N.of_nat l).

(** [words n b]: the first [n] big-endian 32-bit words of [b] *)
Fixpoint words (n : nat) (b : list byte) : list N :=
  match n with
  | O => []
  | S n' => be_value (firstn 4 b) :: words n' (skipn 4 b)
  end.

(** 6.1.2 step 1; the schedule is kept latest word first *)
Fixpoint extend (n : nat) (rev_w : list N) : list N :=
  match n with
  | O => rev_w
  | S n' =>
      let g i := nth i rev_w 0 in
      extend n' (rotl 1 (N.lxor (N.lxor (g 2%nat) (g 7%nat)) (N.lxor (g 13%nat) (g 15%nat))) :: rev_w)
  end.
Definition schedule (b : list byte) : list N := rev (extend 64 (rev (words 16 b))).

Record hash := Hash { ha : N; hb : N; hc : N; hd : N; he : N }.
(** 5.3.1 *)
Definition hash_init : hash := Hash 0x67452301 0xefcdab89 0x98badcfe 0x10325476 0xc3d2e1f0.

(** 6.1.2 step 3 *)
Fixpoint rounds (t : nat) (w : list N) (s : hash) : hash :=
  match w with
  | [] => s
  | wt :: r =>
      let T := add32 (add32 (add32 (add32 (rotl 5 (ha s)) (f_t t (hb s) (hc s) (hd s))) (he s)) (k_t t)) wt in
      rounds (S t) r (Hash T (ha s) (rotl 30 (hb s)) (hc s) (hd s))
  end.
(** 6.1.2 step 4 *)
Definition block (s : hash) (b : list byte) : hash :=
  let r := rounds 0 (schedule b) s in
  Hash (add32 (ha r) (ha s)) (add32 (hb r) (hb s)) (add32 (hc r) (hc s))
       (add32 (hd r) (hd s)) (add32 (he r) (he s)).
Fixpoint blocks (n : nat) (b : list byte) (s : hash) : hash :=
  match n with
  | O => s
  | S n' => blocks n' (skipn 64 b) (block s (firstn 64 b))
  end.

Definition sha1 (m : list byte) : list byte :=
  let p := pad m in
  let h := blocks (length p / 64) p hash_init in
  be 4 (ha h) ++ be 4 (hb h) ++ be 4 (hc h) ++ be 4 (hd h) ++ be 4 (he h).
