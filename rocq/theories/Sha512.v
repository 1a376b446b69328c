(** * Sha512: the digest inside Ed25519

    [ring]'s Ed25519 (crypto/signature.rs:3, 9) hashes with SHA-512. ring is a dependency; what is written
    here is the SHA-512 of FIPS 180-4, on words modelled as [N] modulo 2^64. *)
From Verif Require Import Base.
Open Scope N_scope.

Definition w64 : N := 18446744073709551616.
Definition add64 (a b : N) : N := (a + b) mod w64.
Definition rotr64 (k x : N) : N := N.lor (N.shiftr x k) (N.shiftl x (64 - k) mod w64).
Definition not64 (x : N) : N := N.lxor x 18446744073709551615.

(** FIPS 180-4, 4.1.3 *)
Definition Ch (x y z : N) : N := N.lxor (N.land x y) (N.land (not64 x) z).
Definition Maj (x y z : N) : N := N.lxor (N.lxor (N.land x y) (N.land x z)) (N.land y z).
Definition Sigma0 (x : N) : N := N.lxor (N.lxor (rotr64 28 x) (rotr64 34 x)) (rotr64 39 x).
Definition Sigma1 (x : N) : N := N.lxor (N.lxor (rotr64 14 x) (rotr64 18 x)) (rotr64 41 x).
Definition sigma0 (x : N) : N := N.lxor (N.lxor (rotr64 1 x) (rotr64 8 x)) (N.shiftr x 7).
Definition sigma1 (x : N) : N := N.lxor (N.lxor (rotr64 19 x) (rotr64 61 x)) (N.shiftr x 6).

(** 4.2.3 *)
Definition K512 : list N :=
  [
   0x428a2f98d728ae22; 0x7137449123ef65cd; 0xb5c0fbcfec4d3b2f; 0xe9b5dba58189dbbc;
   0x3956c25bf348b538; 0x59f111f1b605d019; 0x923f82a4af194f9b; 0xab1c5ed5da6d8118;
   0xd807aa98a3030242; 0x12835b0145706fbe; 0x243185be4ee4b28c; 0x550c7dc3d5ffb4e2;
   0x72be5d74f27b896f; 0x80deb1fe3b1696b1; 0x9bdc06a725c71235; 0xc19bf174cf692694;
   0xe49b69c19ef14ad2; 0xefbe4786384f25e3; 0x0fc19dc68b8cd5b5; 0x240ca1cc77ac9c65;
   0x2de92c6f592b0275; 0x4a7484aa6ea6e483; 0x5cb0a9dcbd41fbd4; 0x76f988da831153b5;
   0x983e5152ee66dfab; 0xa831c66d2db43210; 0xb00327c898fb213f; 0xbf597fc7beef0ee4;
   0xc6e00bf33da88fc2; 0xd5a79147930aa725; 0x06ca6351e003826f; 0x142929670a0e6e70;
   0x27b70a8546d22ffc; 0x2e1b21385c26c926; 0x4d2c6dfc5ac42aed; 0x53380d139d95b3df;
   0x650a73548baf63de; 0x766a0abb3c77b2a8; 0x81c2c92e47edaee6; 0x92722c851482353b;
   0xa2bfe8a14cf10364; 0xa81a664bbc423001; 0xc24b8b70d0f89791; 0xc76c51a30654be30;
   0xd192e819d6ef5218; 0xd69906245565a910; 0xf40e35855771202a; 0x106aa07032bbd1b8;
   0x19a4c116b8d2d0c8; 0x1e376c085141ab53; 0x2748774cdf8eeb99; 0x34b0bcb5e19b48a8;
   0x391c0cb3c5c95a63; 0x4ed8aa4ae3418acb; 0x5b9cca4f7763e373; 0x682e6ff3d6b2b8a3;
   0x748f82ee5defb2fc; 0x78a5636f43172f60; 0x84c87814a1f0ab72; 0x8cc702081a6439ec;
   0x90befffa23631e28; 0xa4506cebde82bde9; 0xbef9a3f7b2c67915; 0xc67178f2e372532b;
   0xca273eceea26619c; 0xd186b8c721c0c207; 0xeada7dd6cde0eb1e; 0xf57d4f7fee6ed178;
   0x06f067aa72176fba; 0x0a637dc5a2c898a6; 0x113f9804bef90dae; 0x1b710b35131c471b;
   0x28db77f523047d84; 0x32caab7b40c72493; 0x3c9ebe0a15c9bebc; 0x431d67c49c100d4c;
   0x4cc5d4becb3e42b6; 0x597f299cfc657e2a; 0x5fcb6fab3ad6faec; 0x6c44198c4a475817].

(** 5.1.2: append 0x80, zeros up to 112 mod 128, and the bit length on 16 bytes *)
Definition pad512 (m : list byte) : list byte :=
  let l := length m in
  let z := ((239 - l mod 128) mod 128)%nat in
  m ++ [x80] ++ repeat x00 z ++ be 16 (8 * N.of_nat l).

(** [words64 n b]: the first [n] big-endian 64-bit words of [b] *)
Fixpoint words64 (n : nat) (b : list byte) : list N :=
  match n with
  | O => []
  | S n' => be_value (firstn 8 b) :: words64 n' (skipn 8 b)
  end.

(** 6.4.2 step 1; the schedule is kept latest word first *)
Fixpoint extend512 (n : nat) (rev_w : list N) : list N :=
  match n with
  | O => rev_w
  | S n' =>
      let g i := nth i rev_w 0 in
      extend512 n' (add64 (add64 (add64 (sigma1 (g 1%nat)) (g 6%nat)) (sigma0 (g 14%nat))) (g 15%nat) :: rev_w)
  end.
Definition schedule512 (b : list byte) : list N := rev (extend512 64 (rev (words64 16 b))).

Record hash512 := Hash512 { h_a : N; h_b : N; h_c : N; h_d : N; h_e : N; h_f : N; h_g : N; h_h : N }.
(** 5.3.5 *)
Definition hash512_init : hash512 :=
  Hash512
    0x6a09e667f3bcc908 0xbb67ae8584caa73b 0x3c6ef372fe94f82b 0xa54ff53a5f1d36f1
    0x510e527fade682d1 0x9b05688c2b3e6c1f 0x1f83d9abfb41bd6b 0x5be0cd19137e2179.

(** 6.4.2 step 3 *)
Fixpoint rounds512 (kw : list (N * N)) (s : hash512) : hash512 :=
  match kw with
  | [] => s
  | (k, w) :: r =>
      let T1 := add64 (add64 (add64 (add64 (h_h s) (Sigma1 (h_e s))) (Ch (h_e s) (h_f s) (h_g s))) k) w in
      let T2 := add64 (Sigma0 (h_a s)) (Maj (h_a s) (h_b s) (h_c s)) in
      rounds512 r (Hash512 (add64 T1 T2) (h_a s) (h_b s) (h_c s) (add64 (h_d s) T1) (h_e s) (h_f s) (h_g s))
  end.
(** 6.4.2 step 4 *)
Definition block512 (s : hash512) (b : list byte) : hash512 :=
  let r := rounds512 (combine K512 (schedule512 b)) s in
  Hash512 (add64 (h_a r) (h_a s)) (add64 (h_b r) (h_b s)) (add64 (h_c r) (h_c s)) (add64 (h_d r) (h_d s))
          (add64 (h_e r) (h_e s)) (add64 (h_f r) (h_f s)) (add64 (h_g r) (h_g s)) (add64 (h_h r) (h_h s)).
Fixpoint blocks512 (n : nat) (b : list byte) (s : hash512) : hash512 :=
  match n with
  | O => s
  | S n' => blocks512 n' (skipn 128 b) (block512 s (firstn 128 b))
  end.

Definition sha512 (m : list byte) : list byte :=
  let p := pad512 m in
  let h := blocks512 (length p / 128) p hash512_init in
  be 8 (h_a h) ++ be 8 (h_b h) ++ be 8 (h_c h) ++ be 8 (h_d h) ++
  be 8 (h_e h) ++ be 8 (h_f h) ++ be 8 (h_g h) ++ be 8 (h_h h).
