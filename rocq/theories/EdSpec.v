(** * EdSpec: what RFC 8032 says an Ed25519 signature is, in the group of the curve

    Independent of Ed25519.v: points are points of the curve -x^2 + y^2 = 1 + d x^2 y^2 over the integers
    modulo p = 2^255 - 19 (EdCurve.v), with the group law, not coordinates in a computer. The digest is that of Sha512Spec.v. *)
From Coq Require Import Strings.String.
From Verif Require Import Base Sha512Spec EdField EdCurve.
Open Scope Z_scope.

(** A byte string as a little-endian number *)
Fixpoint le_number (b : list byte) : Z :=
  match b with
  | [] => 0
  | x :: r => Z.of_N (N_of_byte x) + 256 * le_number r
  end.

(** [n] times [a] *)
Definition times (n : Z) (a : point) : point := pmul (Z.to_nat n) a.
Definition minus (a b : point) : point := padd a (popp b).

(** 5.1, B: y = 4/5 and x is even *)
Definition is_base (a : point) : Prop := fmul (fp_of 5) (py a) = fp_of 4 /\ Z.even (fval (px a)) = true.
(** 5.1, L *)
Definition order : Z := 2 ^ 252 + 27742317777372353535851937790883648493.

(** 5.1.2: y in the low 255 bits, the parity of x in the top one *)
Definition encodes (b : list byte) (a : point) : Prop :=
  length b = 32%nat /\ le_number b = fval (py a) + (if Z.odd (fval (px a)) then 2 ^ 255 else 0).

(** 5.1.3, the way ring reads a public key: y is taken modulo p, and for x = 0 the top bit is ignored *)
Definition reads_as (b : list byte) (a : point) : Prop :=
  length b = 32%nat /\ py a = fp_of (le_number b mod 2 ^ 255) /\
  (Z.odd (fval (px a)) = (2 ^ 255 <=? le_number b) \/ px a = f0).

(** 5.1.7: [sig] is R followed by S < L, and S B - k A = R, k being the digest of R, the key and the message *)
Definition valid_signature (key msg sig : list byte) : Prop :=
  exists (B A R : point) (r s digest : list byte),
    is_base B /\ reads_as key A /\ sig = r ++ s /\ encodes r R /\ length s = 32%nat /\ le_number s < order /\
    is_sha512 (r ++ key ++ msg) digest /\
    minus (times (le_number s) B) (times (le_number digest mod order) A) = R.

(** 5.1.5: in the first half of the digest of the seed, the three lowest bits and the highest one are cleared, and the
    second highest is set *)
Definition is_secret_scalar (half : list byte) (a : Z) : Prop :=
  0 <= a < 2 ^ 255 /\
  forall i, 0 <= i < 255 -> Z.testbit a i = if i <? 3 then false else if i =? 254 then true else Z.testbit (le_number half) i.
(** 5.1.5: the public key of a seed is the encoding of the scalar times B *)
Definition is_public_key (seed key : list byte) : Prop :=
  exists (B : point) (digest : list byte) (a : Z),
    is_base B /\ is_sha512 seed digest /\ is_secret_scalar (firstn 32 digest) a /\ encodes key (times a B).
(** 5.1.6: R is r B, r being the digest of the second half of the digest of the seed and the message; S is r + k a modulo L,
    k being the digest of R, the public key and the message *)
Definition is_signature (seed msg sig : list byte) : Prop :=
  exists (B : point) (digest key rs ks r s : list byte) (a : Z),
    is_base B /\ is_sha512 seed digest /\ is_secret_scalar (firstn 32 digest) a /\ encodes key (times a B) /\
    is_sha512 (skipn 32 digest ++ msg) rs /\ is_sha512 (r ++ key ++ msg) ks /\
    sig = r ++ s /\ encodes r (times (le_number rs) B) /\
    length s = 32%nat /\ le_number s = (le_number rs + le_number ks * a) mod order.

(** The encoding of the neutral element (0, 1) *)
Definition neutral : list byte := x01 :: repeat x00 31.
(** the ways to write it that are read as it: y = 1 or p + 1, with the top bit clear or set *)
Definition neutral_keys : list (list byte) :=
  [ x01 :: repeat x00 31; x01 :: repeat x00 30 ++ [x80]; xee :: repeat xff 30 ++ [x7f]; xee :: repeat xff 31 ].
