(** * Ed25519: the signature scheme crypto/signature.rs asks [ring] for

    crypto/signature.rs calls ring 0.14's Ed25519 (signature.rs:3, 9, 55-130). ring is a dependency and is
    not in /repo; what is written here is the Ed25519 of RFC 8032 (section 5.1, and the reference code of
    section 6) as an executable program on integers, with the two choices RFC 8032 leaves to implementations
    made the way ring's C code (ref10, through BoringSSL) makes them: [decompress] does not reject an
    encoded y that is not below p, and [verify] compares encoded points, without multiplying by the
    cofactor. Constant-time execution is not modelled.

    The rest of the model is parametric in the scheme (Packet.v, record [ed25519]); [ring_ed25519] below is
    one instance, and Ed25519Proofs.v proves that it meets [ed25519_laws]. *)
From Coq Require Import Strings.String.
From Verif Require Import Base Codec Packet EdField EdCurve Sha512.
Open Scope Z_scope.

(** ** Arithmetic modulo p = 2^255 - 19 *)

(** [z mod p] ([modp_spec] below), computed from 2^255 = 19 modulo p *)
Definition modp (z : Z) : Z :=
  let fold z := Z.land z (Z.ones 255) + 19 * Z.shiftr z 255 in
  let z := fold (fold (fold z)) in
  if (0 <=? z) && (z <? ed_p) then z else z mod ed_p.
Definition mulp (a b : Z) : Z := modp (a * b).
Definition addp (a b : Z) : Z := modp (a + b).
Definition subp (a b : Z) : Z := modp (a - b).

Transparent ed_p.
Lemma ed_p_value : ed_p = 2 ^ 255 - 19.
Proof. reflexivity. Qed.
Opaque ed_p.
Lemma modp_spec z : modp z = z mod ed_p.
Proof.
  assert (F : forall z, (Z.land z (Z.ones 255) + 19 * Z.shiftr z 255) mod ed_p = z mod ed_p).
  { intros x. rewrite Z.land_ones, Z.shiftr_div_pow2 by lia.
    rewrite (Z_div_mod_eq_full x (2 ^ 255)) at 3.
    replace (2 ^ 255 * (x / 2 ^ 255) + x mod 2 ^ 255)
      with (x mod 2 ^ 255 + 19 * (x / 2 ^ 255) + (x / 2 ^ 255) * ed_p) by (rewrite ed_p_value; ring).
    now rewrite Z_mod_plus_full. }
  unfold modp.
  set (y := Z.land (Z.land _ _ + _) _ + _).
  assert (E : y mod ed_p = z mod ed_p) by (unfold y; now rewrite !F).
  destruct (0 <=? y) eqn:H0; [|exact E]. destruct (y <? ed_p) eqn:H1; [|exact E]. cbn [andb].
  rewrite <- E, Z.mod_small; [reflexivity|]. apply Z.leb_le in H0. apply Z.ltb_lt in H1. lia.
Qed.

Fixpoint powp_pos (a : Z) (n : positive) : Z :=
  match n with
  | xH => modp a
  | xO n' => let s := powp_pos a n' in mulp s s
  | xI n' => let s := powp_pos a n' in mulp a (mulp s s)
  end.
Definition powp (a n : Z) : Z := match n with Zpos n' => powp_pos a n' | _ => 1 end.
(** RFC 8032 section 6, [modp_inv] *)
Definition invp (a : Z) : Z := powp a (ed_p - 2).

(** ** Points in extended coordinates (X, Y, Z, T): x = X/Z, y = Y/Z, x*y = T/Z (RFC 8032, 5.1.4) *)
Record ext := Ext { eX : Z; eY : Z; eZ : Z; eT : Z }.
Definition ext_zero : ext := Ext 0 1 1 0.

(** RFC 8032 section 6, [point_add]; used for doubling too, as there *)
Definition ext_add (P Q : ext) : ext :=
  let A := mulp (subp (eY P) (eX P)) (subp (eY Q) (eX Q)) in
  let B := mulp (addp (eY P) (eX P)) (addp (eY Q) (eX Q)) in
  let C := mulp (mulp (2 * eT P) (eT Q)) ed_d in
  let D := mulp (2 * eZ P) (eZ Q) in
  let E := subp B A in
  let F := subp D C in
  let G := addp D C in
  let H := addp B A in
  Ext (mulp E F) (mulp G H) (mulp F G) (mulp E H).

(** Multiplication by a scalar: double and add *)
Fixpoint ext_mul_pos (n : positive) (P : ext) : ext :=
  match n with
  | xH => P
  | xO n' => let Q := ext_mul_pos n' P in ext_add Q Q
  | xI n' => let Q := ext_mul_pos n' P in ext_add P (ext_add Q Q)
  end.
Definition ext_mul (n : Z) (P : ext) : ext := match n with Zpos n' => ext_mul_pos n' P | _ => ext_zero end.

(** ref10 [ge_neg]: -P *)
Definition ext_neg (P : ext) : ext := Ext (subp 0 (eX P)) (eY P) (eZ P) (subp 0 (eT P)).

(** ** Encodings *)

(** Little-endian integers *)
Definition le_bytes (k : nat) (z : Z) : list byte := rev (be k (Z.to_N z)).
Definition le_int (b : list byte) : Z := Z.of_N (be_value (rev b)).

(** RFC 8032 5.1.2, [point_compress]: y on 255 bits, and the low bit of x as the top bit *)
Definition compress (P : ext) : list byte :=
  let zinv := invp (eZ P) in
  let x := mulp (eX P) zinv in
  let y := mulp (eY P) zinv in
  le_bytes 32 (y + 2 ^ 255 * (x mod 2)).

(** ref10 [ge_frombytes_vartime] (RFC 8032, 5.1.3) *)
Definition decompress (b : list byte) : option ext :=
  if (length b =? 32)%nat then
    let z := le_int b in
    let y := modp (z mod 2 ^ 255) in
    let sign := z / 2 ^ 255 in
    let y2 := mulp y y in
    let u := subp y2 1 in
    let v := addp (mulp ed_d y2) 1 in
    let v3 := mulp v (mulp v v) in
    let x := mulp (mulp u v3) (powp (mulp u (mulp v3 (mulp v3 v))) ((ed_p - 5) / 8)) in
    let vxx := mulp v (mulp x x) in
    let root := if vxx =? u then Some x
                else if vxx =? subp 0 u then Some (mulp x ed_sqrt_m1)
                else None in
    match root with
    | Some x => let x := if x mod 2 =? sign then x else subp 0 x in Some (Ext x y 1 (mulp x y))
    | None => None
    end
  else None.

(** ** The scheme (RFC 8032, 5.1) *)

(** 5.1, parameter L: the order of the base point *)
Definition ed_L : Z := 2 ^ 252 + 27742317777372353535851937790883648493.
(** 5.1, parameter B: y = 4/5, x even *)
Definition base_y : Z := 46316835694926478169428394003475163141307993866256225615783033603165251855960.
Definition base_x : Z := 15112221349535400772501151409588531511454012693041857206046113283949847762202.
Definition base_point : ext := Ext base_x base_y 1 (mulp base_x base_y).

(** 5.1.5 steps 1-2: prune the lower half of the hashed seed *)
Definition secret_scalar (seed : list byte) : Z :=
  let h := le_int (firstn 32 (sha512 seed)) in
  (h mod 2 ^ 254) / 8 * 8 + 2 ^ 254.
Definition secret_prefix (seed : list byte) : list byte := skipn 32 (sha512 seed).
(** 5.1.5 steps 3-4 *)
Definition ed_public_key (seed : list byte) : list byte := compress (ext_mul (secret_scalar seed) base_point).
(** SHA-512 as a scalar modulo L *)
Definition hash_scalar (m : list byte) : Z := le_int (sha512 m) mod ed_L.

(** 5.1.6 *)
Definition ed_sign (seed m : list byte) : list byte :=
  let a := secret_scalar seed in
  let A := ed_public_key seed in
  let r := hash_scalar (secret_prefix seed ++ m) in
  let R := compress (ext_mul r base_point) in
  let k := hash_scalar (R ++ A ++ m) in
  let S := (r + k * a) mod ed_L in
  R ++ le_bytes 32 S.

(** 5.1.7, with the equation S B - k A = R checked on the encoding of R *)
Definition ed_verify (key m sig : list byte) : bool :=
  match decompress key with
  | Some A =>
      if (length sig =? 64)%nat then
        let R := firstn 32 sig in
        let S := le_int (skipn 32 sig) in
        if S <? ed_L then
          let k := hash_scalar (R ++ key ++ m) in
          bytes_eqb R (compress (ext_add (ext_mul S base_point) (ext_mul k (ext_neg A))))
        else false
      else false
  | None => false
  end.

(** ** The five operations the crate uses (Packet.v)

    A key pair is represented by its seed: ring keeps the scalar, the prefix and the public key that
    [secret_scalar], [secret_prefix] and [ed_public_key] compute from it. How a PKCS#8 document is decoded
    is left open: [from_pkcs8] is any function. *)
Definition ring_ed25519 (from_pkcs8 : list byte -> option (list byte)) : ed25519 :=
  let from_seed s := if (length s =? 32)%nat then Some s else None in
  {| ring_keypair := list byte;
     ring_public_key := ed_public_key;
     ring_sign := ed_sign;
     ring_verify := ed_verify;
     ring_from_seed_unchecked := from_seed;
     ring_from_seed_and_public_key s pk :=
       match from_seed s with
       | Some k => if bytes_eqb pk (ed_public_key k) then Some k else None
       | None => None
       end;
     ring_from_pkcs8 := from_pkcs8 |}.
