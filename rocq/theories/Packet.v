(** * Packet: serialization/mod.rs, crypto/signature.rs, util.rs *)
From Coq Require Import Strings.String.
From Verif Require Import Base Serde Codec Universe.
Open Scope nat_scope.

(** ** Ed25519 as provided by the crate [ring] 0.14 (a dependency; not in /repo)

    The model is parametric in the five operations the crate calls; what is assumed about them is
    stated in [ed25519_laws] and is an explicit hypothesis of the theorems that need it. *)
Record ed25519 := {
  ring_keypair : Type;                                    (* ring::signature::Ed25519KeyPair *)
  ring_public_key : ring_keypair -> list byte;            (* KeyPair::public_key().as_ref() *)
  ring_sign : ring_keypair -> list byte -> list byte;     (* Ed25519KeyPair::sign(msg).as_ref() *)
  ring_verify : list byte -> list byte -> list byte -> bool;
                                                          (* ring::signature::verify(&ED25519, key, msg, sig).is_ok() *)
  ring_from_seed_unchecked : list byte -> option ring_keypair;
  ring_from_seed_and_public_key : list byte -> list byte -> option ring_keypair;
  ring_from_pkcs8 : list byte -> option ring_keypair }.

(** What ring promises. [ring_verify] rejecting signatures that are not 64 bytes and
    unforgeability are not assumed. *)
Record ed25519_laws (C : ed25519) : Prop := {
  (* Ed25519 public keys have 32 bytes, signatures 64 *)
  ring_public_key_length : forall k, length (ring_public_key C k) = 32;
  ring_sign_length : forall k m, length (ring_sign C k m) = 64;
  (* a signature verifies under the signer's public key *)
  ring_verify_sign : forall k m, ring_verify C (ring_public_key C k) m (ring_sign C k m) = true;
  (* every 32-byte seed gives a key pair *)
  ring_seed_total : forall s, length s = 32 -> exists k, ring_from_seed_unchecked C s = Some k;
  (* from_seed_and_public_key: derive the key pair from the seed and compare the public keys *)
  ring_seed_checked : forall s pk,
    ring_from_seed_and_public_key C s pk =
      match ring_from_seed_unchecked C s with
      | Some k => if bytes_eqb pk (ring_public_key C k) then Some k else None
      | None => None
      end }.

Section WithCrypto.
Variable C : ed25519.

(** ** util.rs *)

(** [as_fixed_size::<[u8; n]>] (util.rs:9-17) *)
Definition as_fixed_size (n : nat) (data : list byte) : outcome (list byte) :=
  ok_or (layout_verified n data) EConversionError.

(** ** crypto/signature.rs *)

(** [Signature::ED25519_SIGNATURE_BYTES] (signature.rs:35) *)
Definition ED25519_SIGNATURE_BYTES : nat := 64.

(** [pub struct Signature(pub [u8; 64])] (signature.rs:31) *)
Record signature := Signature { sig_bytes : list byte }.

(** [pub struct KeyPair(pub Ed25519KeyPair)] (signature.rs:26) *)
Definition keypair := ring_keypair C.

(** [impl Serialize for Signature] (signature.rs:40-51) *)
Definition ser_signature (s : signature) : outcome (list ev) :=
  Ok (EvTuple (N.of_nat ED25519_SIGNATURE_BYTES) :: map EvU8 (sig_bytes s)).

(** [KeyPair::from_bytes] (signature.rs:65-70) *)
Definition keypair_from_bytes (bytes : list byte) : outcome keypair :=
  ok_or (ring_from_pkcs8 C bytes) EKeyRejectedError.

(** [KeyPair::new] (signature.rs:55-61); the argument is what ring's key generator returned *)
Definition keypair_new (generated_pkcs8 : option (list byte)) : outcome keypair :=
  let* pkcs8_bytes := ok_or generated_pkcs8 EKeyGenerationError in
  keypair_from_bytes pkcs8_bytes.

(** [KeyPair::from_seed_checked] (signature.rs:73-83) *)
Definition keypair_from_seed_checked (seed publickey : list byte) : outcome keypair :=
  ok_or (ring_from_seed_and_public_key C seed publickey) EKeyRejectedError.

(** [KeyPair::from_seed_unchecked] (signature.rs:86-92); the log line is not modelled *)
Definition keypair_from_seed_unchecked (seed : list byte) : outcome keypair :=
  ok_or (ring_from_seed_unchecked C seed) EKeyRejectedError.

(** [KeyPair::public_key] (signature.rs:95-101) *)
Definition public_key (k : keypair) : outcome (list byte) :=
  ok_or (layout_verified 32 (ring_public_key C k)) EKeyRejectedError.

(** [sign] (signature.rs:110-115) *)
Definition sign (k : keypair) (message : list byte) : outcome signature :=
  let* sig := ok_or (layout_verified 64 (ring_sign C k message)) ESigningError in
  Ok (Signature sig).

(** [sign_packet] (signature.rs:105-107) *)
Definition sign_packet (k : keypair) (message : packet) : outcome signature :=
  sign k (packet_bytes message).

(** [verify] (signature.rs:134-136) *)
Definition verify (pk msg sig : list byte) : bool := ring_verify C pk msg sig.

(** [verify_packet] (signature.rs:118-123) *)
Definition verify_packet (pk : list byte) (msg : packet) (sig : signature) : bool :=
  verify pk (packet_bytes msg) (sig_bytes sig).

(** [verify_raw] (signature.rs:126-131) *)
Definition verify_raw (pk msg sig : list byte) : bool := verify pk msg sig.

(** ** serialization/mod.rs: Packet *)

(** [Packet::new] (serialization/mod.rs:129-137) *)
Definition packet_new (h : header) : outcome packet :=
  match bincode_serialize (ser_header h) with
  | Ok i => Ok (Packet ([] ++ i))
  | Err _ => Err EHeaderError
  | Panic p => Panic p
  end.

(** [Packet::raw] (serialization/mod.rs:140-142) *)
Definition packet_raw (p : packet) : list byte := packet_bytes p.

(** [impl Clone for Packet] (serialization/mod.rs:24-28) *)
Definition packet_clone (p : packet) : packet := Packet (packet_bytes p).

(** Body of [Packet::add] (serialization/mod.rs:172-179) for a serializable object given by its
    serializer calls. *)
Definition packet_extend (p : packet) (s : outcome (list ev)) : packet * outcome unit :=
  match bincode_serialize s with
  | Ok i => (Packet (packet_bytes p ++ i), Ok tt)
  | Err e => (p, Err e)
  | Panic q => (p, Panic q)
  end.

(** [Packet::add::<T>] (serialization/mod.rs:172-179) *)
Definition packet_add (t : ty) (p : packet) (obj : tval t) : packet * outcome unit :=
  packet_extend p (ser t obj).

(** [Packet::sign] (serialization/mod.rs:154-161): consumes the packet *)
Definition packet_sign (p : packet) (k : keypair) : outcome packet :=
  let* signature := sign_packet k p in
  let '(p', r) := packet_extend p (ser_signature signature) in
  let* _ := r in
  Ok p'.

(** ** serialization/mod.rs: PacketDeserializer *)

(** [pub struct PacketDeserializer] (serialization/mod.rs:34-39) *)
Record deserializer := Deserializer { pntr : packet; index : nat }.

(** [Packet::start_deserialize] (serialization/mod.rs:164-169) *)
Definition start_deserialize (p : packet) : deserializer :=
  {| pntr := p; index := 0 |}.

(** [PacketDeserializer::next_payload::<T>] (serialization/mod.rs:45-69): the cursor is advanced by the
    size the decoded value has when serialized again *)
Definition next_payload (t : ty) (d : deserializer) : deserializer * outcome (tval t) :=
  let r :=
    let* s := or_panic (slice_from (packet_bytes (pntr d)) (index d)) in
    let* (res, _) := de t s in
    let* n := bincode_serialized_size (ser t res) in
    Ok (res, n) in
  match r with
  | Ok (res, n) => ({| pntr := pntr d; index := index d + n |}, Ok res)
  | Err e => (d, Err e)
  | Panic p => (d, Panic p)
  end.

(** [PacketDeserializer::peek_header] (serialization/mod.rs:72-77) *)
Definition peek_header (d : deserializer) : outcome header :=
  let* s := or_panic (slice_from (packet_bytes (pntr d)) (index d)) in
  let* (res, _) := de_header s in
  Ok res.

(** [PacketDeserializer::pop_header] (serialization/mod.rs:80-84) *)
Definition pop_header (d : deserializer) : deserializer * outcome header :=
  match peek_header d with
  | Ok res => ({| pntr := pntr d; index := index d + h_size res |}, Ok res)
  | Err e => (d, Err e)
  | Panic p => (d, Panic p)
  end.

(** [PacketDeserializer::skip_header] (serialization/mod.rs:87-90): consumes self *)
Definition skip_header (d : deserializer) : outcome deserializer :=
  let '(d', r) := pop_header d in
  let* _ := r in Ok d'.

(** [PacketDeserializer::verify_with] (serialization/mod.rs:113-124) *)
Definition verify_with (pkey : list byte) (d : deserializer) : deserializer * outcome bool :=
  let datalen := length (packet_bytes (pntr d)) in
  if datalen <? ED25519_SIGNATURE_BYTES then (d, Panic PSubOverflow)
  else
    let mid := datalen - ED25519_SIGNATURE_BYTES in
    let data := firstn mid (packet_bytes (pntr d)) in
    let sig := skipn mid (packet_bytes (pntr d)) in
    let status := verify_raw pkey data sig in
    ({| pntr := Packet (firstn mid (packet_bytes (pntr d))); index := index d |}, Ok status).

(** [PacketDeserializer::verify] (serialization/mod.rs:103-109) *)
Definition verify_embedded (d : deserializer) : deserializer * outcome bool :=
  match next_payload TBinMember d with
  | (d', Ok authpayload) => verify_with (bm_public_key_bin authpayload) d'
  | (d', Err _) => (d', Ok false)
  | (d', Panic p) => (d', Panic p)
  end.

End WithCrypto.

Arguments packet_sign {C} p k.
Arguments sign_packet {C} k message.
Arguments sign {C} k message.
Arguments public_key {C} k.
