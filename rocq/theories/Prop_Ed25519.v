(** * Prop_Ed25519: property theorems (statements only; proofs in Ed25519Proofs.v) *)
From Coq Require Import Strings.String.
From Coq Require Import Znumtheory.
From Verif Require Import Base Serde Codec Universe Spec SerdeFacts CodecFacts UniverseFacts Packet Client PacketFacts CodecProofs CryptoProofs EdPrime EdField EdCurve EdSpec Sha512 Sha512Spec Sha512Facts Ed25519 Ed25519Facts Ed25519Proofs.
Open Scope Z_scope.

(** C100. The Ed25519 of RFC 8032, as an executable program, has every property that the theorems about
    signatures assume of [ring]: lengths, every signature verifies under the signer's key, every seed gives
    a key pair. The way a PKCS#8 document is decoded is left open. *)
Theorem C100_ed25519_meets_the_laws :
  forall from_pkcs8 : list byte -> option (list byte), ed25519_laws (ring_ed25519 from_pkcs8).
Proof. exact p_C100_ed25519_meets_the_laws. Qed.
Print Assumptions C100_ed25519_meets_the_laws.

(** C101. Verification accepts exactly the valid signatures of RFC 8032, 5.1.7: the public key reads as a
    point A of the curve, the signature is an encoded point R and a number S below the group order, and
    S B - k A = R in the group, k being the SHA-512 of R, the key and the message. *)
Theorem C101_verify_is_the_group_equation :
  forall (from_pkcs8 : list byte -> option (list byte)) (key msg sig : list byte),
    (len msg < 2 ^ 64)%N ->
    (verify_raw (ring_ed25519 from_pkcs8) key msg sig = true <-> valid_signature key msg sig).
Proof. exact p_C101_verify_is_the_group_equation. Qed.
Print Assumptions C101_verify_is_the_group_equation.

(** C102. Signatures are not malleable in their second half: two packets that differ at most in their last
    32 bytes are not both accepted under the same key, whatever the key. *)
Theorem C102_last_32_bytes_are_determined :
  forall (from_pkcs8 : list byte -> option (list byte)) (key body s1 s2 : list byte) (i j : nat),
    length s1 = 32%nat -> length s2 = 32%nat ->
    snd (verify_with (ring_ed25519 from_pkcs8) key {| pntr := Packet (body ++ s1); index := i |}) = Ok true ->
    snd (verify_with (ring_ed25519 from_pkcs8) key {| pntr := Packet (body ++ s2); index := j |}) = Ok true ->
    s1 = s2.
Proof. exact p_C102_last_32_bytes_are_determined. Qed.
Print Assumptions C102_last_32_bytes_are_determined.

(** C100. So the end-to-end theorem of signed messages (C31) holds of the real signature scheme with no
    assumption left: a packet with a header, an authentication payload carrying the signer's key and any
    payloads, signed with any key pair, is verified and read back by the receiver. *)
Theorem C100_signed_message_end_to_end :
  forall (from_pkcs8 : list byte -> option (list byte)) (seed ekey mid : list byte) (mt : byte) (l : list payload)
         (k : keypair (ring_ed25519 from_pkcs8)) (p0 unsigned signed : packet),
    keypair_from_seed_unchecked (ring_ed25519 from_pkcs8) seed = Ok k ->
    length ekey = 32%nat -> length mid = 20%nat ->
    Forall (fun x => in_range (projT1 x) (projT2 x)) l ->
    readable_sequence self_delimiting raw_at_end_only (map ptype l) = true ->
    packet_new (py_ipv8_header mid mt) = Ok p0 ->
    add_all p0 (existT tval TBinMember (BinMember (ed_public_key seed) ekey) :: l) = Ok unsigned ->
    packet_sign unsigned k = Ok signed ->
    exists d1 d2 d3,
      pop_header (start_deserialize signed) = (d1, Ok (spec_header mid mt)) /\
      verify_embedded (ring_ed25519 from_pkcs8) d1 = (d2, Ok true) /\
      read_all d2 (map ptype l) = (d3, Ok (map transmitted_payload l)) /\
      pntr d2 = unsigned /\ d3 = {| pntr := unsigned; index := length (packet_raw unsigned) |}.
Proof. exact p_C100_signed_message_end_to_end. Qed.
Print Assumptions C100_signed_message_end_to_end.

Example ex_C100_hypotheses :
  exists k p0 unsigned signed,
    keypair_from_seed_unchecked (ring_ed25519 (fun _ => None)) (repeat x05 32) = Ok k /\
    packet_new (py_ipv8_header (repeat x2a 20) x01) = Ok p0 /\
    add_all p0 (existT tval TBinMember (BinMember (ed_public_key (repeat x05 32)) (repeat x06 32)) :: example_payloads) = Ok unsigned /\
    packet_sign unsigned k = Ok signed /\ length (packet_raw signed) = 195%nat.
Proof. exact ex_C100_hypotheses. Qed.

(** C101 is about signatures that exist: those that [sign] makes. *)
Example ex_C101_valid_signatures :
  forall seed msg, (len msg < 2 ^ 64)%N -> valid_signature (ed_public_key seed) msg (ed_sign seed msg).
Proof. exact ex_C101_valid_signatures. Qed.

(** C102. In particular a signed packet with anything else as its last 32 bytes is rejected. *)
Theorem C102_signed_packet_not_malleable :
  forall (from_pkcs8 : list byte -> option (list byte)) (k : keypair (ring_ed25519 from_pkcs8)) (pk : list byte)
         (p q : packet) (tail : list byte) (i : nat),
    public_key k = Ok pk -> packet_sign p k = Ok q -> length tail = 32%nat ->
    tail <> skipn (length (packet_raw p) + 32) (packet_raw q) ->
    snd (verify_with (ring_ed25519 from_pkcs8) pk
           {| pntr := Packet (firstn (length (packet_raw p) + 32) (packet_raw q) ++ tail); index := i |}) = Ok false.
Proof. exact p_C102_signed_packet_not_malleable. Qed.
Print Assumptions C102_signed_packet_not_malleable.

(** C103. A verdict [true] alone does not mean that anybody signed: the 32 bytes 01 00 ... 00 are accepted
    as a public key (the neutral element of the group), and so are three other ways to write it; under each of them one fixed
    signature, 01 00 ... 00 followed by 32 zero bytes, is valid for every message. *)
Theorem C103_neutral_key_accepts_everything :
  forall (from_pkcs8 : list byte -> option (list byte)) (key msg : list byte) (i : nat),
    In key neutral_keys ->
    verify_with (ring_ed25519 from_pkcs8) key
      {| pntr := Packet (msg ++ neutral ++ repeat x00 32); index := i |}
    = ({| pntr := Packet msg; index := i |}, Ok true).
Proof. exact p_C103_neutral_key_accepts_everything. Qed.
Print Assumptions C103_neutral_key_accepts_everything.

(** C103. These four are all: the keys that are read as the neutral element of the group (0, 1). *)
Theorem C103_there_are_four_such_keys :
  forall (key : list byte) (a : point),
    px a = f0 -> py a = f1 -> (reads_as key a <-> In key neutral_keys) /\ NoDup neutral_keys.
Proof. exact p_C103_there_are_four_such_keys. Qed.
Print Assumptions C103_there_are_four_such_keys.

Example ex_C103_reads_as_a_point : reads_as neutral pzero.
Proof. exact ex_C103_reads_as_a_point. Qed.

(** C104. A key pair made from a seed has the public key that RFC 8032, 5.1.5, defines, and no other. *)
Theorem C104_public_key_of_a_seed :
  forall (from_pkcs8 : list byte -> option (list byte)) (seed key : list byte) (k : keypair (ring_ed25519 from_pkcs8)),
    keypair_from_seed_unchecked (ring_ed25519 from_pkcs8) seed = Ok k ->
    (public_key k = Ok key <-> is_public_key seed key).
Proof. exact p_C104_public_key_of_a_seed. Qed.
Print Assumptions C104_public_key_of_a_seed.

(** C104. Signing a packet with a key pair made from a seed appends the signature that RFC 8032, 5.1.6, defines for the
    seed and the bytes of the packet, and nothing else: signatures are deterministic, and another implementation of the RFC
    makes the same ones. *)
Theorem C104_signature_of_a_seed :
  forall (from_pkcs8 : list byte -> option (list byte)) (seed msg : list byte) (k : keypair (ring_ed25519 from_pkcs8)) (q : packet),
    keypair_from_seed_unchecked (ring_ed25519 from_pkcs8) seed = Ok k -> (len msg < 2 ^ 64)%N ->
    (packet_sign (Packet msg) k = Ok q <-> exists sig, is_signature seed msg sig /\ q = Packet (msg ++ sig)).
Proof. exact p_C104_signature_of_a_seed. Qed.
Print Assumptions C104_signature_of_a_seed.

Example ex_C104_seed :
  exists k key q, keypair_from_seed_unchecked (ring_ed25519 (fun _ => None)) (repeat x05 32) = Ok k /\
    public_key k = Ok key /\ is_public_key (repeat x05 32) key /\
    packet_sign (Packet [x01; x02; x03]) k = Ok q /\ length (packet_raw q) = 67%nat.
Proof. exact ex_C104_seed. Qed.

(** C103. So anybody can make packets that [verify] accepts, for the four identities that go with these keys, without any
    secret: header, authentication payload with that key, any payloads, and the fixed 64 bytes. *)
Theorem C103_verified_without_a_secret :
  forall (from_pkcs8 : list byte -> option (list byte)) (key ekey mid : list byte) (mt : byte) (l : list payload) (p0 unsigned : packet),
    In key neutral_keys -> length ekey = 32%nat -> length mid = 20%nat ->
    Forall (fun x => in_range (projT1 x) (projT2 x)) l ->
    readable_sequence self_delimiting raw_at_end_only (map ptype l) = true ->
    packet_new (py_ipv8_header mid mt) = Ok p0 ->
    add_all p0 (existT tval TBinMember (BinMember key ekey) :: l) = Ok unsigned ->
    exists d1 d2 d3,
      pop_header (start_deserialize (Packet (packet_raw unsigned ++ neutral ++ repeat x00 32))) = (d1, Ok (spec_header mid mt)) /\
      verify_embedded (ring_ed25519 from_pkcs8) d1 = (d2, Ok true) /\
      read_all d2 (map ptype l) = (d3, Ok (map transmitted_payload l)) /\
      pntr d2 = unsigned /\ d3 = {| pntr := unsigned; index := length (packet_raw unsigned) |}.
Proof. exact p_C103_verified_without_a_secret. Qed.
Print Assumptions C103_verified_without_a_secret.

Example ex_C103_unsigned :
  exists p0 unsigned, packet_new (py_ipv8_header (repeat x2a 20) x01) = Ok p0 /\
    add_all p0 (existT tval TBinMember (BinMember neutral (repeat x06 32)) :: example_payloads) = Ok unsigned /\
    length (packet_raw unsigned) = 131%nat.
Proof. exact ex_C103_unsigned. Qed.

(** C108. The holder of a key pair can make a valid signature of any content for every point r B: the first half of a signature is free, the
    second one is determined by it (C102). *)
Theorem C108_a_valid_signature_for_every_nonce :
  forall (from_pkcs8 : list byte -> option (list byte)) (seed key msg : list byte) (k : keypair (ring_ed25519 from_pkcs8))
         (B : point) (r : Z) (i : nat),
    keypair_from_seed_unchecked (ring_ed25519 from_pkcs8) seed = Ok k -> public_key k = Ok key -> is_base B -> 0 <= r ->
    exists first second, encodes first (times r B) /\ length second = 32%nat /\
      verify_with (ring_ed25519 from_pkcs8) key {| pntr := Packet (msg ++ first ++ second); index := i |}
        = ({| pntr := Packet msg; index := i |}, Ok true).
Proof. exact p_C108_a_valid_signature_for_every_nonce. Qed.
Print Assumptions C108_a_valid_signature_for_every_nonce.

(** C108 (refuted). "verify_with accepts only the packets that Packet::sign makes": for every key pair and every content there
    is another accepted packet than the one [sign] makes, so signed packets must not be compared by their bytes, for
    instance to detect repetitions. *)
Theorem C108_signed_packets_are_unique_refuted :
  forall (from_pkcs8 : list byte -> option (list byte)) (seed key msg : list byte) (k : keypair (ring_ed25519 from_pkcs8)) (q : packet) (i : nat),
    keypair_from_seed_unchecked (ring_ed25519 from_pkcs8) seed = Ok k -> public_key k = Ok key ->
    packet_sign (Packet msg) k = Ok q ->
    exists other, packet_raw other <> packet_raw q /\
      verify_with (ring_ed25519 from_pkcs8) key {| pntr := other; index := i |}
        = verify_with (ring_ed25519 from_pkcs8) key {| pntr := q; index := i |} /\
      verify_with (ring_ed25519 from_pkcs8) key {| pntr := other; index := i |} = ({| pntr := Packet msg; index := i |}, Ok true).
Proof. exact p_C108_signed_packets_are_unique_refuted. Qed.
Print Assumptions C108_signed_packets_are_unique_refuted.
