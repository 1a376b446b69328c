(** * Prop_Pkcs8: property theorems (statements only; proofs in Pkcs8Proofs.v) *)
From Coq Require Import Strings.String.
From Verif Require Import Base Serde SerdeFacts Codec Spec Packet PacketFacts CodecFacts CryptoProofs EdField EdCurve EdSpec Sha512 Sha512Spec Ed25519 Ed25519Facts Ed25519Proofs Pkcs8 Pkcs8Spec Pkcs8Proofs.
Open Scope nat_scope.

(** C105. [KeyPair::from_bytes] accepts exactly the version 2 documents of RFC 5958 / RFC 8410, in DER and shorter than 64 KiB, with or without
    attributes, in which the public key is that of the seed (RFC 8032, 5.1.5); the key pair is that of the seed. Everything else is
    rejected with [KeyRejectedError]; there is no panic. *)
Theorem C105_from_bytes_accepts_exactly :
  forall (b seed : list byte),
    (keypair_from_bytes ring_pkcs8 b = Ok seed <->
     exists attributes key, length seed = 32 /\ is_attributes attributes /\ is_public_key seed key /\
       (len (document_content seed attributes key) < 65536)%N /\ b = document seed attributes key) /\
    (keypair_from_bytes ring_pkcs8 b = Err EKeyRejectedError \/ exists s, keypair_from_bytes ring_pkcs8 b = Ok s).
Proof. exact p_C105_from_bytes_accepts_exactly. Qed.
Print Assumptions C105_from_bytes_accepts_exactly.

(** C106. [KeyPair::new] fails only when the system has no randomness to give; whatever 32 bytes it gives, the result is
    the key pair of these as a seed. *)
Theorem C106_new_gives_the_key_pair_of_the_random_seed :
  forall random : option (list byte),
    (forall seed, random = Some seed -> length seed = 32) ->
    keypair_new ring_pkcs8 (generate_pkcs8 random) =
      match random with
      | Some seed => keypair_from_seed_unchecked ring_pkcs8 seed
      | None => Err EKeyGenerationError
      end /\
    forall seed, random = Some seed ->
      exists k key, keypair_new ring_pkcs8 (generate_pkcs8 random) = Ok k /\ public_key k = Ok key /\ is_public_key seed key.
Proof. exact p_C106_new_gives_the_key_pair_of_the_random_seed. Qed.
Print Assumptions C106_new_gives_the_key_pair_of_the_random_seed.

(** C107. Documents are canonical: for every key pair there is exactly one accepted document without attributes, the one that
    [KeyPair::new] generates; no other bytes (other lengths, trailing bytes, another version number) are read as that key pair. *)
Theorem C107_one_document_per_key :
  forall (b seed : list byte),
    keypair_from_bytes ring_pkcs8 b = Ok seed ->
    Some b = generate_pkcs8 (Some seed) \/
    exists content key, b = document seed (der xa0 content) key /\ is_public_key seed key.
Proof. exact p_C107_one_document_per_key. Qed.
Print Assumptions C107_one_document_per_key.

(** C107. The documents without a public key that other software writes (version 1 of PKCS#8, RFC 8410, section 7) are rejected, whatever
    the seed. *)
Theorem C107_old_documents_rejected :
  forall seed : list byte, length seed = 32 -> keypair_from_bytes ring_pkcs8 (document_v1 seed) = Err EKeyRejectedError.
Proof. exact p_C107_old_documents_rejected. Qed.
Print Assumptions C107_old_documents_rejected.

(** the hypotheses of C105 and C107 are met: by the document generated for a seed, and by one with attributes *)
Example ex_C105_accepted :
  exists b, keypair_from_bytes ring_pkcs8 b = Ok (repeat x05 32) /\ length b = 85.
Proof. exact ex_C105_accepted. Qed.

Example ex_C105_with_attributes :
  exists key, keypair_from_bytes ring_pkcs8 (document (repeat x05 32) (der xa0 [x01; x02; x03]) key) = Ok (repeat x05 32).
Proof. exact ex_C105_with_attributes. Qed.
