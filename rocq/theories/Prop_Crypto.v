(** * Prop_Crypto: property theorems (statements only; proofs in CryptoProofs.v) *)
From Coq Require Import Strings.String.
From Verif Require Import Base Serde Codec Universe Spec SerdeFacts CodecFacts UniverseFacts Packet Client PacketFacts CodecProofs CursorProofs CryptoProofs.
Open Scope nat_scope.

(** C28. [Packet::sign] always succeeds and appends exactly the 64 signature bytes over all it holds. *)
Theorem C28_sign_appends :
  forall (C : ed25519), ed25519_laws C ->
  forall (k : keypair C) (p : packet),
    exists q sig, packet_sign p k = Ok q /\ packet_raw q = packet_raw p ++ sig /\
      length sig = 64 /\ sig = ring_sign C k (packet_raw p) /\
      sign_packet k p = Ok (Signature sig).
Proof. exact p_C28_sign_appends. Qed.
Print Assumptions C28_sign_appends.

Example ex_C28_laws_satisfiable : exists C, ed25519_laws C /\ inhabited (keypair C).
Proof. exact ex_C28_laws_satisfiable. Qed.

(** C29. Verification of a signed packet under the signer's key succeeds, from every cursor, and gives
    the unsigned packet back. *)
Theorem C29_sign_then_verify :
  forall (C : ed25519), ed25519_laws C ->
  forall (k : keypair C) (pk : list byte) (p q : packet) (i : nat),
    public_key k = Ok pk -> packet_sign p k = Ok q ->
    verify_with C pk {| pntr := q; index := i |} = ({| pntr := p; index := i |}, Ok true).
Proof. exact p_C29_sign_then_verify. Qed.
Print Assumptions C29_sign_then_verify.

Example ex_C29_toy :
  exists pk q, public_key (C := toy) (repeat x05 32) = Ok pk /\
               packet_sign (C := toy) (Packet [x01; x02]) (repeat x05 32) = Ok q /\ length (packet_raw q) = 66.
Proof. exact ex_C29_toy. Qed.

(** C30. [verify_with] accepts exactly the packets of the form message ++ signature, the signature being
    64 bytes valid for the message under the given key. The cursor plays no role. *)
Theorem C30_accepts_iff :
  forall (C : ed25519) (pk p : list byte) (i : nat),
    (snd (verify_with C pk {| pntr := Packet p; index := i |}) = Ok true <->
     exists msg sig, p = msg ++ sig /\ length sig = 64 /\ ring_verify C pk msg sig = true) /\
    (64 <= length p ->
     snd (verify_with C pk {| pntr := Packet p; index := i |}) = Ok true \/
     snd (verify_with C pk {| pntr := Packet p; index := i |}) = Ok false).
Proof. exact p_C30_accepts_iff. Qed.
Print Assumptions C30_accepts_iff.

(** C30. Accepting a packet that none of the honestly signed ones is exhibits an Ed25519 forgery: a
    message and a valid signature of it that the signer did not make. *)
Theorem C30_forgery_reduction :
  forall (C : ed25519), ed25519_laws C ->
  forall (k : keypair C) (pk : list byte) (signed : list packet) (q : packet) (i : nat),
    public_key k = Ok pk ->
    (forall p, In p signed -> packet_sign p k <> Ok q) ->
    snd (verify_with C pk {| pntr := q; index := i |}) = Ok true ->
    exists msg sig,
      packet_raw q = msg ++ sig /\
      ring_verify C (ring_public_key C k) msg sig = true /\
      forall p, In p signed -> (msg, sig) <> (packet_raw p, ring_sign C k (packet_raw p)).
Proof. exact p_C30_forgery_reduction. Qed.
Print Assumptions C30_forgery_reduction.

(** C31. End to end. A packet with a header, an authentication payload carrying the signer's key, and any
    payloads is signed. The receiver pops the header, verifies (true) and reads back all payloads in
    order; the cursor ends at the end of the unsigned packet. *)
Theorem C31_signed_message_end_to_end :
  forall (C : ed25519), ed25519_laws C ->
  forall (k : keypair C) (pk ekey mid : list byte) (mt : byte) (l : list payload) (p0 unsigned signed : packet),
    public_key k = Ok pk -> length ekey = 32 -> length mid = 20 ->
    Forall (fun x => in_range (projT1 x) (projT2 x)) l ->
    readable_sequence self_delimiting raw_at_end_only (map ptype l) = true ->
    packet_new (py_ipv8_header mid mt) = Ok p0 ->
    add_all p0 (existT tval TBinMember (BinMember pk ekey) :: l) = Ok unsigned ->
    packet_sign unsigned k = Ok signed ->
    exists d1 d2 d3,
      pop_header (start_deserialize signed) = (d1, Ok (spec_header mid mt)) /\
      verify_embedded C d1 = (d2, Ok true) /\
      read_all d2 (map ptype l) = (d3, Ok (map transmitted_payload l)) /\
      pntr d2 = unsigned /\ d3 = {| pntr := unsigned; index := length (packet_raw unsigned) |}.
Proof. exact p_C31_signed_message_end_to_end. Qed.
Print Assumptions C31_signed_message_end_to_end.

Example ex_C31_hypotheses :
  exists p0 unsigned signed,
    packet_new (py_ipv8_header (repeat x2a 20) x01) = Ok p0 /\
    add_all p0 (existT tval TBinMember (BinMember (repeat x05 32) (repeat x06 32)) :: example_payloads) = Ok unsigned /\
    packet_sign (C := toy) unsigned (repeat x05 32) = Ok signed /\ public_key (C := toy) (repeat x05 32) = Ok (repeat x05 32) /\
    length (packet_raw signed) = 195.
Proof. exact ex_C31_hypotheses. Qed.

(** C32. With a well-formed authentication payload at the cursor, [verify] uses the 32 bytes at offset 44
    of it, checks the last 64 bytes of the packet against everything before them, removes those 64 bytes
    and moves the cursor by 76. *)
Theorem C32_verify_uses_embedded_key :
  forall (C : ed25519) (p : list byte) (i : nat),
    let n := N.to_nat (u16_at p i) in
    i + 2 + n <= length p -> 74 <= n ->
    firstn 10 (skipn (i + 2) p) = ascii "LibNaCLPK:" ->
    verify_embedded C {| pntr := Packet p; index := i |} =
      ({| pntr := Packet (firstn (length p - 64) p); index := i + 76 |},
       Ok (ring_verify C (firstn 32 (skipn (i + 44) p)) (firstn (length p - 64) p) (skipn (length p - 64) p))).
Proof. exact p_C32_verify_uses_embedded_key. Qed.
Print Assumptions C32_verify_uses_embedded_key.

Example ex_C32_input :
  let p := [xaa] ++ u16_bytes 74 ++ ascii "LibNaCLPK:" ++ repeat x07 64 ++ repeat x01 64 in
  N.to_nat (u16_at p 1) = 74 /\ 1 + 2 + 74 <= length p /\ firstn 10 (skipn (1 + 2) p) = ascii "LibNaCLPK:".
Proof. exact ex_C32_input. Qed.

(** C33. What a false verdict leaves behind: nothing changed exactly when no authentication payload could
    be read; otherwise 64 bytes are gone and the cursor has moved by 76. *)
Theorem C33_failed_verification :
  forall (C : ed25519) (p : list byte) (i : nat) (d : deserializer),
    i <= length p ->
    verify_embedded C {| pntr := Packet p; index := i |} = (d, Ok false) ->
    (d = {| pntr := Packet p; index := i |} /\
     exists e, next_payload TBinMember {| pntr := Packet p; index := i |} = (d, Err e)) \/
    (d = {| pntr := Packet (firstn (length p - 64) p); index := i + 76 |} /\ 76 <= length p - i /\
     exists v, snd (next_payload TBinMember {| pntr := Packet p; index := i |}) = Ok v /\
               ring_verify C (bm_public_key_bin v) (firstn (length p - 64) p) (skipn (length p - 64) p) = false).
Proof. exact p_C33_failed_verification. Qed.
Print Assumptions C33_failed_verification.

(** C33. And the verdict is false, not true and not a panic, whenever no authentication payload can be read, or one can but
    the signature is wrong. *)
Theorem C33_when_false :
  forall (C : ed25519) (p : list byte) (i : nat),
    i <= length p ->
    let d := {| pntr := Packet p; index := i |} in
    (forall e, snd (next_payload TBinMember d) = Err e -> verify_embedded C d = (d, Ok false)) /\
    (forall v, snd (next_payload TBinMember d) = Ok v ->
       ring_verify C (bm_public_key_bin v) (firstn (length p - 64) p) (skipn (length p - 64) p) = false ->
       snd (verify_embedded C d) = Ok false).
Proof. exact p_C33_when_false. Qed.
Print Assumptions C33_when_false.

Example ex_C33_both :
  let p := u16_bytes 74 ++ ascii "LibNaCLPK:" ++ repeat x07 64 ++ repeat x01 64 in
  snd (verify_embedded toy (start_deserialize (Packet p))) = Ok false /\
  snd (verify_embedded toy (start_deserialize (Packet [x01; x02]))) = Ok false.
Proof. exact ex_C33_both. Qed.

(** C34. [verify_with] panics exactly on packets of fewer than 64 bytes. *)
Theorem C34_verify_with_panics_iff :
  forall (C : ed25519) (pk p : list byte) (i : nat),
    (exists x, snd (verify_with C pk {| pntr := Packet p; index := i |}) = Panic x) <-> length p < 64.
Proof. exact p_C34_verify_with_panics_iff. Qed.
Print Assumptions C34_verify_with_panics_iff.

(** C34. [verify] never reaches that case: it panics exactly when reading the authentication payload does,
    and it never returns an error. *)
Theorem C34_verify_panics_iff :
  forall (C : ed25519) (p : list byte) (i : nat),
    i <= length p ->
    ((exists x, snd (verify_embedded C {| pntr := Packet p; index := i |}) = Panic x) <->
     let n := N.to_nat (u16_at p i) in
     (i + 2 <= length p /\ i + 2 + n <= length p) /\
     (n < 10 \/ n < 74 /\ firstn 10 (skipn (i + 2) p) = ascii "LibNaCLPK:")) /\
    (forall e, snd (verify_embedded C {| pntr := Packet p; index := i |}) <> Err e).
Proof. exact p_C34_verify_panics_iff. Qed.
Print Assumptions C34_verify_panics_iff.

(** C34. Refuted: an empty packet makes [verify_with] panic instead of returning false. *)
Theorem C34_short_packet_refuted :
  forall (C : ed25519) (pk : list byte),
    snd (verify_with C pk (start_deserialize (Packet []))) = Panic PSubOverflow.
Proof. exact p_C34_short_packet_refuted. Qed.
Print Assumptions C34_short_packet_refuted.

(** C35. After [verify] has read an authentication payload, every later read panics exactly when fewer than
    64 bytes follow the authentication payload (the signature overlaps it); otherwise the cursor is inside
    the packet and C22-C27 apply. *)
Theorem C35_reading_after_verify :
  forall (C : ed25519) (p : list byte) (i : nat) (d : deserializer) (verdict : bool) (t : ty),
    i <= length p ->
    verify_embedded C {| pntr := Packet p; index := i |} = (d, Ok verdict) ->
    d <> {| pntr := Packet p; index := i |} ->
    (length p < i + 76 + 64 -> snd (next_payload t d) = Panic PSliceIndex /\ peek_header d = Panic PSliceIndex) /\
    (i + 76 + 64 <= length p -> index d <= length (packet_raw (pntr d)) /\
       (has_auth t = false -> forall x, snd (next_payload t d) <> Panic x)).
Proof. exact p_C35_reading_after_verify. Qed.
Print Assumptions C35_reading_after_verify.

(** C35. Refuted: a packet on which [verify] returns normally and the next read panics. *)
Theorem C35_read_after_verify_refuted :
  exists (p : list byte) (d : deserializer),
    verify_embedded toy (start_deserialize (Packet p)) = (d, Ok false) /\
    forall t, snd (next_payload t d) = Panic PSliceIndex.
Proof. exact p_C35_read_after_verify_refuted. Qed.
Print Assumptions C35_read_after_verify_refuted.

(** C36. Over any history of reads and verifications, with any results, what is left of the packet is the
    original without its last 64 k bytes, k being the number of verifications that got as far as the
    signature: all returning [verify_with] calls, and at most the returning [verify] calls. The cursor
    never goes back. *)
Theorem C36_histories :
  forall (C : ed25519) (l : list op) (p : list byte) (i : nat) (d : deserializer) (rs : list (outcome unit)),
    do_ops C {| pntr := Packet p; index := i |} l = (d, rs) ->
    exists k,
      packet_raw (pntr d) = firstn (length p - 64 * k) p /\ 64 * k <= length p /\
      verify_with_returned l rs <= k <= verify_with_returned l rs + verify_returned l rs /\
      i <= index d.
Proof. exact p_C36_histories. Qed.
Print Assumptions C36_histories.

Example ex_C36_two_verifications :
  do_ops toy (start_deserialize (Packet (repeat x00 130))) [OVerifyWith []; OPeek; OVerifyWith []; OVerifyWith []]
   = (start_deserialize (Packet [x00; x00]),
      [Ok tt; Err (ECustom "No valid header type could be determined"); Ok tt; Panic PSubOverflow]).
Proof. exact ex_C36_two_verifications. Qed.

(** C37. [from_seed_checked] succeeds iff the given public key is the one of the seed. *)
Theorem C37_from_seed_checked :
  forall (C : ed25519), ed25519_laws C ->
  forall (seed pk : list byte) (k : keypair C),
    keypair_from_seed_checked C seed pk = Ok k <->
    keypair_from_seed_unchecked C seed = Ok k /\ public_key k = Ok pk.
Proof. exact p_C37_from_seed_checked. Qed.
Print Assumptions C37_from_seed_checked.

(** C37. A 32-byte seed always gives a key pair; its failure mode is a rejection, never a panic. *)
Theorem C37_seed_total :
  forall (C : ed25519), ed25519_laws C ->
  forall (seed : list byte), length seed = 32 ->
  exists k pk, keypair_from_seed_unchecked C seed = Ok k /\ public_key k = Ok pk /\ length pk = 32 /\
               keypair_from_seed_checked C seed pk = Ok k /\
               forall pk', pk' <> pk -> keypair_from_seed_checked C seed pk' = Err EKeyRejectedError.
Proof. exact p_C37_seed_total. Qed.
Print Assumptions C37_seed_total.

(** C37. Detached signatures: what [sign] makes, all three verification functions accept under the
    signer's key, and they agree on everything. *)
Theorem C37_detached_signatures :
  forall (C : ed25519), ed25519_laws C ->
  forall (k : keypair C) (pk : list byte) (msg : packet),
    public_key k = Ok pk ->
    exists s, sign k (packet_raw msg) = Ok s /\ sign_packet k msg = Ok s /\ length (sig_bytes s) = 64 /\
      verify C pk (packet_raw msg) (sig_bytes s) = true /\
      forall pk' s', verify_packet C pk' msg s' = verify C pk' (packet_raw msg) (sig_bytes s') /\
                     verify_raw C pk' (packet_raw msg) (sig_bytes s') = verify C pk' (packet_raw msg) (sig_bytes s').
Proof. exact p_C37_detached_signatures. Qed.
Print Assumptions C37_detached_signatures.

Example ex_C37_toy : exists k, keypair_from_seed_checked toy (repeat x05 32) (repeat x05 32) = Ok k.
Proof. exact ex_C37_toy. Qed.

(** C38. [as_fixed_size] succeeds iff the slice has exactly the size of the array. *)
Theorem C38_as_fixed_size :
  forall (n : nat) (data : list byte),
    (length data = n -> as_fixed_size n data = Ok data) /\
    (length data <> n -> as_fixed_size n data = Err EConversionError).
Proof. exact p_C38_as_fixed_size. Qed.
Print Assumptions C38_as_fixed_size.

(** C58. Signatures stack: a packet signed by any sequence of keys is peeled in the opposite order, every
    verification succeeding, and the original packet and cursor come back. *)
Theorem C58_signature_stack :
  forall (C : ed25519), ed25519_laws C ->
  forall (ks : list (keypair C)) (p q : packet) (i : nat),
    sign_all ks p = Ok q ->
    verify_all C (rev (map (ring_public_key C) ks)) {| pntr := q; index := i |}
    = ({| pntr := p; index := i |}, Ok (map (fun _ => true) ks)) /\
    length (packet_raw q) = length (packet_raw p) + 64 * length ks.
Proof. exact p_C58_signature_stack. Qed.
Print Assumptions C58_signature_stack.

Example ex_C58_two : exists q, sign_all (C := toy) [repeat x01 32; repeat x02 32] (Packet [x09]) = Ok q.
Proof. exact ex_C58_two. Qed.
