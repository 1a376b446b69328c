(** * Prop_Py: property theorems (statements only; proofs in PyProofs.v) *)
From Coq Require Import Strings.String.
From Verif Require Import Base Serde Codec Universe Spec SerdeFacts CodecFacts UniverseFacts Packet Client PacketFacts CodecProofs CursorProofs CryptoProofs PyBinding PyProofs.
Open Scope nat_scope.

(** C39. [borrowed_create_signature]: the exact result for every input. *)
Theorem C39_create_signature :
  forall (C : ed25519), ed25519_laws C ->
  forall (seed key data : list byte),
    (length key <> 32 ->
       borrowed_create_signature C seed key data = PyKeyError "Key length was wrong") /\
    (length key = 32 -> length seed <> 32 ->
       borrowed_create_signature C seed key data = PyKeyError "Seed length was wrong") /\
    (length key = 32 -> length seed = 32 ->
       exists k, ring_from_seed_unchecked C seed = Some k /\
         (ring_public_key C k <> key ->
            borrowed_create_signature C seed key data = PyKeyError "Invalid key given") /\
         (ring_public_key C k = key ->
            borrowed_create_signature C seed key data = PyOk (data ++ ring_sign C k data) /\
            length (ring_sign C k data) = 64)).
Proof. exact p_C39_create_signature. Qed.
Print Assumptions C39_create_signature.

Example ex_C39_toy :
  borrowed_create_signature toy (repeat x05 32) (repeat x05 32) [x01] =
    PyOk ([x01] ++ repeat x05 32 ++ [x01] ++ repeat x00 31) /\
  borrowed_create_signature toy (repeat x05 32) (repeat x06 32) [x01] = PyKeyError "Invalid key given" /\
  borrowed_create_signature toy (repeat x05 31) (repeat x06 31) [x01] = PyKeyError "Key length was wrong".
Proof. exact ex_C39_toy. Qed.

(** C40. [borrowed_verify_signature]: the exact result for every input. Without a header it raises
    ValueError. Otherwise, with n the announced length of the key blob behind the header, it returns
    false and everything behind the header when the blob is incomplete or has the wrong prefix; the
    verdict and the bytes between authentication payload and signature when the blob has at least 74 bytes
    and 64 more bytes follow the first 76; and it panics in all other cases. *)
Theorem C40_verify_signature :
  forall (C : ed25519) (auth data : list byte),
    let header_ok := 23 <= length data /\ byte_at data 0 = x00 /\ byte_at data 1 = x02 in
    let n := N.to_nat (u16_at data 23) in
    let blob_ok := 25 <= length data /\ 25 + n <= length data in
    let prefix_ok := firstn 10 (skipn 25 data) = ascii "LibNaCLPK:" in
    let signed := length data - 64 in
    (~ header_ok ->
       borrowed_verify_signature C auth data = PyValueError "Could not ignore the header") /\
    (header_ok -> ~ blob_ok ->
       borrowed_verify_signature C auth data = PyOk (false, skipn 23 data)) /\
    (header_ok -> blob_ok -> 10 <= n -> ~ prefix_ok ->
       borrowed_verify_signature C auth data = PyOk (false, skipn 23 data)) /\
    (header_ok -> blob_ok -> n < 10 \/ (n < 74 /\ prefix_ok) ->
       borrowed_verify_signature C auth data = PyPanic PSliceIndex) /\
    (header_ok -> blob_ok -> 74 <= n -> prefix_ok -> length data < 163 ->
       borrowed_verify_signature C auth data = PyPanic PSliceIndex) /\
    (header_ok -> blob_ok -> 74 <= n -> prefix_ok -> 163 <= length data ->
       borrowed_verify_signature C auth data =
         PyOk (ring_verify C (firstn 32 (skipn 67 data)) (firstn signed data) (skipn signed data),
               skipn 99 (firstn signed data))).
Proof. exact p_C40_verify_signature. Qed.
Print Assumptions C40_verify_signature.

(** C40. Refuted: 25 bytes suffice to make it panic. *)
Theorem C40_no_crash_refuted :
  forall (C : ed25519) (auth : list byte),
  exists data, length data = 25 /\ borrowed_verify_signature C auth data = PyPanic PSliceIndex.
Proof. exact p_C40_no_crash_refuted. Qed.
Print Assumptions C40_no_crash_refuted.

(** C40. What [borrowed_create_signature] makes of a header, an authentication payload with the key, and
    any further bytes, [borrowed_verify_signature] accepts and returns those bytes. *)
Theorem C40_create_then_verify :
  forall (C : ed25519), ed25519_laws C ->
  forall (seed key ekey mid : list byte) (mt : byte) (body auth signed : list byte),
    length mid = 20 -> length ekey = 32 ->
    borrowed_create_signature C seed key
      (header_layout mid mt ++ auth_layout (BinMember key ekey) ++ body) = PyOk signed ->
    borrowed_verify_signature C auth signed = PyOk (true, body).
Proof. exact p_C40_create_then_verify. Qed.
Print Assumptions C40_create_then_verify.

Example ex_C40_round_trip :
  exists signed,
    borrowed_create_signature toy (repeat x05 32) (repeat x05 32)
      (header_layout (repeat x2a 20) x01 ++ auth_layout (BinMember (repeat x05 32) (repeat x06 32)) ++ [x09; x08]) = PyOk signed /\
    borrowed_verify_signature toy [] signed = PyOk (true, [x09; x08]).
Proof. exact ex_C40_round_trip. Qed.
