(** * Prop_Appended: property theorems (statements only; proofs in AppendedProofs.v) *)
From Coq Require Import Strings.String.
From Verif Require Import Base Serde Codec Universe Spec SerdeFacts CodecFacts UniverseFacts Packet Client PacketFacts CodecProofs CryptoProofs EdField EdCurve Ed25519 EdSpec Ed25519Proofs AppendedProofs.
Open Scope nat_scope.

(** C135. Nothing stops the addition: to a signed packet every payload that has an encoding is added as to any other packet,
    and the content and the signature are still in front of it. *)
Theorem C135_there_is_no_check :
  forall (C : ed25519), ed25519_laws C ->
  forall (k : keypair C) (p q : packet) (t : ty) (v : tval t),
    packet_sign p k = Ok q -> in_range t v -> encodable t v ->
    exists sig, sign_packet k p = Ok (Signature sig) /\ length sig = 64 /\
      packet_add t q v = (Packet (packet_raw p ++ sig ++ layout t v), Ok tt).
Proof. exact p_C135_there_is_no_check. Qed.
Print Assumptions C135_there_is_no_check.

(** C135. What the receiver has in its hands after [verify_with], whatever the verdict, if at most 64 bytes were added: the content
    that was signed, followed by as many bytes of the signature as were added. Of the added payload nothing is left. *)
Theorem C135_what_is_left_after_verification :
  forall (C : ed25519), ed25519_laws C ->
  forall (k : keypair C) (p q : packet) (sig added key : list byte) (i : nat),
    packet_sign p k = Ok q -> sign_packet k p = Ok (Signature sig) -> length added <= 64 ->
    fst (verify_with C key {| pntr := Packet (packet_raw q ++ added); index := i |})
    = {| pntr := Packet (packet_raw p ++ firstn (length added) sig); index := i |}.
Proof. exact p_C135_what_is_left_after_verification. Qed.
Print Assumptions C135_what_is_left_after_verification.

(** C135. With the real signatures: of all byte strings of the same length that agree except for their last 32 bytes, at most one can
    be added to a packet (signed or not, of whatever key) such that [verify_with] still says true. *)
Theorem C135_at_most_one_continuation_verifies :
  forall (from_pkcs8 : list byte -> option (list byte)) (key body common tail1 tail2 : list byte) (i j : nat),
    64 <= length body ->
    length tail1 = length tail2 -> length tail1 <= 32 ->
    snd (verify_with (ring_ed25519 from_pkcs8) key {| pntr := Packet (body ++ common ++ tail1); index := i |}) = Ok true ->
    snd (verify_with (ring_ed25519 from_pkcs8) key {| pntr := Packet (body ++ common ++ tail2); index := j |}) = Ok true ->
    tail1 = tail2.
Proof. exact p_C135_at_most_one_continuation_verifies. Qed.
Print Assumptions C135_at_most_one_continuation_verifies.

(** C135. So of all the values of a payload type of at most 32 bytes at most one can be added to a signed packet without breaking the
    verification. For a global time (8 bytes): of the 2^64 values at most one. *)
Theorem C135_at_most_one_value_verifies :
  forall (from_pkcs8 : list byte -> option (list byte)) (k : keypair (ring_ed25519 from_pkcs8)) (key : list byte)
         (p q q1 q2 : packet) (t : ty) (v1 v2 : tval t) (i j : nat),
    packet_sign p k = Ok q ->
    raw_at_end_only t = true -> has_introduction t = false -> in_range t v1 -> in_range t v2 ->
    packet_add t q v1 = (q1, Ok tt) -> packet_add t q v2 = (q2, Ok tt) ->
    length (packet_raw q1) = length (packet_raw q2) -> length (packet_raw q1) <= length (packet_raw q) + 32 ->
    snd (verify_with (ring_ed25519 from_pkcs8) key {| pntr := q1; index := i |}) = Ok true ->
    snd (verify_with (ring_ed25519 from_pkcs8) key {| pntr := q2; index := j |}) = Ok true ->
    v1 = v2.
Proof. exact p_C135_at_most_one_value_verifies. Qed.
Print Assumptions C135_at_most_one_value_verifies.

Theorem C135_at_most_one_global_time_verifies :
  forall (from_pkcs8 : list byte -> option (list byte)) (k : keypair (ring_ed25519 from_pkcs8)) (key : list byte)
         (p q q1 q2 : packet) (v1 v2 : time_distribution) (i j : nat),
    packet_sign p k = Ok q -> in_range TTime v1 -> in_range TTime v2 ->
    packet_add TTime q v1 = (q1, Ok tt) -> packet_add TTime q v2 = (q2, Ok tt) ->
    snd (verify_with (ring_ed25519 from_pkcs8) key {| pntr := q1; index := i |}) = Ok true ->
    snd (verify_with (ring_ed25519 from_pkcs8) key {| pntr := q2; index := j |}) = Ok true ->
    v1 = v2.
Proof. exact p_C135_at_most_one_global_time_verifies. Qed.
Print Assumptions C135_at_most_one_global_time_verifies.

(** C135 (refuted). "Adding a payload to a signed packet breaks the verification": to every signed packet the 64 raw bytes of a second
    signature can be added and [verify_with] says true (that is what signing twice does, C58); what it then leaves is the packet with
    the first signature, which a receiver takes for payload. *)
Theorem C135_adding_breaks_verification_refuted :
  forall (C : ed25519), ed25519_laws C ->
  forall (k : keypair C) (pk : list byte) (p q : packet) (i : nat),
    public_key k = Ok pk -> packet_sign p k = Ok q ->
    exists (raw : list byte) (q' : packet), length raw = 64 /\
      packet_add TRawEnd q (RawEnd raw) = (q', Ok tt) /\
      verify_with C pk {| pntr := q'; index := i |} = ({| pntr := q; index := i |}, Ok true).
Proof. exact p_C135_adding_breaks_verification_refuted. Qed.
Print Assumptions C135_adding_breaks_verification_refuted.

(** C135. The hypotheses are met: every seed gives a key pair, every packet can be signed with it and two different global times added
    to the signed packet; at most one of the two is accepted. *)
Example ex_C135_two_global_times :
  forall seed : list byte, length seed = 32 ->
  exists (k : keypair (ring_ed25519 (fun _ => None))) q q1 q2,
    keypair_from_seed_unchecked (ring_ed25519 (fun _ => None)) seed = Ok k /\ packet_sign (Packet [x09]) k = Ok q /\
    packet_add TTime q (TimeDistribution 1) = (q1, Ok tt) /\ packet_add TTime q (TimeDistribution 2) = (q2, Ok tt) /\ q1 <> q2 /\
    length (packet_raw q1) = 73 /\ length (packet_raw q2) = 73.
Proof. exact ex_C135_two_global_times. Qed.

(** C135. And a continuation that is accepted exists: for the key of C103, the 32 zero bytes behind its constant first half. *)
Example ex_C135_accepted_continuation :
  let body := repeat x07 40 ++ neutral in
  64 <= length body /\ length (repeat x00 32) <= 32 /\
  snd (verify_with (ring_ed25519 (fun _ => None)) neutral {| pntr := Packet (body ++ [] ++ repeat x00 32); index := 0 |}) = Ok true.
Proof. exact ex_C135_accepted_continuation. Qed.
