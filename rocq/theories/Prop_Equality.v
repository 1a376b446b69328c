(** * Prop_Equality: property theorems (statements only; proofs in EqualityProofs.v) *)
From Coq Require Import Strings.String.
From Verif Require Import Base Serde Codec Universe Spec SerdeFacts CodecFacts UniverseFacts Packet Client PacketFacts CodecProofs Equality EqualitySpec EqualityProofs.
Open Scope N_scope.

(** C133: [==] on values of any payload type holds exactly when both are the same but for the signs of zeros, and contain nothing that is not a number. *)
Theorem C133_what_equality_means :
  forall (t : ty) (v w : tval t), in_range t v -> in_range t w ->
  (eq t v w = true <-> ~ has_nan t v /\ positive_zeros t v = positive_zeros t w).
Proof. exact p_C133_what_equality_means. Qed.
Print Assumptions C133_what_equality_means.

(** C133: Without floating-point numbers (all types of the library are without), it holds exactly for the same values: nothing is ignored. *)
Theorem C133_exact :
  forall (t : ty) (v w : tval t), has_float t = false -> (eq t v w = true <-> v = w).
Proof. exact p_C133_exact. Qed.
Print Assumptions C133_exact.

(** C133: The same for headers, packets, and deserializers with their cursors. *)
Theorem C133_headers_and_packets :
  (forall h h' : header, header_eq h h' = true <-> h = h') /\
  (forall p p' : packet, packet_eq p p' = true <-> p = p') /\
  (forall d d' : deserializer, deserializer_eq d d' = true <-> d = d').
Proof. exact p_C133_headers_and_packets. Qed.
Print Assumptions C133_headers_and_packets.

(** C133: For every type, equality is symmetric and transitive. *)
Theorem C133_symmetric_transitive :
  forall (t : ty) (u v w : tval t), in_range t u -> in_range t v -> in_range t w ->
  eq t u v = eq t v u /\ (eq t u v = true -> eq t v w = true -> eq t u w = true).
Proof. exact p_C133_symmetric_transitive. Qed.
Print Assumptions C133_symmetric_transitive.

(** C133: A value is equal to itself exactly if it contains nothing that is not a number. *)
Theorem C133_reflexive_iff :
  forall (t : ty) (v : tval t), in_range t v -> (eq t v v = true <-> ~ has_nan t v).
Proof. exact p_C133_reflexive_iff. Qed.
Print Assumptions C133_reflexive_iff.

(** C133: What is read back is equal to what was added: always, unless a number in it is not a number, or it contains an introduction response with the tunnel flag (C12). *)
Theorem C133_round_trip :
  forall (t : ty) (p q : packet) (v w : tval t) (d : deserializer),
  in_range t v -> raw_at_end_only t = true -> has_introduction t = false ->
  packet_add t p v = (q, Ok tt) ->
  next_payload t {| pntr := q; index := length (packet_raw p) |} = (d, Ok w) ->
  (eq t w v = true <-> ~ has_nan t v).
Proof. exact p_C133_round_trip. Qed.
Print Assumptions C133_round_trip.

(** C133: An introduction response that was read back is equal to the one that was added exactly if that one did not have the tunnel flag. *)
Theorem C133_introduction_response :
  forall (p q : packet) (v w : introduction_response) (d : deserializer),
  in_range TIntroductionResponse v ->
  packet_add TIntroductionResponse p v = (q, Ok tt) ->
  next_payload TIntroductionResponse {| pntr := q; index := length (packet_raw p) |} = (d, Ok w) ->
  (eq TIntroductionResponse w v = true <-> ir_tunnel v = false).
Proof. exact p_C133_introduction_response. Qed.
Print Assumptions C133_introduction_response.

(** C133: Without floating-point numbers and introduction responses, two values are equal exactly if they are written as the same bytes: packets can be compared instead of messages and the other way round. *)
Theorem C133_equal_iff_same_bytes :
  forall (t : ty) (p q q' : packet) (v w : tval t),
  has_float t = false -> has_introduction t = false -> raw_at_end_only t = true -> in_range t v -> in_range t w ->
  packet_add t p v = (q, Ok tt) -> packet_add t p w = (q', Ok tt) ->
  eq t v w = packet_eq q q'.
Proof. exact p_C133_equal_iff_same_bytes. Qed.
Print Assumptions C133_equal_iff_same_bytes.

(** C133: With floating-point numbers both directions fail: equal values with different bytes, and a value that is not equal to itself, so not to what is read back either. *)
Theorem C133_floats_refuted :
  (exists v w q q', in_range TF64 v /\ in_range TF64 w /\ eq TF64 v w = true /\
     packet_add TF64 (Packet []) v = (q, Ok tt) /\ packet_add TF64 (Packet []) w = (q', Ok tt) /\ packet_eq q q' = false) /\
  (exists v w q d, in_range TF64 v /\ packet_add TF64 (Packet []) v = (q, Ok tt) /\ next_payload TF64 (start_deserialize q) = (d, Ok w) /\ w = v /\ eq TF64 w v = false).
Proof. exact p_C133_floats_refuted. Qed.
Print Assumptions C133_floats_refuted.

Example ex_C133_zeros :
  in_range ex_eq_ty (ex_eq_val 0x80000000 0x3ff0000000000000) /\ raw_at_end_only ex_eq_ty = true /\ has_introduction ex_eq_ty = false /\
  ex_eq_val 0x80000000 0x3ff0000000000000 <> ex_eq_val 0 0x3ff0000000000000 /\
  eq ex_eq_ty (ex_eq_val 0x80000000 0x3ff0000000000000) (ex_eq_val 0 0x3ff0000000000000) = true /\
  eq ex_eq_ty (ex_eq_val 0 0x3ff0000000000001) (ex_eq_val 0 0x3ff0000000000000) = false /\
  has_nan ex_eq_ty (ex_eq_val 0 0xfff0000000000001) /\ ~ has_nan ex_eq_ty (ex_eq_val 0xff800000 0).
Proof. exact ex_C133_zeros. Qed.

Example ex_C133_written :
  has_float example_ty = false /\ has_introduction example_ty = false /\ raw_at_end_only example_ty = true /\ in_range example_ty example_val /\
  exists q, packet_add example_ty (Packet [xaa]) example_val = (q, Ok tt).
Proof. exact ex_C133_written. Qed.
