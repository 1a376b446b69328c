(** * Prop_Header: property theorems (statements only; proofs in HeaderProofs.v) *)
From Coq Require Import Strings.String.
From Verif Require Import Base Serde Codec Universe Spec SerdeFacts CodecFacts UniverseFacts Packet Client PacketFacts HeaderProofs.
Open Scope nat_scope.

(** C01. A header built by [py_ipv8_header] from a 20-byte community id and a message type is written as
    the bytes 00 02, the id and the type, and read back exactly, whatever follows it. *)
Theorem C01_header_round_trip :
  forall (mid : list byte) (t : byte) (tail : list byte),
    length mid = 20 ->
    exists p,
      packet_new (py_ipv8_header mid t) = Ok p /\
      packet_raw p = [x00; x02] ++ mid ++ [t] /\
      let d := start_deserialize (Packet (packet_raw p ++ tail)) in
      peek_header d = Ok (spec_header mid t) /\
      pop_header d = ({| pntr := pntr d; index := 23 |}, Ok (spec_header mid t)) /\
      py_ipv8_header mid t = spec_header mid t.
Proof. exact p_C01_header_round_trip. Qed.
Print Assumptions C01_header_round_trip.

Example ex_C01_mid : length (repeat x2a 20) = 20.
Proof. exact ex_C01_mid. Qed.

(** C02. [peek_header] succeeds exactly on 23 bytes starting with 00 02, at the cursor. *)
Theorem C02_header_decoding_exact :
  forall (p : list byte) (i : nat) (h : header),
    i <= length p ->
    (peek_header (Deserializer (Packet p) i) = Ok h <->
     i + 23 <= length p /\ byte_at p i = x00 /\ byte_at p (i + 1) = x02 /\
     h = spec_header (firstn 20 (skipn (i + 2) p)) (byte_at p (i + 22))).
Proof. exact p_C02_header_decoding_exact. Qed.
Print Assumptions C02_header_decoding_exact.

(** C02. Everything else is an error, not a panic; and only a cursor outside the packet panics. *)
Theorem C02_header_decoding_total :
  forall (p : list byte) (i : nat),
    (i <= length p -> is_panic (peek_header (Deserializer (Packet p) i)) = false) /\
    (length p < i -> is_panic (peek_header (Deserializer (Packet p) i)) = true).
Proof. exact p_C02_header_decoding_total. Qed.
Print Assumptions C02_header_decoding_total.

Example ex_C02_mid_packet :
  peek_header (Deserializer (Packet ([xff; xff] ++ [x00; x02] ++ repeat x2a 20 ++ [x07; x99])) 2)
  = Ok (spec_header (repeat x2a 20) x07).
Proof. exact ex_C02_mid_packet. Qed.

(** C03. No packet comes out of a header without id or without message type; the error says so. *)
Theorem C03_incomplete_header_rejected :
  forall h : header,
    (exists p, packet_new h = Ok p) <-> (h_mid_hash h <> None /\ h_message_type h <> None).
Proof. exact p_C03_incomplete_header_rejected. Qed.
Print Assumptions C03_incomplete_header_rejected.

Theorem C03_incomplete_header_error :
  forall h : header,
    (h_mid_hash h = None \/ h_message_type h = None) -> packet_new h = Err EHeaderError.
Proof. exact p_C03_incomplete_header_error. Qed.
Print Assumptions C03_incomplete_header_error.

Example ex_C03_no_mid :
  packet_new {| h_size := 23; h_version := PyIPV8Header; h_mid_hash := None; h_message_type := Some 1%N |}
  = Err EHeaderError.
Proof. exact ex_C03_no_mid. Qed.

(** C04. Exactly when does the receiver decode the header the packet was made from: the community id has
    20 bytes, the message type fits a byte and the size field is 23. *)
Theorem C04_header_preserved_iff :
  forall (h : header) (p : packet),
    packet_new h = Ok p ->
    (peek_header (start_deserialize p) = Ok h <->
     exists mid t, h_mid_hash h = Some mid /\ length mid = 20 /\
                   h_message_type h = Some t /\ (t < 256)%N /\ h_size h = 23).
Proof. exact p_C04_header_preserved_iff. Qed.
Print Assumptions C04_header_preserved_iff.

(** C04, refuted as stated: [Packet::new] accepts a header that another header comes out of: here a
    21-byte id and message type 256+5 are delivered to a different community as a different type. *)
Theorem C04_header_silently_changed_refuted :
  exists (h h' : header) (p : packet),
    packet_new h = Ok p /\ peek_header (start_deserialize p) = Ok h' /\
    h_mid_hash h' <> h_mid_hash h /\ h_message_type h' <> h_message_type h.
Proof. exact p_C04_header_silently_changed_refuted. Qed.
Print Assumptions C04_header_silently_changed_refuted.
