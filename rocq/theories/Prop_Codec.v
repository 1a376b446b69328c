(** * Prop_Codec: property theorems (statements only; proofs in CodecProofs.v) *)
From Coq Require Import Strings.String.
From Verif Require Import Base Serde Codec Universe Spec SerdeFacts CodecFacts UniverseFacts Packet Client PacketFacts CodecProofs.
Open Scope nat_scope.

(** C05. [Packet::add] appends exactly the specified bytes of the payload ([layout], Spec.v). *)
Theorem C05_wire_layout :
  forall (t : ty) (p : packet) (v : tval t),
    in_range t v -> encodable t v ->
    packet_add t p v = (Packet (packet_raw p ++ layout t v), Ok tt).
Proof. exact p_C05_wire_layout. Qed.
Print Assumptions C05_wire_layout.

Example ex_C05_struct :
  in_range example_ty example_val /\ encodable example_ty example_val /\ self_delimiting example_ty = true /\
  packet_add example_ty (Packet [xaa]) example_val =
    (Packet (bs [0xaa; 0; 42; 127; 0; 0; 1; 0x1f; 0x40; 0; 3; 1; 2; 3; 0; 0; 0; 0; 0; 0; 0; 1; 9]%N), Ok tt).
Proof. exact ex_C05_struct. Qed.

(** C06. What [add] wrote at the end of [p], [next_payload] reads back from there, whatever is appended
    later, and the cursor ends exactly behind it. *)
Theorem C06_round_trip :
  forall (t : ty) (p q : packet) (v : tval t) (later : list byte),
    in_range t v -> self_delimiting t = true ->
    packet_add t p v = (q, Ok tt) ->
    let received := Packet (packet_raw q ++ later) in
    next_payload t {| pntr := received; index := length (packet_raw p) |}
    = ({| pntr := received; index := length (packet_raw q) |}, Ok (transmitted t v)).
Proof. exact p_C06_round_trip. Qed.
Print Assumptions C06_round_trip.

(** C06, for types ending in raw bytes, when nothing is added after them. *)
Theorem C06_round_trip_raw_tail :
  forall (t : ty) (p q : packet) (v : tval t),
    in_range t v -> raw_at_end_only t = true ->
    packet_add t p v = (q, Ok tt) ->
    next_payload t {| pntr := q; index := length (packet_raw p) |}
    = ({| pntr := q; index := length (packet_raw q) |}, Ok (transmitted t v)).
Proof. exact p_C06_round_trip_raw_tail. Qed.
Print Assumptions C06_round_trip_raw_tail.

(** C06. Nothing at all is lost unless the type contains an introduction payload. *)
Theorem C06_nothing_lost :
  forall (t : ty) (v : tval t), has_introduction t = false -> transmitted t v = v.
Proof. exact p_C06_nothing_lost. Qed.
Print Assumptions C06_nothing_lost.

Example ex_C06_struct :
  next_payload example_ty
    {| pntr := Packet (packet_raw (fst (packet_add example_ty (Packet [xaa]) example_val)) ++ [xbb]); index := 1 |}
  = ({| pntr := Packet (packet_raw (fst (packet_add example_ty (Packet [xaa]) example_val)) ++ [xbb]); index := 23 |},
     Ok example_val).
Proof. exact ex_C06_struct. Qed.

(** C07. A packet built from a header and any payloads is read back by [pop_header] and one
    [next_payload] per payload: same values, same order, cursor at the end; and reading one more
    non-empty payload is an error. *)
Theorem C07_multi_payload_round_trip :
  forall (mid : list byte) (mt : byte) (l : list payload) (p q : packet),
    length mid = 20 ->
    Forall (fun x => in_range (projT1 x) (projT2 x)) l ->
    readable_sequence self_delimiting raw_at_end_only (map ptype l) = true ->
    packet_new (py_ipv8_header mid mt) = Ok p ->
    add_all p l = Ok q ->
    exists d1 d2,
      pop_header (start_deserialize q) = (d1, Ok (spec_header mid mt)) /\
      read_all d1 (map ptype l) = (d2, Ok (map transmitted_payload l)) /\
      d2 = {| pntr := q; index := length (packet_raw q) |} /\
      (forall t, 0 < min_size t -> exists e, next_payload t d2 = (d2, Err e)).
Proof. exact p_C07_multi_payload_round_trip. Qed.
Print Assumptions C07_multi_payload_round_trip.

Example ex_C07_sequence :
  Forall (fun x => in_range (projT1 x) (projT2 x)) example_payloads /\
  readable_sequence self_delimiting raw_at_end_only (map ptype example_payloads) = true /\
  is_ok (add_all (Packet (header_layout (repeat x2a 20) x01)) example_payloads) = true.
Proof. exact ex_C07_sequence. Qed.

(** C08. TimeDistribution: 8 bytes, the big-endian time. *)
Theorem C08_time_distribution :
  forall (p : list byte) (i : nat),
    i <= length p ->
    next_payload TTime (Deserializer (Packet p) i) =
      if 8 <=? length p - i
      then (Deserializer (Packet p) (i + 8), Ok (TimeDistribution (u64_at p i)))
      else (Deserializer (Packet p) i, Err EEof).
Proof. exact p_C08_time_distribution. Qed.
Print Assumptions C08_time_distribution.

(** C08. Puncture: 14 bytes. *)
Theorem C08_puncture :
  forall (p : list byte) (i : nat),
    i <= length p ->
    next_payload TPuncture (Deserializer (Packet p) i) =
      if 14 <=? length p - i
      then (Deserializer (Packet p) (i + 14), Ok (puncture_of (skipn i p)))
      else (Deserializer (Packet p) i, Err EEof).
Proof. exact p_C08_puncture. Qed.
Print Assumptions C08_puncture.

(** C08. PunctureRequest: 14 bytes. *)
Theorem C08_puncture_request :
  forall (p : list byte) (i : nat),
    i <= length p ->
    next_payload TPunctureRequest (Deserializer (Packet p) i) =
      if 14 <=? length p - i
      then (Deserializer (Packet p) (i + 14), Ok (puncture_request_of (skipn i p)))
      else (Deserializer (Packet p) i, Err EEof).
Proof. exact p_C08_puncture_request. Qed.
Print Assumptions C08_puncture_request.

(** C08. IntroductionRequest: 21 bytes, then everything that is left. *)
Theorem C08_introduction_request :
  forall (p : list byte) (i : nat),
    i <= length p -> fits_memory p ->
    next_payload TIntroductionRequest (Deserializer (Packet p) i) =
      if 21 <=? length p - i
      then (Deserializer (Packet p) (length p), Ok (introduction_request_of (skipn i p)))
      else (Deserializer (Packet p) i, Err EEof).
Proof. exact p_C08_introduction_request. Qed.
Print Assumptions C08_introduction_request.

(** C08. IntroductionResponse: 33 bytes, then everything that is left. *)
Theorem C08_introduction_response :
  forall (p : list byte) (i : nat),
    i <= length p -> fits_memory p ->
    next_payload TIntroductionResponse (Deserializer (Packet p) i) =
      if 33 <=? length p - i
      then (Deserializer (Packet p) (length p), Ok (introduction_response_of (skipn i p)))
      else (Deserializer (Packet p) i, Err EEof).
Proof. exact p_C08_introduction_response. Qed.
Print Assumptions C08_introduction_response.

Example ex_C08_request :
  let p := bs [127;0;0;1;31;64; 127;0;0;2;31;65; 127;0;0;3;31;66; 0x81; 0x12;0x34; 9;9]%N in
  fits_memory p /\
  snd (next_payload TIntroductionRequest (Deserializer (Packet p) 0)) = Ok {|
    iq_destination_address := V4 x7f x00 x00 x01 8000%N;
    iq_source_lan_address := V4 x7f x00 x00 x02 8001%N;
    iq_source_wan_address := V4 x7f x00 x00 x03 8002%N;
    iq_advice := true; iq_connection_type := PUBLIC; iq_identifier := 0x1234%N;
    iq_extra_bytes := RawEnd [x09; x09] |}.
Proof. exact ex_C08_request. Qed.

(** C09. A payload cut short anywhere is an error. *)
Theorem C09_truncated_rejected :
  forall (t : ty) (p q : packet) (v : tval t) (cut : nat),
    in_range t v -> self_delimiting t = true ->
    packet_add t p v = (q, Ok tt) ->
    length (packet_raw p) <= cut < length (packet_raw q) ->
    let d := {| pntr := Packet (firstn cut (packet_raw q)); index := length (packet_raw p) |} in
    exists e, next_payload t d = (d, Err e).
Proof. exact p_C09_truncated_rejected. Qed.
Print Assumptions C09_truncated_rejected.

Example ex_C09_struct :
  packet_add example_ty (Packet [xaa]) example_val = (fst (packet_add example_ty (Packet [xaa]) example_val), Ok tt)
  /\ length (packet_raw (fst (packet_add example_ty (Packet [xaa]) example_val))) = 23.
Proof. exact ex_C09_struct. Qed.

(** C10. Bytes behind a self-delimiting payload matter neither for success nor for the value. *)
Theorem C10_suffix_irrelevant :
  forall (t : ty) (p : list byte) (i j : nat) (v : tval t) (more : list byte),
    self_delimiting t = true -> i <= length p ->
    next_payload t (Deserializer (Packet p) i) = (Deserializer (Packet p) j, Ok v) ->
    next_payload t (Deserializer (Packet (p ++ more)) i) = (Deserializer (Packet (p ++ more)) j, Ok v).
Proof. exact p_C10_suffix_irrelevant. Qed.
Print Assumptions C10_suffix_irrelevant.

(** C10. The result is determined by the bytes up to the new cursor (authentication payloads: up to
    the end of the key blob, see C25). *)
Theorem C10_only_consumed_bytes_matter :
  forall (t : ty) (p p' : list byte) (i j : nat) (v : tval t),
    self_delimiting t = true -> has_auth t = false -> i <= length p ->
    next_payload t (Deserializer (Packet p) i) = (Deserializer (Packet p) j, Ok v) ->
    firstn j p' = firstn j p ->
    next_payload t (Deserializer (Packet p') i) = (Deserializer (Packet p') j, Ok v).
Proof. exact p_C10_only_consumed_bytes_matter. Qed.
Print Assumptions C10_only_consumed_bytes_matter.

Example ex_C10_value :
  exists j v, next_payload TVarLen16 (Deserializer (Packet [x00; x02; x07; x08]) 0)
              = (Deserializer (Packet [x00; x02; x07; x08]) j, Ok v).
Proof. exact ex_C10_value. Qed.

(** C11. Encoding is injective up to what is not transmitted. *)
Theorem C11_injective :
  forall (t : ty) (p q : packet) (v w : tval t),
    raw_at_end_only t = true -> in_range t v -> in_range t w ->
    packet_add t p v = (q, Ok tt) -> packet_add t p w = (q, Ok tt) ->
    transmitted t v = transmitted t w.
Proof. exact p_C11_injective. Qed.
Print Assumptions C11_injective.

Theorem C11_injective_exact :
  forall (t : ty) (p q : packet) (v w : tval t),
    raw_at_end_only t = true -> has_introduction t = false -> in_range t v -> in_range t w ->
    packet_add t p v = (q, Ok tt) -> packet_add t p w = (q, Ok tt) -> v = w.
Proof. exact p_C11_injective_exact. Qed.
Print Assumptions C11_injective_exact.

(** C11. Without the condition on raw bytes it is false: a user struct with raw bytes in the middle. *)
Theorem C11_raw_in_middle_refuted :
  exists (t : ty) (v w : tval t),
    in_range t v /\ in_range t w /\ v <> w /\ packet_add t (Packet []) v = packet_add t (Packet []) w.
Proof. exact p_C11_raw_in_middle_refuted. Qed.
Print Assumptions C11_raw_in_middle_refuted.

(** C12. An introduction response comes back as it was sent, with the tunnel flag cleared. *)
Theorem C12_response_loses_tunnel_flag :
  forall (p q : packet) (v : introduction_response),
    in_range TIntroductionResponse v ->
    packet_add TIntroductionResponse p v = (q, Ok tt) ->
    next_payload TIntroductionResponse {| pntr := q; index := length (packet_raw p) |} =
      ({| pntr := q; index := length (packet_raw q) |},
       Ok {| ir_destination_address := ir_destination_address v;
             ir_source_lan_address := ir_source_lan_address v;
             ir_source_wan_address := ir_source_wan_address v;
             ir_lan_introduction_address := ir_lan_introduction_address v;
             ir_wan_introduction_address := ir_wan_introduction_address v;
             ir_tunnel := false;
             ir_connection_type := ir_connection_type v;
             ir_identifier := ir_identifier v;
             ir_extra_bytes := ir_extra_bytes v |}).
Proof. exact p_C12_response_loses_tunnel_flag. Qed.
Print Assumptions C12_response_loses_tunnel_flag.

(** C12. So the round trip of [tunnel = true] fails. *)
Theorem C12_tunnel_round_trip_refuted :
  exists (v w : introduction_response) (q : packet) (d : deserializer),
    in_range TIntroductionResponse v /\ packet_add TIntroductionResponse (Packet []) v = (q, Ok tt) /\
    next_payload TIntroductionResponse (start_deserialize q) = (d, Ok w) /\ w <> v.
Proof. exact p_C12_tunnel_round_trip_refuted. Qed.
Print Assumptions C12_tunnel_round_trip_refuted.

(** C13. [Bits] and bytes correspond one to one, bit i having weight 2^i. *)
Theorem C13_bits_bijection :
  (forall x : byte, bits_to_u8 (bits_from_u8 x) = x) /\
  (forall b : bits, bits_from_u8 (bits_to_u8 b) = b).
Proof. exact p_C13_bits_bijection. Qed.
Print Assumptions C13_bits_bijection.

Theorem C13_bit_weights :
  forall x : byte,
    let b := bits_from_u8 x in
    let n := N_of_byte x in
    bit0 b = N.testbit n 0 /\ bit1 b = N.testbit n 1 /\ bit2 b = N.testbit n 2 /\ bit3 b = N.testbit n 3 /\
    bit4 b = N.testbit n 4 /\ bit5 b = N.testbit n 5 /\ bit6 b = N.testbit n 6 /\ bit7 b = N.testbit n 7.
Proof. exact p_C13_bit_weights. Qed.
Print Assumptions C13_bit_weights.

Theorem C13_bits_constructors :
  bits_to_u8 bits_new = x00 /\
  forall b0 b1 b2 b3 b4 b5 b6 b7,
    N_of_byte (bits_to_u8 (bits_from_bools b0 b1 b2 b3 b4 b5 b6 b7)) =
    (weight b0 0 + weight b1 1 + weight b2 2 + weight b3 3 +
     weight b4 4 + weight b5 5 + weight b6 6 + weight b7 7)%N.
Proof. exact p_C13_bits_constructors. Qed.
Print Assumptions C13_bits_constructors.

(** C14. Connection types survive; the fourth bit pattern is read as unknown and never written. *)
Theorem C14_connection_type :
  (forall c, ct_decode (ct_encode c) = c) /\
  ct_decode (false, true) = UNKNOWN /\
  (forall c, ct_encode c <> (false, true)) /\
  (forall b, b <> (false, true) -> ct_encode (ct_decode b) = b).
Proof. exact p_C14_connection_type. Qed.
Print Assumptions C14_connection_type.

(** C15. Re-adding a decoded payload (no introduction or authentication payload inside) reproduces the
    packet's own bytes. *)
Theorem C15_reencoding_exact :
  forall (t : ty) (p : list byte) (i j : nat) (v : tval t),
    has_auth t = false -> has_introduction t = false -> i <= length p ->
    next_payload t (Deserializer (Packet p) i) = (Deserializer (Packet p) j, Ok v) ->
    packet_add t (Packet (firstn i p)) v = (Packet (firstn j p), Ok tt).
Proof. exact p_C15_reencoding_exact. Qed.
Print Assumptions C15_reencoding_exact.

(** C15. Introduction request: all bytes are reproduced but the flag byte at offset 18, of which only
    the advice bit and the connection type (10 read as 00) are kept. *)
Theorem C15_reencoding_request :
  forall (p : list byte) (i j : nat) (v : introduction_request),
    fits_memory p -> i <= length p ->
    next_payload TIntroductionRequest (Deserializer (Packet p) i) = (Deserializer (Packet p) j, Ok v) ->
    packet_add TIntroductionRequest (Packet (firstn i p)) v =
      (Packet (firstn (i + 18) p ++ [normal_request_flags (byte_at p (i + 18))] ++ skipn (i + 19) p), Ok tt).
Proof. exact p_C15_reencoding_request. Qed.
Print Assumptions C15_reencoding_request.

(** C15. Introduction response: the flag byte is at offset 30 and only the connection type is kept. *)
Theorem C15_reencoding_response :
  forall (p : list byte) (i j : nat) (v : introduction_response),
    fits_memory p -> i <= length p ->
    next_payload TIntroductionResponse (Deserializer (Packet p) i) = (Deserializer (Packet p) j, Ok v) ->
    packet_add TIntroductionResponse (Packet (firstn i p)) v =
      (Packet (firstn (i + 30) p ++ [normal_response_flags (byte_at p (i + 30))] ++ skipn (i + 31) p), Ok tt).
Proof. exact p_C15_reencoding_response. Qed.
Print Assumptions C15_reencoding_response.

(** C15. Authentication payload: exact when its key blob has 74 bytes, the length py-ipv8 uses. *)
Theorem C15_reencoding_auth :
  forall (p : list byte) (i j : nat) (v : bin_member),
    i <= length p -> u16_at p i = 74%N ->
    next_payload TBinMember (Deserializer (Packet p) i) = (Deserializer (Packet p) j, Ok v) ->
    packet_add TBinMember (Packet (firstn i p)) v = (Packet (firstn j p), Ok tt).
Proof. exact p_C15_reencoding_auth. Qed.
Print Assumptions C15_reencoding_auth.

Example ex_C15_flags_normalised :
  let p := bs [127;0;0;1;31;64; 127;0;0;2;31;65; 127;0;0;3;31;66; 0x7e; 0;1]%N in
  exists d v, next_payload TIntroductionRequest (start_deserialize (Packet p)) = (d, Ok v) /\
    nth 18 (packet_raw (fst (packet_add TIntroductionRequest (Packet []) v))) xff = x00.
Proof. exact ex_C15_flags_normalised. Qed.

(** C16. The size limits of [VarLen16], [VarLen32], [NestedPacket]. *)
Theorem C16_varlen_limits :
  forall (p : packet) (l : list byte),
    fits_memory l ->
    ((exists q, packet_add TVarLen16 p (VarLen16 l) = (q, Ok tt)) <-> (len l <= 65535)%N) /\
    ((exists q, packet_add TVarLen32 p (VarLen32 l) = (q, Ok tt)) <-> (len l <= 4294967295)%N) /\
    ((exists q, packet_add TNested p (NestedPacket (Packet l)) = (q, Ok tt)) <-> (len l <= 65535)%N) /\
    ((65535 < len l)%N -> packet_add TVarLen16 p (VarLen16 l) =
       (p, Err (ECustom "Data too large to fit in a VarLen16. Must be less than 65536 bytes."))) /\
    ((4294967295 < len l)%N -> packet_add TVarLen32 p (VarLen32 l) =
       (p, Err (ECustom "Data too large to fit in a VarLen32. Must be less than 4294967295 bytes."))) /\
    ((65535 < len l)%N -> packet_add TNested p (NestedPacket (Packet l)) =
       (p, Err (ECustom "Data too large to fit in a VarLen16. Must be less than 65536 bytes."))).
Proof. exact p_C16_varlen_limits. Qed.
Print Assumptions C16_varlen_limits.

(** C16. The boundary value itself goes through, whatever follows. *)
Theorem C16_boundary_round_trip :
  forall (l later : list byte),
    len l = 65535%N ->
    exists q, packet_add TVarLen16 (Packet []) (VarLen16 l) = (q, Ok tt) /\
      snd (next_payload TVarLen16 (start_deserialize (Packet (packet_raw q ++ later)))) = Ok (VarLen16 l).
Proof. exact p_C16_boundary_round_trip. Qed.
Print Assumptions C16_boundary_round_trip.

Example ex_C16_boundary : len (repeat x00 (N.to_nat 65535)) = 65535%N.
Proof. exact ex_C16_boundary. Qed.

(** C17. Reading a length-prefixed vector: exactly the announced bytes, or an error. *)
Theorem C17_varlen16_exact :
  forall (p : list byte) (i : nat),
    i <= length p ->
    next_payload TVarLen16 (Deserializer (Packet p) i) =
      let n := N.to_nat (u16_at p i) in
      if (i + 2 <=? length p) && (n <=? length p - (i + 2))
      then (Deserializer (Packet p) (i + 2 + n), Ok (VarLen16 (firstn n (skipn (i + 2) p))))
      else (Deserializer (Packet p) i, Err EEof).
Proof. exact p_C17_varlen16_exact. Qed.
Print Assumptions C17_varlen16_exact.

Theorem C17_varlen32_exact :
  forall (p : list byte) (i : nat),
    i <= length p ->
    next_payload TVarLen32 (Deserializer (Packet p) i) =
      let n := N.to_nat (u16_at p i * 65536 + u16_at p (i + 2)) in
      if (i + 4 <=? length p) && (n <=? length p - (i + 4))
      then (Deserializer (Packet p) (i + 4 + n), Ok (VarLen32 (firstn n (skipn (i + 4) p))))
      else (Deserializer (Packet p) i, Err EEof).
Proof. exact p_C17_varlen32_exact. Qed.
Print Assumptions C17_varlen32_exact.

Theorem C17_varlen64_exact :
  forall (p : list byte) (i : nat),
    i <= length p ->
    next_payload TVarLen64 (Deserializer (Packet p) i) =
      let n := N.to_nat (u64_at p i) in
      if (i + 8 <=? length p) && (n <=? length p - (i + 8))
      then (Deserializer (Packet p) (i + 8 + n), Ok (VarLen64 (firstn n (skipn (i + 8) p))))
      else (Deserializer (Packet p) i, Err EEof).
Proof. exact p_C17_varlen64_exact. Qed.
Print Assumptions C17_varlen64_exact.

Example ex_C17_short :
  snd (next_payload TVarLen16 (Deserializer (Packet (bs [0; 5; 1; 2; 3; 4]%N)) 0)) = Err EEof /\
  snd (next_payload TVarLen16 (Deserializer (Packet (bs [0; 4; 1; 2; 3; 4; 5]%N)) 0)) = Ok (VarLen16 (bs [1; 2; 3; 4]%N)).
Proof. exact ex_C17_short. Qed.

(** C18. A payload with an IPv6 address anywhere is refused; one without (and within the size limits) is
    accepted. *)
Theorem C18_ipv6_refused :
  forall (t : ty) (p : packet) (v : tval t),
    in_range t v -> mentions_ipv6 t v ->
    exists m, packet_add t p v = (p, Err (ECustom m)).
Proof. exact p_C18_ipv6_refused. Qed.
Print Assumptions C18_ipv6_refused.

Theorem C18_ipv4_accepted :
  forall (t : ty) (p : packet) (v : tval t),
    in_range t v -> ~ mentions_ipv6 t v -> ~ oversized t v ->
    exists q, packet_add t p v = (q, Ok tt).
Proof. exact p_C18_ipv4_accepted. Qed.
Print Assumptions C18_ipv4_accepted.

Example ex_C18_nested_ipv6 :
  let t := TStruct (FCons TU8 (FCons (TStruct (FCons TAddress FNil)) FNil)) in
  let v : tval t := (x01, ((V6 (repeat x00 16) 80%N 0%N 0%N, tt), tt)) in
  in_range t v /\ mentions_ipv6 t v.
Proof. exact ex_C18_nested_ipv6. Qed.

(** C19. [add] either appends or changes nothing, and never panics. *)
Theorem C19_add_all_or_nothing :
  forall (t : ty) (p q : packet) (v : tval t) (r : outcome unit),
    in_range t v ->
    packet_add t p v = (q, r) ->
    (r = Ok tt /\ exists more, packet_raw q = packet_raw p ++ more) \/
    ((exists e, r = Err e) /\ q = p).
Proof. exact p_C19_add_all_or_nothing. Qed.
Print Assumptions C19_add_all_or_nothing.

(** C20. Whatever follows an introduction request is read as part of its extra bytes. *)
Theorem C20_request_absorbs_rest :
  forall (p q : packet) (v : introduction_request) (later : list byte),
    in_range TIntroductionRequest v ->
    packet_add TIntroductionRequest p v = (q, Ok tt) ->
    fits_memory (packet_raw q ++ later) ->
    let received := Packet (packet_raw q ++ later) in
    next_payload TIntroductionRequest {| pntr := received; index := length (packet_raw p) |} =
      ({| pntr := received; index := length (packet_raw received) |},
       Ok {| iq_destination_address := iq_destination_address v;
             iq_source_lan_address := iq_source_lan_address v;
             iq_source_wan_address := iq_source_wan_address v;
             iq_advice := iq_advice v; iq_connection_type := iq_connection_type v;
             iq_identifier := iq_identifier v;
             iq_extra_bytes := RawEnd (raw_bytes (iq_extra_bytes v) ++ later) |}).
Proof. exact p_C20_request_absorbs_rest. Qed.
Print Assumptions C20_request_absorbs_rest.

(** C20. Likewise for introduction responses (whose tunnel flag is lost, C12). *)
Theorem C20_response_absorbs_rest :
  forall (p q : packet) (v : introduction_response) (later : list byte),
    in_range TIntroductionResponse v ->
    packet_add TIntroductionResponse p v = (q, Ok tt) ->
    fits_memory (packet_raw q ++ later) ->
    let received := Packet (packet_raw q ++ later) in
    next_payload TIntroductionResponse {| pntr := received; index := length (packet_raw p) |} =
      ({| pntr := received; index := length (packet_raw received) |},
       Ok {| ir_destination_address := ir_destination_address v;
             ir_source_lan_address := ir_source_lan_address v;
             ir_source_wan_address := ir_source_wan_address v;
             ir_lan_introduction_address := ir_lan_introduction_address v;
             ir_wan_introduction_address := ir_wan_introduction_address v;
             ir_tunnel := false;
             ir_connection_type := ir_connection_type v;
             ir_identifier := ir_identifier v;
             ir_extra_bytes := RawEnd (raw_bytes (ir_extra_bytes v) ++ later) |}).
Proof. exact p_C20_response_absorbs_rest. Qed.
Print Assumptions C20_response_absorbs_rest.

(** C21. Packets nested to any depth are recovered exactly; each layer costs two bytes besides the
    bytes of the enclosing packet. *)
Theorem C21_nested_packets :
  forall (outers : list packet) (inner q : packet),
    fits_memory (packet_raw inner) -> Forall (fun o => fits_memory (packet_raw o)) outers ->
    enclose_all outers inner = Ok q ->
    disclose_all (rev (map (fun o => length (packet_raw o)) outers)) q = Ok inner /\
    length (packet_raw q) = length (packet_raw inner) + sum (map (fun o => length (packet_raw o) + 2) outers).
Proof. exact p_C21_nested_packets. Qed.
Print Assumptions C21_nested_packets.

(** C21. Enclosing works exactly up to 65535 bytes. *)
Theorem C21_enclose_iff :
  forall (outer inner : packet),
    fits_memory (packet_raw inner) ->
    ((exists q, enclose_all [outer] inner = Ok q) <-> (len (packet_raw inner) <= 65535)%N).
Proof. exact p_C21_enclose_iff. Qed.
Print Assumptions C21_enclose_iff.

Example ex_C21_three_layers :
  exists q, enclose_all [Packet [x01]; Packet []; Packet [x02; x03]] (Packet [x09; x09]) = Ok q /\
            packet_raw q = bs [2; 3; 0; 7; 0; 5; 1; 0; 2; 9; 9]%N.
Proof. exact ex_C21_three_layers. Qed.
