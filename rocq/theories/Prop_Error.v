(** * Prop_Error: property theorems (statements only; proofs in ErrorProofs.v) *)
From Coq Require Import Strings.String.
From Verif Require Import Base Serde Codec Universe Spec SerdeFacts CodecFacts Utf8Facts UniverseFacts Packet Client PacketFacts Community CommunitySpec ErrorSpec CodecProofs ErrorProofs.
Open Scope nat_scope.

(** C121. If a read fails, then because bytes are missing, or because of a content the type does not allow, and the error says which: no payload of
    the library but the authentication payload knows wrong content, and errors that the readers prepare for a wrong number of elements never occur. *)
Theorem C121_error_kinds :
  forall (t : ty) (p : list byte) (i : nat) (d : deserializer) (e : error),
    i <= length p -> next_payload t (Deserializer (Packet p) i) = (d, Err e) ->
    e = EEof \/ wrong_content t e.
Proof. exact p_C121_error_kinds. Qed.
Print Assumptions C121_error_kinds.

(** C121. "Unexpected end" is said exactly when more bytes at the end of the packet could change the outcome of the failed read; every other failure (also a panic)
    is final. (Types with raw bytes at the end included. Not for raw bytes before the end, where nothing helps, and not for chars, see below.) *)
Theorem C121_unexpected_end_iff_curable :
  forall (t : ty) (p : list byte) (i : nat),
    raw_at_end_only t = true -> has_char t = false -> i <= length p ->
    let read p := snd (next_payload t (Deserializer (Packet p) i)) in
    is_ok (read p) = false ->
    (read p = Err EEof <-> exists more, read (p ++ more) <> read p).
Proof. exact p_C121_unexpected_end_iff_curable. Qed.
Print Assumptions C121_unexpected_end_iff_curable.

(** C121. A packet cut anywhere inside a value it contained is answered with "unexpected end". *)
Theorem C121_cut_is_unexpected_end :
  forall (t : ty) (p : list byte) (i j : nat) (v : tval t),
    self_delimiting t = true -> has_char t = false -> i <= length p ->
    next_payload t (Deserializer (Packet p) i) = (Deserializer (Packet p) j, Ok v) ->
    forall k, i <= k < j ->
      next_payload t (Deserializer (Packet (firstn k p)) i) = (Deserializer (Packet (firstn k p)) i, Err EEof).
Proof. exact p_C121_cut_is_unexpected_end. Qed.
Print Assumptions C121_cut_is_unexpected_end.

(** C121. The header: too few bytes are "unexpected end" only as far as the two bytes that are there are those of the protocol's version. *)
Theorem C121_header_errors :
  forall (p : list byte) (i : nat),
    i <= length p ->
    let d := Deserializer (Packet p) i in
    (length p < i + 2 \/ byte_at p i = x00 /\ byte_at p (i + 1) = x02 /\ length p < i + 23 ->
       peek_header d = Err EEof /\ pop_header d = (d, Err EEof)) /\
    (i + 2 <= length p -> ~ (byte_at p i = x00 /\ byte_at p (i + 1) = x02) ->
       let e := ECustom "No valid header type could be determined" in
       peek_header d = Err e /\ pop_header d = (d, Err e)).
Proof. exact p_C121_header_errors. Qed.
Print Assumptions C121_header_errors.

(** C121. Writing fails for three reasons, and the error says which: an IPv6 address, or a vector too long for its length prefix. *)
Theorem C121_write_errors :
  forall (t : ty) (p q : packet) (v : tval t) (e : error),
    packet_add t p v = (q, Err e) ->
    q = p /\
    ((e = ECustom "ip-v8 does not (yet) support ipv6" /\ mentions_ipv6 t v) \/
     ((e = ECustom "Data too large to fit in a VarLen16. Must be less than 65536 bytes." \/
       e = ECustom "Data too large to fit in a VarLen32. Must be less than 4294967295 bytes.") /\ oversized t v)).
Proof. exact p_C121_write_errors. Qed.
Print Assumptions C121_write_errors.

(** C18. The error of a payload with an IPv6 address (and no vector too long) names that reason. *)
Theorem C18_ipv6_error :
  forall (t : ty) (p : packet) (v : tval t),
    in_range t v -> mentions_ipv6 t v -> ~ oversized t v ->
    packet_add t p v = (p, Err (ECustom "ip-v8 does not (yet) support ipv6")).
Proof. exact p_C18_ipv6_error. Qed.
Print Assumptions C18_ipv6_error.

(** C42. A message with a malformed header calls nobody, and the error says whether bytes are missing or it is another protocol. *)
Theorem C42_malformed_header_errors :
  forall (cs : list community) (p : list byte) (from : address),
    (length p < 2 \/ byte_at p 0 = x00 /\ byte_at p 1 = x02 /\ length p < 23 ->
       forward_message (registered cs) (Packet p) from = ([], Err EEof)) /\
    (2 <= length p -> ~ (byte_at p 0 = x00 /\ byte_at p 1 = x02) ->
       forward_message (registered cs) (Packet p) from = ([], Err (ECustom "No valid header type could be determined"))).
Proof. exact p_C42_malformed_header_errors. Qed.
Print Assumptions C42_malformed_header_errors.

Example ex_C42_malformed_header_errors : 2 <= length [x00; x01] /\ ~ (byte_at [x00; x01] 0 = x00 /\ byte_at [x00; x01] 1 = x02).
Proof. exact ex_C42_malformed_header_errors. Qed.

Example ex_C121 :
  raw_at_end_only ex_C121_ty = true /\ has_char ex_C121_ty = false /\
  let read p := snd (next_payload ex_C121_ty (Deserializer (Packet p) 0)) in
  let start := [x01; x02] ++ u64_bytes 2 ++ [x68; x69] in
  read (start ++ [x01; x01; xaa]) = Ok (258%N, ([x68; x69], (Some true, (RawEnd [xaa], tt)))) /\
  read (start ++ [x01; x02; xaa]) = Err EInvalidBool /\ read (start ++ [x05]) = Err EInvalidTag /\
  read (firstn 11 start) = Err EEof /\ read ([x01; x02] ++ u64_bytes 1 ++ [xff]) = Err EInvalidUtf8.
Proof. exact ex_C121. Qed.

(** a char cut short is the exception: the error is that of a wrong content, and more bytes cure it *)
Example ex_C121_char :
  snd (next_payload TChar (Deserializer (Packet [xc3]) 0)) = Err EInvalidChar /\
  snd (next_payload TChar (Deserializer (Packet ([xc3] ++ [xa9])) 0)) = Ok 233%N.
Proof. exact ex_C121_char. Qed.
