(** * Prop_Careful: property theorems (statements only; proofs in CarefulProofs.v) *)
From Coq Require Import Strings.String.
From Verif Require Import Base Serde Codec Universe Spec SerdeFacts CodecFacts UniverseFacts Packet Client PacketFacts CodecProofs CursorProofs CryptoProofs PyProofs Community CommunitySpec CommunityProofs Network NetSpec NetworkProofs EndToEndSpec EndToEndProofs EdField EdCurve Ed25519 EdSpec Ed25519Proofs CarefulSpec CarefulProofs.
Open Scope nat_scope.

(** C134: Such a handler panics, provided that what it does with a genuine payload does not, exactly on packets with a header and a complete key blob
    that is shorter than 10 bytes, or shorter than 74 with the right prefix, or that has 74 bytes or more and a signature that overlaps it and is nevertheless valid. *)
Theorem C134_panics_exactly :
  forall (C : ed25519) (t : ty) (act : tval t -> outcome unit) (h : header) (p : list byte) (from : address),
    has_auth t = false -> (forall x q, act x <> Panic q) ->
    let n := N.to_nat (u16_at p 23) in
    let signed := length p - 64 in
    (exists q, verifying_handler C t act h (start_deserialize (Packet p)) from = Panic q) <->
    (23 <= length p /\ byte_at p 0 = x00 /\ byte_at p 1 = x02) /\ (25 <= length p /\ 25 + n <= length p) /\
    (n < 10 \/
     n < 74 /\ firstn 10 (skipn 25 p) = ascii "LibNaCLPK:" \/
     74 <= n /\ firstn 10 (skipn 25 p) = ascii "LibNaCLPK:" /\ length p < 163 /\
       ring_verify C (firstn 32 (skipn 67 p)) (firstn signed p) (skipn signed p) = true).
Proof. exact p_C134_panics_exactly. Qed.
Print Assumptions C134_panics_exactly.

(** C134 (refuted): "Once [verify] has said yes, reading is safe": for every community and message type there is a packet of 131 bytes, made without any secret, which [verify] accepts
    and after which every read panics, because the signature overlaps the authentication payload. *)
Theorem C134_verified_then_panic_refuted :
  forall (from_pkcs8 : list byte -> option (list byte)) (m : list byte) (mt : byte) (ekey : list byte),
    length m = 20 -> length ekey = 32 ->
    exists d1 d2,
      pop_header (start_deserialize (Packet (overlapping m mt ekey))) = (d1, Ok (spec_header m mt)) /\
      verify_embedded (ring_ed25519 from_pkcs8) d1 = (d2, Ok true) /\
      (forall t, snd (next_payload t d2) = Panic PSliceIndex) /\ peek_header d2 = Panic PSliceIndex /\
      length (overlapping m mt ekey) = 131.
Proof. exact p_C134_verified_then_panic_refuted. Qed.
Print Assumptions C134_verified_then_panic_refuted.

(** C134 (refuted): "A community that verifies before it reads cannot be stopped by strangers": behind a receiver that hands packets to communities, the first
    datagram of one of these two kinds - 25 bytes suffice, anybody can make them - is the last one the listener ever receives. *)
Theorem C134_one_datagram_stops_the_listener_refuted :
  forall (cfg : net_config) (q0 : list datagram) (tr : list label) (s : net_state) (r : nat) (cs : list community) (c : community)
         (C : ed25519) (t : ty) (act : tval t -> outcome unit) (mt : byte) (xs ys : list datagram) (data : list byte) (src : address),
    run cfg (net_init cfg q0) tr s -> r < nc_receivers cfg -> forwards_to cs r tr ->
    is_registered c cs -> length (c_mid c) = 20 -> c_on_receive c = verifying_handler C t act -> deprecated (N_of_byte mt) = false ->
    received q0 tr = xs ++ (data, src) :: ys ->
    (exists rest, firstn (nc_buffersize cfg) data = empty_blob (c_mid c) mt rest) \/
    (exists from_pkcs8 ekey, C = ring_ed25519 from_pkcs8 /\ length ekey = 32 /\
       firstn (nc_buffersize cfg) data = overlapping (c_mid c) mt ekey) ->
    ys = [].
Proof. exact p_C134_one_datagram_stops_the_listener_refuted. Qed.
Print Assumptions C134_one_datagram_stops_the_listener_refuted.

(** C134 (refuted): "[verify] should be in most cases the first method to be called when receiving a packet" (serialization/mod.rs:96). A handler is given the packet with the header still in front of the cursor, and
    on every packet that any handler is ever given, [verify] as the first call panics: it takes the 00 02 of the header for the length of a key blob. *)
Theorem C134_verify_first_panics_refuted :
  forall (C : ed25519) (cs : list community) (p : list byte) (from : address) (tag : nat) (h : header) (d : deserializer) (a : address),
    In (Handled tag h d a) (fst (forward_message (registered cs) (Packet p) from)) ->
    verify_embedded C d = (d, Panic PSliceIndex).
Proof. exact p_C134_verify_first_panics_refuted. Qed.
Print Assumptions C134_verify_first_panics_refuted.

(** C134: The guard helps: whatever arrives, such a handler does not panic. *)
Theorem C134_guarded_never_panics :
  forall (C : ed25519) (t : ty) (act : tval t -> outcome unit) (h : header) (p : list byte) (from : address) (q : panic),
    has_auth t = false -> (forall x q, act x <> Panic q) ->
    guarded_handler C t act h (start_deserialize (Packet p)) from <> Panic q.
Proof. exact p_C134_guarded_never_panics. Qed.
Print Assumptions C134_guarded_never_panics.

(** C134: And it costs nothing: on a packet that it does not let through, the handler without it would not have got as far as acting on a payload (the result does not depend on what it would do). *)
Theorem C134_guard_loses_nothing :
  forall (C : ed25519) (t : ty) (h : header) (p : list byte) (from : address),
    worth_verifying p = false ->
    exists result, forall act, verifying_handler C t act h (start_deserialize (Packet p)) from = result.
Proof. exact p_C134_guard_loses_nothing. Qed.
Print Assumptions C134_guard_loses_nothing.

(** C134: A listener whose communities all have handlers that never panic never loses a receiver. *)
Theorem C134_guarded_listener_survives :
  forall (cfg : net_config) (q0 : list datagram) (tr : list label) (s : net_state) (r : nat) (cs : list community),
    run cfg (net_init cfg q0) tr s -> r < nc_receivers cfg -> forwards_to cs r tr ->
    (forall c h p from q, In c cs -> c_on_receive c h (start_deserialize (Packet p)) from <> Panic q) ->
    panics r tr = 0.
Proof. exact p_C134_guarded_listener_survives. Qed.
Print Assumptions C134_guarded_listener_survives.

(** C134: Genuine messages pass the guard: a handler with it acts on the payload of every message that was built and signed as the documentation says. *)
Theorem C134_guarded_still_works :
  forall (C : ed25519), ed25519_laws C ->
  forall (k : keypair C) (pk ekey mid : list byte) (mt : byte) (t : ty) (v : tval t) (p0 unsigned signed : packet)
         (act : tval t -> outcome unit) (h : header) (from : address),
    public_key k = Ok pk -> length ekey = 32 -> length mid = 20 -> in_range t v -> raw_at_end_only t = true ->
    packet_new (py_ipv8_header mid mt) = Ok p0 ->
    add_all p0 [existT tval TBinMember (BinMember pk ekey); existT tval t v] = Ok unsigned ->
    packet_sign unsigned k = Ok signed ->
    guarded_handler C t act h (start_deserialize signed) from = act (transmitted t v).
Proof. exact p_C134_guarded_still_works. Qed.
Print Assumptions C134_guarded_still_works.

(** the second datagram arrives, and nobody will ever read it *)
Example ex_C134_stopped :
  exists s, run e_net (net_init e_net []) (e_trace (LPanic 0)) s /\ stopped s /\
    forwards_to [e_community false] 0 (e_trace (LPanic 0)) /\ is_registered (e_community false) [e_community false] /\
    received [] (e_trace (LPanic 0)) = [] ++ (e_killer, ex_src) :: [] /\
    firstn (nc_buffersize e_net) e_killer = empty_blob (c_mid (e_community false)) x01 [] /\ length e_killer = 25.
Proof. exact ex_C134_stopped. Qed.

(** with the guard the same datagram does no harm *)
Example ex_C134_survives :
  exists s, run e_net (net_init e_net []) (e_trace (LReturn 0)) s /\ between_datagrams s /\
    forwards_to [e_community true] 0 (e_trace (LReturn 0)) /\
    (forall c h p from q, In c [e_community true] -> c_on_receive c h (start_deserialize (Packet p)) from <> Panic q).
Proof. exact ex_C134_survives. Qed.

(** a genuine message *)
Example ex_C134_genuine :
  exists p0 unsigned signed,
    packet_new (py_ipv8_header (repeat x2a 20) x01) = Ok p0 /\
    add_all p0 [existT tval TBinMember (BinMember (repeat x05 32) (repeat x06 32)); existT tval TU8 x09] = Ok unsigned /\
    packet_sign (C := toy) unsigned (repeat x05 32) = Ok signed /\ public_key (C := toy) (repeat x05 32) = Ok (repeat x05 32) /\
    guarded_handler toy TU8 (fun x => if Byte.eqb x x09 then Err EEof else Ok tt) (spec_header (repeat x2a 20) x01) (start_deserialize signed) ex_src = Err EEof.
Proof. exact ex_C134_genuine. Qed.

(** a packet that reaches a handler *)
Example ex_C134_handled :
  exists h d, fst (forward_message (registered [e_community true]) (Packet (e_killer ++ [x09])) ex_src) = [Handled 7 h d ex_src].
Proof. exact ex_C134_handled. Qed.
