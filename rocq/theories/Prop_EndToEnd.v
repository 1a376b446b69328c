(** * Prop_EndToEnd: property theorems (statements only; proofs in EndToEndProofs.v) *)
From Coq Require Import Strings.String.
From Verif Require Import Base Serde Codec Universe Spec SerdeFacts CodecFacts UniverseFacts Packet Client PacketFacts HeaderProofs CodecProofs CursorProofs CryptoProofs Community CommunitySpec CommunityProofs Network NetSpec NetworkProofs EndToEndSpec EndToEndProofs.
Open Scope nat_scope.

(** C70. From the socket to the handler: between datagrams, the handler of a registered community has been called exactly
    once for each received datagram that is (after truncation to the receive buffer) a message for it, in the order of
    reception, each time with the decoded header, the packet with the cursor at 0 and the sender's address; and for
    nothing else. *)
Theorem C70_community_gets_exactly_its_messages :
  forall (cfg : net_config) (q0 : list datagram) (tr : list label) (s : net_state) (r : nat)
         (cs : list community) (c : community),
    run cfg (net_init cfg q0) tr s -> between_datagrams s -> r < nc_receivers cfg ->
    is_registered c cs -> length (c_mid c) = 20 ->
    (forall c', In c' cs -> c_tag c' = c_tag c -> c_mid c' = c_mid c) ->
    handler_calls (c_tag c) (effects_behind cs r tr) =
    map as_handled (filter (fun x => is_message_for (c_mid c) (fst x)) (map (packet_of cfg) (received q0 tr))).
Proof. exact p_C70_community_gets_exactly_its_messages. Qed.
Print Assumptions C70_community_gets_exactly_its_messages.

(** C70, at every moment: what a handler has been called with is a prefix of that list, so the order never changes, and at
    most the datagram being dispatched is missing. *)
Theorem C70_prefix_at_every_moment :
  forall (cfg : net_config) (q0 : list datagram) (tr : list label) (s : net_state) (r : nat)
         (cs : list community) (c : community),
    run cfg (net_init cfg q0) tr s -> r < nc_receivers cfg ->
    is_registered c cs -> length (c_mid c) = 20 ->
    (forall c', In c' cs -> c_tag c' = c_tag c -> c_mid c' = c_mid c) ->
    exists missing, length missing <= 1 /\
      map as_handled (filter (fun x => is_message_for (c_mid c) (fst x)) (map (packet_of cfg) (received q0 tr))) =
      handler_calls (c_tag c) (effects_behind cs r tr) ++ missing.
Proof. exact p_C70_prefix_at_every_moment. Qed.
Print Assumptions C70_prefix_at_every_moment.

(** C71. A signed message, from the sender's API to the receiver's: a peer builds a packet for community [c] - header,
    authentication payload with its key, any payloads - signs it and sends it. Whatever other datagrams the network brings,
    and in whatever order: once the listener has received these bytes, the handler of [c] has been called with a deserializer
    from which it can pop the header, verify (true), and read back all the payloads in order. *)
Theorem C71_signed_message_reaches_the_handler :
  forall (C : ed25519), ed25519_laws C ->
  forall (k : keypair C) (pk ekey : list byte) (mt : byte) (l : list payload) (p0 unsigned signed : packet)
         (os : list byte -> address -> outcome nat) (dst src : address)
         (cfg : net_config) (q0 : list datagram) (tr : list label) (s : net_state) (r : nat)
         (cs : list community) (c : community),
    (* the sender *)
    public_key k = Ok pk -> length ekey = 32 ->
    Forall (fun x => in_range (projT1 x) (projT2 x)) l ->
    readable_sequence self_delimiting raw_at_end_only (map ptype l) = true ->
    packet_new (py_ipv8_header (c_mid c) mt) = Ok p0 ->
    add_all p0 (existT tval TBinMember (BinMember pk ekey) :: l) = Ok unsigned ->
    packet_sign unsigned k = Ok signed ->
    (* the network: what [send] handed to the operating system was received, among any other datagrams *)
    (forall x, In x (fst (network_send os dst signed)) -> In (fst x, src) (received q0 tr)) ->
    length (packet_raw signed) <= nc_buffersize cfg ->
    (* the receiving process *)
    run cfg (net_init cfg q0) tr s -> between_datagrams s -> r < nc_receivers cfg ->
    is_registered c cs -> length (c_mid c) = 20 -> deprecated (N_of_byte mt) = false ->
    (forall c', In c' cs -> c_tag c' = c_tag c -> c_mid c' = c_mid c) ->
    exists d d1 d2 d3,
      In (spec_header (c_mid c) mt, d, src) (handler_calls (c_tag c) (effects_behind cs r tr)) /\
      pop_header d = (d1, Ok (spec_header (c_mid c) mt)) /\
      verify_embedded C d1 = (d2, Ok true) /\
      read_all d2 (map ptype l) = (d3, Ok (map transmitted_payload l)).
Proof. exact p_C71_signed_message_reaches_the_handler. Qed.
Print Assumptions C71_signed_message_reaches_the_handler.

(** C72. Authenticity, against an arbitrary network. Suppose a handler pops the header, verifies and gets true, where the
    authentication payload carries the key [pk], and no packet that ever arrived is a forgery: if it is a message with a valid
    signature under [pk], the message is in [honest] (what the owner of [pk] signed). Then the packet is one the owner signed, followed by a signature; what is left in the
    deserializer, after the authentication payload, is exactly that; and its header - community id and message type - is the
    one the handler was given: the owner signed it for this community. So a message signed for one community or
    message type cannot be replayed as another. *)
Theorem C72_authenticated_messages_were_signed_for_this_community :
  forall (C : ed25519) (pk : list byte) (honest : list byte -> Prop)
         (cs : list community) (r : nat) (tr : list label) (c : community)
         (h : header) (d d1 d1' d2 : deserializer) (src : address) (hr : outcome header) (auth : bin_member),
    (forall msg sig from, In (msg ++ sig, from) (calls r tr) -> length sig = 64 -> ring_verify C pk msg sig = true -> honest msg) ->
    (forall c', In c' cs -> c_tag c' = c_tag c -> c_mid c' = c_mid c) ->
    In (h, d, src) (handler_calls (c_tag c) (effects_behind cs r tr)) ->
    pop_header d = (d1, hr) ->
    next_payload TBinMember d1 = (d1', Ok auth) -> bm_public_key_bin auth = pk ->
    verify_embedded C d1 = (d2, Ok true) ->
    exists msg sig mt,
      honest msg /\ length sig = 64 /\ pntr d = Packet (msg ++ sig) /\
      d2 = {| pntr := Packet msg; index := 99 |} /\
      firstn 23 msg = header_layout (c_mid c) mt /\ h = spec_header (c_mid c) mt.
Proof. exact p_C72_authenticated_messages_were_signed_for_this_community. Qed.
Print Assumptions C72_authenticated_messages_were_signed_for_this_community.

(** C73, refuted: "a message is handled at most once". The library keeps no memory of messages: whoever can
    send datagrams can make the handler of a community run on the same message - signed or not - any number of times. *)
Theorem C73_no_replay_protection_refuted :
  forall (n : nat) (pkt : list byte) (src : address) (cfg : net_config) (r : nat) (cs : list community) (c : community),
    r < nc_receivers cfg -> length pkt <= nc_buffersize cfg ->
    is_registered c cs -> length (c_mid c) = 20 ->
    (forall c', In c' cs -> c_tag c' = c_tag c -> c_mid c' = c_mid c) ->
    is_message_for (c_mid c) pkt = true ->
    exists tr s, run cfg (net_init cfg []) tr s /\ idle s /\ arrivals tr = repeat (pkt, src) n /\
      handler_calls (c_tag c) (effects_behind cs r tr) = repeat (as_handled (pkt, src)) n.
Proof. exact p_C73_no_replay_protection_refuted. Qed.
Print Assumptions C73_no_replay_protection_refuted.

(** C73, what does hold: the handler runs exactly as often on a message as the listener received it. *)
Theorem C73_handled_as_often_as_received :
  forall (cfg : net_config) (q0 : list datagram) (tr : list label) (s : net_state) (r : nat)
         (cs : list community) (c : community) (pkt : list byte),
    run cfg (net_init cfg q0) tr s -> between_datagrams s -> r < nc_receivers cfg ->
    is_registered c cs -> length (c_mid c) = 20 ->
    (forall c', In c' cs -> c_tag c' = c_tag c -> c_mid c' = c_mid c) ->
    is_message_for (c_mid c) pkt = true ->
    (forall x, In x (received q0 tr) -> length (fst x) <= nc_buffersize cfg) ->
    length (filter (fun call => bytes_eqb (packet_raw (pntr (snd (fst call)))) pkt)
                   (handler_calls (c_tag c) (effects_behind cs r tr))) =
    length (filter (fun x => bytes_eqb (fst x) pkt) (received q0 tr)).
Proof. exact p_C73_handled_as_often_as_received. Qed.
Print Assumptions C73_handled_as_often_as_received.

(** the hypotheses of C70, C71 and C73 are met: a packet signed by a toy scheme, received by a listener with two receivers, for
    the first of two communities *)
Example ex_C71_hypotheses :
  exists p0 unsigned signed tr s,
    packet_new (py_ipv8_header e2e_mid x01) = Ok p0 /\
    add_all p0 (existT tval TBinMember (BinMember (repeat x05 32) (repeat x06 32)) :: example_payloads) = Ok unsigned /\
    packet_sign (C := toy) unsigned (repeat x05 32) = Ok signed /\ public_key (C := toy) (repeat x05 32) = Ok (repeat x05 32) /\
    length (packet_raw signed) = 195 /\ is_message_for e2e_mid (packet_raw signed) = true /\
    run e2e_cfg (net_init e2e_cfg []) tr s /\ between_datagrams s /\ received [] tr = [(packet_raw signed, e2e_src)] /\
    is_registered (e2e_community 1 e2e_mid) e2e_registry /\ deprecated (N_of_byte x01) = false.
Proof. exact ex_C71_hypotheses. Qed.

(** the hypotheses of C72 are met: the handler of community 1 runs on that packet, and verification succeeds; with the toy
    scheme the messages that verify are exactly those signed *)
Example ex_C72_hypotheses :
  exists unsigned signed d1 d1' d2 hr auth,
    let pk := repeat x05 32 in
    let d := {| pntr := signed; index := 0 |} in
    let tr := [LCall 0 (packet_raw signed) e2e_src] in
    In (spec_header e2e_mid x01, d, e2e_src) (handler_calls 1 (effects_behind e2e_registry 0 tr)) /\
    pop_header d = (d1, hr) /\ next_payload TBinMember d1 = (d1', Ok auth) /\ bm_public_key_bin auth = pk /\
    verify_embedded toy d1 = (d2, Ok true) /\
    packet_sign (C := toy) unsigned pk = Ok signed /\ packet_raw (pntr d2) = packet_raw unsigned.
Proof. exact ex_C72_hypotheses. Qed.
