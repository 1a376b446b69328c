(** * Prop_Overlay: property theorems (statements only; proofs in OverlayProofs.v) *)
From Coq Require Import Strings.String.
From Verif Require Import Base Serde Codec Universe Spec SerdeFacts CodecFacts UniverseFacts Packet Client PacketFacts HeaderProofs CodecProofs CursorProofs CryptoProofs Community CommunitySpec CommunityProofs Network NetSpec NetworkProofs EndToEndSpec EndToEndProofs Ipv8 Ipv8Spec Ipv8Proofs World WorldSpec WorldProofs OverlayProofs.
Open Scope nat_scope.

(** C91. What a community's handler on some host has been called with is determined by what the network delivered to its
    listener's socket: exactly the messages for it (after truncation), in order, each once; at any moment at most the one being
    dispatched is missing. *)
Theorem C91_handler_gets_what_was_delivered :
  forall (T : topology) (tr : list event) (w : world) (k : nat) (cfg : config) (r : nat) (cs : list community) (c : community),
    wrun T world_init tr w -> In (WStart k cfg) tr -> ~ In (WClose k) tr -> r < added k tr ->
    is_registered c cs -> length (c_mid c) = 20 ->
    (forall c', In c' cs -> c_tag c' = c_tag c -> c_mid c' = c_mid c) ->
    let got := map (fun d => (firstn (cf_buffersize cfg) (fst d), snd d)) (firstn (recvs (trace_at k tr)) (delivered k tr)) in
    exists missing, length missing <= 1 /\
      map as_handled (filter (fun x => is_message_for (c_mid c) (fst x)) got) =
      handler_calls (c_tag c) (effects_behind cs r (trace_at k tr)) ++ missing.
Proof. exact p_C91_handler_gets_what_was_delivered. Qed.
Print Assumptions C91_handler_gets_what_was_delivered.

(** C91. A handler never runs without cause: on every host and at every moment, each of its calls was made for a datagram
    somebody put on the network before, delivered to this listener, which starts with 00 02, the community's own id and a message type
    that is not deprecated; the handler was given that header, those bytes (cut to the buffer) from the start, and the
    datagram's source address. *)
Theorem C91_handlers_only_run_on_sent_messages :
  forall (T : topology) (tr : list event) (w : world) (k r : nat) (cs : list community) (c : community)
         (h : header) (d : deserializer) (src : address),
    wrun T world_init tr w ->
    is_registered c cs -> length (c_mid c) = 20 ->
    (forall c', In c' cs -> c_tag c' = c_tag c -> c_mid c' = c_mid c) ->
    In (h, d, src) (handler_calls (c_tag c) (effects_behind cs r (trace_at k tr))) ->
    exists (m : message) (cfg : config) (mt : byte),
      In m (emitted tr) /\ In (WDeliver k m) tr /\ In (WStart k cfg) tr /\
      firstn 23 (m_data m) = header_layout (c_mid c) mt /\ deprecated (N_of_byte mt) = false /\
      h = spec_header (c_mid c) mt /\ d = {| pntr := Packet (firstn (cf_buffersize cfg) (m_data m)); index := 0 |} /\
      src = m_from m.
Proof. exact p_C91_handlers_only_run_on_sent_messages. Qed.
Print Assumptions C91_handlers_only_run_on_sent_messages.

(** C92. A signed message, from one host's API to another's: a peer builds a packet for community [c] - header,
    authentication payload with its key, any payloads - signs it and sends it with a [NetworkSender]; the network delivers it. Whatever
    else happens on the network and whoever else sends: as soon as the receiver behind which [c] is registered has been
    called for everything delivered to its socket, the handler of [c] has been called with the address the datagram came from and a
    deserializer from which it can pop the header, verify (true), and read back all the payloads in order. *)
Theorem C92_signed_message_crosses_the_network :
  forall (C : ed25519), ed25519_laws C ->
  forall (key : keypair C) (pk ekey : list byte) (mt : byte) (l : list payload) (p0 unsigned signed : packet)
         (T : topology) (tr : list event) (w : world) (i k : nat) (m : message) (cfg : config) (r : nat)
         (cs : list community) (c : community),
    (* the sender *)
    public_key key = Ok pk -> length ekey = 32 ->
    Forall (fun x => in_range (projT1 x) (projT2 x)) l ->
    readable_sequence self_delimiting raw_at_end_only (map ptype l) = true ->
    packet_new (py_ipv8_header (c_mid c) mt) = Ok p0 ->
    add_all p0 (existT tval TBinMember (BinMember pk ekey) :: l) = Ok unsigned ->
    packet_sign unsigned key = Ok signed ->
    (* the network *)
    wrun T world_init tr w -> In (WSend i signed m) tr -> In (WDeliver k m) tr ->
    In (WStart k cfg) tr -> ~ In (WClose k) tr -> r < added k tr ->
    length (packet_raw signed) <= cf_buffersize cfg ->
    length (calls r (trace_at k tr)) = length (delivered k tr) ->
    (* the receiving process *)
    is_registered c cs -> length (c_mid c) = 20 -> deprecated (N_of_byte mt) = false ->
    (forall c', In c' cs -> c_tag c' = c_tag c -> c_mid c' = c_mid c) ->
    exists d d1 d2 d3,
      In (spec_header (c_mid c) mt, d, m_from m) (handler_calls (c_tag c) (effects_behind cs r (trace_at k tr))) /\
      pop_header d = (d1, Ok (spec_header (c_mid c) mt)) /\
      verify_embedded C d1 = (d2, Ok true) /\
      read_all d2 (map ptype l) = (d3, Ok (map transmitted_payload l)).
Proof. exact p_C92_signed_message_crosses_the_network. Qed.
Print Assumptions C92_signed_message_crosses_the_network.

(** C93. Authenticity against everybody on the network. Call a datagram a forgery if it, or a beginning of it (packets longer than the
    buffer are cut), is a message with a valid signature under [pk] where the message is not in [honest], what the owner of
    [pk] signed. Suppose no forgery was ever sent, by anybody. If a handler on any host pops the header, verifies and gets true for a
    packet whose authentication payload carries [pk], then the owner of [pk] signed exactly what is left in the deserializer, and
    signed it for this community and this message type. *)
Theorem C93_network_wide_authenticity :
  forall (C : ed25519) (pk : list byte) (honest : list byte -> Prop)
         (T : topology) (tr : list event) (w : world) (k r : nat) (cs : list community) (c : community)
         (h : header) (d d1 d1' d2 : deserializer) (src : address) (hr : outcome header) (auth : bin_member),
    wrun T world_init tr w ->
    (forall m n msg sig, In m (emitted tr) -> firstn n (m_data m) = msg ++ sig -> length sig = 64 ->
       ring_verify C pk msg sig = true -> honest msg) ->
    (forall c', In c' cs -> c_tag c' = c_tag c -> c_mid c' = c_mid c) ->
    In (h, d, src) (handler_calls (c_tag c) (effects_behind cs r (trace_at k tr))) ->
    pop_header d = (d1, hr) ->
    next_payload TBinMember d1 = (d1', Ok auth) -> bm_public_key_bin auth = pk ->
    verify_embedded C d1 = (d2, Ok true) ->
    exists msg sig mt,
      honest msg /\ length sig = 64 /\ pntr d = Packet (msg ++ sig) /\
      d2 = {| pntr := Packet msg; index := 99 |} /\
      firstn 23 msg = header_layout (c_mid c) mt /\ h = spec_header (c_mid c) mt.
Proof. exact p_C93_network_wide_authenticity. Qed.
Print Assumptions C93_network_wide_authenticity.

(** C94. Nothing in the library keeps a message from its handler: whenever a sender has a message for community [c] and the
    address of a listener that is waiting with nothing unread, and the network brings it there, the execution can go on
    without failure so that the handler of [c] runs once, on exactly this message, in every receiver that forwards to a registry. *)
Theorem C94_messages_can_reach_their_handler :
  forall (T : topology) (tr : list event) (w : world) (i k h : nat) (p : packet) (m : message) (x y : address)
         (q : list datagram) (nc : net_config) (s : net_state) (cs : list community) (c : community),
    wrun T world_init tr w ->
    nth_error (w_sockets w) i = Some {| sk_host := m_origin m; sk_address := x; sk_end := Sending q |} ->
    m_data m = packet_bytes p -> addr_port (m_from m) = addr_port x ->
    (addr_ip (m_from m) = addr_ip x \/ Forall (eq x00) (addr_ip x)) ->
    source_for T (m_origin m) (addr_ip (m_to m)) (addr_ip (m_from m)) ->
    nth_error (w_sockets w) k = Some {| sk_host := h; sk_address := y; sk_end := Listening nc s |} ->
    idle s -> ns_queue s = [] ->
    route T (m_origin m) (addr_ip (m_to m)) = Some h -> addr_port (m_to m) = addr_port y ->
    (addr_ip (m_to m) = addr_ip y \/ Forall (eq x00) (addr_ip y)) ->
    length (packet_bytes p) <= nc_buffersize nc ->
    is_registered c cs -> length (c_mid c) = 20 ->
    (forall c', In c' cs -> c_tag c' = c_tag c -> c_mid c' = c_mid c) ->
    is_message_for (c_mid c) (packet_raw p) = true ->
    exists (steps : list label) (w' : world),
      wrun T w (WSend i p m :: WDeliver k m :: map (WListener k) steps) w' /\
      Forall (fun l => ~ is_failure l) steps /\
      forall r, r < nc_receivers nc ->
        handler_calls (c_tag c) (effects_behind cs r steps) = [as_handled (packet_raw p, m_from m)].
Proof. exact p_C94_messages_can_reach_their_handler. Qed.
Print Assumptions C94_messages_can_reach_their_handler.

(** the hypotheses of C91, C92, C93 and C94 are met: the packet of ex_C71 travels from host 0 to the handler on host 1 *)
Example ex_C92_hypotheses :
  exists steps w,
    let tr := overlay_setup ++ WSend 0 e2e_signed overlay_message :: WDeliver 1 overlay_message :: map (WListener 1) steps in
    wrun two_hosts world_init tr w /\ In (WStart 1 overlay_config) tr /\ ~ In (WClose 1) tr /\ 0 < added 1 tr /\
    length (packet_raw e2e_signed) <= cf_buffersize overlay_config /\
    length (calls 0 (trace_at 1 tr)) = length (delivered 1 tr) /\ delivered 1 tr <> [] /\
    is_registered (e2e_community 1 e2e_mid) e2e_registry /\
    handler_calls 1 (effects_behind e2e_registry 0 (trace_at 1 tr)) =
      [(spec_header e2e_mid x01, {| pntr := e2e_signed; index := 0 |}, v4 10 0 0 1 8000)].
Proof. exact ex_C92_hypotheses. Qed.

Example ex_C91_hypotheses :
  exists tr w h d src,
    wrun two_hosts world_init tr w /\ In (WStart 1 overlay_config) tr /\ ~ In (WClose 1) tr /\ 0 < added 1 tr /\
    is_registered (e2e_community 1 e2e_mid) e2e_registry /\
    In (h, d, src) (handler_calls 1 (effects_behind e2e_registry 0 (trace_at 1 tr))).
Proof. exact ex_C91_hypotheses. Qed.

(** C93: in that execution no forgery is sent, with the unsigned packet as the only honest message; and verification succeeds *)
Example ex_C93_hypotheses :
  let honest := fun msg => msg = packet_raw e2e_unsigned in
  (forall m n msg sig, In m [overlay_message] -> firstn n (m_data m) = msg ++ sig -> length sig = 64 ->
     ring_verify toy (repeat x05 32) msg sig = true -> honest msg) /\
  exists d1 d1' d2 auth,
    pop_header {| pntr := e2e_signed; index := 0 |} = (d1, Ok (spec_header e2e_mid x01)) /\
    next_payload TBinMember d1 = (d1', Ok auth) /\ bm_public_key_bin auth = repeat x05 32 /\
    verify_embedded toy d1 = (d2, Ok true).
Proof. exact ex_C93_hypotheses. Qed.

Example ex_C94_hypotheses :
  exists w c s, wrun two_hosts world_init overlay_setup w /\
    nth_error (w_sockets w) 0 = Some {| sk_host := 0; sk_address := v4 0 0 0 0 8000; sk_end := Sending [] |} /\
    nth_error (w_sockets w) 1 = Some {| sk_host := 1; sk_address := v4 0 0 0 0 9000; sk_end := Listening c s |} /\
    idle s /\ ns_queue s = [] /\ length (packet_raw e2e_signed) <= nc_buffersize c /\
    is_message_for e2e_mid (packet_raw e2e_signed) = true.
Proof. exact ex_C94_hypotheses. Qed.
