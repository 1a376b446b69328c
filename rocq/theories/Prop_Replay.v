(** * Prop_Replay: property theorems (statements only; proofs in ReplayProofs.v) *)
From Coq Require Import Strings.String.
From Verif Require Import Base Serde Codec Universe Spec SerdeFacts CodecFacts UniverseFacts Packet Client PacketFacts HeaderProofs CodecProofs CursorProofs CryptoProofs Community CommunitySpec CommunityProofs Network NetSpec NetworkProofs EndToEndSpec EndToEndProofs LivenessSpec Ipv8 Ipv8Spec Ipv8Proofs World WorldSpec WorldProofs OverlayProofs WorldLiveSpec WorldLiveProofs EdField EdCurve EdSpec Sha512 Sha512Spec Ed25519 Ed25519Proofs Pkcs8 OverlayLiveProofs RealProofs ReplaySpec ReplayProofs.
Open Scope nat_scope.

(** C90. And any number of packets can arrive one after the other, from any senders: the receivers are called with all of them, in the order in
    which they were sent, and the listener waits again. *)
Theorem C90_any_number_can_arrive :
  forall (T : topology) (tr : list event) (w : world) (k h : nat) (y : address) (c : net_config) (s : net_state)
         (l : list (nat * packet * message)),
    wrun T world_init tr w ->
    nth_error (w_sockets w) k = Some {| sk_host := h; sk_address := y; sk_end := Listening c s |} ->
    idle s -> ns_queue s = [] ->
    Forall (fun x => let '(i, p, m) := x in can_put T w i p m /\ addressed_to T m h y /\ length (packet_bytes p) <= nc_buffersize c) l ->
    exists (tr' : list event) (w' : world) (s' : net_state),
      wrun T w tr' w' /\ Forall (plain_event k) tr' /\ sends tr' = l /\
      (forall r, r < nc_receivers c -> calls r (trace_at k tr') = map (fun x => let '(_, p, m) := x in (packet_bytes p, m_from m)) l) /\
      nth_error (w_sockets w') k = Some {| sk_host := h; sk_address := y; sk_end := Listening c s' |} /\ idle s' /\ ns_queue s' = [].
Proof. exact p_C90_any_number_can_arrive. Qed.
Print Assumptions C90_any_number_can_arrive.

(** C113 (refuted: "a verified message was sent to me, now, by its signer"). Take a message that the owner of a key signed for community [c], once, and
    any list of sender's sockets - the owner's or anybody else's, on any hosts. Then each of them can send a copy to a listener on any
    host, and the handler of [c] there is called for all the copies, in order, with the addresses of those who sent them; each time it pops
    the header, verifies (true) and reads the payloads. So a signature says nothing about recipient, time, number of copies or sender. *)
Theorem C113_signed_messages_are_bound_to_no_recipient_refuted :
  forall (seed pk ekey : list byte) (mt : byte) (payloads : list payload) (key : keypair ring_pkcs8) (p0 unsigned signed : packet)
         (T : topology) (tr : list event) (w : world) (k h : nat) (y : address) (nc : net_config) (s : net_state)
         (copies : list (nat * message)) (cs : list community) (c : community),
    (* the owner of the key signs it once *)
    keypair_from_seed_unchecked ring_pkcs8 seed = Ok key -> is_public_key seed pk -> length ekey = 32 ->
    Forall (fun x => in_range (projT1 x) (projT2 x)) payloads ->
    readable_sequence self_delimiting raw_at_end_only (map ptype payloads) = true ->
    packet_new (py_ipv8_header (c_mid c) mt) = Ok p0 ->
    add_all p0 (existT tval TBinMember (BinMember pk ekey) :: payloads) = Ok unsigned ->
    packet_sign unsigned key = Ok signed ->
    (* any listener that waits, and any senders *)
    wrun T world_init tr w ->
    nth_error (w_sockets w) k = Some {| sk_host := h; sk_address := y; sk_end := Listening nc s |} ->
    idle s -> ns_queue s = [] -> length (packet_raw signed) <= nc_buffersize nc ->
    Forall (fun x => can_put T w (fst x) signed (snd x) /\ addressed_to T (snd x) h y) copies ->
    is_registered c cs -> length (c_mid c) = 20 -> deprecated (N_of_byte mt) = false ->
    (forall c', In c' cs -> c_tag c' = c_tag c -> c_mid c' = c_mid c) ->
    exists (tr' : list event) (w' : world),
      wrun T w tr' w' /\ Forall (plain_event k) tr' /\ sends tr' = map (fun x => (fst x, signed, snd x)) copies /\
      (forall r, r < nc_receivers nc ->
         handler_calls (c_tag c) (effects_behind cs r (trace_at k tr')) =
           map (fun x => (spec_header (c_mid c) mt, start_deserialize signed, m_from (snd x))) copies) /\
      exists d1 d2 d3,
        pop_header (start_deserialize signed) = (d1, Ok (spec_header (c_mid c) mt)) /\
        verify_embedded ring_pkcs8 d1 = (d2, Ok true) /\
        read_all d2 (map ptype payloads) = (d3, Ok (map transmitted_payload payloads)).
Proof. exact p_C113_signed_messages_are_bound_to_no_recipient_refuted. Qed.
Print Assumptions C113_signed_messages_are_bound_to_no_recipient_refuted.

(** the hypotheses of C113 are met, for every seed: host 0 sends two copies of a signed message to the listener on host 1 *)
Example ex_C113_hypotheses :
  forall seed, length seed = 32 ->
  exists (key : keypair ring_pkcs8) pk p0 unsigned signed tr w y s m,
    keypair_from_seed_unchecked ring_pkcs8 seed = Ok key /\ is_public_key seed pk /\
    packet_new (py_ipv8_header e2e_mid x01) = Ok p0 /\
    add_all p0 (existT tval TBinMember (BinMember pk (repeat x06 32)) :: example_payloads) = Ok unsigned /\
    packet_sign unsigned key = Ok signed /\
    wrun two_hosts world_init tr w /\
    nth_error (w_sockets w) 1 = Some {| sk_host := 1; sk_address := y; sk_end := Listening (listen_config overlay_config 1) s |} /\
    idle s /\ ns_queue s = [] /\ length (packet_raw signed) <= nc_buffersize (listen_config overlay_config 1) /\
    Forall (fun x => can_put two_hosts w (fst x) signed (snd x) /\ addressed_to two_hosts (snd x) 1 y) [(0, m); (0, m)] /\
    is_registered (e2e_community 1 e2e_mid) e2e_registry.
Proof. exact ex_C113_hypotheses. Qed.
