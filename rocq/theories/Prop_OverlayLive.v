(** * Prop_OverlayLive: property theorems (statements only; proofs in OverlayLiveProofs.v) *)
From Coq Require Import Strings.String.
From Verif Require Import Base Serde Codec Universe Spec SerdeFacts CodecFacts UniverseFacts Packet Client PacketFacts HeaderProofs CodecProofs CursorProofs CryptoProofs Community CommunitySpec CommunityProofs Network NetSpec NetworkProofs EndToEndSpec EndToEndProofs LivenessSpec Ipv8 Ipv8Spec Ipv8Proofs World WorldSpec WorldProofs OverlayProofs WorldLiveSpec WorldLiveProofs Ed25519 Ed25519Proofs Pkcs8 OverlayLiveProofs.
Open Scope nat_scope.

(** C110. The whole way, with nothing assumed to have happened yet: a peer builds a packet for community [c], signs it with any scheme that
    meets [ed25519_laws] and sends it; the network delivers it to a listener, which runs for ever in a fair environment. Then,
    after the delivery, the receiver behind which [c] is registered is called with it, and its handler then gets a deserializer from
    which it can pop the header, verify (true), and read back all the payloads in order. *)
Theorem C110_signed_messages_are_handled :
  forall (C : ed25519), ed25519_laws C ->
  forall (key : keypair C) (pk ekey : list byte) (mt : byte) (l : list payload) (p0 unsigned signed : packet)
         (T : topology) (st : nat -> world) (ev : nat -> event) (i a b k n0 : nat) (m : message) (cfg : config) (r : nat)
         (cs : list community) (c : community),
    (* the sender *)
    public_key key = Ok pk -> length ekey = 32 ->
    Forall (fun x => in_range (projT1 x) (projT2 x)) l ->
    readable_sequence self_delimiting raw_at_end_only (map ptype l) = true ->
    packet_new (py_ipv8_header (c_mid c) mt) = Ok p0 ->
    add_all p0 (existT tval TBinMember (BinMember pk ekey) :: l) = Ok unsigned ->
    packet_sign unsigned key = Ok signed ->
    (* the network, and the listener k *)
    infinite_world T st ev -> ev a = WSend i signed m -> ev b = WDeliver k m ->
    ev n0 = WStart k cfg -> never_closed k ev -> never_fails_at k ev -> deliveries_go_on k ev ->
    fair_at k st ev -> prompt_poll_at k st ev ->
    r < added k (events_upto ev n0) -> length (packet_raw signed) <= cf_buffersize cfg ->
    (* the receiving process *)
    is_registered c cs -> length (c_mid c) = 20 -> deprecated (N_of_byte mt) = false ->
    (forall c', In c' cs -> c_tag c' = c_tag c -> c_mid c' = c_mid c) ->
    exists n d d1 d2 d3,
      b < n /\ ev n = WListener k (LCall r (packet_raw signed) (m_from m)) /\
      handler_calls (c_tag c) (forward cs (packet_raw signed, m_from m)) = [(spec_header (c_mid c) mt, d, m_from m)] /\
      pop_header d = (d1, Ok (spec_header (c_mid c) mt)) /\
      verify_embedded C d1 = (d2, Ok true) /\
      read_all d2 (map ptype l) = (d3, Ok (map transmitted_payload l)).
Proof. exact p_C110_signed_messages_are_handled. Qed.
Print Assumptions C110_signed_messages_are_handled.

(** C110. The same with Ed25519 itself, as RFC 8032 and ring have it, and a key from a seed: nothing is assumed of the
    cryptography. *)
Theorem C110_with_the_real_signatures :
  forall (seed ekey : list byte) (mt : byte) (l : list payload) (key : keypair ring_pkcs8) (p0 unsigned signed : packet)
         (T : topology) (st : nat -> world) (ev : nat -> event) (i a b k n0 : nat) (m : message) (cfg : config) (r : nat)
         (cs : list community) (c : community),
    keypair_from_seed_unchecked ring_pkcs8 seed = Ok key -> length ekey = 32 ->
    Forall (fun x => in_range (projT1 x) (projT2 x)) l ->
    readable_sequence self_delimiting raw_at_end_only (map ptype l) = true ->
    packet_new (py_ipv8_header (c_mid c) mt) = Ok p0 ->
    add_all p0 (existT tval TBinMember (BinMember (ed_public_key seed) ekey) :: l) = Ok unsigned ->
    packet_sign unsigned key = Ok signed ->
    infinite_world T st ev -> ev a = WSend i signed m -> ev b = WDeliver k m ->
    ev n0 = WStart k cfg -> never_closed k ev -> never_fails_at k ev -> deliveries_go_on k ev ->
    fair_at k st ev -> prompt_poll_at k st ev ->
    r < added k (events_upto ev n0) -> length (packet_raw signed) <= cf_buffersize cfg ->
    is_registered c cs -> length (c_mid c) = 20 -> deprecated (N_of_byte mt) = false ->
    (forall c', In c' cs -> c_tag c' = c_tag c -> c_mid c' = c_mid c) ->
    exists n d d1 d2 d3,
      b < n /\ ev n = WListener k (LCall r (packet_raw signed) (m_from m)) /\
      handler_calls (c_tag c) (forward cs (packet_raw signed, m_from m)) = [(spec_header (c_mid c) mt, d, m_from m)] /\
      pop_header d = (d1, Ok (spec_header (c_mid c) mt)) /\
      verify_embedded ring_pkcs8 d1 = (d2, Ok true) /\
      read_all d2 (map ptype l) = (d3, Ok (map transmitted_payload l)).
Proof. exact p_C110_with_the_real_signatures. Qed.
Print Assumptions C110_with_the_real_signatures.

(** the hypotheses of C110 are met: for every seed a signed message of 195 bytes, sent in the execution of ex_C109 *)
Example ex_C110_hypotheses :
  forall seed, length seed = 32 ->
  exists (key : keypair ring_pkcs8) p0 unsigned signed st ev,
    keypair_from_seed_unchecked ring_pkcs8 seed = Ok key /\
    Forall (fun x => in_range (projT1 x) (projT2 x)) example_payloads /\
    readable_sequence self_delimiting raw_at_end_only (map ptype example_payloads) = true /\
    packet_new (py_ipv8_header e2e_mid x01) = Ok p0 /\
    add_all p0 (existT tval TBinMember (BinMember (ed_public_key seed) (repeat x06 32)) :: example_payloads) = Ok unsigned /\
    packet_sign unsigned key = Ok signed /\
    infinite_world two_hosts st ev /\ ev 2 = WSend 0 signed (ex_message signed) /\ ev 3 = WDeliver 1 (ex_message signed) /\
    ev 5 = WStart 1 overlay_config /\ never_closed 1 ev /\ never_fails_at 1 ev /\ deliveries_go_on 1 ev /\
    fair_at 1 st ev /\ prompt_poll_at 1 st ev /\ 0 < added 1 (events_upto ev 5) /\
    length (packet_raw signed) <= cf_buffersize overlay_config /\
    is_registered (e2e_community 1 e2e_mid) e2e_registry /\ length e2e_mid = 20 /\ deprecated (N_of_byte x01) = false /\
    (forall c', In c' e2e_registry -> c_tag c' = 1 -> c_mid c' = e2e_mid).
Proof. exact ex_C110_hypotheses. Qed.
