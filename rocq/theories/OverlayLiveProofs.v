(** * OverlayLiveProofs: C110, from one host's API to another host's handler, eventually *)
From Coq Require Import Strings.String.
From Verif Require Import Base Serde Codec Universe Spec SerdeFacts CodecFacts UniverseFacts Packet Client PacketFacts HeaderProofs CodecProofs
  CursorProofs CryptoProofs Community CommunitySpec CommunityProofs Network NetSpec NetworkProofs EndToEndSpec EndToEndProofs
  LivenessSpec Ipv8 Ipv8Spec Ipv8Proofs World WorldSpec WorldProofs OverlayProofs WorldLiveSpec WorldLiveProofs
  Ed25519 Ed25519Proofs Pkcs8.
Open Scope nat_scope.

(** a message is forwarded to its handler, and only there, as it is *)
Lemma handled_message cs c p src mt rest : is_registered c cs -> length (c_mid c) = 20 ->
  (forall c', In c' cs -> c_tag c' = c_tag c -> c_mid c' = c_mid c) -> deprecated (N_of_byte mt) = false ->
  packet_bytes p = header_layout (c_mid c) mt ++ rest ->
  handler_calls (c_tag c) (forward cs (packet_bytes p, src)) = [(spec_header (c_mid c) mt, start_deserialize p, src)].
Proof.
  intros Reg Hm Tg D E. pose proof (forward_many cs c Reg Hm Tg [(packet_bytes p, src)]) as F.
  cbn [flat_map] in F. rewrite app_nil_r in F. rewrite F. clear F. cbn [filter fst].
  rewrite E, is_message_layout, bytes_eqb_refl, D by assumption. cbn [andb negb map]. unfold as_handled. cbn [fst snd].
  destruct (header_layout_fields (c_mid c) mt rest Hm) as [-> ->]. rewrite <- E. now destruct p.
Qed.

(** C110. The whole way, with nothing assumed to have happened yet: a peer builds a packet for community [c], signs it with any scheme that
    meets [ed25519_laws] and sends it; the network delivers it to a listener, which runs for ever in a fair environment. Then,
    after the delivery, the receiver behind which [c] is registered is called with it, and its handler then gets a deserializer from
    which it can pop the header, verify (true), and read back all the payloads in order. *)
Lemma p_C110_signed_messages_are_handled :
  forall (C : ed25519), ed25519_laws C ->
  forall (key : keypair C) (pk ekey : list byte) (mt : byte) (l : list payload) (p0 unsigned signed : packet)
         (T : topology) (st : nat -> world) (ev : nat -> event) (i a b k n0 : nat) (m : message) (cfg : config) (r : nat)
         (cs : list community) (c : community),
    (* the sender *)
    public_key key = Ok pk -> length ekey = 32 ->
    Forall (fun x => in_range (projT1 x) (projT2 x)) l ->
    readable_sequence self_delimiting raw_at_end_only (map ptype l) = true ->
    packet_new (py_ipv8_header (c_mid c) mt) = Ok p0 ->
    add_all p0 (existT tval TBinMember (BinMember pk ekey) :: l) = Ok unsigned ->
    packet_sign unsigned key = Ok signed ->
    (* the network, and the listener k *)
    infinite_world T st ev -> ev a = WSend i signed m -> ev b = WDeliver k m ->
    ev n0 = WStart k cfg -> never_closed k ev -> never_fails_at k ev -> deliveries_go_on k ev ->
    fair_at k st ev -> prompt_poll_at k st ev ->
    r < added k (events_upto ev n0) -> length (packet_raw signed) <= cf_buffersize cfg ->
    (* the receiving process *)
    is_registered c cs -> length (c_mid c) = 20 -> deprecated (N_of_byte mt) = false ->
    (forall c', In c' cs -> c_tag c' = c_tag c -> c_mid c' = c_mid c) ->
    exists n d d1 d2 d3,
      b < n /\ ev n = WListener k (LCall r (packet_raw signed) (m_from m)) /\
      handler_calls (c_tag c) (forward cs (packet_raw signed, m_from m)) = [(spec_header (c_mid c) mt, d, m_from m)] /\
      pop_header d = (d1, Ok (spec_header (c_mid c) mt)) /\
      verify_embedded C d1 = (d2, Ok true) /\
      read_all d2 (map ptype l) = (d3, Ok (map transmitted_payload l)).
Proof.
  intros C Lw key pk ekey mt l p0 unsigned signed T st ev i a b k n0 m cfg r cs c Hk He Hr S Hp Ha Hs
    RUN Ea Eb ST NC NF GO FA PP Hrc Hlen Reg Hm D Tg.
  destruct (p_C31_signed_message_end_to_end C Lw key pk ekey (c_mid c) mt l p0 unsigned signed Hk He Hm Hr S Hp Ha Hs)
    as (d1 & d2 & d3 & E1 & E2 & E3 & _).
  destruct (p_C109_sent_and_delivered_is_received T st ev k n0 cfg RUN ST NC NF GO FA PP i a b signed m r Ea Eb Hlen Hrc) as (n & Hn & En).
  exists n, (start_deserialize signed), d1, d2, d3. split; [exact Hn|]. split; [exact En|]. split; [|auto].
  assert (Hl : exists rest, packet_bytes signed = header_layout (c_mid c) mt ++ rest).
  { unfold py_ipv8_header in Hp. rewrite packet_new_complete, byte_of_N_of_byte in Hp. injection Hp as <-.
    destruct (add_all_prefix _ _ _ Ha) as [m1 E4]. rewrite (sign_ok C Lw) in Hs. injection Hs as <-.
    cbn [packet_bytes] in *. rewrite E4. rewrite <- app_assoc. eauto. }
  destruct Hl as [rest El]. exact (handled_message cs c signed (m_from m) mt rest Reg Hm Tg D El).
Qed.

(** C110. The same with Ed25519 itself, as RFC 8032 and ring have it, and a key from a seed: nothing is assumed of the
    cryptography. *)
Lemma p_C110_with_the_real_signatures :
  forall (seed ekey : list byte) (mt : byte) (l : list payload) (key : keypair ring_pkcs8) (p0 unsigned signed : packet)
         (T : topology) (st : nat -> world) (ev : nat -> event) (i a b k n0 : nat) (m : message) (cfg : config) (r : nat)
         (cs : list community) (c : community),
    keypair_from_seed_unchecked ring_pkcs8 seed = Ok key -> length ekey = 32 ->
    Forall (fun x => in_range (projT1 x) (projT2 x)) l ->
    readable_sequence self_delimiting raw_at_end_only (map ptype l) = true ->
    packet_new (py_ipv8_header (c_mid c) mt) = Ok p0 ->
    add_all p0 (existT tval TBinMember (BinMember (ed_public_key seed) ekey) :: l) = Ok unsigned ->
    packet_sign unsigned key = Ok signed ->
    infinite_world T st ev -> ev a = WSend i signed m -> ev b = WDeliver k m ->
    ev n0 = WStart k cfg -> never_closed k ev -> never_fails_at k ev -> deliveries_go_on k ev ->
    fair_at k st ev -> prompt_poll_at k st ev ->
    r < added k (events_upto ev n0) -> length (packet_raw signed) <= cf_buffersize cfg ->
    is_registered c cs -> length (c_mid c) = 20 -> deprecated (N_of_byte mt) = false ->
    (forall c', In c' cs -> c_tag c' = c_tag c -> c_mid c' = c_mid c) ->
    exists n d d1 d2 d3,
      b < n /\ ev n = WListener k (LCall r (packet_raw signed) (m_from m)) /\
      handler_calls (c_tag c) (forward cs (packet_raw signed, m_from m)) = [(spec_header (c_mid c) mt, d, m_from m)] /\
      pop_header d = (d1, Ok (spec_header (c_mid c) mt)) /\
      verify_embedded ring_pkcs8 d1 = (d2, Ok true) /\
      read_all d2 (map ptype l) = (d3, Ok (map transmitted_payload l)).
Proof.
  intros seed ekey mt l key p0 unsigned signed T st ev i a b k n0 m cfg r cs c K.
  assert (LW : ed25519_laws ring_pkcs8) by apply p_C100_ed25519_meets_the_laws.
  assert (P : public_key key = Ok (ed_public_key seed)).
  { assert (E : key = seed).
    { unfold keypair_from_seed_unchecked in K. cbn [ring_pkcs8 ring_ed25519 ring_from_seed_unchecked] in K.
      destruct (length seed =? 32)%nat; cbn [ok_or] in K; congruence. }
    subst key. exact (public_key_ok _ LW seed). }
  exact (p_C110_signed_messages_are_handled ring_pkcs8 LW key (ed_public_key seed) ekey mt l p0 unsigned signed T st ev i a b k n0 m cfg r cs c P).
Qed.

Lemma ex_signed_message seed : length seed = 32 ->
  exists (key : keypair ring_pkcs8) p0 unsigned signed,
    keypair_from_seed_unchecked ring_pkcs8 seed = Ok key /\
    packet_new (py_ipv8_header e2e_mid x01) = Ok p0 /\
    add_all p0 (existT tval TBinMember (BinMember (ed_public_key seed) (repeat x06 32)) :: example_payloads) = Ok unsigned /\
    packet_sign unsigned key = Ok signed /\ length (packet_raw signed) = 195.
Proof.
  intros Ls. assert (LW : ed25519_laws ring_pkcs8) by apply p_C100_ed25519_meets_the_laws.
  assert (H : forall pk, length pk = 32 -> exists u,
    add_all (Packet (header_layout e2e_mid x01)) (existT tval TBinMember (BinMember pk (repeat x06 32)) :: example_payloads) = Ok u /\
    length (packet_raw u) = 131).
  { intros pk L. do 32 (destruct pk as [|? pk]; [discriminate L|]). destruct pk; [|discriminate L].
    eexists. split; [vm_compute; reflexivity|]. reflexivity. }
  assert (K : keypair_from_seed_unchecked ring_pkcs8 seed = Ok seed).
  { unfold keypair_from_seed_unchecked. cbn [ring_pkcs8 ring_ed25519 ring_from_seed_unchecked]. now rewrite Ls. }
  destruct (H (ed_public_key seed) (ring_public_key_length _ LW seed)) as (u & Hu & Lu). clear H.
  destruct (p_C28_sign_appends _ LW seed u) as (q & sig & E & R & Lg & _).
  exists seed, (Packet (header_layout e2e_mid x01)), u, q.
  split; [exact K|]. split; [vm_compute; reflexivity|]. split; [exact Hu|]. split; [exact E|].
  rewrite R, app_length, Lg, Lu. reflexivity.
Qed.

(** the hypotheses of C110 are met: for every seed a signed message of 195 bytes, sent in the execution of ex_C109 *)
Example ex_C110_hypotheses :
  forall seed, length seed = 32 ->
  exists (key : keypair ring_pkcs8) p0 unsigned signed st ev,
    keypair_from_seed_unchecked ring_pkcs8 seed = Ok key /\
    Forall (fun x => in_range (projT1 x) (projT2 x)) example_payloads /\
    readable_sequence self_delimiting raw_at_end_only (map ptype example_payloads) = true /\
    packet_new (py_ipv8_header e2e_mid x01) = Ok p0 /\
    add_all p0 (existT tval TBinMember (BinMember (ed_public_key seed) (repeat x06 32)) :: example_payloads) = Ok unsigned /\
    packet_sign unsigned key = Ok signed /\
    infinite_world two_hosts st ev /\ ev 2 = WSend 0 signed (ex_message signed) /\ ev 3 = WDeliver 1 (ex_message signed) /\
    ev 5 = WStart 1 overlay_config /\ never_closed 1 ev /\ never_fails_at 1 ev /\ deliveries_go_on 1 ev /\
    fair_at 1 st ev /\ prompt_poll_at 1 st ev /\ 0 < added 1 (events_upto ev 5) /\
    length (packet_raw signed) <= cf_buffersize overlay_config /\
    is_registered (e2e_community 1 e2e_mid) e2e_registry /\ length e2e_mid = 20 /\ deprecated (N_of_byte x01) = false /\
    (forall c', In c' e2e_registry -> c_tag c' = 1 -> c_mid c' = e2e_mid).
Proof.
  intros seed Ls. destruct (ex_signed_message seed Ls) as (key & p0 & u & s & H1 & H2 & H3 & H4 & H5).
  assert (F : length (packet_bytes s) <= cf_buffersize overlay_config).
  { unfold packet_raw in H5. rewrite H5. cbn. lia. }
  exists key, p0, u, s, (ex_wst overlay_config s), (ex_wev overlay_config s).
  destruct (ex_conditions overlay_config s F) as (C1 & C2 & C3 & C4 & C5 & C6 & C7 & C8 & C9 & C10).
  split; [exact H1|]. split; [apply ex_C07_sequence|]. split; [reflexivity|]. split; [exact H2|]. split; [exact H3|]. split; [exact H4|].
  split; [exact C1|]. split; [exact C9|]. split; [exact C10|]. split; [exact C2|]. split; [exact C3|]. split; [exact C4|].
  split; [exact C5|]. split; [exact C6|]. split; [exact C7|]. split; [rewrite C8; lia|]. split; [exact F|].
  split; [exists [], [e2e_community 2 (repeat x2b 20)]; split; [reflexivity|]; constructor; [discriminate|constructor]|].
  split; [reflexivity|]. split; [reflexivity|].
  intros c' [<-|[<-|[]]]; cbn; [reflexivity|discriminate].
Qed.
