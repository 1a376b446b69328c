(** * Prop_ClusterLive: property theorems (statements only; proofs in ClusterLiveProofs.v) *)
From Coq Require Import Strings.String Permutation ConstructiveEpsilon.
From Verif Require Import Base Serde Codec Universe Spec SerdeFacts CodecFacts UniverseFacts Packet Client PacketFacts HeaderProofs CodecProofs CursorProofs CryptoProofs Community CommunitySpec CommunityProofs EndToEndSpec EndToEndProofs Ed25519 Ed25519Proofs Pkcs8 LivenessSpec WorldLiveSpec WorldLiveProofs OverlayProofs OverlayLiveProofs Network NetSpec NetworkProofs Ipv8 Ipv8Proofs World WorldSpec WorldProofs Pool PoolSpec PoolProofs PoolLiveProofs Rayon RayonSpec RayonLiveSpec RayonProofs RayonLiveProofs RayonServedProofs Cluster ClusterSpec ClusterProofs ClusterLiveProofs.
Open Scope nat_scope.

(** C124. A listener whose receivers run on a work-stealing pool, shared with all other listeners of its program, in a world of other programs with other pools: while
    the network goes on delivering to it, the [j]-th datagram ever delivered to it is at some time the [j]-th packet of each of its receivers - provided its program goes on
    running, starts no more listeners, its receivers' calls come back, and scheduler and pool are fair. Nothing is assumed of other programs. *)
Theorem C124_no_delivery_waits_forever :
  forall (T : topology) (st : nat -> cluster) (ev : nat -> cluster_event) (p i k n0 workers : nat) (cfg : config) (c : net_config) (q : list datagram),
    infinite_cluster T st ev ->
    (* program p starts its i-th listener, on socket k *)
    nth_error (programs (cluster_upto ev n0)) p = Some workers -> 1 <= workers ->
    ev n0 = CStart p k cfg c q -> nth_error (started_on p (cluster_upto ev (S n0))) i = Some k ->
    (* the program *)
    never_exits p ev -> starts_no_more p ev -> calls_come_back p ev -> scheduler_fair p st ev -> jobs_fair p st ->
    (* the listener *)
    listener_fair p i st ev -> nothing_fails p i ev -> delivered_for_ever k ev -> poll_prompt p i st ev ->
    forall (n j : nat) (data : list byte) (src : address) (r : nat),
      nth_error (delivered k (world_events (cluster_upto ev n))) j = Some (data, src) ->
      r < added k (world_events (cluster_upto ev n0)) ->
      exists m, nth_error (calls r (trace_at k (world_events (cluster_upto ev m)))) j = Some (firstn (cf_buffersize cfg) data, src).
Proof. exact p_C124_no_delivery_waits_forever. Qed.
Print Assumptions C124_no_delivery_waits_forever.

(** C124. A packet sent by any program, delivered to the listener, before its start or after: after that it is handed to each receiver, on one of the threads of the
    listener's program: exactly its bytes, if they fit the buffer, with the source address of the datagram. *)
Theorem C124_sent_and_delivered_is_received :
  forall (T : topology) (st : nat -> cluster) (ev : nat -> cluster_event) (p i k n0 workers : nat) (cfg : config) (c : net_config) (q : list datagram),
    infinite_cluster T st ev ->
    nth_error (programs (cluster_upto ev n0)) p = Some workers -> 1 <= workers ->
    ev n0 = CStart p k cfg c q -> nth_error (started_on p (cluster_upto ev (S n0))) i = Some k ->
    never_exits p ev -> starts_no_more p ev -> calls_come_back p ev -> scheduler_fair p st ev -> jobs_fair p st ->
    listener_fair p i st ev -> nothing_fails p i ev -> delivered_for_ever k ev -> poll_prompt p i st ev ->
    forall (h a b : nat) (pkt : packet) (m : message) (r : nat),
      ev a = CWorld (WSend h pkt m) -> world_events [ev b] = [WDeliver k m] -> length (packet_bytes pkt) <= cf_buffersize cfg ->
      r < added k (world_events (cluster_upto ev n0)) ->
      exists n thread, b < n /\ thread < workers /\
        ev n = CThread p (RWorker thread (Some (GStep i (LCall r (packet_bytes pkt) (m_from m))))) (Some k).
Proof. exact p_C124_sent_and_delivered_is_received. Qed.
Print Assumptions C124_sent_and_delivered_is_received.

(** C124. The whole way: a packet built for community [c], signed and sent by one program, delivered to a listener of another one. Then, after the delivery, the receiver behind
    which [c] is registered is called with it on one of the threads of that program, and the handler gets a deserializer from which it can pop the header, verify (true),
    and read back all the payloads. With Ed25519 itself: nothing is assumed of the cryptography. *)
Theorem C124_signed_messages_are_handled :
  forall (seed ekey : list byte) (mt : byte) (l : list payload) (key : keypair ring_pkcs8) (p0 unsigned signed : packet)
         (T : topology) (st : nat -> cluster) (ev : nat -> cluster_event) (p i k n0 workers : nat) (cfg : config) (nc : net_config) (q : list datagram)
         (h a b r : nat) (m : message) (cs : list community) (c : community),
    (* the sender *)
    keypair_from_seed_unchecked ring_pkcs8 seed = Ok key -> length ekey = 32 ->
    Forall (fun x => in_range (projT1 x) (projT2 x)) l ->
    readable_sequence self_delimiting raw_at_end_only (map ptype l) = true ->
    packet_new (py_ipv8_header (c_mid c) mt) = Ok p0 ->
    add_all p0 (existT tval TBinMember (BinMember (ed_public_key seed) ekey) :: l) = Ok unsigned ->
    packet_sign unsigned key = Ok signed ->
    (* the cluster: the i-th listener of program p *)
    infinite_cluster T st ev ->
    nth_error (programs (cluster_upto ev n0)) p = Some workers -> 1 <= workers ->
    ev n0 = CStart p k cfg nc q -> nth_error (started_on p (cluster_upto ev (S n0))) i = Some k ->
    never_exits p ev -> starts_no_more p ev -> calls_come_back p ev -> scheduler_fair p st ev -> jobs_fair p st ->
    listener_fair p i st ev -> nothing_fails p i ev -> delivered_for_ever k ev -> poll_prompt p i st ev ->
    ev a = CWorld (WSend h signed m) -> world_events [ev b] = [WDeliver k m] ->
    r < added k (world_events (cluster_upto ev n0)) -> length (packet_raw signed) <= cf_buffersize cfg ->
    (* the registry *)
    is_registered c cs -> length (c_mid c) = 20 -> deprecated (N_of_byte mt) = false ->
    (forall c', In c' cs -> c_tag c' = c_tag c -> c_mid c' = c_mid c) ->
    exists n thread d d1 d2 d3,
      b < n /\ thread < workers /\
      ev n = CThread p (RWorker thread (Some (GStep i (LCall r (packet_raw signed) (m_from m))))) (Some k) /\
      handler_calls (c_tag c) (forward cs (packet_raw signed, m_from m)) = [(spec_header (c_mid c) mt, d, m_from m)] /\
      pop_header d = (d1, Ok (spec_header (c_mid c) mt)) /\
      verify_embedded ring_pkcs8 d1 = (d2, Ok true) /\
      read_all d2 (map ptype l) = (d3, Ok (map transmitted_payload l)).
Proof. exact p_C124_signed_messages_are_handled. Qed.
Print Assumptions C124_signed_messages_are_handled.

(** the hypotheses of C124 are met: for every seed a signed message, in this execution *)
Example ex_C124_hypotheses :
  forall seed, length seed = 32 ->
  exists (key : keypair ring_pkcs8) p0 unsigned signed st ev c q,
    keypair_from_seed_unchecked ring_pkcs8 seed = Ok key /\
    Forall (fun x => in_range (projT1 x) (projT2 x)) example_payloads /\
    readable_sequence self_delimiting raw_at_end_only (map ptype example_payloads) = true /\
    packet_new (py_ipv8_header e2e_mid x01) = Ok p0 /\
    add_all p0 (existT tval TBinMember (BinMember (ed_public_key seed) (repeat x06 32)) :: example_payloads) = Ok unsigned /\
    packet_sign unsigned key = Ok signed /\
    infinite_cluster two_hosts st ev /\ nth_error (programs (cluster_upto ev 6)) 1 = Some 1 /\ ev 6 = CStart 1 1 overlay_config c q /\
    nth_error (started_on 1 (cluster_upto ev 7)) 0 = Some 1 /\
    never_exits 1 ev /\ starts_no_more 1 ev /\ calls_come_back 1 ev /\ scheduler_fair 1 st ev /\ jobs_fair 1 st /\
    listener_fair 1 0 st ev /\ nothing_fails 1 0 ev /\ delivered_for_ever 1 ev /\ poll_prompt 1 0 st ev /\
    ev 5 = CWorld (WSend 0 signed (ex_message signed)) /\ world_events [ev 7] = [WDeliver 1 (ex_message signed)] /\
    0 < added 1 (world_events (cluster_upto ev 6)) /\ length (packet_raw signed) <= cf_buffersize overlay_config /\
    is_registered (e2e_community 1 e2e_mid) e2e_registry /\ length e2e_mid = 20 /\ deprecated (N_of_byte x01) = false /\
    (forall c', In c' e2e_registry -> c_tag c' = 1 -> c_mid c' = e2e_mid).
Proof. exact ex_C124_hypotheses. Qed.

(** the hypotheses of C123 are met: after fifteen events of this execution a receiver has been called by a thread of the second program's pool, and can return *)
Example ex_C123_run :
  let pk := Packet [x01; x02] in
  let ev := cx_ev small_config pk in
  let s := cx_st small_config pk 15 in
  crun two_hosts cluster_init (cluster_upto ev 15) s /\
  programs (cluster_upto ev 15) = [2; 1] /\ started_on 1 (cluster_upto ev 15) = [1] /\
  trace_at 1 (world_events (cluster_upto ev 15)) = [LArrive ([x01; x02], v4 10 0 0 1 8000); LPoll 1; LRecv; LCall 0 [x01; x02] (v4 10 0 0 1 8000)] /\
  length (program_events 1 (cluster_upto ev 15)) = 9 /\ program_events 0 (cluster_upto ev 15) = [] /\
  exists pr, nth_error (cl_programs s) 1 = Some pr /\ pr_running pr = true /\ exists x, ry_step (pr_pool pr) (RWorker 0 (Some (GStep 0 (LReturn 0)))) x.
Proof. exact ex_C123_run. Qed.
