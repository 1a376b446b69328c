(** * Prop_World: property theorems (statements only; proofs in WorldProofs.v) *)
From Verif Require Import Base Codec Network NetSpec NetworkProofs Ipv8 Ipv8Spec Ipv8Proofs World WorldSpec WorldProofs.
Open Scope nat_scope.

(** C85. What one listener sees does not depend on anybody else: in every execution of the whole network, the arrivals at a
    started receiver's socket and the steps of its listener are an execution of that listener alone (so C48-C53 and C60-C62
    hold for it), the arrivals being what the network delivered to that socket, before or after the start. *)
Theorem C85_each_listener_alone :
  forall (T : topology) (tr : list event) (w : world) (k : nat) (cfg : config) (c : net_config),
    wrun T world_init tr w -> In (WStart k cfg) tr -> ~ In (WClose k) tr -> configured_as c cfg (added k tr) ->
    arrivals (trace_at k tr) = delivered k tr /\
    exists s, run c (net_init c []) (trace_at k tr) s /\
      forall r, r < added k tr -> between_datagrams s ->
        calls r (trace_at k tr) = map (packet_of c) (firstn (recvs (trace_at k tr)) (delivered k tr)).
Proof. exact p_C85_each_listener_alone. Qed.
Print Assumptions C85_each_listener_alone.

(** C85. The poll interval: a listener started without one never returns from polling until there is something to receive; with one it can
    always do so. *)
Theorem C85_poll_interval :
  forall (T : topology) (tr : list event) (w : world) (k : nat) (cfg : config),
    wrun T world_init tr w -> In (WStart k cfg) tr ->
    (cf_pollinterval cfg = None -> ~ In (WListener k (LPoll 0)) tr) /\
    (cf_pollinterval cfg <> None ->
     forall h a c s, nth_error (w_sockets w) k = Some {| sk_host := h; sk_address := a; sk_end := Listening c s |} -> ns_pc s = Polling ->
     exists w', wstep T w (WListener k (LPoll 0)) w').
Proof. exact p_C85_poll_interval. Qed.
Print Assumptions C85_poll_interval.

(** C85. A closed socket - dropped, its process ended, or its listener stopped by an error or a panic - is silent for
    ever: nothing is delivered to it, and its receivers are not called. *)
Theorem C85_closed_sockets_are_silent :
  forall (T : topology) (a : list event) (k : nat) (e : event) (b : list event) (w : world),
    wrun T world_init (a ++ e :: b) w ->
    e = WClose k \/ (exists l, e = WListener k l /\ is_io_error l) \/
    (exists r, In (WListener k (LPanic r)) a /\ e = WListener k LScopeEnd) ->
    trace_at k b = [] /\ forall h x, ~ open_at w k h x.
Proof. exact p_C85_closed_sockets_are_silent. Qed.
Print Assumptions C85_closed_sockets_are_silent.

(** C86. Nothing is invented. Whatever the network does: when a receiver behind socket [k] is called, the bytes it gets are
    those of a datagram put on the network before, cut to the buffer size, which was addressed to that socket and delivered to it,
    and the address it gets is the source written in that datagram. The socket has the address its program asked for (with
    a port of the operating system's choice if it asked for port 0). *)
Theorem C86_nothing_invented :
  forall (T : topology) (a b : list event) (w : world) (k r : nat) (pkt : list byte) (src : address),
    wrun T world_init (a ++ WListener k (LCall r pkt src) :: b) w ->
    exists (m : message) (cfg : config) (h : nat) (requested actual : address),
      In m (emitted a) /\ In (WDeliver k m) a /\
      m_from m = src /\ pkt = firstn (cf_buffersize cfg) (m_data m) /\
      In (WBindReceiver k h requested actual) a /\ In (WStart k cfg) a /\ r < added k a /\
      route T (m_origin m) (addr_ip (m_to m)) = Some h /\
      addr_port (m_to m) = addr_port actual /\
      (addr_ip (m_to m) = addr_ip actual \/ Forall (eq x00) (addr_ip actual)) /\
      addr_ip actual = addr_ip requested /\ (addr_port requested <> 0%N -> actual = requested).
Proof. exact p_C86_nothing_invented. Qed.
Print Assumptions C86_nothing_invented.

(** C87. If nobody but [NetworkSender::send] puts datagrams on the network, the source address a receiver is given is genuine: the
    packet was passed to [send] on a sender whose socket has this port and this (or the wildcard) IP address, which are those its program asked for (with a
    port of the operating system's choice if it asked for port 0). *)
Theorem C87_sources_genuine_without_forgers :
  forall (T : topology) (a b : list event) (w : world) (k r : nat) (pkt : list byte) (src : address),
    wrun T world_init (a ++ WListener k (LCall r pkt src) :: b) w -> Forall (fun e => ~ is_inject e) a ->
    exists (i h : nat) (p : packet) (m : message) (requested actual : address) (cfg : config),
      In (WSend i p m) a /\ In (WBindSender i h requested actual) a /\ In (WStart k cfg) a /\
      pkt = firstn (cf_buffersize cfg) (packet_bytes p) /\ m_from m = src /\
      addr_port src = addr_port actual /\ (addr_ip src = addr_ip actual \/ Forall (eq x00) (addr_ip actual)) /\
      addr_ip actual = addr_ip requested /\ (addr_port requested <> 0%N -> actual = requested).
Proof. exact p_C87_sources_genuine_without_forgers. Qed.
Print Assumptions C87_sources_genuine_without_forgers.

(** C87. Only a [NetworkSender] sends: whatever is sent, or fails to be sent, at a socket happens at one made by [NetworkSender::new] and not closed yet. *)
Theorem C87_only_senders_send :
  forall (T : topology) (a b : list event) (w : world) (i : nat) (e : event),
    wrun T world_init (a ++ e :: b) w ->
    (exists p m, e = WSend i p m) \/ (exists p dst err, e = WSendFails i p dst err) ->
    exists h requested actual, In (WBindSender i h requested actual) a /\ ~ In (WClose i) a.
Proof. exact p_C87_only_senders_send. Qed.
Print Assumptions C87_only_senders_send.

(** C88 (refuted). "A receiver can answer to the address it is given." Suppose a receiver on host [h] was called with the
    source address [src], and nobody forges datagrams. Then [src] is the address of a sender's socket, which nobody
    listens on: as long as that socket is open, everything the host sends to [src] ends up there, and no receiver is ever
    called behind it. *)
Theorem C88_replies_reach_nobody_refuted :
  forall (T : topology) (a b : list event) (w : world) (k h r : nat) (pkt : list byte) (src x y : address),
    symmetric_routes T ->
    wrun T world_init (a ++ WListener k (LCall r pkt src) :: b) w -> Forall (fun e => ~ is_inject e) a ->
    In (WBindReceiver k h x y) a ->
    exists (i h' : nat) (requested actual : address),
      In (WBindSender i h' requested actual) a /\
      (~ In (WClose i) (a ++ b) ->
       forall j m, In (WDeliver j m) b -> m_origin m = h -> m_to m = src -> j = i) /\
      forall l, ~ In (WListener i l) (a ++ WListener k (LCall r pkt src) :: b).
Proof. exact p_C88_replies_reach_nobody_refuted. Qed.
Print Assumptions C88_replies_reach_nobody_refuted.

(** C89. At no moment of any execution do two open sockets of a host clash (same port and same or wildcard IP address) -
    whatever is created, started, dropped, and whichever listeners stop. *)
Theorem C89_sockets_never_clash :
  forall (T : topology) (tr : list event) (w : world) (i j h : nat) (a b : address),
    wrun T world_init tr w -> i <> j -> open_at w i h a -> open_at w j h b -> ~ clash a b.
Proof. exact p_C89_sockets_never_clash. Qed.
Print Assumptions C89_sockets_never_clash.

(** C89. A socket can be created on a given address exactly when no open socket of the host clashes with it; so an
    address can be used again as soon as its socket is closed (C85), and never before. *)
Theorem C89_bind_iff_free :
  forall (T : topology) (w : world) (h : nat) (a : address),
    addr_port a <> 0%N ->
    ((exists k w', wstep T w (WBindReceiver k h a a) w') <-> (forall k b, open_at w k h b -> ~ clash a b)) /\
    ((exists k w', wstep T w (WBindSender k h a a) w') <-> (forall k b, open_at w k h b -> ~ clash a b)).
Proof. exact p_C89_bind_iff_free. Qed.
Print Assumptions C89_bind_iff_free.

(** C90. Nothing in the library keeps a packet from arriving: whenever a sender has a packet for the address of a listener that
    is waiting with nothing unread, and the network brings it there, the execution can go on without any failure, and every
    receiver is called, once, with exactly the bytes of the packet (if they fit the buffer) and the sender's address. *)
Theorem C90_packets_can_arrive :
  forall (T : topology) (tr : list event) (w : world) (i k h : nat) (p : packet) (m : message) (x y : address)
         (q : list datagram) (c : net_config) (s : net_state),
    wrun T world_init tr w ->
    (* socket i is a sender's; m is packet p as it goes out from there *)
    nth_error (w_sockets w) i = Some {| sk_host := m_origin m; sk_address := x; sk_end := Sending q |} ->
    m_data m = packet_bytes p -> addr_port (m_from m) = addr_port x ->
    (addr_ip (m_from m) = addr_ip x \/ Forall (eq x00) (addr_ip x)) ->
    source_for T (m_origin m) (addr_ip (m_to m)) (addr_ip (m_from m)) ->
    (* socket k is a waiting listener's, and m is addressed to it *)
    nth_error (w_sockets w) k = Some {| sk_host := h; sk_address := y; sk_end := Listening c s |} ->
    idle s -> ns_queue s = [] ->
    route T (m_origin m) (addr_ip (m_to m)) = Some h -> addr_port (m_to m) = addr_port y ->
    (addr_ip (m_to m) = addr_ip y \/ Forall (eq x00) (addr_ip y)) ->
    length (packet_bytes p) <= nc_buffersize c ->
    exists (steps : list label) (w' : world),
      wrun T w (WSend i p m :: WDeliver k m :: map (WListener k) steps) w' /\
      Forall (fun l => ~ is_failure l) steps /\
      forall r, r < nc_receivers c -> calls r steps = [(packet_bytes p, m_from m)].
Proof. exact p_C90_packets_can_arrive. Qed.
Print Assumptions C90_packets_can_arrive.

(** C87 (refuted). In general the source address proves nothing: anybody who can put a datagram on the network that
    reaches a listener's socket decides which source address its receivers are given. *)
Theorem C87_source_forging_refuted :
  forall (T : topology) (h h' : nat) (a src : address) (pkt : list byte) (cfg : config),
    addr_port a <> 0%N -> route T h (addr_ip a) = Some h' -> length pkt <= cf_buffersize cfg ->
    exists (tr : list event) (w : world),
      wrun T world_init tr w /\ In (WBindReceiver 0 h' a a) tr /\ (forall i p m, ~ In (WSend i p m) tr) /\
      calls 0 (trace_at 0 tr) = [(pkt, src)].
Proof. exact p_C87_source_forging_refuted. Qed.
Print Assumptions C87_source_forging_refuted.

(** the hypotheses of C85 are met; the listener served one of the two copies *)
Example ex_C85_listener :
  let tr := conversation ++ the_call :: firstn 3 afterwards in
  (exists w, wrun two_hosts world_init tr w) /\ In (WStart 1 small_config) tr /\ ~ In (WClose 1) tr /\ added 1 tr = 1 /\
  delivered 1 tr = [([x01; x02], v4 10 0 0 1 8000); ([x01; x02], v4 10 0 0 1 8000)] /\
  recvs (trace_at 1 tr) = 1 /\ calls 0 (trace_at 1 tr) = [([x01; x02], v4 10 0 0 1 8000)].
Proof. exact ex_C85_listener. Qed.

(** ... and after it was closed *)
Example ex_C85_closed :
  exists a b w, wrun two_hosts world_init (a ++ WClose 1 :: b) w /\ In (WStart 1 small_config) a /\ b <> [].
Proof. exact ex_C85_closed. Qed.

(** C86, C87, C88: no strangers, a call, and a reply that is delivered *)
Example ex_C86_call :
  exists a b w, wrun two_hosts world_init (a ++ WListener 1 (LCall 0 [x01; x02] (v4 10 0 0 1 8000)) :: b) w /\
    symmetric_routes two_hosts /\ Forall (fun e => ~ is_inject e) a /\
    In (WBindReceiver 1 1 (v4 0 0 0 0 9000) (v4 0 0 0 0 9000)) a /\
    In (WBindSender 0 0 (v4 0 0 0 0 8000) (v4 0 0 0 0 8000)) a /\ ~ In (WClose 0) (a ++ b) /\
    In (WDeliver 0 reply) b /\ m_origin reply = 1 /\ m_to reply = v4 10 0 0 1 8000.
Proof. exact ex_C86_call. Qed.

Example ex_C87_call :
  exists a b w, wrun two_hosts world_init (a ++ WListener 1 (LCall 0 [x01; x02] (v4 10 0 0 1 8000)) :: b) w /\
    Forall (fun e => ~ is_inject e) a /\ In (WSend 0 (Packet [x01; x02]) hello) a.
Proof. exact ex_C87_call. Qed.

Example ex_C88_reply :
  exists a b w, wrun two_hosts world_init (a ++ WListener 1 (LCall 0 [x01; x02] (v4 10 0 0 1 8000)) :: b) w /\
    symmetric_routes two_hosts /\ Forall (fun e => ~ is_inject e) a /\ ~ In (WClose 0) (a ++ b) /\
    In (WDeliver 0 reply) b /\ m_origin reply = 1 /\ m_to reply = v4 10 0 0 1 8000.
Proof. exact ex_C88_reply. Qed.

(** C89: a reachable world with two open sockets on the same port of different hosts and one host's port taken *)
Example ex_C89_taken :
  exists w, wrun two_hosts world_init (firstn 4 conversation) w /\
    open_at w 0 0 (v4 0 0 0 0 8000) /\ open_at w 1 1 (v4 0 0 0 0 9000) /\
    clash (v4 10 0 0 2 9000) (v4 0 0 0 0 9000) /\ (forall k b, open_at w k 1 b -> ~ clash (v4 10 0 0 2 8000) b).
Proof. exact ex_C89_taken. Qed.

(** C90: the hypotheses are met in the same world *)
Example ex_C90_hello :
  exists w c s, wrun two_hosts world_init (firstn 4 conversation) w /\
    nth_error (w_sockets w) 0 = Some {| sk_host := 0; sk_address := v4 0 0 0 0 8000; sk_end := Sending [] |} /\
    nth_error (w_sockets w) 1 = Some {| sk_host := 1; sk_address := v4 0 0 0 0 9000; sk_end := Listening c s |} /\
    idle s /\ ns_queue s = [] /\ nc_receivers c = 1 /\ length [x01; x02] <= nc_buffersize c /\
    route two_hosts 0 (addr_ip (m_to hello)) = Some 1 /\ source_for two_hosts 0 (addr_ip (m_to hello)) (addr_ip (m_from hello)).
Proof. exact ex_C90_hello. Qed.
