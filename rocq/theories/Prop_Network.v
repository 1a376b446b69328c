(** * Prop_Network: property theorems (statements only; proofs in NetworkProofs.v) *)
From Verif Require Import Base Codec Network NetSpec NetworkProofs.
Open Scope nat_scope.

(** C48. For every schedule: each receiver is called exactly once per received datagram, in the order of
    reception, with the datagram's bytes (cut to the buffer size) and source. While a datagram is being
    dispatched (or if a receiver panicked on it) that last one may be missing; between
    datagrams nothing is. Nobody else is called. *)
Theorem C48_exactly_once_in_order :
  forall (c : net_config) (q0 : list datagram) (tr : list label) (s : net_state) (r : nat),
    run c (net_init c q0) tr s ->
    (r < nc_receivers c ->
       exists missing, map (packet_of c) (received q0 tr) = calls r tr ++ missing /\ length missing <= 1 /\
         (between_datagrams s -> missing = [])) /\
    (nc_receivers c <= r -> calls r tr = []).
Proof. exact p_C48_exactly_once_in_order. Qed.
Print Assumptions C48_exactly_once_in_order.

(** C48, continued: whoever was called comes back: between datagrams each receiver has returned from every
    call, and none has panicked. *)
Theorem C48_all_calls_returned :
  forall (c : net_config) (q0 : list datagram) (tr : list label) (s : net_state) (r : nat),
    run c (net_init c q0) tr s -> between_datagrams s ->
    returns r tr = length (calls r tr) /\ panics r tr = 0.
Proof. exact p_C48_all_calls_returned. Qed.
Print Assumptions C48_all_calls_returned.

(** C49. Whatever was received into the shared buffer before: the bytes handed to a receiver are those of
    one datagram that arrived, cut to the buffer size, with that datagram's source. *)
Theorem C49_no_stale_bytes :
  forall (c : net_config) (q0 : list datagram) (tr : list label) (s : net_state) r pkt src,
    run c (net_init c q0) tr s -> In (LCall r pkt src) tr ->
    exists data, In (data, src) (q0 ++ arrivals tr) /\ pkt = firstn (nc_buffersize c) data /\
      length pkt = Nat.min (length data) (nc_buffersize c).
Proof. exact p_C49_no_stale_bytes. Qed.
Print Assumptions C49_no_stale_bytes.

(** C49, in the common case: a datagram that fits the buffer is delivered unchanged. *)
Theorem C49_fitting_datagrams_unchanged :
  forall (c : net_config) (q0 : list datagram) (tr : list label) (s : net_state) r,
    run c (net_init c q0) tr s -> r < nc_receivers c -> between_datagrams s ->
    (forall d, In d (q0 ++ arrivals tr) -> length (fst d) <= nc_buffersize c) ->
    calls r tr = received q0 tr.
Proof. exact p_C49_fitting_datagrams_unchanged. Qed.
Print Assumptions C49_fitting_datagrams_unchanged.

(** C50. A barrier between datagrams: when a receiver is called for its datagram number k+1, every
    receiver - itself included - has returned from its calls for the k datagrams before. *)
Theorem C50_one_datagram_at_a_time :
  forall (c : net_config) (q0 : list datagram) (tr : list label) (s : net_state) r pkt src,
    run c (net_init c q0) (tr ++ [LCall r pkt src]) s ->
    r < nc_receivers c /\
    returns r tr = length (calls r tr) /\
    forall r', r' < nc_receivers c -> length (calls r tr) <= returns r' tr.
Proof. exact p_C50_one_datagram_at_a_time. Qed.
Print Assumptions C50_one_datagram_at_a_time.

(** C50, seen from the socket: the next datagram is not even taken from the socket before all receivers
    have returned from all calls. *)
Theorem C50_receive_waits_for_receivers :
  forall (c : net_config) (q0 : list datagram) (tr : list label) (s : net_state),
    run c (net_init c q0) (tr ++ [LRecv]) s ->
    forall r, r < nc_receivers c -> length (calls r tr) = recvs tr /\ returns r tr = recvs tr.
Proof. exact p_C50_receive_waits_for_receivers. Qed.
Print Assumptions C50_receive_waits_for_receivers.

(** C51. After a failed poll or receive the listener does nothing any more (datagrams pile up in the socket),
    and everything received before the failure has been delivered to every receiver, which has returned. *)
Theorem C51_io_error_is_clean :
  forall (c : net_config) (q0 : list datagram) (a b : list label) (l : label) (s : net_state),
    run c (net_init c q0) (a ++ l :: b) s -> is_io_error l ->
    Forall is_arrival b /\
    forall r, r < nc_receivers c ->
      calls r (a ++ l :: b) = map (packet_of c) (received q0 (a ++ l :: b)) /\
      returns r (a ++ l :: b) = length (received q0 (a ++ l :: b)).
Proof. exact p_C51_io_error_is_clean. Qed.
Print Assumptions C51_io_error_is_clean.

(** C51, panics: after a receiver panicked on a datagram, the listener neither polls nor receives again; each
    receiver is called at most once more, for that same datagram; and once the dispatch ends nothing
    happens any more. *)
Theorem C51_panic_is_final :
  forall (c : net_config) (q0 : list datagram) (a b : list label) (r : nat) (s : net_state),
    run c (net_init c q0) (a ++ LPanic r :: b) s ->
    recvs b = 0 /\ readies b = 0 /\ timeouts b = 0 /\ Forall (fun l => ~ is_io_error l) b /\
    (forall r', length (calls r' (a ++ LPanic r :: b)) <= recvs a) /\
    (forall b1 b2, b = b1 ++ LScopeEnd :: b2 -> Forall is_arrival b2).
Proof. exact p_C51_panic_is_final. Qed.
Print Assumptions C51_panic_is_final.

(** C60. A receive never finds the socket empty, so the listener never stops because of [WouldBlock]. *)
Theorem C60_receive_never_finds_empty :
  forall (c : net_config) (q0 : list datagram) (tr : list label) (s : net_state),
    run c (net_init c q0) tr s -> ~ In (LRecvError EWouldBlock) tr.
Proof. exact p_C60_receive_never_finds_empty. Qed.
Print Assumptions C60_receive_never_finds_empty.

(** C52 (refuted). Two datagrams that arrive before the listener polls: it receives one of them and goes back to
    poll with the other one in the socket; from then on, as long as no new datagram arrives, it receives
    nothing, whatever happens, for every configuration, timeouts included, and no failure is involved. *)
Theorem C52_refuted_stranding :
  forall (c : net_config) (d1 d2 : datagram),
    exists (tr : list label) (s : net_state),
      run c (net_init c []) tr s /\ arrivals tr = [d1; d2] /\ Forall (fun l => ~ is_failure l) tr /\
      recvs tr = 1 /\ ns_queue s = [d2] /\ idle s /\
      forall tr' s', run c s tr' s' -> arrivals tr' = [] -> recvs tr' = 0 /\ ns_queue s' = [d2].
Proof. exact p_C52_refuted_stranding. Qed.
Print Assumptions C52_refuted_stranding.

(** C52, the exact extent: whenever the listener is blocked with m datagrams waiting, at least m datagrams are waiting
    at every later moment: the backlog never shrinks, however long and however much traffic. *)
Theorem C52_backlog_never_shrinks :
  forall (c : net_config) (s : net_state) (tr : list label) (s' : net_state),
    idle s -> run c s tr s' -> length (ns_queue s) <= length (ns_queue s').
Proof. exact p_C52_backlog_never_shrinks. Qed.
Print Assumptions C52_backlog_never_shrinks.

(** C52, what does hold: if arrivals are spaced (readiness for earlier datagrams has been reported when the next one
    arrives), then whenever the listener blocks, every datagram that arrived has been delivered to every receiver. *)
Theorem C52_spaced_arrivals_all_delivered :
  forall (c : net_config) (q0 : list datagram) (tr : list label) (s : net_state) (r : nat),
    run c (net_init c q0) tr s -> spaced q0 tr -> idle s -> r < nc_receivers c ->
    calls r tr = map (packet_of c) (q0 ++ arrivals tr) /\ ns_queue s = [].
Proof. exact p_C52_spaced_arrivals_all_delivered. Qed.
Print Assumptions C52_spaced_arrivals_all_delivered.

(** C53. The packets delivered to a receiver are, cut to the buffer size, the oldest datagrams that arrived, in the
    order of their arrival; the rest of them is still in the socket or (at most one) being dispatched. Nothing is invented,
    duplicated, reordered or lost. *)
Theorem C53_fifo :
  forall (c : net_config) (q0 : list datagram) (tr : list label) (s : net_state) (r : nat),
    run c (net_init c q0) tr s -> r < nc_receivers c ->
    exists in_flight, length in_flight <= 1 /\
      map (packet_of c) (q0 ++ arrivals tr) = calls r tr ++ in_flight ++ map (packet_of c) (ns_queue s).
Proof. exact p_C53_fifo. Qed.
Print Assumptions C53_fifo.

(** C61. The listener never gets stuck by itself: in every reachable state it is stopped, or blocked with nothing
    reported, or it or one of the receivers can take a step that is no failure. *)
Theorem C61_never_stuck :
  forall (c : net_config) (q0 : list datagram) (tr : list label) (s : net_state),
    run c (net_init c q0) tr s ->
    stopped s \/ idle s \/ exists l s', step c s l s' /\ ~ is_arrival l /\ ~ is_failure l.
Proof. exact p_C61_never_stuck. Qed.
Print Assumptions C61_never_stuck.

(** C62. No livelock: an execution has at most a fixed number of steps per datagram that arrived, plus two per poll that
    timed out; without datagrams and timeouts the listener does nothing. *)
Theorem C62_no_livelock :
  forall (c : net_config) (q0 : list datagram) (tr : list label) (s : net_state),
    run c (net_init c q0) tr s ->
    length tr <= (2 * nc_receivers c + 5) * (1 + length (arrivals tr)) + 2 * timeouts tr.
Proof. exact p_C62_no_livelock. Qed.
Print Assumptions C62_no_livelock.

(** C62. From every state without failures the listener can get back to poll without any further datagram, and if the
    arrivals were spaced, every datagram has then been delivered to every receiver. *)
Theorem C62_always_back_to_poll :
  forall (c : net_config) (q0 : list datagram) (tr : list label) (s : net_state),
    run c (net_init c q0) tr s -> Forall (fun l => ~ is_failure l) tr ->
    exists tr' s', run c (net_init c q0) (tr ++ tr') s' /\ idle s' /\
      arrivals tr' = [] /\ Forall (fun l => ~ is_failure l) tr' /\
      (spaced q0 tr -> forall r, r < nc_receivers c ->
         calls r (tr ++ tr') = map (packet_of c) (q0 ++ arrivals tr)).
Proof. exact p_C62_always_back_to_poll. Qed.
Print Assumptions C62_always_back_to_poll.

(** C63. One send is one hand-over to the operating system, of exactly the packet's bytes to exactly the given
    address, and its result is the caller's; and if the network then brings these bytes to a listener whose buffer
    is large enough, every receiver gets exactly that packet. *)
Theorem C63_send_is_exact :
  forall (os : list byte -> address -> outcome nat) (dst : address) (p : packet),
    network_send os dst p = ([(packet_bytes p, dst)], os (packet_bytes p) dst).
Proof. exact p_C63_send_is_exact. Qed.
Print Assumptions C63_send_is_exact.

(** C63. If exactly what [send] handed over arrives at a listener whose buffer is large enough, every receiver is called
    exactly once, with exactly the bytes of the packet. *)
Theorem C63_sent_bytes_arrive :
  forall (os : list byte -> address -> outcome nat) (dst src : address) (p : packet)
         (c : net_config) (tr : list label) (s : net_state) (r : nat),
    length (packet_bytes p) <= nc_buffersize c ->
    arrivals tr = map (fun sent => (fst sent, src)) (fst (network_send os dst p)) ->
    run c (net_init c []) tr s -> idle s -> r < nc_receivers c ->
    calls r tr = [(packet_bytes p, src)].
Proof. exact p_C63_sent_bytes_arrive. Qed.
Print Assumptions C63_sent_bytes_arrive.

(** the hypotheses of C48-C53 and C62 are met by an execution with two datagrams, one of them truncated, the second one
    shorter than the first *)
Example ex_C48_run :
  run ex_cfg (net_init ex_cfg []) ex_trace ex_final /\ spaced [] ex_trace /\ idle ex_final /\
  between_datagrams ex_final /\ Forall (fun l => ~ is_failure l) ex_trace /\
  calls 0 ex_trace = [(ex_p1, ex_src); (ex_p2, ex_src)] /\ calls 1 ex_trace = calls 0 ex_trace.
Proof. exact ex_C48_run. Qed.

(** C51: an execution in which receiver 1 panics while receiver 0 is still running, and one in which the
    second poll fails *)
Example ex_C51_panic :
  exists s, run ex_cfg (net_init ex_cfg [])
    ([LArrive ex_d1; LPoll 1; LRecv; LCall 1 ex_p1 ex_src] ++ LPanic 1 :: [LCall 0 ex_p1 ex_src; LReturn 0; LScopeEnd; LArrive ex_d2]) s
    /\ stopped s.
Proof. exact ex_C51_panic. Qed.

Example ex_C51_error :
  exists s, run ex_cfg (net_init ex_cfg []) (ex_trace ++ LPollError EIo :: [LArrive ex_d1]) s /\ is_io_error (LPollError EIo).
Proof. exact ex_C51_error. Qed.

(** C52: a blocked listener with a waiting datagram is reachable (hypothesis of the backlog theorem with m > 0) *)
Example ex_C52_backlog :
  exists tr s, run ex_cfg (net_init ex_cfg []) tr s /\ idle s /\ length (ns_queue s) = 1.
Proof. exact ex_C52_backlog. Qed.
