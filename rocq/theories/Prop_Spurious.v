(** * Prop_Spurious: property theorems (statements only; proofs in SpuriousProofs.v) *)
From Verif Require Import Base Codec Network NetSpec NetworkProofs Spurious SpuriousSpec SpuriousProofs.
Open Scope nat_scope.

(** C114. What is still true when readiness is unreliable: every receiver is called once per received datagram, in the order of arrival, with the
    bytes (cut to the buffer) and the source of that datagram; of those that arrived, only the ones the operating system threw away are neither
    received nor still waiting. *)
Theorem C114_delivery_with_false_alarms :
  forall (c : net_config) (q0 : list datagram) (tr : list os_label) (s : net_state) (r : nat),
    os_run c (net_init c q0) tr s -> r < nc_receivers c ->
    exists taken missing,
      subsequence (taken ++ ns_queue s) (q0 ++ arrivals (plain tr)) /\
      length (taken ++ ns_queue s) + length (discarded tr) = length (q0 ++ arrivals (plain tr)) /\
      map (packet_of c) taken = calls r (plain tr) ++ missing /\ length missing <= 1 /\
      (between_datagrams s -> missing = []).
Proof. exact p_C114_delivery_with_false_alarms. Qed.
Print Assumptions C114_delivery_with_false_alarms.

(** C114 (refuted: "the listener survives spurious readiness"). Whenever the listener is waiting for a datagram, one false alarm can end it for
    good: [recv_from] finds nothing, the [?] ends the loop with WouldBlock, and nothing that arrives later is ever received. There is no way out: as long as
    nothing arrives, failing is all the listener can do. *)
Theorem C114_a_false_alarm_ends_the_listener_refuted :
  forall (c : net_config) (s : net_state),
    ns_pc s = Polling -> ns_queue s = [] ->
    exists s1 s2,
      os_step c s FalseAlarm s1 /\ os_step c s1 (Do (LRecvError EWouldBlock)) s2 /\
      (forall l s', os_step c s1 (Do l) s' -> is_arrival l \/ exists e, l = LRecvError e) /\
      (forall tr s', os_run c s2 tr s' -> stopped s' /\ Forall is_arrival (plain tr) /\ forall r, calls r (plain tr) = []).
Proof. exact p_C114_a_false_alarm_ends_the_listener_refuted. Qed.
Print Assumptions C114_a_false_alarm_ends_the_listener_refuted.

(** C114. The same with what Linux does: one datagram with a wrong checksum, from anybody, is enough. It is reported, discarded when the listener
    tries to receive it, and the listener ends. *)
Theorem C114_one_corrupt_datagram_ends_the_listener_refuted :
  forall (c : net_config) (s : net_state) (d : datagram),
    idle s -> ns_queue s = [] ->
    exists s', os_run c s [Do (LArrive d); Do (LPoll 1); Discard d; Do (LRecvError EWouldBlock)] s' /\ stopped s' /\
      forall tr s'', os_run c s' tr s'' -> stopped s'' /\ forall r, calls r (plain tr) = [].
Proof. exact p_C114_one_corrupt_datagram_ends_the_listener_refuted. Qed.
Print Assumptions C114_one_corrupt_datagram_ends_the_listener_refuted.

(** C114. Nothing else makes the listener end with WouldBlock. *)
Theorem C114_only_false_alarms_end_it_so :
  forall (c : net_config) (q0 : list datagram) (tr : list os_label) (s : net_state),
    os_run c (net_init c q0) tr s -> In (Do (LRecvError EWouldBlock)) tr ->
    In FalseAlarm tr \/ exists d, In (Discard d) tr.
Proof. exact p_C114_only_false_alarms_end_it_so. Qed.
Print Assumptions C114_only_false_alarms_end_it_so.

(** C114 is not about an empty set of executions: a false alarm with a datagram that was left behind (C52) gets it delivered, and one with nothing there
    ends the listener *)
Example ex_C114_runs :
  exists s1 s2,
    os_run ex_cfg (net_init ex_cfg []) [Do (LArrive ex_d1); FalseAlarm; Do LRecv; Do (LCall 0 ex_p1 ex_src)] s1 /\
    os_run ex_cfg (net_init ex_cfg []) [FalseAlarm; Do (LRecvError EWouldBlock); Do (LArrive ex_d1)] s2 /\ stopped s2.
Proof. exact ex_C114_runs. Qed.
