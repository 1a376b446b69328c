(** * Prop_WorldLive: property theorems (statements only; proofs in WorldLiveProofs.v) *)
From Verif Require Import Base Codec Network NetSpec NetworkProofs LivenessSpec LivenessProofs LivenessFacts Ipv8 Ipv8Spec Ipv8Proofs World WorldSpec WorldProofs WorldLiveSpec WorldLiveProofs.
Open Scope nat_scope.

(** C109. While the network goes on delivering to a listener, nothing delivered to it waits for ever, whatever happens at other
    sockets and on other hosts: the i-th datagram delivered to it, before or after the start, is at some time the
    i-th packet of every receiver. *)
Theorem C109_no_delivery_waits_forever :
  forall (T : topology) (st : nat -> world) (ev : nat -> event) (k n0 : nat) (cfg : config),
    infinite_world T st ev -> ev n0 = WStart k cfg -> never_closed k ev -> never_fails_at k ev -> deliveries_go_on k ev ->
    fair_at k st ev -> prompt_poll_at k st ev ->
    forall (n i : nat) (data : list byte) (src : address) (r : nat),
      nth_error (delivered k (events_upto ev n)) i = Some (data, src) -> r < added k (events_upto ev n0) ->
      exists m, nth_error (calls r (trace_at k (events_upto ev m))) i = Some (firstn (cf_buffersize cfg) data, src).
Proof. exact p_C109_no_delivery_waits_forever. Qed.
Print Assumptions C109_no_delivery_waits_forever.

(** C109. A packet that a sender sends and that the network brings to a listener is handed to every receiver after that:
    exactly its bytes, if they fit the buffer, with the source address of the datagram. *)
Theorem C109_sent_and_delivered_is_received :
  forall (T : topology) (st : nat -> world) (ev : nat -> event) (k n0 : nat) (cfg : config),
    infinite_world T st ev -> ev n0 = WStart k cfg -> never_closed k ev -> never_fails_at k ev -> deliveries_go_on k ev ->
    fair_at k st ev -> prompt_poll_at k st ev ->
    forall (i a b : nat) (p : packet) (m : message) (r : nat),
      ev a = WSend i p m -> ev b = WDeliver k m -> length (packet_bytes p) <= cf_buffersize cfg ->
      r < added k (events_upto ev n0) ->
      exists n, b < n /\ ev n = WListener k (LCall r (packet_bytes p) (m_from m)).
Proof. exact p_C109_sent_and_delivered_is_received. Qed.
Print Assumptions C109_sent_and_delivered_is_received.

(** the hypotheses of C109 are met by this execution, with a packet sent and delivered before the start *)
Example ex_C109_run :
  let p := Packet [x01; x02] in
  let st := ex_wst small_config p in
  let ev := ex_wev small_config p in
  infinite_world two_hosts st ev /\ ev 5 = WStart 1 small_config /\ never_closed 1 ev /\ never_fails_at 1 ev /\
  deliveries_go_on 1 ev /\ fair_at 1 st ev /\ prompt_poll_at 1 st ev /\
  added 1 (events_upto ev 5) = 1 /\ ev 2 = WSend 0 p (ex_message p) /\ ev 3 = WDeliver 1 (ex_message p) /\
  delivered 1 (events_upto ev 8) = [([x01; x02], v4 10 0 0 1 8000); ([x01; x02], v4 10 0 0 1 8000)] /\
  length (packet_bytes p) <= cf_buffersize small_config.
Proof. exact ex_C109_run. Qed.
