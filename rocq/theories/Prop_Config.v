(** * Prop_Config: property theorems (statements only; proofs in ConfigProofs.v) *)
From Coq Require Import Strings.String.
From Verif Require Import Base Serde Codec Universe Spec Packet Client HeaderProofs Community CommunitySpec CommunityProofs Network NetSpec NetworkProofs EndToEndSpec EndToEndProofs Ipv8 Ipv8Spec Ipv8Proofs World WorldSpec WorldProofs ConfigSpec ConfigProofs.
Open Scope nat_scope.

(** C136. On the network no option but [buffersize] and the presence of [pollinterval] makes any difference once the sockets are bound:
    whatever else is changed in the configurations listeners are started with - queue size (but see below), number of threads, the length of the
    poll interval, default hosts, addresses - the executions of the whole network are the same. *)
Theorem C136_network_ignores_the_other_options :
  forall (T : topology) (f : config -> config) (tr : list event) (w : world),
    (forall c, same_buffer_and_timeout c (f c)) ->
    (wrun T world_init tr w <-> wrun T world_init (map (reconfigured_event f) tr) w).
Proof. exact p_C136_network_ignores_the_other_options. Qed.
Print Assumptions C136_network_ignores_the_other_options.

(** C136. And to [IPv8::new] nothing but the two addresses and [threadcount] makes a difference: whatever a program did with [IPv8]
    values, had it used configurations that differ in other options, the same sockets were open, the same pool built, the same receivers
    behind the same listeners, and the next attempt to create an instance would have had the same answer. *)
Theorem C136_creation_ignores_the_other_options :
  forall (others : list address) (l : list call) (f : config -> config),
    (forall c, same_addresses_and_threads c (f c)) ->
    let p := after others l in
    let p' := after others (map (reconfigured_call f) l) in
    open_sockets p' = open_sockets p /\ pr_pools p' = pr_pools p /\
    map (fun li => (li_socket li, li_receivers li)) (pr_listeners p') = map (fun li => (li_socket li, li_receivers li)) (pr_listeners p) /\
    forall (env : environment) (cfg : config), answer (snd (ipv8_new env (f cfg) p')) = answer (snd (ipv8_new env cfg p)).
Proof. exact p_C136_creation_ignores_the_other_options. Qed.
Print Assumptions C136_creation_ignores_the_other_options.

(** C136. Every queue size from one on is as good as any other: the executions are the same. *)
Theorem C136_queue_sizes_are_all_alike :
  forall (n m : nat) (c : net_config) (q0 : list datagram) (tr : list label) (s : net_state),
    1 <= n -> 1 <= m -> (run_with_queue n c q0 tr s <-> run_with_queue m c q0 tr s).
Proof. exact p_C136_queue_sizes_are_all_alike. Qed.
Print Assumptions C136_queue_sizes_are_all_alike.

(** C136 (refuted). "[queuesize] is the amount of space reserved for queueing up incoming messages": with any queue size any number of messages
    wait and none of them is given up; *)
Theorem C136_queue_size_is_a_limit_refuted :
  forall (n : nat) (c : net_config) (waiting : list datagram),
    exists tr s, run_with_queue n c [] tr s /\ recvs tr = 0 /\ ns_queue s = waiting.
Proof. exact p_C136_queue_size_is_a_limit_refuted. Qed.
Print Assumptions C136_queue_size_is_a_limit_refuted.

(** with zero the listener never receives anything, whatever arrives: the only thing it can do is to fail. *)
Theorem C136_queue_size_zero_receives_nothing :
  forall (c : net_config) (q0 : list datagram) (tr : list label) (s : net_state) (r : nat),
    run_with_queue 0 c q0 tr s -> recvs tr = 0 /\ calls r tr = [] /\ (ns_pc s = Polling \/ stopped s) /\ ns_queue s = q0 ++ arrivals tr.
Proof. exact p_C136_queue_size_zero_receives_nothing. Qed.
Print Assumptions C136_queue_size_zero_receives_nothing.

(** C136. A buffer of fewer than 23 bytes is too small for a header: behind a receiver that forwards packets to communities no handler is ever called. *)
Theorem C136_small_buffers_reach_no_handler :
  forall (cfg : net_config) (q0 : list datagram) (tr : list label) (s : net_state) (r tag : nat) (cs : list community),
    run cfg (net_init cfg q0) tr s -> nc_buffersize cfg < 23 -> handler_calls tag (effects_behind cs r tr) = [].
Proof. exact p_C136_small_buffers_reach_no_handler. Qed.
Print Assumptions C136_small_buffers_reach_no_handler.

Example ex_C136_options :
  (forall c, same_buffer_and_timeout c (ex_other_listener_options c)) /\ (forall c, same_addresses_and_threads c (ex_other_creation_options c)) /\
  ex_other_listener_options config_default <> config_default /\ ex_other_creation_options config_default <> config_default /\
  length (pr_listeners (after [] (map (reconfigured_call ex_other_creation_options) ex_history))) = 1.
Proof. exact ex_C136_options. Qed.

(** a listener with queue size 0: a datagram arrives, the poll fails *)
Example ex_C136_zero :
  exists s, run_with_queue 0 ex_cfg [ex_d1] [LArrive ex_d2; LPollError EIo] s /\ stopped s /\ ns_queue s = [ex_d1; ex_d2].
Proof. exact ex_C136_zero. Qed.

(** a listener whose buffer has 4 bytes calls its receivers (ex_C48_run) *)
Example ex_C136_small_buffer :
  nc_buffersize ex_cfg < 23 /\ run ex_cfg (net_init ex_cfg []) ex_trace ex_final /\ length (calls 0 ex_trace) = 2.
Proof. exact ex_C136_small_buffer. Qed.
