(** * Prop_Ipv8: property theorems (statements only; proofs in Ipv8Proofs.v) *)
From Coq Require Import Strings.String Sorting.Permutation.
From Verif Require Import Base Serde Codec Universe Packet Community Network Ipv8 Ipv8Spec Spec SerdeFacts NetSpec NetworkProofs CodecProofs Ipv8Proofs.
Open Scope nat_scope.

(** C54. In every history the global pool is built by the first [IPv8::new] and by no other call, with the first
    call's thread count; if building fails then, it is never built at all. *)
Theorem C54_pool_built_once :
  forall (others : list address) (before rest : list call) (env : environment) (cfg : config),
    Forall (fun c => ~ is_new c) before ->
    pr_pools (after others before) = [] /\
    pr_pools (after others (before ++ CNew env cfg :: rest)) =
      if env_pool_ok env then [cf_threadcount cfg] else [].
Proof. exact p_C54_pool_built_once. Qed.
Print Assumptions C54_pool_built_once.

(** C54. A pool that cannot be built makes exactly the first call fail; later calls do not even look. *)
Theorem C54_pool_failure_reported_once :
  forall (others : list address) (before rest : list call) (env env' : environment) (cfg cfg' : config),
    Forall (fun c => ~ is_new c) before ->
    (env_pool_ok env = false ->
       snd (ipv8_new env cfg (after others before)) = Err EPoolError /\
       open_sockets (fst (ipv8_new env cfg (after others before))) = open_sockets (after others before)) /\
    (let p := after others (before ++ CNew env cfg :: rest) in
     let retry ok := ipv8_new {| env_pool_ok := ok; env_refuse := env_refuse env'; env_ephemeral := env_ephemeral env' |} cfg' p in
     retry false = retry true).
Proof. exact p_C54_pool_failure_reported_once. Qed.
Print Assumptions C54_pool_failure_reported_once.

(** C55. [IPv8::new] succeeds exactly when the pool is there or can be built, and both addresses can be bound: the OS
    does not refuse them, the receiving address clashes with no open socket, and the sending address neither
    with those nor with the receiving address. (Addresses with port 0, where the OS picks the port: next theorem.)
    Otherwise it returns an error, never panics. *)
Theorem C55_new_succeeds_iff :
  forall (env : environment) (cfg : config) (p : process),
    addr_port (cf_receiving_address cfg) <> 0%N -> addr_port (cf_sending_address cfg) <> 0%N ->
    let result := snd (ipv8_new env cfg p) in
    ((exists i, result = Ok i) \/ (exists e, result = Err e)) /\
    ((exists i, result = Ok i) <->
     (pr_once p = true \/ env_pool_ok env = true) /\
     env_refuse env (cf_receiving_address cfg) = None /\ env_refuse env (cf_sending_address cfg) = None /\
     Forall (fun b => ~ clash (cf_receiving_address cfg) b) (open_sockets p) /\
     Forall (fun b => ~ clash (cf_sending_address cfg) b) (cf_receiving_address cfg :: open_sockets p)).
Proof. exact p_C55_new_succeeds_iff. Qed.
Print Assumptions C55_new_succeeds_iff.

(** C55. A call that fails leaves nothing behind (the receiving socket is closed again when the sending one cannot
    be bound); one that succeeds opens exactly two sockets, on the requested addresses (or with a port of the OS's choice
    if port 0 was requested), and the instance has no receivers and no communities. *)
Theorem C55_failed_new_leaks_nothing :
  forall (env : environment) (cfg : config) (p : process) (e : error),
    snd (ipv8_new env cfg p) = Err e ->
    let p' := fst (ipv8_new env cfg p) in
    open_sockets p' = open_sockets p /\ pr_instances p' = pr_instances p /\ pr_listeners p' = pr_listeners p.
Proof. exact p_C55_failed_new_leaks_nothing. Qed.
Print Assumptions C55_failed_new_leaks_nothing.

(** C55. A call that succeeds opens exactly the two requested sockets and changes nothing else. *)
Theorem C55_new_opens_two_sockets :
  forall (env : environment) (cfg : config) (p : process) (i : ipv8),
    snd (ipv8_new env cfg p) = Ok i ->
    let p' := fst (ipv8_new env cfg p) in
    Permutation (open_sockets p') (iv_receiver_socket i :: iv_sender_socket i :: open_sockets p) /\
    pr_instances p' = pr_instances p ++ [Some i] /\ pr_listeners p' = pr_listeners p /\
    iv_config i = cfg /\ iv_receivers i = [] /\ iv_communities i = [] /\
    addr_ip (iv_receiver_socket i) = addr_ip (cf_receiving_address cfg) /\
    addr_ip (iv_sender_socket i) = addr_ip (cf_sending_address cfg) /\
    (addr_port (cf_receiving_address cfg) <> 0%N -> iv_receiver_socket i = cf_receiving_address cfg) /\
    (addr_port (cf_sending_address cfg) <> 0%N -> iv_sender_socket i = cf_sending_address cfg).
Proof. exact p_C55_new_opens_two_sockets. Qed.
Print Assumptions C55_new_opens_two_sockets.

(** C64. [start] keeps the receiving socket, now owned by the listener together with the instance's configuration and
    receivers, and closes the sending socket; the value is gone, and with it the registry of communities. *)
Theorem C64_start_effect :
  forall (p : process) (k : nat) (v : ipv8),
    get_instance p k = Some v ->
    let p' := do_call p (CStart k) in
    get_instance p' k = None /\
    pr_listeners p' = pr_listeners p ++
      [{| li_socket := iv_receiver_socket v; li_receivers := iv_receivers v; li_config := iv_config v |}] /\
    Permutation (open_sockets p) (iv_sender_socket v :: open_sockets p') /\
    (forall j, j <> k -> get_instance p' j = get_instance p j).
Proof. exact p_C64_start_effect. Qed.
Print Assumptions C64_start_effect.

(** C64. Dropping an instance closes both its sockets. *)
Theorem C64_drop_effect :
  forall (p : process) (k : nat) (v : ipv8),
    get_instance p k = Some v ->
    let p' := do_call p (CDrop k) in
    get_instance p' k = None /\ pr_listeners p' = pr_listeners p /\
    Permutation (open_sockets p) (iv_receiver_socket v :: iv_sender_socket v :: open_sockets p').
Proof. exact p_C64_drop_effect. Qed.
Print Assumptions C64_drop_effect.

(** C55. In any history, while an instance is alive (not started, not dropped), no second one can be created whose
    sending address clashes with the first one's - in particular not with the default configuration, whose
    sending port 8000 is fixed. *)
Theorem C55_no_second_instance :
  forall (others : list address) (l : list call) (k : nat) (v : ipv8) (env : environment) (cfg : config),
    get_instance (after others l) k = Some v ->
    addr_port (cf_sending_address cfg) <> 0%N ->
    clash (cf_sending_address cfg) (cf_sending_address (iv_config v)) ->
    exists e, snd (ipv8_new env cfg (after others l)) = Err e.
Proof. exact p_C55_no_second_instance. Qed.
Print Assumptions C55_no_second_instance.

(** C55. In particular only one instance with the default configuration can be alive. *)
Theorem C55_no_second_default_instance :
  forall (others : list address) (l : list call) (k : nat) (v : ipv8) (env : environment),
    get_instance (after others l) k = Some v -> iv_config v = config_default ->
    exists e, snd (ipv8_new env config_default (after others l)) = Err e.
Proof. exact p_C55_no_second_default_instance. Qed.
Print Assumptions C55_no_second_default_instance.

(** C64. When a listener ends, exactly its socket is closed, so that its address can be bound again (C55). *)
Theorem C64_listener_end_effect :
  forall (p : process) (k : nat) (li : listener),
    nth_error (pr_listeners p) k = Some li ->
    let p' := do_call p (CListenerEnds k) in
    Permutation (open_sockets p) (li_socket li :: open_sockets p') /\
    Permutation (pr_listeners p) (li :: pr_listeners p') /\
    pr_instances p' = pr_instances p /\ pr_pools p' = pr_pools p.
Proof. exact p_C64_listener_end_effect. Qed.
Print Assumptions C64_listener_end_effect.

(** C65. In every history, no two sockets open in the process clash. *)
Theorem C65_sockets_never_clash :
  forall (others : list address) (l : list call),
    disjoint others -> disjoint (open_sockets (after others l)).
Proof. exact p_C65_sockets_never_clash. Qed.
Print Assumptions C65_sockets_never_clash.

(** C56 (refuted). In a program that never adds a receiver by hand, whatever communities it registers and whatever
    packets arrive, a started listener calls nobody, in every execution. *)
Theorem C56_refuted_registry_not_connected :
  forall (others : list address) (l : list call) (li : listener),
    Forall (fun c => ~ adds_receiver c) l ->
    In li (pr_listeners (after others l)) ->
    forall (q0 : list datagram) (tr : list label) (s : net_state) r pkt src,
      run (net_config_of li) (net_init (net_config_of li) q0) tr s -> ~ In (LCall r pkt src) tr.
Proof. exact p_C56_refuted_registry_not_connected. Qed.
Print Assumptions C56_refuted_registry_not_connected.

(** C56, what does hold: whatever else happens in the process, an instance keeps what was added to it, in order, and
    [start] starts a listener on its socket, with its configuration, notifying exactly the receivers added by hand. *)
Theorem C56_started_listener :
  forall (env : environment) (cfg : config) (p : process) (i : ipv8) (l : list call),
    snd (ipv8_new env cfg p) = Ok i ->
    let k := length (pr_instances p) in
    Forall (fun c => c <> CStart k /\ c <> CDrop k) l ->
    let p1 := do_calls (fst (ipv8_new env cfg p)) l in
    (exists w, get_instance p1 k = Some w /\
       iv_communities w = fold_left (fun reg c => fst (add_community reg c)) (communities_added k l) []) /\
    pr_listeners (do_call p1 (CStart k)) = pr_listeners p1 ++
      [{| li_socket := iv_receiver_socket i; li_receivers := receivers_added k l; li_config := cfg |}].
Proof. exact p_C56_started_listener. Qed.
Print Assumptions C56_started_listener.

(** C57. All addresses of the default configuration are IPv4: each is written in six bytes and read back. *)
Theorem C57_defaults_on_the_wire :
  forall (a : address) (p : packet) (later : list byte),
    In a default_addresses ->
    exists q, packet_add TAddress p a = (q, Ok tt) /\
      length (packet_raw q) = length (packet_raw p) + 6 /\
      next_payload TAddress {| pntr := Packet (packet_raw q ++ later); index := length (packet_raw p) |}
      = ({| pntr := Packet (packet_raw q ++ later); index := length (packet_raw q) |}, Ok a).
Proof. exact p_C57_defaults_on_the_wire. Qed.
Print Assumptions C57_defaults_on_the_wire.

(** C57. The default configuration is the documented one: sizes, no timeout, one thread per core, sockets on all interfaces, and these
    hosts in this order. (One of them is there twice.) *)
Theorem C57_documented_defaults :
  cf_queuesize config_default = 100 /\ cf_buffersize config_default = 2 ^ 11 /\ cf_pollinterval config_default = None /\
  cf_threadcount config_default = 0 /\
  dotted (cf_sending_address config_default) = "0.0.0.0:8000"%string /\ dotted (cf_receiving_address config_default) = "0.0.0.0:0"%string /\
  map dotted (cf_default_hosts config_default) =
    ["130.161.119.206:6421"; "130.161.119.206:6422"; "131.180.27.155:6423"; "131.180.27.156:6424"; "131.180.27.161:6427";
     "131.180.27.161:6427"; "131.180.27.161:6521"; "131.180.27.161:6522"; "131.180.27.162:6523"; "131.180.27.162:6524";
     "130.161.119.215:6525"; "130.161.119.215:6526"; "81.171.27.194:6527"; "81.171.27.194:6528"]%string.
Proof. exact p_C57_documented_defaults. Qed.
Print Assumptions C57_documented_defaults.

Example ex_C54_history :
  pr_pools (after [] ex_history) = [0] /\
  map (fun n => length (pr_instances (after [] (firstn n ex_history)))) [1; 2; 3; 4; 5; 6] = [1; 1; 1; 1; 1; 2] /\
  map li_receivers (pr_listeners (after [] ex_history)) = [[7]] /\
  open_sockets (after [] ex_history) = [v4 0 0 0 0 50001; v4 0 0 0 0 8000; v4 0 0 0 0 50000].
Proof. exact ex_C54_history. Qed.

Example ex_C55_success_and_failure :
  (exists i, snd (ipv8_new ex_env config_default (after [] [])) = Ok i) /\
  snd (ipv8_new ex_env config_default (after [] (firstn 1 ex_history))) = Err EAddrInUse /\
  (exists i, snd (ipv8_new ex_env config_default (after [] (firstn 5 ex_history))) = Ok i).
Proof. exact ex_C55_success_and_failure. Qed.

(** the hypotheses of the refutation of C56: community registered, listener started, nobody added by hand *)
Example ex_C56_program :
  let l := [CNew ex_env config_default; CAddCommunity 0 ex_community; CStart 0] in
  Forall (fun c => ~ adds_receiver c) l /\ length (pr_listeners (after [] l)) = 1.
Proof. exact ex_C56_program. Qed.

Example ex_C65_distinct : disjoint [v4 127 0 0 1 80; v4 127 0 0 2 80; v4 0 0 0 0 81].
Proof. exact ex_C65_distinct. Qed.
