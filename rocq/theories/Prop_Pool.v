(** * Prop_Pool: property theorems (statements only; proofs in PoolProofs.v) *)
From Verif Require Import Base Codec Network NetSpec NetworkProofs Pool PoolSpec PoolProofs.
Open Scope nat_scope.

(** C66. Listeners of one process do not interfere: whatever the other listeners do and however many there are, what one
    listener does is an execution of that listener alone; so all properties of a single listener (C48-C53, C60-C63)
    hold for each of them. *)
Theorem C66_listeners_do_not_interfere :
  forall (workers : nat) (tr : list pool_label) (ps : pool_state) (i : nat) (c : net_config) (q : list datagram),
    pool_run workers [] tr ps -> nth_error (started tr) i = Some (c, q) ->
    exists s, nth_error ps i = Some (c, s) /\ run c (net_init c q) (trace_of i tr) s.
Proof. exact p_C66_listeners_do_not_interfere. Qed.
Print Assumptions C66_listeners_do_not_interfere.

(** C66, for instance: exactly-once, in-order delivery holds for each listener of the process, with its own buffer size,
    its own receivers and its own datagrams only. *)
Theorem C66_delivery_per_listener :
  forall (workers : nat) (tr : list pool_label) (ps : pool_state) (i r : nat) (c : net_config) (q : list datagram) (s : net_state),
    pool_run workers [] tr ps -> nth_error (started tr) i = Some (c, q) -> nth_error ps i = Some (c, s) ->
    between_datagrams s -> r < nc_receivers c ->
    calls r (trace_of i tr) = map (packet_of c) (received q (trace_of i tr)).
Proof. exact p_C66_delivery_per_listener. Qed.
Print Assumptions C66_delivery_per_listener.

(** C67. At no moment are more receiver calls in progress, over all listeners of the process, than the pool has
    threads; no call comes back that was not entered. (Every prefix of an execution is an execution, so this
    speaks about every moment.) *)
Theorem C67_concurrency_bounded_by_pool :
  forall (workers : nat) (tr : list pool_label) (ps : pool_state),
    pool_run workers [] tr ps ->
    came_back tr <= entered tr <= came_back tr + workers.
Proof. exact p_C67_concurrency_bounded_by_pool. Qed.
Print Assumptions C67_concurrency_bounded_by_pool.

(** C67. Capacity is never leaked: when all listeners are stopped (by errors or panics, in any combination) or waiting in
    poll, every call that was entered has come back, so the whole pool is free again. *)
Theorem C67_capacity_never_leaks :
  forall (workers : nat) (tr : list pool_label) (ps : pool_state),
    pool_run workers [] tr ps -> quiet ps -> entered tr = came_back tr.
Proof. exact p_C67_capacity_never_leaks. Qed.
Print Assumptions C67_capacity_never_leaks.

(** C68. With at least one worker the process never deadlocks: unless every listener is stopped or blocked in poll, some
    listener or receiver can take a step which is neither a failure nor a doing of the outside world. *)
Theorem C68_pool_never_deadlocks :
  forall (workers : nat) (tr : list pool_label) (ps : pool_state),
    1 <= workers -> pool_run workers [] tr ps ->
    quiet ps \/
    exists l ps', pool_step workers ps l ps' /\ ~ is_external l /\ ~ is_pool_failure l.
Proof. exact p_C68_pool_never_deadlocks. Qed.
Print Assumptions C68_pool_never_deadlocks.

(** C68. Nor does it livelock: the number of steps of any execution is bounded linearly in what the outside world does
    (listeners started, datagrams arriving, polls timing out). With the theorem before: if receivers keep coming back and
    nothing new arrives, the process gets to the state where every listener is stopped or blocked in poll. *)
Theorem C68_pool_never_livelocks :
  forall (workers : nat) (tr : list pool_label) (ps : pool_state),
    pool_run workers [] tr ps ->
    length tr <= length (started tr) +
      total (fun x => let '(i, (c, _)) := x in
               (2 * nc_receivers c + 5) * (1 + length (arrivals (trace_of i tr))) + 2 * timeouts (trace_of i tr))
            (combine (seq 0 (length (started tr))) (started tr)).
Proof. exact p_C68_pool_never_livelocks. Qed.
Print Assumptions C68_pool_never_livelocks.

(** C69. Exactly when can the next receiver of a listener be called: the listener has one waiting, and fewer calls are in
    progress in the whole process than the pool has threads. *)
Theorem C69_call_possible_iff :
  forall (workers : nat) (tr : list pool_label) (ps1 ps2 : pool_state) (c : net_config) (s : net_state),
    pool_run workers [] tr (ps1 ++ (c, s) :: ps2) ->
    ((exists l ps', is_call l /\ pool_step workers (ps1 ++ (c, s) :: ps2) (GStep (length ps1) l) ps') <->
     (exists l s', is_call l /\ step c s l s') /\ entered tr < came_back tr + workers).
Proof. exact p_C69_call_possible_iff. Qed.
Print Assumptions C69_call_possible_iff.

(** C69, refuted: a listener is not isolated from slow receivers of another one. For every size of the pool there is an
    execution without failures in which one instance's receivers occupy all workers while another listener has taken its
    datagram from the socket; as long as none of those receivers comes back, no receiver of any listener is called. *)
Theorem C69_slow_receivers_starve_other_listeners_refuted :
  forall (workers : nat) (d1 d2 : datagram) (c2 : net_config),
    exists (c1 : net_config) (tr : list pool_label) (ps : pool_state),
      pool_run workers [] tr ps /\ started tr = [(c1, [d1]); (c2, [d2])] /\
      Forall (fun l => ~ is_pool_failure l) tr /\ recvs (trace_of 1 tr) = 1 /\
      (forall r, calls r (trace_of 1 tr) = []) /\
      forall tr' ps', pool_run workers ps tr' ps' ->
        (forall r, returns r (trace_of 0 tr') = 0 /\ panics r (trace_of 0 tr') = 0) ->
        entered tr' = 0.
Proof. exact p_C69_slow_receivers_starve_other_listeners_refuted. Qed.
Print Assumptions C69_slow_receivers_starve_other_listeners_refuted.

(** C67: both workers of a pool of two in use, and C66/C68: a process with two listeners doing something *)
Example ex_C67_full_pool :
  exists tr ps, pool_run 2 [] tr ps /\ length (started tr) = 2 /\ entered tr = 2 /\ came_back tr = 0 /\ ~ quiet ps.
Proof. exact ex_C67_full_pool. Qed.
