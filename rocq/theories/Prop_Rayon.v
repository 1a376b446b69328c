(** * Prop_Rayon: property theorems (statements only; proofs in RayonProofs.v) *)
From Coq Require Import Permutation.
From Verif Require Import Base Codec Network NetSpec NetworkProofs Pool PoolSpec PoolProofs Rayon RayonSpec RayonProofs.
Open Scope nat_scope.

(** C115. What listeners and receivers do on a work-stealing pool is an execution of the pool of Pool.v, so whatever holds for
    every execution there (C66-C68) holds here; listeners that are not waiting in a scope are in the same state, and those that are
    dispatch the same datagram. *)
Theorem C115_work_stealing_refines_pool :
  forall (workers : nat) (tr : list ry_label) (s : ry_state),
    ry_run (ry_init workers) tr s ->
    exists ps, pool_run workers [] (visible tr) ps /\ length ps = length (ry_listeners s) /\
      forall (i : nat) (c : net_config) (x : net_state), nth_error (ry_listeners s) i = Some (c, x) ->
        exists y, nth_error ps i = Some (c, y) /\ (dispatching x <-> dispatching y) /\ (~ dispatching x -> y = x).
Proof. exact p_C115_work_stealing_refines_pool. Qed.
Print Assumptions C115_work_stealing_refines_pool.

(** C115, for instance: exactly-once, in-order delivery for each listener ... *)
Theorem C115_delivery_per_listener :
  forall (workers : nat) (tr : list ry_label) (s : ry_state) (i r : nat) (c : net_config) (q : list datagram) (x : net_state),
    ry_run (ry_init workers) tr s -> nth_error (started (visible tr)) i = Some (c, q) ->
    nth_error (ry_listeners s) i = Some (c, x) -> between_datagrams x -> r < nc_receivers c ->
    calls r (trace_of i (visible tr)) = map (packet_of c) (received q (trace_of i (visible tr))).
Proof. exact p_C115_delivery_per_listener. Qed.
Print Assumptions C115_delivery_per_listener.

(** ... and at no moment are more receivers being executed than the pool has threads. *)
Theorem C115_concurrency_bounded_by_pool :
  forall (workers : nat) (tr : list ry_label) (s : ry_state),
    ry_run (ry_init workers) tr s ->
    came_back (visible tr) <= entered (visible tr) <= came_back (visible tr) + workers.
Proof. exact p_C115_concurrency_bounded_by_pool. Qed.
Print Assumptions C115_concurrency_bounded_by_pool.

(** C116. With at least one worker a process on a work-stealing pool never deadlocks, although workers that wait pile other jobs on
    top of what they wait for. *)
Theorem C116_work_stealing_never_deadlocks :
  forall (workers : nat) (tr : list ry_label) (s : ry_state),
    1 <= workers -> ry_run (ry_init workers) tr s ->
    quiet (ry_listeners s) \/
    exists l s', ry_step s l s' /\ ~ is_external_here l /\ ~ is_failure_here l.
Proof. exact p_C116_work_stealing_never_deadlocks. Qed.
Print Assumptions C116_work_stealing_never_deadlocks.

(** C116. Nor does it livelock: looking for work, taking, splitting and waiting included, the number of steps of any execution is bounded
    linearly in what the outside world does. *)
Theorem C116_work_stealing_never_livelocks :
  forall (workers : nat) (tr : list ry_label) (s : ry_state),
    ry_run (ry_init workers) tr s ->
    length tr <= length (started (visible tr)) +
      total (fun x => let '(i, (c, _)) := x in
               (11 * nc_receivers c + 14) * (1 + length (arrivals (trace_of i (visible tr)))) + 2 * timeouts (trace_of i (visible tr)))
            (combine (seq 0 (length (started (visible tr)))) (started (visible tr))).
Proof. exact p_C116_work_stealing_never_livelocks. Qed.
Print Assumptions C116_work_stealing_never_livelocks.

(** Two threads, one listener with two receivers: the datagram's job is split, the second half is stolen, and both receivers are executed at
    the same time. *)
Example ex_C115_stealing :
  forall (d : datagram), let c := {| nc_buffersize := 2048; nc_has_timeout := false; nc_receivers := 2 |} in
  let (pkt, src) := packet_of c d in
  exists (tr : list ry_label) (s : ry_state) (x : net_state),
    ry_run (ry_init 2) tr s /\
    visible tr = [GStart c [d]; GStep 0 (LPoll 1); GStep 0 LRecv; GStep 0 (LCall 0 pkt src); GStep 0 (LCall 1 pkt src);
                  GStep 0 (LReturn 0); GStep 0 (LReturn 1); GStep 0 LScopeEnd] /\
    nth_error (ry_listeners s) 0 = Some (c, x) /\ between_datagrams x.
Proof. exact ex_C115_stealing. Qed.
