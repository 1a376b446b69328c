(** * Prop_RayonOrder: property theorems (statements only; proofs in RayonOrderProofs.v) *)
From Coq Require Import Permutation.
From Verif Require Import Base Codec Network NetSpec NetworkProofs Pool PoolSpec PoolProofs Rayon RayonSpec RayonOrder RayonProofs RayonLiveSpec RayonLiveProofs RayonServedProofs RayonOrderProofs.
Open Scope nat_scope.

(** C119. Taking jobs in rayon's order (each thread its own latest job first, then the oldest job of another thread, and only if there is none
    the next scope of a listener) does not deadlock either. *)
Theorem C119_never_deadlocks_in_order :
  forall (workers : nat) (tr : list ry_label) (s : ry_state),
    1 <= workers -> rayon_run (ry_init workers) tr s ->
    quiet (ry_listeners s) \/
    exists l s', rayon_step s l s' /\ ~ is_external_here l /\ ~ is_failure_here l.
Proof. exact p_C119_never_deadlocks_in_order. Qed.
Print Assumptions C119_never_deadlocks_in_order.

(** C119. All that happens in this order is an execution of Rayon.v, so everything proved of all executions there (C115, C116, C118) holds here. *)
Theorem C119_order_is_a_restriction :
  forall (s : ry_state) (tr : list ry_label) (s' : ry_state), rayon_run s tr s' -> ry_run s tr s'.
Proof. exact p_C119_order_is_a_restriction. Qed.
Print Assumptions C119_order_is_a_restriction.

(** C117, refuted: a datagram is finished when its receivers have returned. On a work-stealing pool of any size there is an execution,
    in the very order in which rayon takes jobs, without failures in which the only receiver of the first listener has come back, a single receiver is being executed in the
    whole process (one of the other listener) and every other thread of the pool is free; and as long as that receiver does not come back, in whatever order jobs are taken then, the
    first listener does nothing at all: it does not take another datagram from its socket, nor does it call anything. *)
Theorem C117_finished_listener_frozen_by_another_refuted :
  forall (workers : nat) (d0 d1 : datagram) (c0 c1 : net_config),
    2 <= workers -> nc_receivers c0 = 1 -> nc_receivers c1 = 1 ->
    exists (tr : list ry_label) (s : ry_state),
      rayon_run (ry_init workers) tr s /\ started (visible tr) = [(c0, [d0]); (c1, [d1])] /\
      Forall (fun l => ~ is_failure_here l) tr /\
      calls 0 (trace_of 0 (visible tr)) = [packet_of c0 d0] /\ returns 0 (trace_of 0 (visible tr)) = 1 /\
      entered (visible tr) = S (came_back (visible tr)) /\
      forall tr' s', ry_run s tr' s' ->
        (forall r, returns r (trace_of 1 (visible tr')) = 0 /\ panics r (trace_of 1 (visible tr')) = 0) ->
        forall l, In l (trace_of 0 (visible tr')) -> is_arrival l.
Proof. exact p_C117_finished_listener_frozen_by_another_refuted. Qed.
Print Assumptions C117_finished_listener_frozen_by_another_refuted.

(** C118: the assumption that listeners are not started for ever is needed. On every pool of at least two threads there is an infinite execution, in the very order in which
    rayon takes jobs, in which nothing fails, every receiver comes back, the
    scheduler and the pool are fair and the first listener gets traffic, but more and more listeners are started; and the first one's first dispatch
    never ends, although its only receiver has returned: the thread that should end it has piled the others' scopes on top of it. *)
Theorem C118_starved_if_listeners_are_started_for_ever_refuted :
  forall (workers : nat), 2 <= workers ->
  exists (st : nat -> ry_state) (ev : nat -> ry_label) (c : net_config) (d : datagram),
    st 0 = ry_init workers /\ (forall n, rayon_step (st n) (ev n) (st (S n))) /\
    every_call_comes_back ev /\ fair_to_threads st ev /\ fair_to_jobs st /\
    started (visible (ry_upto ev 1)) = [(c, [d])] /\ nc_receivers c = 1 /\
    fair_to_listener 0 st ev /\ (forall n, ~ is_failure_here (ev n)) /\ traffic_at 0 ev /\ prompt_poll_at 0 st ev /\
    recvs (trace_of 0 (visible (ry_upto ev 3))) = 1 /\ returns 0 (trace_of 0 (visible (ry_upto ev 13))) = 1 /\
    forall n, seen (ev n) <> Some (GStep 0 LScopeEnd).
Proof. exact p_C118_starved_if_listeners_are_started_for_ever_refuted. Qed.
Print Assumptions C118_starved_if_listeners_are_started_for_ever_refuted.

(** C69 on the work-stealing pool, in rayon's own order of taking jobs: for every size of the pool there is an execution without failures in which one instance's receivers
    occupy all threads while another listener has taken its datagram from the socket; as long as none of those receivers comes back,
    no receiver of any listener is called. *)
Theorem C69_slow_receivers_starve_on_rayon_refuted :
  forall (workers : nat) (d1 d2 : datagram) (c2 : net_config),
    1 <= workers ->
    exists (c1 : net_config) (tr : list ry_label) (s : ry_state),
      rayon_run (ry_init workers) tr s /\ started (visible tr) = [(c1, [d1]); (c2, [d2])] /\
      Forall (fun l => ~ is_failure_here l) tr /\ recvs (trace_of 1 (visible tr)) = 1 /\
      (forall r, calls r (trace_of 1 (visible tr)) = []) /\
      forall tr' s', ry_run s tr' s' ->
        (forall r, returns r (trace_of 0 (visible tr')) = 0 /\ panics r (trace_of 0 (visible tr')) = 0) ->
        entered (visible tr') = 0.
Proof. exact p_C69_slow_receivers_starve_on_rayon_refuted. Qed.
Print Assumptions C69_slow_receivers_starve_on_rayon_refuted.
