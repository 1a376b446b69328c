(** * Prop_RayonServed: property theorems (statements only; proofs in RayonServedProofs.v) *)
From Coq Require Import Permutation.
From Verif Require Import Base Codec Network NetSpec NetworkProofs LivenessSpec LivenessProofs Pool PoolSpec PoolProofs PoolLiveSpec PoolLiveProofs Rayon RayonSpec RayonProofs RayonLiveSpec RayonLiveProofs RayonServedProofs.
Open Scope nat_scope.

(** C118. On a work-stealing pool every dispatch comes to an end: in every infinite execution of a process with at least one worker and any
    number of listeners, all of which have been started at some time, if every call of a receiver comes back and the scheduler is
    fair to the threads of the pool and the pool to the jobs, then a listener that is in a scope leaves it - although the workers that wait for it execute jobs of
    other listeners on top of it in the meantime, and may take new ones before they look again. (While a receiver does not come back this is false: C117.) *)
Theorem C118_every_dispatch_ends :
  forall (workers : nat) (st : nat -> ry_state) (ev : nat -> ry_label),
    1 <= workers -> infinite_ry workers st ev -> no_more_listeners ev -> every_call_comes_back ev -> fair_to_threads st ev -> fair_to_jobs st ->
    forall (n i : nat) (c : net_config) (x : net_state),
      nth_error (ry_listeners (st n)) i = Some (c, x) -> dispatching x ->
      exists m, n <= m /\ seen (ev m) = Some (GStep i LScopeEnd).
Proof. exact p_C118_every_dispatch_ends. Qed.
Print Assumptions C118_every_dispatch_ends.

(** C118. ... and so no listener is starved: if besides the scheduler is fair to the listener's thread, nothing fails there and traffic goes on, each datagram that
    ever arrived there is at some time handed to each of its receivers, in order. *)
Theorem C118_no_listener_is_starved :
  forall (workers : nat) (st : nat -> ry_state) (ev : nat -> ry_label) (i n0 : nat) (c : net_config) (q : list datagram),
    1 <= workers -> infinite_ry workers st ev -> no_more_listeners ev -> every_call_comes_back ev -> fair_to_threads st ev -> fair_to_jobs st ->
    nth_error (started (visible (ry_upto ev n0))) i = Some (c, q) ->
    fair_to_listener i st ev -> no_failure_at i ev -> traffic_at i ev -> prompt_poll_at i st ev ->
    forall (n k : nat) (d : datagram) (r : nat),
      nth_error (q ++ arrivals (trace_of i (visible (ry_upto ev n)))) k = Some d -> r < nc_receivers c ->
      exists m, nth_error (calls r (trace_of i (visible (ry_upto ev m)))) k = Some (packet_of c d).
Proof. exact p_C118_no_listener_is_starved. Qed.
Print Assumptions C118_no_listener_is_starved.

(** C118: an infinite execution that meets the assumptions *)
Example ex_C118_run :
  infinite_ry 1 ex_ry_st ex_ry_ev /\ no_more_listeners ex_ry_ev /\ every_call_comes_back ex_ry_ev /\ fair_to_threads ex_ry_st ex_ry_ev /\
  fair_to_jobs ex_ry_st /\ nth_error (started (visible (ry_upto ex_ry_ev 1))) 0 = Some (ex_ry_cfg, []) /\
  fair_to_listener 0 ex_ry_st ex_ry_ev /\ no_failure_at 0 ex_ry_ev /\ traffic_at 0 ex_ry_ev /\ prompt_poll_at 0 ex_ry_st ex_ry_ev /\
  nth_error (arrivals (trace_of 0 (visible (ry_upto ex_ry_ev 24)))) 1 = Some ex_ry_d.
Proof. exact ex_C118_run. Qed.
