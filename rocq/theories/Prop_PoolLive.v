(** * Prop_PoolLive: property theorems (statements only; proofs in PoolLiveProofs.v) *)
From Verif Require Import Base Codec Network NetSpec NetworkProofs LivenessSpec LivenessProofs LivenessFacts Pool PoolSpec PoolProofs PoolLiveSpec PoolLiveProofs.
Open Scope nat_scope.

(** C111. Listeners share the threads of one pool, but as long as receivers come back none of them is starved: in every infinite execution of
    a process with any number of listeners and at least one thread, if whenever calls are in progress one of them comes back later,
    the scheduler and the pool are fair to a listener, nothing fails there and its traffic goes on, then each datagram
    that ever arrived at it is at some time handed to each of its receivers, in order. (If no receiver comes back this is false: C69.) *)
Theorem C111_no_listener_is_starved :
  forall (workers : nat) (st : nat -> pool_state) (ev : nat -> pool_label) (i n0 : nat) (c : net_config) (q : list datagram),
    1 <= workers -> infinite_pool workers st ev -> nth_error (started (pool_upto ev n0)) i = Some (c, q) ->
    listener_never_fails i ev -> listener_traffic i ev -> listener_prompt_poll i st ev ->
    receivers_come_back ev -> fair_to workers i st ev ->
    forall (n k : nat) (d : datagram) (r : nat),
      nth_error (q ++ arrivals (trace_of i (pool_upto ev n))) k = Some d -> r < nc_receivers c ->
      exists m, nth_error (calls r (trace_of i (pool_upto ev m))) k = Some (packet_of c d).
Proof. exact p_C111_no_listener_is_starved. Qed.
Print Assumptions C111_no_listener_is_starved.

(** the hypotheses of C111 are met by this execution, for the listener that has to wait in every turn *)
Example ex_C111_two_listeners :
  infinite_pool 1 ex_pool_st ex_pool_ev /\ nth_error (started (pool_upto ex_pool_ev 2)) 1 = Some (ex_pool_cfg, []) /\
  listener_never_fails 1 ex_pool_ev /\ listener_traffic 1 ex_pool_ev /\ listener_prompt_poll 1 ex_pool_st ex_pool_ev /\
  receivers_come_back ex_pool_ev /\ fair_to 1 1 ex_pool_st ex_pool_ev /\
  nth_error (arrivals (trace_of 1 (pool_upto ex_pool_ev 30))) 1 = Some ex_pool_d /\
  (* it waits for the other one's receiver *)
  (exists s, nth_error (ex_pool_st 9) 1 = Some (ex_pool_cfg, s) /\ can_go_on ex_pool_cfg s) /\ ~ listener_can_go_on 1 (ex_pool_st 9) 1.
Proof. exact ex_C111_two_listeners. Qed.
