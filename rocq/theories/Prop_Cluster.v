(** * Prop_Cluster: property theorems (statements only; proofs in ClusterProofs.v) *)
From Coq Require Import Permutation.
From Verif Require Import Base Codec Network NetSpec NetworkProofs Ipv8 Ipv8Proofs World WorldSpec WorldProofs Pool PoolSpec PoolProofs PoolLiveProofs Rayon RayonSpec RayonLiveSpec RayonProofs RayonServedProofs Cluster ClusterSpec ClusterProofs.
Open Scope nat_scope.

(** C123. Programs on several hosts, each with its own work-stealing pool, on one network: what happens at and between the sockets is an execution of
    World.v, and what happens in each program one of Rayon.v. So all that holds for each of these two (C48-C120) holds of the same execution. *)
Theorem C123_world_and_pools_at_once :
  forall (T : topology) (tr : list cluster_event) (s : cluster),
    crun T cluster_init tr s ->
    wrun T world_init (world_events tr) (cl_world s) /\
    length (cl_programs s) = length (programs tr) /\
    forall (p : nat) (pr : program), nth_error (cl_programs s) p = Some pr ->
      exists workers, nth_error (programs tr) p = Some workers /\ ry_run (ry_init workers) (program_events p tr) (pr_pool pr) /\
        pr_sockets pr = started_on p tr /\ (pr_running pr = true <-> ~ In (CExit p) tr).
Proof. exact p_C123_world_and_pools_at_once. Qed.
Print Assumptions C123_world_and_pools_at_once.

(** C123. The two are about the same listeners: no two listeners, of whichever programs, have the same socket; and while the program runs, its
    [i]-th listener does in the pool what the listener on that socket does in the world, with the configuration and receivers it has there, beginning with what was waiting there. *)
Theorem C123_the_same_listeners :
  forall (T : topology) (tr : list cluster_event) (s : cluster) (p i k : nat),
    crun T cluster_init tr s -> nth_error (started_on p tr) i = Some k ->
    (forall p' i', nth_error (started_on p' tr) i' = Some k -> p' = p /\ i' = i) /\
    (~ In (CExit p) tr ->
     exists cfg c q, In (WStart k cfg) (world_events tr) /\ configured_as c cfg (added k (world_events tr)) /\
       nth_error (started (visible (program_events p tr))) i = Some (c, q) /\
       trace_at k (world_events tr) = map LArrive q ++ trace_of i (visible (program_events p tr))).
Proof. exact p_C123_the_same_listeners. Qed.
Print Assumptions C123_the_same_listeners.

(** C123. Nothing else restricts the programs: whatever a thread of a running program can do according to Rayon.v, it can do in the cluster, at whatever moment; *)
Theorem C123_threads_go_on_as_in_the_pool :
  forall (T : topology) (tr : list cluster_event) (s : cluster) (p : nat) (pr : program) (l : ry_label) (x : ry_state),
    crun T cluster_init tr s -> nth_error (cl_programs s) p = Some pr -> pr_running pr = true ->
    ry_step (pr_pool pr) l x -> ~ is_external_here l ->
    exists at_ s', cstep T s (CThread p l at_) s' /\ pool_in s' p x.
Proof. exact p_C123_threads_go_on_as_in_the_pool. Qed.
Print Assumptions C123_threads_go_on_as_in_the_pool.

(** C123. ... whatever can be delivered to a socket can be delivered to the listener there, and what waits to be started can be started by any running program. *)
Theorem C123_delivery_and_start_as_in_the_world :
  forall (T : topology) (tr : list cluster_event) (s : cluster) (p k : nat) (pr : program) (w' : world),
    crun T cluster_init tr s -> nth_error (cl_programs s) p = Some pr -> pr_running pr = true ->
    (forall i m, nth_error (started_on p tr) i = Some k -> wstep T (cl_world s) (WDeliver k m) w' ->
       exists s', cstep T s (CDeliver p i k m) s' /\ cl_world s' = w') /\
    (forall cfg, wstep T (cl_world s) (WStart k cfg) w' ->
       exists c q s', cstep T s (CStart p k cfg c q) s' /\ cl_world s' = w').
Proof. exact p_C123_delivery_and_start_as_in_the_world. Qed.
Print Assumptions C123_delivery_and_start_as_in_the_world.
