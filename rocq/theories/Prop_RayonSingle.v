(** * Prop_RayonSingle: property theorems (statements only; proofs in RayonSingleProofs.v) *)
From Coq Require Import Permutation.
From Verif Require Import Base Codec Network NetSpec NetworkProofs Pool PoolSpec PoolProofs Rayon RayonSpec RayonOrder RayonOrderSpec RayonProofs RayonLiveSpec RayonLiveProofs RayonServedProofs RayonOrderProofs RayonSingleProofs.
Open Scope nat_scope.

(** C120. With a single thread, in rayon's order: datagrams are finished in the order in which they were received, whichever listeners they belong to,
    and receivers are only called for the oldest one that is not finished. *)
Theorem C120_single_thread_serves_in_order :
  forall (tr : list ry_label) (s : ry_state), rayon_run (ry_init 1) tr s ->
    (exists pending, received_by (visible tr) = finished_by (visible tr) ++ pending) /\
    forall (before after : list ry_label) (w i r : nat) (pkt : list byte) (src : address),
      tr = before ++ RWorker w (Some (GStep i (LCall r pkt src))) :: after ->
      nth_error (received_by (visible before)) (length (finished_by (visible before))) = Some i.
Proof. exact p_C120_single_thread_serves_in_order. Qed.
Print Assumptions C120_single_thread_serves_in_order.

(** C120. On a pool of one thread, in rayon's order, nobody is starved, no matter how many listeners are started: if calls of receivers come back and the thread is
    scheduled, each datagram being dispatched is finished. (With two threads and more this is false, C118.) *)
Theorem C120_single_thread_starves_nobody :
  forall (st : nat -> ry_state) (ev : nat -> ry_label),
    st 0 = ry_init 1 -> (forall n, rayon_step (st n) (ev n) (st (S n))) -> every_call_comes_back ev -> fair_to_threads st ev ->
    forall (n i : nat) (c : net_config) (x : net_state),
      nth_error (ry_listeners (st n)) i = Some (c, x) -> dispatching x ->
      exists m, n <= m /\ seen (ev m) = Some (GStep i LScopeEnd).
Proof. exact p_C120_single_thread_starves_nobody. Qed.
Print Assumptions C120_single_thread_starves_nobody.

Example ex_C120_run :
  ex_ry_st 0 = ry_init 1 /\ (forall n, rayon_step (ex_ry_st n) (ex_ry_ev n) (ex_ry_st (S n))) /\ every_call_comes_back ex_ry_ev /\ fair_to_threads ex_ry_st ex_ry_ev /\
  exists x, nth_error (ry_listeners (ex_ry_st 30)) 0 = Some (ex_ry_cfg, x) /\ dispatching x.
Proof. exact ex_C120_run. Qed.
