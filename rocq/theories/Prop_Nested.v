(** * Prop_Nested: property theorems (statements only; proofs in NestedProofs.v) *)
From Coq Require Import Sorted.
From Verif Require Import Base Nested NestedSpec NestedProofs.
Open Scope nat_scope.

(** C131: Every execution takes at most a number of steps that is known beforehand, from the codes; so whatever the schedule, all comes to an end: either all is done or nothing can go on. *)
Theorem C131_no_livelock :
  forall (workers : nat) (others : list code) (listeners : list (list code)) (n : nat) (s : state),
  run (init workers others listeners) n s -> n <= steps_for others listeners.
Proof. exact p_C131_no_livelock. Qed.
Print Assumptions C131_no_livelock.

(** C131: If receivers and other threads handle their locks with care, which for code that uses rayon includes that nothing is locked meanwhile, there is no deadlock: on a pool with at least one thread, something can go on until all is done. *)
Theorem C131_no_deadlock :
  forall (workers : nat) (others : list code) (listeners : list (list code)) (n : nat) (s : state),
  1 <= workers -> Forall (careful []) others -> Forall no_rayon others -> Forall (Forall careful_datagram) listeners ->
  run (init workers others listeners) n s -> all_done s \/ exists s', step s s'.
Proof. exact p_C131_no_deadlock. Qed.
Print Assumptions C131_no_deadlock.

(** C131: So every execution, however the threads are scheduled, ends after exactly the known number of steps, with everything done. *)
Theorem C131_all_is_done :
  forall (workers : nat) (others : list code) (listeners : list (list code)) (n : nat) (s : state),
  1 <= workers -> Forall (careful []) others -> Forall no_rayon others -> Forall (Forall careful_datagram) listeners ->
  run (init workers others listeners) n s ->
  ((forall s', ~ step s s') <-> n = steps_for others listeners) /\ (n = steps_for others listeners -> all_done s).
Proof. exact p_C131_all_is_done. Qed.
Print Assumptions C131_all_is_done.

(** C131: Whatever the codes, at no moment is a mutex locked twice. *)
Theorem C131_mutual_exclusion :
  forall (workers : nat) (others : list code) (listeners : list (list code)) (n : nat) (s : state),
  run (init workers others listeners) n s -> exclusive s.
Proof. exact p_C131_mutual_exclusion. Qed.
Print Assumptions C131_mutual_exclusion.

(** C131: Whatever the codes, every job that is not finished was forked, directly or not, by one that a listener is blocked on right now (or by one of the other threads): nothing of a datagram is left when [scope_fifo] returns. *)
Theorem C131_nothing_left_behind :
  forall (workers : nat) (others : list code) (listeners : list (list code)) (n : nat) (s : state) (j : nat),
  run (init workers others listeners) n s -> unfinished (s_available s) (s_threads s) j ->
  exists root, part_of (s_threads s) root j /\ (root < length others \/ exists l, In l (s_listeners s) /\ l_blocked l = Some root).
Proof. exact p_C131_nothing_left_behind. Qed.
Print Assumptions C131_nothing_left_behind.

(** C131: In particular, without other threads the pool has nothing to do whenever no listener is blocked. *)
Theorem C131_pool_is_quiet :
  forall (workers : nat) (listeners : list (list code)) (n : nat) (s : state),
  run (init workers [] listeners) n s -> (forall l, In l (s_listeners s) -> l_blocked l = None) ->
  s_available s = [] /\ Forall (fun t => t_stack t = []) (s_threads s).
Proof. exact p_C131_pool_is_quiet. Qed.
Print Assumptions C131_pool_is_quiet.

(** C131: If receivers hold a lock while they are in rayon, it is false, even if each of them uses one lock only and always releases it: on a pool of three threads one datagram for three such receivers can block the pool and the listener for ever. A thread that waits for half of a receiver's own join
    takes the job of the third receiver, which then waits for the lock that the same thread holds further down its stack. *)
Theorem C131_lock_during_join_refuted :
  exists (d : code) (n : nat) (s : state),
  dispatch [holds_lock_during_join; holds_lock_during_join; holds_lock_during_join] d /\
  run (init 3 [] [[scope d]]) n s /\ ~ all_done s /\ forall s', ~ step s s'.
Proof. exact p_C131_lock_during_join_refuted. Qed.
Print Assumptions C131_lock_during_join_refuted.

(** two receivers that share two mutexes, the first one using rayon as well, and a thread outside of the pool: the hypotheses of the theorems are met, and everything takes 59 steps (with two listeners that receive one datagram each) *)
Example ex_C131_careful :
  let r1 := Lock 1 (Lock 2 (Work (Unlock 1 (Unlock 2 (Join (Lock 1 (Unlock 1 Return)) (Work Return) (Lock 2 (Unlock 2 Return))))))) in
  let r2 := Lock 2 (Unlock 2 Return) in
  let d := scope (Join r1 r2 Return) in
  careful_datagram d /\ careful [] r2 /\ no_rayon r2 /\ ~ careful [] holds_lock_during_join /\
  steps_for [r2] [[d]; [d]] = 59.
Proof. exact ex_C131_careful. Qed.
