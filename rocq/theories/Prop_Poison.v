(** * Prop_Poison: property theorems (statements only; proofs in PoisonProofs.v) *)
From Coq Require Import Strings.String.
From Verif Require Import Base Codec Network Ipv8 Ipv8Spec Ipv8Proofs Concurrent ConcurrentSpec ConcurrentProofs Poison PoisonProofs.
Open Scope nat_scope.

(** C139. Until a panic happens everything is as in Concurrent.v (so C79-C84 hold). *)
Theorem C139_before_a_panic :
  forall (h : list plabel) (p : poisonable),
    prun poison_init h p -> (forall t q, ~ In (PBuildPanics t q) h) ->
    exists h', h = map PStep h' /\ run initial h' (po_state p).
Proof. exact p_C139_before_a_panic. Qed.
Print Assumptions C139_before_a_panic.

(** C139. If [build_global] panicked in any call of [new], no call has ever returned a value and none ever will: every call of the process that ends, whenever
    it began, panics; none binds a socket; there is no value and no listener, and the open sockets are those of the rest of the program. *)
Theorem C139_no_value_ever :
  forall (h : list plabel) (p : poisonable) (t : nat) (q : panic),
    prun poison_init h p -> In (PBuildPanics t q) h ->
    (forall u r, In (PStep (LReturn u r)) h -> exists reason, r = Panic reason) /\
    (forall l, In (PStep l) h -> is_bind l = false) /\
    st_instances (po_state p) = [] /\ st_listeners (po_state p) = [] /\
    (forall fd, In fd (open_fds (po_state p)) -> In fd (st_others (po_state p))).
Proof. exact p_C139_no_value_ever. Qed.
Print Assumptions C139_no_value_ever.

(** C139. The pool is built at most once, also when that panics. *)
Theorem C139_one_attempt :
  forall (h : list plabel) (p : poisonable),
    prun poison_init h p ->
    length (filter (fun l => match l with PStep l => is_build l | PBuildPanics _ _ => true | POncePanics _ _ => false end) h) <= 1.
Proof. exact p_C139_one_attempt. Qed.
Print Assumptions C139_one_attempt.

(** C139. Nobody waits for ever: after the panic every call in progress can take a step of its own, and all that a thread can do is: call [new], panic in
    [call_once], and leave the call with a panic. *)
Theorem C139_nobody_waits :
  forall (h : list plabel) (p : poisonable) (t : nat) (q : panic),
    prun poison_init h p -> In (PBuildPanics t q) h ->
    (forall u, st_threads (po_state p) u <> Outside ->
       exists l p', pstep p l p' /\
         ((exists r, l = POncePanics u r) \/ (exists r, l = PStep (LReturn u (Panic r)) /\ st_threads (po_state p') u = Outside))) /\
    (forall l p', pstep p l p' ->
       match l with
       | PBuildPanics _ _ => False
       | POncePanics u _ => exists r, st_threads (po_state p') u = Returning (Panic r)
       | PStep (LCall u _) => exists cfg, st_threads (po_state p') u = AtOnce cfg
       | PStep (LReturn u r) => exists reason, r = Panic reason
       | PStep l => thread_of l = None
       end).
Proof. exact p_C139_nobody_waits. Qed.
Print Assumptions C139_nobody_waits.

Example ex_C139_panic :
  exists p, prun poison_init ex_poison p /\ In (PBuildPanics 0 (PUser 1)) ex_poison /\ st_threads (po_state p) 2 = Returning (Panic (PUser 2)) /\
    open_fds (po_state p) = [0].
Proof. exact ex_C139_panic. Qed.

(** An error of [build_global] is another matter: only the call that built reports it, the others go on. *)
Example ex_C139_error :
  exists h p i, prun poison_init h p /\ In (PStep (LReturn 0 (Err EPoolError))) h /\ In (PStep (LReturn 1 (Ok i))) h.
Proof. exact ex_C139_error. Qed.
