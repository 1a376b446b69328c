(** * LivenessSpec: infinite executions of the listener

    Vocabulary of the theorem about what eventually happens (C99). An infinite execution is a sequence of states and a
    sequence of labels; the fairness assumptions are about the environment (scheduler, operating system), not about the
    code. *)
From Verif Require Import Base Codec Network NetSpec.
Open Scope nat_scope.

(** The listener starts in its initial state, [q0] being in the socket, and step number [n] leads from state [n] to state
    [n + 1], for ever. *)
Definition infinite_run (c : net_config) (q0 : list datagram) (st : nat -> net_state) (lb : nat -> label) : Prop :=
  st 0 = net_init c q0 /\ forall n, step c (st n) (lb n) (st (S n)).
(** the first [n] labels *)
Definition trace_upto (lb : nat -> label) (n : nat) : list label := map lb (seq 0 n).

(** the listener or one of the receivers can take a step that is no failure *)
Definition can_go_on (c : net_config) (s : net_state) : Prop :=
  exists l s', step c s l s' /\ ~ is_arrival l /\ ~ is_failure l.

(** Nothing fails: no OS error, no panicking receiver. *)
Definition never_fails (lb : nat -> label) : Prop := forall n, ~ is_failure (lb n).
(** Traffic does not stop for ever. *)
Definition traffic_goes_on (lb : nat -> label) : Prop := forall n, exists m, n <= m /\ is_arrival (lb m).
(** The scheduler is (weakly) fair: again and again, either the listener and the receivers have nothing to do, or one of
    them does something; so datagrams that arrive cannot keep them from running for ever. In particular every receiver
    that is called returns at some time if nothing else can happen. *)
Definition fair (c : net_config) (st : nat -> net_state) (lb : nat -> label) : Prop :=
  forall n, exists m, n <= m /\ (~ can_go_on c (st m) \/ ~ is_arrival (lb m)).
(** The operating system reports readiness: a poll does not time out while readiness is waiting to be reported. (Without
    a timeout in the configuration this is so by itself.) *)
Definition prompt_poll (st : nat -> net_state) (lb : nat -> label) : Prop :=
  forall n, ns_edge (st n) = true -> lb n <> LPoll 0.
