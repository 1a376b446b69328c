(** * PoolLiveSpec: infinite executions of a process with several listeners on the shared thread pool

    Vocabulary of C111. *)
From Verif Require Import Base Codec Network NetSpec LivenessSpec Pool PoolSpec.
Open Scope nat_scope.

Definition infinite_pool (workers : nat) (st : nat -> pool_state) (ev : nat -> pool_label) : Prop :=
  st 0 = [] /\ forall n, pool_step workers (st n) (ev n) (st (S n)).
(** the first [n] labels *)
Definition pool_upto (ev : nat -> pool_label) (n : nat) : list pool_label := map ev (seq 0 n).

(** nothing fails at listener [i] *)
Definition listener_never_fails (i : nat) (ev : nat -> pool_label) : Prop := forall n l, ev n = GStep i l -> ~ is_failure l.
(** datagrams do not stop arriving at listener [i] *)
Definition listener_traffic (i : nat) (ev : nat -> pool_label) : Prop := forall n, exists m d, n <= m /\ ev m = GStep i (LArrive d).
(** poll of listener [i] does not time out while readiness is waiting to be reported *)
Definition listener_prompt_poll (i : nat) (st : nat -> pool_state) (ev : nat -> pool_label) : Prop :=
  forall n c s, nth_error (st n) i = Some (c, s) -> ns_edge s = true -> ev n <> GStep i (LPoll 0).

(** Receivers come back: whenever calls are in progress anywhere in the process, one of them comes back later, by returning or by
    a panic. (It need not be one of listener [i]'s.) *)
Definition receivers_come_back (ev : nat -> pool_label) : Prop :=
  forall n, came_back (pool_upto ev n) < entered (pool_upto ev n) ->
  exists m j r, n <= m /\ (ev m = GStep j (LReturn r) \/ ev m = GStep j (LPanic r)).

(** listener [i] or one of its receivers can take a step that is no failure; a receiver can be entered only if a worker is free *)
Definition listener_can_go_on (workers : nat) (ps : pool_state) (i : nat) : Prop :=
  exists l ps', pool_step workers ps (GStep i l) ps' /\ ~ is_arrival l /\ ~ is_failure l.
(** The scheduler and the pool are (strongly) fair to listener [i]: if again and again it can do something, then again and
    again it does something. *)
Definition fair_to (workers : nat) (i : nat) (st : nat -> pool_state) (ev : nat -> pool_label) : Prop :=
  (forall n, exists m, n <= m /\ listener_can_go_on workers (st m) i) ->
  forall n, exists m l, n <= m /\ ev m = GStep i l /\ ~ is_arrival l.
