(** * WorldLiveSpec: infinite executions of several programs

    Vocabulary of C109. An infinite execution is a sequence of worlds and a sequence of events. What is assumed is said about
    one socket [k]: everything else (other sockets, other listeners, what is lost, forged or closed elsewhere) is arbitrary. *)
From Verif Require Import Base Codec Network NetSpec LivenessSpec Ipv8 World WorldSpec.
Open Scope nat_scope.

Definition infinite_world (T : topology) (st : nat -> world) (ev : nat -> event) : Prop :=
  st 0 = world_init /\ forall n, wstep T (st n) (ev n) (st (S n)).
(** the first [n] events *)
Definition events_upto (ev : nat -> event) (n : nat) : list event := map ev (seq 0 n).

(** the listener on socket [k], configured as [c], is in state [s] *)
Definition listening_in (w : world) (k : nat) (c : net_config) (s : net_state) : Prop :=
  exists sk, nth_error (w_sockets w) k = Some sk /\ sk_end sk = Listening c s.

(** the owner of [k] is not dropped *)
Definition never_closed (k : nat) (ev : nat -> event) : Prop := forall n, ev n <> WClose k.
(** nothing fails at [k]: no error from the OS, no receiver panics *)
Definition never_fails_at (k : nat) (ev : nat -> event) : Prop := forall n l, ev n = WListener k l -> ~ is_failure l.
(** the network does not stop delivering to [k] *)
Definition deliveries_go_on (k : nat) (ev : nat -> event) : Prop := forall n, exists m x, n <= m /\ ev m = WDeliver k x.
(** The scheduler of [k]'s host is (weakly) fair to [k]'s listener and its receivers: again and again either they have
    nothing to do or one of them does something. *)
Definition fair_at (k : nat) (st : nat -> world) (ev : nat -> event) : Prop :=
  forall n, exists m, n <= m /\
    ((forall c s, listening_in (st m) k c s -> ~ can_go_on c s) \/ exists l, ev m = WListener k l).
(** poll at [k] does not time out while readiness is waiting to be reported *)
Definition prompt_poll_at (k : nat) (st : nat -> world) (ev : nat -> event) : Prop :=
  forall n c s, listening_in (st n) k c s -> ns_edge s = true -> ev n <> WListener k (LPoll 0).
