(** * RayonLiveSpec: infinite executions of a process on a work-stealing pool

    Vocabulary of C118. *)
From Verif Require Import Base Codec Network NetSpec Pool PoolSpec Rayon RayonSpec.
Open Scope nat_scope.

Definition infinite_ry (workers : nat) (st : nat -> ry_state) (ev : nat -> ry_label) : Prop :=
  st 0 = ry_init workers /\ forall n, ry_step (st n) (ev n) (st (S n)).
(** the first [n] labels *)
Definition ry_upto (ev : nat -> ry_label) (n : nat) : list ry_label := map ev (seq 0 n).
(** what everybody sees of a step *)
Definition seen (l : ry_label) : option pool_label :=
  match l with RListener l => Some l | RWorker _ l => l end.

(** at some time all listeners have been started *)
Definition no_more_listeners (ev : nat -> ry_label) : Prop :=
  exists n0, forall n c q, n0 <= n -> seen (ev n) <> Some (GStart c q).

(** Every call of a receiver, of whichever listener, comes back, by returning or by a panic. *)
Definition every_call_comes_back (ev : nat -> ry_label) : Prop :=
  forall n w i r pkt src, ev n = RWorker w (Some (GStep i (LCall r pkt src))) ->
  exists m, n < m /\ (ev m = RWorker w (Some (GStep i (LReturn r))) \/ ev m = RWorker w (Some (GStep i (LPanic r)))).
Definition comes_back (l : option pool_label) : Prop :=
  match l with Some (GStep _ (LReturn _)) | Some (GStep _ (LPanic _)) => True | _ => False end.
(** The scheduler is (weakly) fair to the threads of the pool: a thread that can go on does, or can no longer. (Coming back from a receiver
    is not meant here.) *)
Definition thread_can_go_on (s : ry_state) (w : nat) : Prop :=
  exists l s', ry_step s (RWorker w l) s' /\ ~ comes_back l.
Definition fair_to_threads (st : nat -> ry_state) (ev : nat -> ry_label) : Prop :=
  forall w n, exists m, n <= m /\ ((exists l, ev m = RWorker w l) \/ ~ thread_can_go_on (st m) w).
(** The pool is fair to jobs: if again and again some thread is looking for a job, no job waits to be taken forever. *)
Definition a_thread_looks (s : ry_state) : Prop := exists st, In st (ry_stacks s) /\ may_take st = true.
Definition fair_to_jobs (st : nat -> ry_state) : Prop :=
  (forall n, exists m, n <= m /\ a_thread_looks (st m)) ->
  forall n t, In t (ry_tasks (st n)) -> exists m, n <= m /\ ~ In t (ry_tasks (st m)).
(** The scheduler is (weakly) fair to the thread of listener [i]. *)
Definition listener_thread_can_go_on (s : ry_state) (i : nat) : Prop :=
  exists l s', ry_step s (RListener (GStep i l)) s' /\ ~ is_arrival l /\ ~ is_failure l.
Definition fair_to_listener (i : nat) (st : nat -> ry_state) (ev : nat -> ry_label) : Prop :=
  forall n, exists m, n <= m /\
    ((exists l, ev m = RListener (GStep i l) /\ ~ is_arrival l) \/ ~ listener_thread_can_go_on (st m) i).

(** nothing fails at listener [i], and its receivers do not panic *)
Definition no_failure_at (i : nat) (ev : nat -> ry_label) : Prop := forall n l, seen (ev n) = Some (GStep i l) -> ~ is_failure l.
(** datagrams do not stop arriving at listener [i] *)
Definition traffic_at (i : nat) (ev : nat -> ry_label) : Prop := forall n, exists m d, n <= m /\ seen (ev m) = Some (GStep i (LArrive d)).
(** poll of listener [i] does not time out while readiness is waiting to be reported *)
Definition prompt_poll_at (i : nat) (st : nat -> ry_state) (ev : nat -> ry_label) : Prop :=
  forall n c s, nth_error (ry_listeners (st n)) i = Some (c, s) -> ns_edge s = true -> seen (ev n) <> Some (GStep i (LPoll 0)).
