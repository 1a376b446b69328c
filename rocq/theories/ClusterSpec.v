(** * ClusterSpec: what is seen of a cluster, and assumptions about infinite executions

    Functions of the sequence of events; and vocabulary of C124, which says of program [p] what RayonLiveSpec.v says of a process and of socket [k] what
    WorldLiveSpec.v says. *)
From Verif Require Import Base Codec Network NetSpec Ipv8 Pool PoolSpec Rayon RayonSpec RayonLiveSpec World WorldSpec Cluster.
Open Scope nat_scope.

(** what happened at the sockets and between them *)
Fixpoint world_events (tr : list cluster_event) : list event :=
  match tr with
  | [] => []
  | CWorld e :: t => e :: world_events t
  | CStart _ k cfg _ _ :: t => WStart k cfg :: world_events t
  | CDeliver _ _ k m :: t => WDeliver k m :: world_events t
  | CThread _ l (Some k) :: t => match acts l with Some (_, a) => WListener k a :: world_events t | None => world_events t end
  | _ :: t => world_events t
  end.
(** what happened in program [p] *)
Definition program_event (p : nat) (e : cluster_event) : option ry_label :=
  match e with
  | CStart j _ _ c q => if p =? j then Some (RListener (GStart c q)) else None
  | CDeliver j i _ m => if p =? j then Some (RListener (GStep i (LArrive (datagram_of m)))) else None
  | CThread j l _ => if p =? j then Some l else None
  | _ => None
  end.
Fixpoint program_events (p : nat) (tr : list cluster_event) : list ry_label :=
  match tr with
  | [] => []
  | e :: t => match program_event p e with Some l => l :: program_events p t | None => program_events p t end
  end.
(** the programs that were begun, in this order, by the number of their threads *)
Fixpoint programs (tr : list cluster_event) : list nat :=
  match tr with
  | [] => []
  | CProgram n :: t => n :: programs t
  | _ :: t => programs t
  end.

(** the sockets on which program [p] started its listeners, in this order *)
Fixpoint started_on (p : nat) (tr : list cluster_event) : list nat :=
  match tr with
  | [] => []
  | CStart j k _ _ _ :: t => if p =? j then k :: started_on p t else started_on p t
  | _ :: t => started_on p t
  end.

Definition infinite_cluster (T : topology) (st : nat -> cluster) (ev : nat -> cluster_event) : Prop :=
  st 0 = cluster_init /\ forall n, cstep T (st n) (ev n) (st (S n)).
Definition cluster_upto (ev : nat -> cluster_event) (n : nat) : list cluster_event := map ev (seq 0 n).

(** the threads of program [p] *)
Definition pool_in (s : cluster) (p : nat) (x : ry_state) : Prop :=
  exists pr, nth_error (cl_programs s) p = Some pr /\ pr_pool pr = x.

(** ** Program [p] *)
Definition never_exits (p : nat) (ev : nat -> cluster_event) : Prop := forall n, ev n <> CExit p.
(** at some time it has started all its listeners *)
Definition starts_no_more (p : nat) (ev : nat -> cluster_event) : Prop :=
  exists n0, forall n k cfg c q, n0 <= n -> ev n <> CStart p k cfg c q.
(** every call of a receiver comes back *)
Definition calls_come_back (p : nat) (ev : nat -> cluster_event) : Prop :=
  forall n w i r pkt src k, ev n = CThread p (RWorker w (Some (GStep i (LCall r pkt src)))) k ->
  exists m k', n < m /\ (ev m = CThread p (RWorker w (Some (GStep i (LReturn r)))) k' \/ ev m = CThread p (RWorker w (Some (GStep i (LPanic r)))) k').
(** the scheduler is fair to the threads of its pool, the pool to its jobs *)
Definition scheduler_fair (p : nat) (st : nat -> cluster) (ev : nat -> cluster_event) : Prop :=
  forall w n, exists m, n <= m /\
    ((exists l k, ev m = CThread p (RWorker w l) k) \/ forall x, pool_in (st m) p x -> ~ thread_can_go_on x w).
Definition jobs_fair (p : nat) (st : nat -> cluster) : Prop :=
  (forall n, exists m x, n <= m /\ pool_in (st m) p x /\ a_thread_looks x) ->
  forall n x t, pool_in (st n) p x -> In t (ry_tasks x) -> exists m y, n <= m /\ pool_in (st m) p y /\ ~ In t (ry_tasks y).

(** ** Socket [k], on which program [p] started its [i]-th listener *)
(** the scheduler is fair to the listener's thread *)
Definition listener_fair (p i : nat) (st : nat -> cluster) (ev : nat -> cluster_event) : Prop :=
  forall n, exists m, n <= m /\
    ((exists l k, ev m = CThread p (RListener (GStep i l)) k) \/ forall x, pool_in (st m) p x -> ~ listener_thread_can_go_on x i).
(** nothing fails there: no error from the OS, no receiver panics *)
Definition nothing_fails (p i : nat) (ev : nat -> cluster_event) : Prop :=
  forall n l a k, ev n = CThread p l k -> acts l = Some (i, a) -> ~ is_failure a.
(** the network does not stop delivering to it *)
Definition delivered_for_ever (k : nat) (ev : nat -> cluster_event) : Prop :=
  forall n, exists m p i x, n <= m /\ ev m = CDeliver p i k x.
(** poll does not time out while readiness is waiting to be reported *)
Definition poll_prompt (p i : nat) (st : nat -> cluster) (ev : nat -> cluster_event) : Prop :=
  forall n x c s at_, pool_in (st n) p x -> nth_error (ry_listeners x) i = Some (c, s) -> ns_edge s = true ->
    ev n <> CThread p (RListener (GStep i (LPoll 0))) at_.
