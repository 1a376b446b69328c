(** * Cluster: programs on several hosts, each with its own work-stealing pool
    In World.v the receivers of a listener are called in any order the scheduler likes; in Rayon.v the listeners of one program share the threads of rayon's global pool, but
    datagrams come from nowhere. Here both happen at once: a step of a thread of a program is a step of the program's pool (Rayon.v) and, if it is one of a listener or receiver,
    at the same time a step at the listener's socket (World.v); starting a listener and the arrival of a datagram are steps of both, too.
    rust_ipv8/src/networking/mod.rs:34-148 and lib.rs:51-83, as World.v and Rayon.v.
    Simplified: which program binds or uses a socket before it is started is not recorded (senders and receivers that are not started do nothing on their own); a program that
    ends does so at once, its sockets are closed afterwards (until then datagrams may still be put into their queues); the pool is there from the beginning of the program. *)
From Verif Require Import Base Codec Network Ipv8 Pool Rayon World.
Open Scope nat_scope.

(** a program: whether it runs, the sockets its listeners were started on, in this order, and its threads *)
Record program := PR { pr_running : bool; pr_sockets : list nat; pr_pool : ry_state }.
Record cluster := CL { cl_world : world; cl_programs : list program }.
Definition cluster_init : cluster := CL world_init [].

Inductive cluster_event :=
| CProgram (workers : nat)                        (* a program begins; its pool has so many threads *)
| CWorld (e : event)                              (* World.v: sockets are bound, receivers added, packets sent, ... *)
| CStart (p k : nat) (cfg : config) (c : net_config) (q : list datagram)
                                                  (* program p starts a listener on socket k, where the datagrams q have arrived; c: its parameters *)
| CDeliver (p i k : nat) (m : message)            (* m is put into the queue of socket k, that of the i-th listener of program p *)
| CThread (p : nat) (l : ry_label) (at_ : option nat)  (* a thread of program p does l; at_: the socket of the listener or receiver that is seen to do it *)
| CExit (p : nat).                                (* program p ends *)

(** the events of World.v that involve no listener of a running program *)
Definition elsewhere (ps : list program) (e : event) : Prop :=
  match e with
  | WStart _ _ | WListener _ _ => False
  | WDeliver k _ | WClose k => forall p, In p ps -> pr_running p = true -> ~ In k (pr_sockets p)
  | _ => True
  end.

(** the listener and its step that is seen, if any *)
Definition acts (l : ry_label) : option (nat * label) :=
  match l with
  | RListener (GStep i a) | RWorker _ (Some (GStep i a)) => Some (i, a)
  | _ => None
  end.

Inductive cstep (T : topology) : cluster -> cluster_event -> cluster -> Prop :=
| cstep_program w ps n :
    cstep T (CL w ps) (CProgram n) (CL w (ps ++ [PR true [] (ry_init n)]))
| cstep_world w ps e w' :
    wstep T w e w' -> elsewhere ps e -> cstep T (CL w ps) (CWorld e) (CL w' ps)
(** [NetworkReceiver::start] (mod.rs:87-101) *)
| cstep_start w w' p1 ks s s' p2 k sk n q cfg :
    nth_error (w_sockets w) k = Some sk -> sk_end sk = Waiting n q ->
    wstep T w (WStart k cfg) w' -> ry_step s (RListener (GStart (listen_config cfg n) q)) s' ->
    cstep T (CL w (p1 ++ PR true ks s :: p2)) (CStart (length p1) k cfg (listen_config cfg n) q)
      (CL w' (p1 ++ PR true (ks ++ [k]) s' :: p2))
(** the operating system puts a datagram into the queue of a listener's socket *)
| cstep_deliver w w' p1 ks s s' p2 i k m :
    nth_error ks i = Some k ->
    wstep T w (WDeliver k m) w' -> ry_step s (RListener (GStep i (LArrive (datagram_of m)))) s' ->
    cstep T (CL w (p1 ++ PR true ks s :: p2)) (CDeliver (length p1) i k m) (CL w' (p1 ++ PR true ks s' :: p2))
(** the listener's own thread, or a receiver on a thread of the pool (mod.rs:103-143) *)
| cstep_seen w w' p1 ks s s' p2 l i k a :
    acts l = Some (i, a) -> nth_error ks i = Some k ->
    wstep T w (WListener k a) w' -> ry_step s l s' ->
    cstep T (CL w (p1 ++ PR true ks s :: p2)) (CThread (length p1) l (Some k)) (CL w' (p1 ++ PR true ks s' :: p2))
(** a thread of the pool takes a job, splits one, waits, ... *)
| cstep_silent w p1 ks s s' p2 v :
    ry_step s (RWorker v None) s' ->
    cstep T (CL w (p1 ++ PR true ks s :: p2)) (CThread (length p1) (RWorker v None) None) (CL w (p1 ++ PR true ks s' :: p2))
| cstep_exit w p1 ks s p2 :
    cstep T (CL w (p1 ++ PR true ks s :: p2)) (CExit (length p1)) (CL w (p1 ++ PR false ks s :: p2)).

Inductive crun (T : topology) : cluster -> list cluster_event -> cluster -> Prop :=
| crun_nil s : crun T s [] s
| crun_snoc s tr s' e s'' : crun T s tr s' -> cstep T s' e s'' -> crun T s (tr ++ [e]) s''.
