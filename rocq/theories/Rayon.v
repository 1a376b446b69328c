(** * Rayon: several started instances on a work-stealing pool

    Pool.v lets any free thread of the pool execute any receiver that is waiting. What rayon does is less liberal, and this
    model follows it: [scope_fifo] (networking/mod.rs:133) called from a listener's thread, which is no thread of the pool, puts a job into the pool's queue and
    blocks the listener; a worker that takes this job executes the closure, that is, spawns the inner job ([spawn_fifo], 134), and then
    waits for it. The inner job's [par_iter().for_each] (136-138) splits the receivers, any number of times, into halves with [join]: the
    right half becomes a job others may take, the left one is done at once, then the worker waits for the right one. What is not split is
    a plain loop over receivers. A worker that waits does not sit idle: between looking whether what it waits for
    is done it takes other jobs, of whichever listener, and executes them on top of its stack; it looks again only when these are
    finished. (rayon-core: [WorkerThread::wait_until_cold], [join_context], [Scope::complete], [Registry::in_worker_cold].)

    Simplifications: any available job may be taken by any worker (rayon has an order of preference); a range of receivers may be split anywhere,
    or not at all (rayon: in the middle, a number of times that depends on the number of threads and on stealing); the result of a panicking job is recorded at once. A panic
    ends the plain loop it happens in; all that rayon does on its way up to the scope is to wait for the other halves, as without a panic. Sleeping and
    waking of idle workers is left out. *)
From Verif Require Import Base Codec Network Pool.
Open Scope nat_scope.

(** Jobs nobody has taken yet. Jobs are identified by numbers (in rayon by their address); [i] is the listener. *)
Inductive task :=
| TaskScope (i : nat)                      (* the closure of scope_fifo *)
| TaskPart (id i : nat) (rs : list nat).   (* call the receivers rs *)

(** What a worker is doing in a job of the second kind. *)
Inductive activity :=
| Deciding (rs : list nat)               (* split rs, or not *)
| Looping (rs : list nat)                (* a plain loop, rs are left *)
| Calling (r : nat) (rs : list nat)      (* in [on_receive] of receiver r; rs are left *)
| Joining (looked : bool).               (* the loop is over; the halves split off have to be waited for, and [looked] says that the
                                            worker has found the next one unfinished and is looking for something else to do *)

(** Jobs being executed. [born] only counts what happened before (it is not in the program). *)
Inductive job :=
| InScope (born i id : nat) (looked : bool)                       (* waiting for the spawned job id *)
| InPart (born id i : nat) (joins : list nat) (a : activity).     (* joins: the halves split off and not waited for yet, last one first *)

Record ry_state := RY {
  ry_listeners : pool_state;         (* a listener that is in scope_fifo is blocked: its [Dispatching] stays as it was at the beginning *)
  ry_tasks : list task;
  ry_stacks : list (list job);       (* one per worker; the job on top first *)
  ry_panicked : list nat;            (* listeners for which a receiver panicked in the current scope *)
  ry_clock : nat }.

Definition ry_init (workers : nat) : ry_state := RY [] [] (repeat [] workers) [] 0.

(** Job [id] is not finished: nobody has taken it, or some worker is executing it. *)
Definition unfinished (ts : list task) (sts : list (list job)) (id : nat) : Prop :=
  (exists i rs, In (TaskPart id i rs) ts) \/
  (exists born i joins a, In (InPart born id i joins a) (concat sts)).

(** A worker can take a job if it has nothing to do, or waits and has just found out that it has to. *)
Definition may_take (st : list job) : bool :=
  match st with
  | [] | InScope _ _ _ true :: _ | InPart _ _ _ _ (Joining true) :: _ => true
  | _ => false
  end.
(** ... and looks again when it comes back. *)
Definition rearm (st : list job) : list job :=
  match st with
  | InScope b i id _ :: r => InScope b i id false :: r
  | InPart b id i js (Joining _) :: r => InPart b id i js (Joining false) :: r
  | _ => st
  end.

(** Steps of the listener's own thread, and of the outside world. *)
Definition listeners_own (l : label) : bool :=
  match l with
  | LArrive _ | LPoll _ | LPollError _ | LNext | LRecvError _ => true
  | LRecv | LCall _ _ _ | LReturn _ | LPanic _ | LScopeEnd => false
  end.

Inductive ry_label :=
| RListener (l : pool_label)                    (* a listener, or the outside world *)
| RWorker (w : nat) (l : option pool_label).    (* worker w does l, or something nobody sees *)

Inductive ry_step : ry_state -> ry_label -> ry_state -> Prop :=
(** [NetworkReceiver::start] (networking/mod.rs:87-101) *)
| ry_start ls ts sts pn ck c q :
    ry_step (RY ls ts sts pn ck) (RListener (GStart c q)) (RY (ls ++ [(c, net_init c q)]) ts sts pn ck)
| ry_listener l1 c s l2 ts sts pn ck l s' :
    step c s l s' -> listeners_own l = true ->
    ry_step (RY (l1 ++ (c, s) :: l2) ts sts pn ck) (RListener (GStep (length l1) l)) (RY (l1 ++ (c, s') :: l2) ts sts pn ck)
(** [recv_from] returns a datagram, and [scope_fifo] is called (128-133) *)
| ry_recv l1 c s l2 ts sts pn ck s' :
    step c s LRecv s' ->
    ry_step (RY (l1 ++ (c, s) :: l2) ts sts pn ck) (RListener (GStep (length l1) LRecv))
      (RY (l1 ++ (c, s') :: l2) (ts ++ [TaskScope (length l1)]) sts pn ck)
(** a worker takes the closure of [scope_fifo] and executes it: [s.spawn_fifo(..)] (133-139) *)
| ry_take_scope ls t1 i t2 w1 st w2 pn ck c s :
    may_take st = true -> nth_error ls i = Some (c, s) ->
    ry_step (RY ls (t1 ++ TaskScope i :: t2) (w1 ++ st :: w2) pn ck) (RWorker (length w1) None)
      (RY ls (t1 ++ t2 ++ [TaskPart ck i (seq 0 (nc_receivers c))]) (w1 ++ (InScope ck i ck false :: rearm st) :: w2) pn (S ck))
| ry_take_part ls t1 id i rs t2 w1 st w2 pn ck :
    may_take st = true ->
    ry_step (RY ls (t1 ++ TaskPart id i rs :: t2) (w1 ++ st :: w2) pn ck) (RWorker (length w1) None)
      (RY ls (t1 ++ t2) (w1 ++ (InPart ck id i [] (Deciding rs) :: rearm st) :: w2) pn (S ck))
(** [par_iter().for_each] (136): [join] ... *)
| ry_split ls ts w1 b id i js left right st w2 pn ck :
    left <> [] -> right <> [] ->
    ry_step (RY ls ts (w1 ++ (InPart b id i js (Deciding (left ++ right)) :: st) :: w2) pn ck) (RWorker (length w1) None)
      (RY ls (ts ++ [TaskPart ck i right]) (w1 ++ (InPart b id i (ck :: js) (Deciding left) :: st) :: w2) pn (S ck))
(** ... or a plain loop *)
| ry_sequential ls ts w1 b id i js rs st w2 pn ck :
    ry_step (RY ls ts (w1 ++ (InPart b id i js (Deciding rs) :: st) :: w2) pn ck) (RWorker (length w1) None)
      (RY ls ts (w1 ++ (InPart b id i js (Looping rs) :: st) :: w2) pn ck)
(** [r.on_receive(packet.clone(), Address(address))] (137) *)
| ry_call ls ts w1 b id i js r rs st w2 pn ck c s k pkt src all running p :
    nth_error ls i = Some (c, s) -> ns_pc s = Dispatching k pkt src all running p ->
    ry_step (RY ls ts (w1 ++ (InPart b id i js (Looping (r :: rs)) :: st) :: w2) pn ck)
      (RWorker (length w1) (Some (GStep i (LCall r pkt src))))
      (RY ls ts (w1 ++ (InPart b id i js (Calling r rs) :: st) :: w2) pn ck)
| ry_return ls ts w1 b id i js r rs st w2 pn ck :
    ry_step (RY ls ts (w1 ++ (InPart b id i js (Calling r rs) :: st) :: w2) pn ck)
      (RWorker (length w1) (Some (GStep i (LReturn r))))
      (RY ls ts (w1 ++ (InPart b id i js (Looping rs) :: st) :: w2) pn ck)
| ry_panic ls ts w1 b id i js r rs st w2 pn ck :
    ry_step (RY ls ts (w1 ++ (InPart b id i js (Calling r rs) :: st) :: w2) pn ck)
      (RWorker (length w1) (Some (GStep i (LPanic r))))
      (RY ls ts (w1 ++ (InPart b id i js (Looping []) :: st) :: w2) (i :: pn) ck)
| ry_loop_done ls ts w1 b id i js st w2 pn ck :
    ry_step (RY ls ts (w1 ++ (InPart b id i js (Looping []) :: st) :: w2) pn ck) (RWorker (length w1) None)
      (RY ls ts (w1 ++ (InPart b id i js (Joining false) :: st) :: w2) pn ck)
(** waiting: look whether the last half split off is finished *)
| ry_look_join ls ts w1 b id i j js st w2 pn ck :
    unfinished ts (w1 ++ (InPart b id i (j :: js) (Joining false) :: st) :: w2) j ->
    ry_step (RY ls ts (w1 ++ (InPart b id i (j :: js) (Joining false) :: st) :: w2) pn ck) (RWorker (length w1) None)
      (RY ls ts (w1 ++ (InPart b id i (j :: js) (Joining true) :: st) :: w2) pn ck)
| ry_join_done ls ts w1 b id i j js looked st w2 pn ck :
    ~ unfinished ts (w1 ++ (InPart b id i (j :: js) (Joining looked) :: st) :: w2) j ->
    ry_step (RY ls ts (w1 ++ (InPart b id i (j :: js) (Joining looked) :: st) :: w2) pn ck) (RWorker (length w1) None)
      (RY ls ts (w1 ++ (InPart b id i js (Joining false) :: st) :: w2) pn ck)
| ry_part_done ls ts w1 b id i looked st w2 pn ck :
    ry_step (RY ls ts (w1 ++ (InPart b id i [] (Joining looked) :: st) :: w2) pn ck) (RWorker (length w1) None)
      (RY ls ts (w1 ++ st :: w2) pn ck)
| ry_look_scope ls ts w1 b i id st w2 pn ck :
    unfinished ts (w1 ++ (InScope b i id false :: st) :: w2) id ->
    ry_step (RY ls ts (w1 ++ (InScope b i id false :: st) :: w2) pn ck) (RWorker (length w1) None)
      (RY ls ts (w1 ++ (InScope b i id true :: st) :: w2) pn ck)
(** the scope is done: [scope_fifo] returns in the listener's thread, or panics there (133-140) *)
| ry_scope_done l1 c s l2 ts w1 b id looked st w2 pn ck k pkt src all running p :
    ns_pc s = Dispatching k pkt src all running p ->
    ~ unfinished ts (w1 ++ (InScope b (length l1) id looked :: st) :: w2) id ->
    ry_step (RY (l1 ++ (c, s) :: l2) ts (w1 ++ (InScope b (length l1) id looked :: st) :: w2) pn ck)
      (RWorker (length w1) (Some (GStep (length l1) LScopeEnd)))
      (RY (l1 ++ (c, set_pc s (if existsb (Nat.eqb (length l1)) pn then Stopped StoppedByPanic else Handling k)) :: l2)
          ts (w1 ++ st :: w2) (filter (fun j => negb (Nat.eqb (length l1) j)) pn) ck).

Inductive ry_run : ry_state -> list ry_label -> ry_state -> Prop :=
| ry_run_nil s : ry_run s [] s
| ry_run_snoc s tr s' l s'' : ry_run s tr s' -> ry_step s' l s'' -> ry_run s (tr ++ [l]) s''.
