(** * Nested: receivers that use locks and rayon themselves

    Rayon.v, with receivers whose code matters: they may lock mutexes and call [rayon::join] (which rayon's parallel iterators are made of), and they share the mutexes with receivers of other
    listeners and with threads outside of the pool. [NetworkReceiver::listen] (networking/mod.rs:132-140) calls [scope_fifo] on its own thread, which is no thread of the pool: it puts a job into the pool's queue and blocks.
    The job spawns the inner one ([spawn_fifo], 134) and waits for it; that one calls the receivers ([par_iter().for_each], 136-138), split with [join] in some way, or in a plain loop. A worker that waits takes
    other jobs meanwhile, of whatever listener, and executes them on top of its stack. (rayon-core: [join_context], [WorkerThread::wait_until_cold], [Registry::in_worker_cold].)

    Simplifications: what code does is fixed beforehand (the theorems are about all codes); how receivers are split is fixed beforehand as well (likewise); no panics (Rayon.v has them); any available job may be taken by any
    worker that looks for one; a worker may look for one once more although what it waits for has been finished meanwhile. *)
From Verif Require Import Base.
Open Scope nat_scope.

(** What code does, as far as it matters here. *)
Inductive code :=
| Return
| Work (k : code)                  (* anything else, one step *)
| Lock (m : nat) (k : code)        (* [Mutex::lock] of mutex m, the guard is kept *)
| Unlock (m : nat) (k : code)      (* the guard is dropped *)
| Join (a b k : code).             (* [rayon::join(a, b)] *)

(** one after the other *)
Fixpoint then_ (a b : code) : code :=
  match a with
  | Return => b
  | Work k => Work (then_ k b)
  | Lock m k => Lock m (then_ k b)
  | Unlock m k => Unlock m (then_ k b)
  | Join x y k => Join x y (then_ k b)
  end.

(** [self.receivers.par_iter().for_each(|r| r.on_receive(..))] (networking/mod.rs:136-138): the receivers in halves or one after the other *)
Inductive dispatch : list code -> code -> Prop :=
| dispatch_none : dispatch [] Return
| dispatch_one r : dispatch [r] r
| dispatch_loop l1 l2 a b : dispatch l1 a -> dispatch l2 b -> dispatch (l1 ++ l2) (then_ a b)
| dispatch_split l1 l2 a b : dispatch l1 a -> dispatch l2 b -> dispatch (l1 ++ l2) (Join a b Return).

(** the closure of [scope_fifo] (networking/mod.rs:133-140): spawns the job that calls the receivers, and waits for it *)
Definition scope (d : code) : code := Join Return d Return.

(** A job being executed: its number, what it does next, what follows after that ([join]s that have to be waited for, innermost first: the number of the other half, and the code after the [join]), the mutexes it has locked. *)
Record frame := Frame { f_job : nat; f_code : code; f_joins : list (nat * code); f_held : list nat }.

(** A thread: of the pool, or another one. What it executes, on top first. *)
Record thread := Thread { t_worker : bool; t_stack : list frame }.

(** The thread of a listener: the job it is blocked on in [scope_fifo], the jobs of the datagrams that it will receive. *)
Record listener := Listener { l_blocked : option nat; l_coming : list code }.

Record state := State {
  s_available : list (nat * code);   (* jobs nobody has taken *)
  s_threads : list thread;
  s_listeners : list listener;
  s_next : nat }.                    (* the number of the next job *)

Definition frames (ts : list thread) : list frame := concat (map t_stack ts).
Definition unfinished (av : list (nat * code)) (ts : list thread) (j : nat) : Prop := In j (map fst av) \/ In j (map f_job (frames ts)).
Definition locked (ts : list thread) (m : nat) : Prop := exists f, In f (frames ts) /\ In m (f_held f).

(** A worker looks for a job if it has none, or waits for the other half of a [join]. *)
Definition looks (st : list frame) : bool :=
  match st with
  | [] => true
  | Frame _ Return (_ :: _) _ :: _ => true
  | _ => false
  end.

Inductive step : state -> state -> Prop :=
(** a listener: receives a datagram and blocks in [scope_fifo]; goes on *)
| step_inject av ts l1 c cs l2 n :
    step (State av ts (l1 ++ Listener None (c :: cs) :: l2) n)
         (State (av ++ [(n, c)]) ts (l1 ++ Listener (Some n) cs :: l2) (S n))
| step_unblock av ts l1 j cs l2 n :
    ~ unfinished av ts j ->
    step (State av ts (l1 ++ Listener (Some j) cs :: l2) n)
         (State av ts (l1 ++ Listener None cs :: l2) n)
(** a worker takes a job *)
| step_take a1 j c a2 t1 st t2 ls n :
    looks st = true ->
    step (State (a1 ++ (j, c) :: a2) (t1 ++ Thread true st :: t2) ls n)
         (State (a1 ++ a2) (t1 ++ Thread true (Frame j c [] [] :: st) :: t2) ls n)
(** what is on top of a stack goes on *)
| step_work av t1 w j k js h st t2 ls n :
    step (State av (t1 ++ Thread w (Frame j (Work k) js h :: st) :: t2) ls n)
         (State av (t1 ++ Thread w (Frame j k js h :: st) :: t2) ls n)
| step_lock av t1 w j m k js h st t2 ls n :
    ~ locked (t1 ++ Thread w (Frame j (Lock m k) js h :: st) :: t2) m ->
    step (State av (t1 ++ Thread w (Frame j (Lock m k) js h :: st) :: t2) ls n)
         (State av (t1 ++ Thread w (Frame j k js (m :: h) :: st) :: t2) ls n)
| step_unlock av t1 w j m k js h st t2 ls n :
    In m h ->
    step (State av (t1 ++ Thread w (Frame j (Unlock m k) js h :: st) :: t2) ls n)
         (State av (t1 ++ Thread w (Frame j k js (remove Nat.eq_dec m h) :: st) :: t2) ls n)
| step_join av t1 w j a b k js h st t2 ls n :
    step (State av (t1 ++ Thread w (Frame j (Join a b k) js h :: st) :: t2) ls n)
         (State (av ++ [(n, b)]) (t1 ++ Thread w (Frame j a ((n, k) :: js) h :: st) :: t2) ls (S n))
(** the first half is done: if the other is as well, on with what follows *)
| step_joined av t1 w j i k js h st t2 ls n :
    ~ unfinished av (t1 ++ Thread w (Frame j Return ((i, k) :: js) h :: st) :: t2) i ->
    step (State av (t1 ++ Thread w (Frame j Return ((i, k) :: js) h :: st) :: t2) ls n)
         (State av (t1 ++ Thread w (Frame j k js h :: st) :: t2) ls n)
(** a job is finished *)
| step_finish av t1 w j h st t2 ls n :
    step (State av (t1 ++ Thread w (Frame j Return [] h :: st) :: t2) ls n)
         (State av (t1 ++ Thread w st :: t2) ls n).

Inductive run : state -> nat -> state -> Prop :=
| run_none s : run s 0 s
| run_more s n s' s'' : run s n s' -> step s' s'' -> run s (S n) s''.

(** A process with a pool of [workers] threads, listeners that will receive the datagrams with the given jobs, and other threads, executing [others]. *)
Definition init (workers : nat) (others : list code) (listeners : list (list code)) : state :=
  State [] (repeat (Thread true []) workers ++ map (fun x => Thread false [Frame (fst x) (snd x) [] []]) (combine (seq 0 (length others)) others))
    (map (Listener None) listeners) (length others).
