(** * Pool: several started instances in one process, sharing rayon's global thread pool

    [IPv8::new] configures one global pool (lib.rs:47-67), and every started listener runs its receivers on it:
    [scope_fifo] and [par_iter] in [NetworkReceiver::listen] (networking/mod.rs:133-140) always mean the
    global pool. The listener threads themselves are spawned with [thread::spawn] (networking/mod.rs:93) and are
    no members of the pool: they block in [scope_fifo] and never execute a receiver. *)
From Verif Require Import Base Codec Network.
Open Scope nat_scope.

(** The listeners started so far, in the order of [NetworkReceiver::start] (networking/mod.rs:87-101), each with the
    parameters it was started with. *)
Definition pool_state := list (net_config * net_state).

(** Receivers of a listener being executed by workers of the pool. *)
Definition running_of (s : net_state) : list nat :=
  match ns_pc s with
  | Dispatching _ _ _ _ running _ => running
  | _ => []
  end.
Definition busy_workers (ps : pool_state) : nat :=
  fold_right (fun x n => length (running_of (snd x)) + n) 0 ps.

Inductive pool_label :=
| GStart (c : net_config) (q : list datagram)  (* a listener is started; q arrived since its socket was bound *)
| GStep (i : nat) (l : label).                 (* listener i does l *)

(** Everything a listener does on its own (networking/mod.rs:103-143), except that a receiver can only be entered
    (networking/mod.rs:136-138) when one of the [workers] threads of the pool is free. A worker executes one receiver at a
    time. Simplification: which free worker takes which receiver, and rayon's splitting of the list of receivers, are left
    open (any pending receiver may be started whenever a worker is free; Rayon.v models jobs and stealing, and C115 relates the two); receivers using rayon themselves are not
    modelled. *)
Inductive pool_step (workers : nat) : pool_state -> pool_label -> pool_state -> Prop :=
| pool_start ps c q :
    pool_step workers ps (GStart c q) (ps ++ [(c, net_init c q)])
| pool_listener ps1 c s ps2 l s' :
    step c s l s' ->
    (forall r pkt src, l = LCall r pkt src -> busy_workers (ps1 ++ (c, s) :: ps2) < workers) ->
    pool_step workers (ps1 ++ (c, s) :: ps2) (GStep (length ps1) l) (ps1 ++ (c, s') :: ps2).

Inductive pool_run (workers : nat) : pool_state -> list pool_label -> pool_state -> Prop :=
| pool_run_nil ps : pool_run workers ps [] ps
| pool_run_snoc ps tr ps' l ps'' :
    pool_run workers ps tr ps' -> pool_step workers ps' l ps'' -> pool_run workers ps (tr ++ [l]) ps''.
