(** * Concurrent: [IPv8::new] called from several threads at once (lib.rs:45-77)

    Ipv8.v runs every call of [IPv8::new] to completion before the next one. Nothing in the code does that: [new]
    is a function without a lock, and only the [Once] inside it synchronises. Here a call is a sequence
    of separate steps (one for each effect another thread can observe) which interleave freely with the steps of
    other calls, with started and dropped instances, with listeners that stop, and with whatever the rest of the
    program does with its own sockets. *)
From Coq Require Import Strings.String.
From Verif Require Import Base Serde Codec Universe Packet Community Network Ipv8.
Open Scope nat_scope.

(** [static THREADPOOL_START: Once] (lib.rs:46-47). [std::sync::Once]: incomplete, running on one thread, complete. *)
Inductive once_state := OnceIncomplete | OnceRunning | OnceComplete.

(** A live [IPv8] value (lib.rs:33-43): its configuration and the descriptors of its two sockets. *)
Record instance := {
  in_config : config;
  in_receiver : nat;
  in_sender : nat }.

(** Where a thread is in [IPv8::new] (lib.rs:51-77). *)
Inductive program_point :=
| Outside                                           (* not inside [new] *)
| AtOnce (cfg : config)                             (* about to do [THREADPOOL_START.call_once] (lib.rs:56) *)
| InClosure (cfg : config)                          (* inside the closure, before [build_global] (lib.rs:57-61) *)
| ClosureDone (cfg : config) (ok : bool)            (* [started] is [Some], the closure returns (lib.rs:62) *)
| AfterOnce (cfg : config) (started : option bool)  (* at [if let Some(s) = started { s? }] (lib.rs:64-66) *)
| BindingReceiver (cfg : config)                    (* at [NetworkReceiver::new] (lib.rs:69) *)
| BindingSender (cfg : config) (receiver : nat)     (* at [NetworkSender::new] (lib.rs:70) *)
| DroppingReceiver (receiver : nat) (e : error)     (* the [?] of lib.rs:70 returns and drops [network_receiver] *)
| Returning (r : outcome instance).                 (* the result is known (lib.rs:71-76) *)

(** The process. [st_pool] is rayon's global pool and its number of threads; [st_sockets] the
    descriptor table (simplification: descriptors are never used again after a close). *)
Record state := {
  st_once : once_state;
  st_pool : option nat;
  st_sockets : list (nat * address);
  st_next : nat;
  st_threads : nat -> program_point;
  st_instances : list instance;
  st_listeners : list nat;
  st_others : list nat }.

Definition at_point (s : state) (t : nat) (p : program_point) : state := {|
  st_once := st_once s; st_pool := st_pool s; st_sockets := st_sockets s; st_next := st_next s;
  st_threads := fun u => if u =? t then p else st_threads s u;
  st_instances := st_instances s; st_listeners := st_listeners s; st_others := st_others s |}.
Definition with_once (s : state) (o : once_state) : state := {|
  st_once := o; st_pool := st_pool s; st_sockets := st_sockets s; st_next := st_next s;
  st_threads := st_threads s;
  st_instances := st_instances s; st_listeners := st_listeners s; st_others := st_others s |}.
Definition with_pool (s : state) (p : option nat) : state := {|
  st_once := st_once s; st_pool := p; st_sockets := st_sockets s; st_next := st_next s;
  st_threads := st_threads s;
  st_instances := st_instances s; st_listeners := st_listeners s; st_others := st_others s |}.
Definition with_owners (s : state) (i : list instance) (l o : list nat) : state := {|
  st_once := st_once s; st_pool := st_pool s; st_sockets := st_sockets s; st_next := st_next s;
  st_threads := st_threads s;
  st_instances := i; st_listeners := l; st_others := o |}.

(** a successful [bind] adds a socket under a new descriptor; closing takes it out *)
Definition open_socket (s : state) (a : address) : state := {|
  st_once := st_once s; st_pool := st_pool s; st_sockets := (st_next s, a) :: st_sockets s;
  st_next := S (st_next s);
  st_threads := st_threads s;
  st_instances := st_instances s; st_listeners := st_listeners s; st_others := st_others s |}.
Definition close_socket (s : state) (fd : nat) : state := {|
  st_once := st_once s; st_pool := st_pool s;
  st_sockets := filter (fun x => negb (fst x =? fd)) (st_sockets s); st_next := st_next s;
  st_threads := st_threads s;
  st_instances := st_instances s; st_listeners := st_listeners s; st_others := st_others s |}.

(** addresses of the sockets open at the moment *)
Definition bound (s : state) : list address := map snd (st_sockets s).

Definition initial : state := {|
  st_once := OnceIncomplete; st_pool := None; st_sockets := []; st_next := 0;
  st_threads := fun _ => Outside; st_instances := []; st_listeners := []; st_others := [] |}.

(** What can be seen to happen. Each step of a call is labelled with its thread. *)
Inductive label :=
| LCall (t : nat) (cfg : config)            (* [IPv8::new] is called *)
| LOnceEnter (t : nat)                      (* [call_once] runs the closure *)
| LOncePass (t : nat)                       (* [call_once] finds the closure complete *)
| LBuild (t : nat) (ok : bool)              (* [build_global] *)
| LOnceLeave (t : nat)                      (* the closure returns *)
| LCheckPool (t : nat)                      (* [if let Some(s) = started { s? }] *)
| LBindReceiver (t : nat) (env : environment)
| LBindSender (t : nat) (env : environment)
| LDropReceiver (t : nat)
| LReturn (t : nat) (r : outcome instance)
| LStart (i : nat)                          (* [start] on a live value *)
| LDrop (i : nat)                           (* a live value goes out of scope *)
| LListenerStops (fd : nat)                 (* a listening thread ends *)
| LOpen (env : environment) (a : address)   (* the rest of the program binds a socket *)
| LClose (fd : nat)                         (* the rest of the program closes one of its sockets *)
| LInitPool (n : nat).                      (* the rest of the program makes rayon set up its global pool *)

Definition return_value (r : outcome instance) : list instance :=
  match r with Ok i => [i] | _ => [] end.

Inductive step : state -> label -> state -> Prop :=
| step_call s t cfg :
    st_threads s t = Outside ->
    step s (LCall t cfg) (at_point s t (AtOnce cfg))
(* std::sync::Once: the first caller runs the closure; a caller that comes while it runs waits (no step), later ones
   pass. lib.rs:53-56: [started] is [None] on these. *)
| step_once_enter s t cfg :
    st_threads s t = AtOnce cfg -> st_once s = OnceIncomplete ->
    step s (LOnceEnter t) (at_point (with_once s OnceRunning) t (InClosure cfg))
| step_once_pass s t cfg :
    st_threads s t = AtOnce cfg -> st_once s = OnceComplete ->
    step s (LOncePass t) (at_point s t (AfterOnce cfg None))
(* lib.rs:57-61; rayon refuses when there is a global pool already, and may fail to start its threads *)
| step_build_ok s t cfg :
    st_threads s t = InClosure cfg -> st_pool s = None ->
    step s (LBuild t true)
      (at_point (with_pool s (Some (cf_threadcount cfg))) t (ClosureDone cfg true))
| step_build_fails s t cfg :
    st_threads s t = InClosure cfg ->
    step s (LBuild t false) (at_point s t (ClosureDone cfg false))
| step_once_leave s t cfg ok :
    st_threads s t = ClosureDone cfg ok ->
    step s (LOnceLeave t) (at_point (with_once s OnceComplete) t (AfterOnce cfg (Some ok)))
(* lib.rs:64-66 *)
| step_check_ok s t cfg started :
    st_threads s t = AfterOnce cfg started -> started <> Some false ->
    step s (LCheckPool t) (at_point s t (BindingReceiver cfg))
| step_check_fails s t cfg :
    st_threads s t = AfterOnce cfg (Some false) ->
    step s (LCheckPool t) (at_point s t (Returning (Err EPoolError)))
(* lib.rs:69, networking/mod.rs:69-79 *)
| step_bind_receiver s t cfg env a :
    st_threads s t = BindingReceiver cfg ->
    os_bind env (bound s) (cf_receiving_address cfg) = Ok a ->
    step s (LBindReceiver t env) (at_point (open_socket s a) t (BindingSender cfg (st_next s)))
| step_bind_receiver_fails s t cfg env e :
    st_threads s t = BindingReceiver cfg ->
    os_bind env (bound s) (cf_receiving_address cfg) = Err e ->
    step s (LBindReceiver t env) (at_point s t (Returning (Err e)))
(* lib.rs:70-76, networking/mod.rs:41-46 *)
| step_bind_sender s t cfg env fd a :
    st_threads s t = BindingSender cfg fd ->
    os_bind env (bound s) (cf_sending_address cfg) = Ok a ->
    step s (LBindSender t env)
      (at_point (open_socket s a) t
         (Returning (Ok {| in_config := cfg; in_receiver := fd; in_sender := st_next s |})))
| step_bind_sender_fails s t cfg env fd e :
    st_threads s t = BindingSender cfg fd ->
    os_bind env (bound s) (cf_sending_address cfg) = Err e ->
    step s (LBindSender t env) (at_point s t (DroppingReceiver fd e))
| step_drop_receiver s t fd e :
    st_threads s t = DroppingReceiver fd e ->
    step s (LDropReceiver t) (at_point (close_socket s fd) t (Returning (Err e)))
| step_return s t r :
    st_threads s t = Returning r ->
    step s (LReturn t r)
      (at_point (with_owners s (st_instances s ++ return_value r) (st_listeners s) (st_others s)) t Outside)
(* lib.rs:80-82: the receiver's socket moves into the listening thread, the sender's is closed.
   The order of values in the list of live instances is immaterial. *)
| step_start s before i after :
    st_instances s = before ++ i :: after ->
    step s (LStart (length before))
      (close_socket (with_owners s (before ++ after) (in_receiver i :: st_listeners s) (st_others s))
         (in_sender i))
| step_drop s before i after :
    st_instances s = before ++ i :: after ->
    step s (LDrop (length before))
      (close_socket (close_socket (with_owners s (before ++ after) (st_listeners s) (st_others s))
         (in_sender i)) (in_receiver i))
(* networking/mod.rs:94-100: [listen] takes [self]; when it ends, by an error or a panic, the socket is dropped *)
| step_listener_stops s before fd after :
    st_listeners s = before ++ fd :: after ->
    step s (LListenerStops fd)
      (close_socket (with_owners s (st_instances s) (before ++ after) (st_others s)) fd)
| step_open s env a b :
    os_bind env (bound s) a = Ok b ->
    step s (LOpen env a)
      (with_owners (open_socket s b) (st_instances s) (st_listeners s) (st_next s :: st_others s))
| step_close s before fd after :
    st_others s = before ++ fd :: after ->
    step s (LClose fd)
      (close_socket (with_owners s (st_instances s) (st_listeners s) (before ++ after)) fd)
| step_init_pool s n :
    st_pool s = None ->
    step s (LInitPool n) (with_pool s (Some n)).

(** a history: any interleaving *)
Inductive run : state -> list label -> state -> Prop :=
| run_nil s : run s [] s
| run_cons s l s1 ls s2 : step s l s1 -> run s1 ls s2 -> run s (l :: ls) s2.
