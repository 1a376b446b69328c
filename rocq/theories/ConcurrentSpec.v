(** * ConcurrentSpec: vocabulary for properties of concurrent calls of [IPv8::new] *)
From Coq Require Import Strings.String.
From Verif Require Import Base Serde Codec Universe Packet Community Network Ipv8 Ipv8Spec Concurrent.
Open Scope nat_scope.

(** the state after some history, from the start of the program *)
Definition reachable (s : state) : Prop := exists h, run initial h s.

(** the thread a step of a call belongs to *)
Definition thread_of (l : label) : option nat :=
  match l with
  | LCall t _ | LOnceEnter t | LOncePass t | LBuild t _ | LOnceLeave t | LCheckPool t
  | LBindReceiver t _ | LBindSender t _ | LDropReceiver t | LReturn t _ => Some t
  | _ => None
  end.
Definition is_build (l : label) : bool := match l with LBuild _ _ => true | _ => false end.
(** rayon's global pool comes into being *)
Definition sets_pool (l : label) : bool := match l with LBuild _ true | LInitPool _ => true | _ => false end.
Definition is_bind (l : label) : bool :=
  match l with LBindReceiver _ _ | LBindSender _ _ => true | _ => false end.
Definition is_call (l : label) : bool := match l with LCall _ _ => true | _ => false end.
Definition is_return_of (t : nat) (l : label) : bool := match l with LReturn u _ => u =? t | _ => false end.
Definition is_pool_error (l : label) : bool := match l with LReturn _ (Err EPoolError) => true | _ => false end.
(** a step of thread [t] *)
Definition is_step_of (t : nat) (l : label) : bool :=
  match thread_of l with Some u => u =? t | None => false end.
(** a step of some call in progress *)
Definition is_call_step (l : label) : bool :=
  match thread_of l with Some _ => negb (is_call l) | None => false end.

Definition count (f : label -> bool) (h : list label) : nat := length (filter f h).

(** who has to close a socket *)
Inductive owner :=
| ByCall (t : nat)       (* a call of [new] in progress, or a value on its way to the caller *)
| ByInstance (i : nat)   (* the i-th live IPv8 value *)
| ByListener (i : nat)   (* the i-th listening thread *)
| ByOther (i : nat).     (* the rest of the program *)

Definition held (p : program_point) : list nat :=
  match p with
  | BindingSender _ fd | DroppingReceiver fd _ => [fd]
  | Returning (Ok i) => [in_receiver i; in_sender i]
  | _ => []
  end.

Definition owns (s : state) (o : owner) (fd : nat) : Prop :=
  match o with
  | ByCall t => In fd (held (st_threads s t))
  | ByInstance k => exists i, nth_error (st_instances s) k = Some i /\ In fd [in_receiver i; in_sender i]
  | ByListener k => nth_error (st_listeners s) k = Some fd
  | ByOther k => nth_error (st_others s) k = Some fd
  end.

(** the OS does not refuse a bind of the library with an error that is the library's own *)
Definition honest (l : label) : Prop :=
  match l with
  | LBindReceiver _ env | LBindSender _ env => forall a, env_refuse env a <> Some EPoolError
  | _ => True
  end.

(** descriptors of the open sockets *)
Definition open_fds (s : state) : list nat := map fst (st_sockets s).
Definition address_of (s : state) (fd : nat) (a : address) : Prop := In (fd, a) (st_sockets s).

Definition idle (s : state) : Prop := forall t, st_threads s t = Outside.
(** thread [t] can take a step of its call *)
Definition can_step (s : state) (t : nat) : Prop :=
  exists l s', thread_of l = Some t /\ is_call l = false /\ step s l s'.

(** the address really bound for a configured one: the same, or with a port chosen by the OS for port 0 *)
Definition bound_as (a r : address) : Prop := r = a \/ (addr_port a = 0%N /\ exists p, r = with_port a p).

Definition addresses (cfg : config) : list address := [cf_receiving_address cfg; cf_sending_address cfg].

(** threads below [n] only *)
Definition at_most_threads (n : nat) (s : state) : Prop := forall t, n <= t -> st_threads s t = Outside.

(** A race for the sending address [A]: only calls of [new], all configured to send from [A] and to receive on any
    free port; the pool can be built, the OS refuses nothing and picks free ports. *)
Definition free_ports (A : address) (env : environment) : Prop :=
  (forall a, env_refuse env a = None) /\
  (forall open a, addr_port a = 0%N -> Forall (fun b => ~ clash (with_port a (env_ephemeral env open a)) b) (A :: open)).
Definition racing (A : address) (l : label) : Prop :=
  match l with
  | LCall _ cfg => cf_sending_address cfg = A /\ addr_port (cf_receiving_address cfg) = 0%N
  | LBuild _ ok => ok = true
  | LBindReceiver _ env | LBindSender _ env => free_ports A env
  | _ => thread_of l <> None
  end.
Definition is_success (l : label) : bool := match l with LReturn _ (Ok _) => true | _ => false end.

(** a step of thread [t] inside a call, in the environment [env] of Ipv8.v *)
Definition alone (t : nat) (env : environment) (l : label) : Prop :=
  is_step_of t l = true /\ is_return_of t l = false /\ is_call l = false /\
  match l with
  | LBuild _ ok => ok = env_pool_ok env
  | LBindReceiver _ e | LBindSender _ e => e = env
  | _ => True
  end.
