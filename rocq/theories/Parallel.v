(** * Parallel: several threads with IPv8 values, and the network they talk to, together

    Concurrent.v interleaves calls of [IPv8::new] on several threads and says which value owns which descriptor, but not what the sockets do.
    World.v says what sockets do, but not who owns them. (Compose.v joins World.v to Ipv8.v, where a call runs to completion before the
    next.) Here the two run side by side: each step of Concurrent.v is performed in the world too, and every
    descriptor of the process is a socket there. Between any two steps of a call other threads, started listeners, other processes and the
    network may do anything. *)
From Verif Require Import Base Codec Network NetSpec Ipv8 World WorldSpec.
From Verif Require Concurrent ConcurrentSpec.
Open Scope nat_scope.

(** [pa_sockets]: the number in the world of the socket behind each descriptor (descriptors count up from 0, Concurrent.v). *)
Record parallel := {
  pa_process : Concurrent.state;
  pa_world : world;
  pa_sockets : list nat }.

Definition parallel_init : parallel := {|
  pa_process := Concurrent.initial; pa_world := world_init; pa_sockets := [] |}.

(** descriptor [fd] of the process is socket [k] of the world *)
Definition is_socket (p : parallel) (fd k : nat) : Prop := nth_error (pa_sockets p) fd = Some k.
Definition socket_number (p : parallel) (fd : nat) : nat := nth fd (pa_sockets p) 0.

(** [UdpSocket::bind(..)?] (networking/mod.rs:42, 70), as the world sees it *)
Definition bind_event (made : address -> event) (h : nat) (env : environment) (bound : list address) (a : address) : list event :=
  match os_bind env bound a with
  | Ok r => [made r]
  | Err e => [WBindFails h a e]
  | Panic _ => []
  end.

(** What a step of the process does to sockets of host [h]; the next socket created has number [k]. The steps of [IPv8::new] (lib.rs:69-76,
    networking/mod.rs:41-46, 69-79), of [start] (lib.rs:80-82, mod.rs:87-101: the receiver's socket goes to the I/O thread, with
    the configuration, the rest is dropped), of dropping a value (its fields in the order of lib.rs:34-42). The sockets the rest of the program
    opens are ones that send, like those of [NetworkSender::new] (simplification). All other steps do nothing to sockets. *)
Definition socket_events (h : nat) (p : parallel) (l : Concurrent.label) : list event :=
  let s := pa_process p in
  let k := length (w_sockets (pa_world p)) in
  match l with
  | Concurrent.LBindReceiver t env =>
      match Concurrent.st_threads s t with
      | Concurrent.BindingReceiver cfg =>
          bind_event (WBindReceiver k h (cf_receiving_address cfg)) h env (Concurrent.bound s) (cf_receiving_address cfg)
      | _ => []
      end
  | Concurrent.LBindSender t env =>
      match Concurrent.st_threads s t with
      | Concurrent.BindingSender cfg _ =>
          bind_event (WBindSender k h (cf_sending_address cfg)) h env (Concurrent.bound s) (cf_sending_address cfg)
      | _ => []
      end
  | Concurrent.LDropReceiver t =>
      match Concurrent.st_threads s t with
      | Concurrent.DroppingReceiver fd _ => [WClose (socket_number p fd)]
      | _ => []
      end
  | Concurrent.LStart i =>
      match nth_error (Concurrent.st_instances s) i with
      | Some v => [WStart (socket_number p (Concurrent.in_receiver v)) (Concurrent.in_config v);
                   WClose (socket_number p (Concurrent.in_sender v))]
      | None => []
      end
  | Concurrent.LDrop i =>
      match nth_error (Concurrent.st_instances s) i with
      | Some v => [WClose (socket_number p (Concurrent.in_receiver v)); WClose (socket_number p (Concurrent.in_sender v))]
      | None => []
      end
  | Concurrent.LOpen env a => bind_event (WBindSender k h a) h env (Concurrent.bound s) a
  | Concurrent.LClose fd => [WClose (socket_number p fd)]
  | _ => []
  end.
(** a step that makes a new descriptor made a new socket *)
Definition sockets_after (p : parallel) (s' : Concurrent.state) : list nat :=
  if Concurrent.st_next s' =? Concurrent.st_next (pa_process p) then pa_sockets p
  else pa_sockets p ++ [length (w_sockets (pa_world p))].

(** Events that are not steps of Concurrent.v: everything about sockets that are not open ones of this process; the network; sending on any socket
    ([network_sender] is a public field, lib.rs:36); [add_receiver] (mod.rs:146-148), but not on a receiver that
    a call of [new] still holds. *)
Definition outside (p : parallel) (e : event) : Prop :=
  match e with
  | WAddReceiver k => forall t fd, In fd (ConcurrentSpec.held (Concurrent.st_threads (pa_process p) t)) -> ~ is_socket p fd k
  | WStart k _ | WClose k | WListener k _ => forall fd, In fd (ConcurrentSpec.open_fds (pa_process p)) -> ~ is_socket p fd k
  | _ => True
  end.

(** One step, of the process on host [h] or of the rest of the world: as Concurrent.v sees it, and as World.v does. A listening thread does not
    stop at will: it does when its last step closes its socket (mod.rs:93-100). *)
Inductive pstep (T : topology) (h : nat) : parallel -> option Concurrent.label -> list event -> parallel -> Prop :=
| pstep_process p l s' w' :
    (forall fd, l <> Concurrent.LListenerStops fd) ->
    Concurrent.step (pa_process p) l s' ->
    wrun T (pa_world p) (socket_events h p l) w' ->
    pstep T h p (Some l) (socket_events h p l) {| pa_process := s'; pa_world := w'; pa_sockets := sockets_after p s' |}
| pstep_listener p fd k l w' s :
    In fd (Concurrent.st_listeners (pa_process p)) -> is_socket p fd k ->
    wstep T (pa_world p) (WListener k l) w' ->
    nth_error (w_sockets w') k = Some s -> is_open (sk_end s) = true ->
    pstep T h p None [WListener k l] {| pa_process := pa_process p; pa_world := w'; pa_sockets := pa_sockets p |}
| pstep_listener_stops p fd k l w' s s' :
    Concurrent.step (pa_process p) (Concurrent.LListenerStops fd) s' -> is_socket p fd k ->
    wstep T (pa_world p) (WListener k l) w' ->
    nth_error (w_sockets w') k = Some s -> is_open (sk_end s) = false ->
    pstep T h p (Some (Concurrent.LListenerStops fd)) [WListener k l]
      {| pa_process := s'; pa_world := w'; pa_sockets := pa_sockets p |}
| pstep_outside p e w' :
    outside p e -> wstep T (pa_world p) e w' ->
    pstep T h p None [e] {| pa_process := pa_process p; pa_world := w'; pa_sockets := pa_sockets p |}.

(** Executions *)
Inductive prun (T : topology) (h : nat) : list (option Concurrent.label * list event) -> parallel -> Prop :=
| prun_nil : prun T h [] parallel_init
| prun_snoc tr p l evs p' : prun T h tr p -> pstep T h p l evs p' -> prun T h (tr ++ [(l, evs)]) p'.

(** The same execution as the process sees it, and as the world sees it. *)
Definition steps_of (tr : list (option Concurrent.label * list event)) : list Concurrent.label :=
  flat_map (fun x => match fst x with Some l => [l] | None => [] end) tr.
Definition world_events (tr : list (option Concurrent.label * list event)) : list event := flat_map snd tr.

(** As [sees_the_host] of Compose.v: an operating system that lets the process bind an address takes the sockets of the other processes of the host
    into account (the process's own ones are in [os_bind]), and its ephemeral ports are ports. *)
Definition knows_the_host (env : environment) (h : nat) (p : parallel) : Prop :=
  forall bound requested actual, os_bind env bound requested = Ok actual ->
    addr_port actual <> 0%N /\
    forall k a, open_at (pa_world p) k h a -> (forall fd, ~ is_socket p fd k) -> conflict actual a = false.
