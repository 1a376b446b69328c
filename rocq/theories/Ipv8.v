(** * Ipv8: lib.rs and configuration.rs *)
From Coq Require Import Strings.String.
From Verif Require Import Base Serde Codec Universe Packet Community Network.
Open Scope nat_scope.

(** ** configuration.rs *)

(** [pub struct Config] (configuration.rs:11-28); [pollinterval] in milliseconds *)
Record config := {
  cf_queuesize : nat;
  cf_buffersize : nat;
  cf_pollinterval : option N;
  cf_threadcount : nat;
  cf_default_hosts : list address;
  cf_sending_address : address;
  cf_receiving_address : address }.

Definition v4 (a b c d port : N) : address :=
  V4 (byte_of_N a) (byte_of_N b) (byte_of_N c) (byte_of_N d) port.

(** [impl Default for Config] (configuration.rs:30-105) *)
Definition config_default : config := {|
  cf_queuesize := 100;
  cf_buffersize := 2048;
  cf_pollinterval := None;
  cf_threadcount := 0;
  cf_sending_address := v4 0 0 0 0 8000;
  cf_receiving_address := v4 0 0 0 0 0;
  cf_default_hosts := [
    v4 130 161 119 206 6421;
    v4 130 161 119 206 6422;
    v4 131 180 27 155 6423;
    v4 131 180 27 156 6424;
    v4 131 180 27 161 6427;
    v4 131 180 27 161 6427;
    v4 131 180 27 161 6521;
    v4 131 180 27 161 6522;
    v4 131 180 27 162 6523;
    v4 131 180 27 162 6524;
    v4 130 161 119 215 6525;
    v4 130 161 119 215 6526;
    v4 81 171 27 194 6527;
    v4 81 171 27 194 6528 ] |}.

(** ** The operating system's view of UDP sockets *)

Definition addr_port (a : address) : N :=
  match a with V4 _ _ _ _ p => p | V6 _ p _ _ => p end.
Definition addr_ip (a : address) : list byte :=
  match a with V4 x y z w _ => [x; y; z; w] | V6 o _ _ _ => o end.
Definition with_port (a : address) (p : N) : address :=
  match a with V4 x y z w _ => V4 x y z w p | V6 o _ f s => V6 o p f s end.
Definition is_wildcard (ip : list byte) : bool := forallb (Byte.eqb x00) ip.

(** Two bindings conflict when the ports are equal and the hosts are equal or one of them is the wildcard
    (simplification: IPv6 wildcard sockets are taken to be dual-stack; SO_REUSEADDR / SO_REUSEPORT are not
    set by mio). *)
Definition conflict (a b : address) : bool :=
  (addr_port a =? addr_port b)%N &&
  (bytes_eqb (addr_ip a) (addr_ip b) || is_wildcard (addr_ip a) || is_wildcard (addr_ip b)).

(** Choices of the environment during one [IPv8::new]: whether the thread pool can be built, whether the
    OS has another reason to refuse a socket (permissions, foreign address, descriptor limit), and
    which port it picks for a bind to port 0. *)
Record environment := {
  env_pool_ok : bool;
  env_refuse : address -> option error;
  env_ephemeral : list address -> address -> N }.

(** [UdpSocket::bind(&addr)] with the sockets [bound] already open: the address really bound.
    Port 0 asks the OS for a port that is free. *)
Definition os_bind (env : environment) (bound : list address) (a : address) : outcome address :=
  let a' := if (addr_port a =? 0)%N then with_port a (env_ephemeral env bound a) else a in
  match env_refuse env a with
  | Some e => Err e
  | None => if existsb (conflict a') bound then Err EAddrInUse else Ok a'
  end.

(** ** The process: lib.rs *)

(** [pub struct IPv8] (lib.rs:33-43), with the receivers of [NetworkReceiver] (networking/mod.rs:59-64)
    as a list of tags. *)
Record ipv8 := {
  iv_config : config;
  iv_receiver_socket : address;
  iv_receivers : list nat;
  iv_sender_socket : address;
  iv_communities : registry }.

(** What [NetworkReceiver::start] moves into the I/O thread (networking/mod.rs:87-101). *)
Record listener := {
  li_socket : address;
  li_receivers : list nat;
  li_config : config }.

(** State of the process: whether the [Once] (lib.rs:46-47) has run, the global pools built (all calls of
    [build_global], with their thread count), live [IPv8] values and running listeners.
    Instances live in slots; a dropped or started one leaves an empty slot. *)
Record process := {
  pr_once : bool;
  pr_pools : list nat;
  pr_instances : list (option ipv8);
  pr_listeners : list listener;
  pr_other_sockets : list address  (* sockets opened by the rest of the program *) }.

Definition process_init (others : list address) : process := {|
  pr_once := false; pr_pools := []; pr_instances := []; pr_listeners := [];
  pr_other_sockets := others |}.

(** All sockets open in the process. *)
Definition open_sockets (p : process) : list address :=
  flat_map (fun o => match o with
                     | Some i => [iv_receiver_socket i; iv_sender_socket i]
                     | None => []
                     end) (pr_instances p)
  ++ map li_socket (pr_listeners p) ++ pr_other_sockets p.

(** [THREADPOOL_START.call_once(..)] and [s?] (lib.rs:53-67): the pool is built during the first call
    only, and only that call can fail because of it *)
Definition setup_pool (env : environment) (cfg : config) (p : process) : process * outcome unit :=
  if pr_once p then (p, Ok tt)
  else
    let p' ok := {| pr_once := true;
                    pr_pools := if ok : bool then pr_pools p ++ [cf_threadcount cfg] else pr_pools p;
                    pr_instances := pr_instances p; pr_listeners := pr_listeners p;
                    pr_other_sockets := pr_other_sockets p |} in
    if env_pool_ok env then (p' true, Ok tt) else (p' false, Err EPoolError).

(** [NetworkReceiver::new], [NetworkSender::new] (networking/mod.rs:41-46, 69-79), [IPv8::new] (lib.rs:51-77).
    When the second bind fails the receiver, and with it its socket, is dropped. *)
Definition ipv8_new (env : environment) (cfg : config) (p : process) : process * outcome ipv8 :=
  match setup_pool env cfg p with
  | (p, Err e) => (p, Err e)
  | (p, Panic q) => (p, Panic q)
  | (p, Ok _) =>
      match os_bind env (open_sockets p) (cf_receiving_address cfg) with
      | Err e => (p, Err e)
      | Panic q => (p, Panic q)
      | Ok r =>
          match os_bind env (r :: open_sockets p) (cf_sending_address cfg) with
          | Err e => (p, Err e)
          | Panic q => (p, Panic q)
          | Ok s =>
              let i := {| iv_config := cfg; iv_receiver_socket := r; iv_receivers := [];
                          iv_sender_socket := s; iv_communities := registry_default |} in
              ({| pr_once := pr_once p; pr_pools := pr_pools p;
                  pr_instances := pr_instances p ++ [Some i];
                  pr_listeners := pr_listeners p; pr_other_sockets := pr_other_sockets p |},
               Ok i)
          end
      end
  end.

Fixpoint set_nth {A} (n : nat) (x : A) (l : list A) : list A :=
  match l, n with
  | [], _ => []
  | _ :: r, O => x :: r
  | y :: r, S n' => y :: set_nth n' x r
  end.

Definition with_instances (p : process) (l : list (option ipv8)) : process := {|
  pr_once := pr_once p; pr_pools := pr_pools p; pr_instances := l;
  pr_listeners := pr_listeners p; pr_other_sockets := pr_other_sockets p |}.

(** What can happen to instances. Values are affine: an operation on an empty slot cannot be
    written in Rust, and is a no-op here. *)
Inductive call :=
| CNew (env : environment) (cfg : config)                 (* IPv8::new *)
| CAddReceiver (i : nat) (receiver : nat)                 (* ipv8.network_receiver.add_receiver *)
| CAddCommunity (i : nat) (c : community)                 (* ipv8.communities.add_community *)
| CStart (i : nat)                                        (* ipv8.start() *)
| CDrop (i : nat)                                         (* the value goes out of scope *)
| CListenerEnds (i : nat).                                (* the I/O thread of running listener i ends *)

Definition get_instance (p : process) (i : nat) : option ipv8 :=
  match nth_error (pr_instances p) i with
  | Some (Some v) => Some v
  | _ => None
  end.

(** [NetworkReceiver::add_receiver] (networking/mod.rs:146-148), [CommunityRegistry::add_community],
    [IPv8::start] (lib.rs:80-82): [start] takes [self], hands [network_receiver] to the new
    thread and drops everything else ([config], [network_sender] with its socket, [communities]).
    The I/O thread ends when [listen] returns an error or a receiver panics (networking/mod.rs:93-100, Network.v);
    [listen] owns the [NetworkReceiver] (mod.rs:104-109), so its socket is closed then. *)
Definition do_call (p : process) (c : call) : process :=
  match c with
  | CNew env cfg => fst (ipv8_new env cfg p)
  | CAddReceiver i r =>
      match get_instance p i with
      | Some v => with_instances p (set_nth i (Some
          {| iv_config := iv_config v; iv_receiver_socket := iv_receiver_socket v;
             iv_receivers := iv_receivers v ++ [r];
             iv_sender_socket := iv_sender_socket v; iv_communities := iv_communities v |})
          (pr_instances p))
      | None => p
      end
  | CAddCommunity i c =>
      match get_instance p i with
      | Some v => with_instances p (set_nth i (Some
          {| iv_config := iv_config v; iv_receiver_socket := iv_receiver_socket v;
             iv_receivers := iv_receivers v;
             iv_sender_socket := iv_sender_socket v;
             iv_communities := fst (add_community (iv_communities v) c) |})
          (pr_instances p))
      | None => p
      end
  | CStart i =>
      match get_instance p i with
      | Some v =>
          {| pr_once := pr_once p; pr_pools := pr_pools p;
             pr_instances := set_nth i None (pr_instances p);
             pr_listeners := pr_listeners p ++
               [{| li_socket := iv_receiver_socket v; li_receivers := iv_receivers v;
                   li_config := iv_config v |}];
             pr_other_sockets := pr_other_sockets p |}
      | None => p
      end
  | CDrop i => with_instances p (set_nth i None (pr_instances p))
  | CListenerEnds i =>
      {| pr_once := pr_once p; pr_pools := pr_pools p; pr_instances := pr_instances p;
         pr_listeners := firstn i (pr_listeners p) ++ skipn (S i) (pr_listeners p);
         pr_other_sockets := pr_other_sockets p |}
  end.

Definition do_calls (p : process) (l : list call) : process := fold_left do_call l p.

(** Configuration of the listen loop a started instance runs (networking/mod.rs:87-101). *)
Definition net_config_of (l : listener) : net_config := {|
  nc_buffersize := cf_buffersize (li_config l);
  nc_has_timeout := match cf_pollinterval (li_config l) with Some _ => true | None => false end;
  nc_receivers := length (li_receivers l) |}.
