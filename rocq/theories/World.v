(** * World: programs on several hosts, connected by UDP (networking/mod.rs)

    Network.v is one listener on one socket. Here any number of [NetworkSender]s and [NetworkReceiver]s (mod.rs:34-52,
    59-101), on any number of hosts, are created, used, started and dropped, and the network between them loses, duplicates,
    delays and reorders datagrams and carries whatever anybody else sends. An [IPv8] instance is one of each (lib.rs:33-43); since the
    fields of [IPv8] are public, programs can use them separately, which is why the sockets are modelled separately. *)
From Verif Require Import Base Codec Network Ipv8.
Open Scope nat_scope.

(** ** The network between the hosts *)

(** [route h ip]: the host reached from host [h] under the IP address [ip], if any (on the same host for a loopback
    address). [source_for h dst src]: host [h] may put [src] as source into datagrams for [dst]. *)
Record topology := {
  route : nat -> list byte -> option nat;
  source_for : nat -> list byte -> list byte -> Prop }.

(** A datagram on its way: the host it comes from (really), source and destination as written in it, and its content. *)
Record message := {
  m_origin : nat;
  m_from : address;
  m_to : address;
  m_data : list byte }.

(** What a socket's queue keeps of it: [recv_from] returns content and source (mod.rs:128). *)
Definition datagram_of (m : message) : datagram := (m_data m, m_from m).

(** ** Sockets *)

(** What a program has behind a socket. Unread datagrams of sockets nobody listens on stay in the queue. *)
Inductive endpoint :=
| Sending (unread : list datagram)                    (* [NetworkSender] (mod.rs:34-37): it has no method that receives *)
| Waiting (receivers : nat) (unread : list datagram)  (* [NetworkReceiver] (mod.rs:59-64), not started *)
| Listening (c : net_config) (s : net_state)          (* a started one (mod.rs:87-143) *)
| Closed.                                             (* the value was dropped, or its process ended *)

Record socket := {
  sk_host : nat;
  sk_address : address;
  sk_end : endpoint }.

(** A socket is open until its owner is dropped. [listen] owns the receiver (mod.rs:104-109), so that happens also
    when the listening thread ends. *)
Definition is_open (e : endpoint) : bool :=
  match e with
  | Sending _ | Waiting _ _ => true
  | Listening _ s => match ns_pc s with Stopped _ => false | _ => true end
  | Closed => false
  end.

(** All sockets ever created, and all datagrams ever sent: the network may deliver each of these never, once, or several
    times, at any later time, in any order. *)
Record world := {
  w_sockets : list socket;
  w_sent : list message }.

Definition world_init : world := {| w_sockets := []; w_sent := [] |}.

Definition add_socket (w : world) (h : nat) (a : address) (e : endpoint) : world := {|
  w_sockets := w_sockets w ++ [{| sk_host := h; sk_address := a; sk_end := e |}];
  w_sent := w_sent w |}.
Definition set_end (w : world) (k : nat) (s : socket) (e : endpoint) : world := {|
  w_sockets := set_nth k {| sk_host := sk_host s; sk_address := sk_address s; sk_end := e |} (w_sockets w);
  w_sent := w_sent w |}.
Definition put (w : world) (m : message) : world := {|
  w_sockets := w_sockets w;
  w_sent := w_sent w ++ [m] |}.

(** [UdpSocket::bind] (mod.rs:42, 70) on host [h] can succeed with the address [actual]: the requested one, or with a port
    of the OS's choice if port 0 was requested; no open socket of the host conflicts with it. *)
Definition bindable (w : world) (h : nat) (requested actual : address) : Prop :=
  addr_ip actual = addr_ip requested /\
  (addr_port requested <> 0%N -> actual = requested) /\
  addr_port actual <> 0%N /\
  forall s, In s (w_sockets w) -> sk_host s = h -> is_open (sk_end s) = true ->
    conflict actual (sk_address s) = false.

(** The OS gives a datagram to a socket when it reached the socket's host, the port is the socket's, and the IP address
    is the socket's or the socket is bound to the wildcard. *)
Definition accepts (T : topology) (s : socket) (m : message) : Prop :=
  route T (m_origin m) (addr_ip (m_to m)) = Some (sk_host s) /\
  addr_port (m_to m) = addr_port (sk_address s) /\
  (addr_ip (m_to m) = addr_ip (sk_address s) \/ is_wildcard (addr_ip (sk_address s)) = true).

(** A datagram arrives in a socket; for a listener this is [step_arrive] of Network.v. *)
Definition arrive (e : endpoint) (d : datagram) : endpoint :=
  match e with
  | Sending q => Sending (q ++ [d])
  | Waiting n q => Waiting n (q ++ [d])
  | Listening c s => Listening c {| ns_queue := ns_queue s ++ [d]; ns_edge := true;
                                    ns_buffer := ns_buffer s; ns_pc := ns_pc s |}
  | Closed => Closed
  end.

(** The parameters [start] takes from the configuration (mod.rs:87-91), and the receivers moved into the thread. *)
Definition listen_config (cfg : config) (receivers : nat) : net_config := {|
  nc_buffersize := cf_buffersize cfg;
  nc_has_timeout := match cf_pollinterval cfg with Some _ => true | None => false end;
  nc_receivers := receivers |}.

(** ** What happens. Sockets are numbered in the order of their creation. *)
Inductive event :=
| WBindSender (k h : nat) (requested actual : address)    (* NetworkSender::new returns Ok *)
| WBindReceiver (k h : nat) (requested actual : address)  (* NetworkReceiver::new returns Ok *)
| WBindFails (h : nat) (requested : address) (e : error)  (* one of them returns Err *)
| WAddReceiver (k : nat)                                  (* NetworkReceiver::add_receiver *)
| WStart (k : nat) (cfg : config)                         (* NetworkReceiver::start *)
| WClose (k : nat)                                        (* the owner is dropped or its process ends *)
| WSend (k : nat) (p : packet) (m : message)              (* NetworkSender::send returns Ok; m goes out *)
| WSendFails (k : nat) (p : packet) (dst : address) (e : error)
| WInject (m : message)                                   (* anybody else on the network sends anything *)
| WDeliver (k : nat) (m : message)                        (* the OS puts m into the queue of socket k *)
| WListener (k : nat) (l : label).                        (* the listener on socket k does l *)

Inductive wstep (T : topology) : world -> event -> world -> Prop :=
(** [NetworkSender::new] (mod.rs:41-46) *)
| wstep_bind_sender w h a a' :
    bindable w h a a' ->
    wstep T w (WBindSender (length (w_sockets w)) h a a') (add_socket w h a' (Sending []))
(** [NetworkReceiver::new] (mod.rs:69-79): no receivers yet *)
| wstep_bind_receiver w h a a' :
    bindable w h a a' ->
    wstep T w (WBindReceiver (length (w_sockets w)) h a a') (add_socket w h a' (Waiting 0 []))
(** [bind(..)?]: the OS may refuse for any reason *)
| wstep_bind_fails w h a e :
    wstep T w (WBindFails h a e) w
(** [add_receiver] (mod.rs:146-148) *)
| wstep_add_receiver w k s n q :
    nth_error (w_sockets w) k = Some s -> sk_end s = Waiting n q ->
    wstep T w (WAddReceiver k) (set_end w k s (Waiting (S n) q))
(** [start] (mod.rs:87-101): the listener begins with what arrived since the bind *)
| wstep_start w k s n q cfg :
    nth_error (w_sockets w) k = Some s -> sk_end s = Waiting n q ->
    wstep T w (WStart k cfg)
      (set_end w k s (Listening (listen_config cfg n) (net_init (listen_config cfg n) q)))
| wstep_close w k s :
    nth_error (w_sockets w) k = Some s -> is_open (sk_end s) = true ->
    wstep T w (WClose k) (set_end w k s Closed)
(** [send] (mod.rs:49-51): what it hands to the OS goes out with the socket's port and a source IP of the host *)
| wstep_send w k s q os n p m :
    nth_error (w_sockets w) k = Some s -> sk_end s = Sending q ->
    network_send os (m_to m) p = ([(m_data m, m_to m)], Ok n) ->
    m_origin m = sk_host s ->
    addr_port (m_from m) = addr_port (sk_address s) ->
    (addr_ip (m_from m) = addr_ip (sk_address s) \/ is_wildcard (addr_ip (sk_address s)) = true) ->
    source_for T (sk_host s) (addr_ip (m_to m)) (addr_ip (m_from m)) ->
    wstep T w (WSend k p m) (put w m)
| wstep_send_fails w k s q os log p dst e :
    nth_error (w_sockets w) k = Some s -> sk_end s = Sending q ->
    network_send os dst p = (log, Err e) ->
    wstep T w (WSendFails k p dst e) w
| wstep_inject w m :
    wstep T w (WInject m) (put w m)
| wstep_deliver w k s m :
    nth_error (w_sockets w) k = Some s -> is_open (sk_end s) = true ->
    In m (w_sent w) -> accepts T s m ->
    wstep T w (WDeliver k m) (set_end w k s (arrive (sk_end s) (datagram_of m)))
(** one step of [listen] (mod.rs:103-143, Network.v) *)
| wstep_listener w k s c n l n' :
    nth_error (w_sockets w) k = Some s -> sk_end s = Listening c n ->
    step c n l n' -> (forall d, l <> LArrive d) ->
    wstep T w (WListener k l) (set_end w k s (Listening c n')).

(** Executions: [wrun T w tr w'] - from [w], with the events [tr] in this order, to [w']. *)
Inductive wrun (T : topology) : world -> list event -> world -> Prop :=
| wrun_nil w : wrun T w [] w
| wrun_snoc w tr w' e w'' : wrun T w tr w' -> wstep T w' e w'' -> wrun T w (tr ++ [e]) w''.
