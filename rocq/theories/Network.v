(** * Network: networking/mod.rs

    The receiving side ([NetworkReceiver::listen], mod.rs:103-143) as a labelled transition system. The state
    holds the part of the operating system the loop talks to (queue of the UDP socket, readiness
    flag of the edge-triggered poll registration), the shared receive buffer and the position in the
    loop; transitions of the environment (datagrams arriving, OS errors, receivers returning or
    panicking, order in which the pool runs receivers) are interleaved arbitrarily. *)
From Verif Require Import Base Codec.
Open Scope nat_scope.

(** A UDP datagram waiting in the socket: payload and source address. *)
Definition datagram := (list byte * address)%type.

(** Parameters fixed when the listener starts: [Config.buffersize], whether [Config.pollinterval] is a
    timeout (configuration.rs:15, 18), and the number of receivers in [NetworkReceiver.receivers]
    (mod.rs:59-64), which are numbered 0, 1, ... in the order of [add_receiver] (mod.rs:146-148). No receiver
    can be added later, because [start] consumes the [NetworkReceiver] (mod.rs:87-101). *)
Record net_config := {
  nc_buffersize : nat;
  nc_has_timeout : bool;
  nc_receivers : nat }.

(** Why the listener thread ended: [listen] returned an error and the [unwrap] in [start]
    panicked the I/O thread (mod.rs:93-100), or a panic of a receiver was propagated by rayon. *)
Inductive stop_reason :=
| StoppedByError (e : error)
| StoppedByPanic.

(** Position in the loop (mod.rs:122-142). *)
Inductive loop_pc :=
| Polling                              (* blocked in, or about to call, poll.poll (123) *)
| Handling (events : nat)              (* in [for _ in events.iter()], that many iterations left (125) *)
| Dispatching (events : nat)           (* inside scope_fifo (133-140): *)
    (pkt : list byte) (src : address)  (*   the packet and address captured by the closures *)
    (pending : list nat)               (*   receivers not called yet for this packet *)
    (running : list nat)               (*   receivers being executed by some worker thread *)
    (panicked : bool)                  (*   some receiver panicked on this packet *)
| Stopped (r : stop_reason).

Record net_state := {
  ns_queue : list datagram;   (* datagrams in the socket's receive queue, oldest first *)
  ns_edge : bool;             (* readiness not yet reported by the edge-triggered registration (120) *)
  ns_buffer : list byte;      (* the buffer of [buffersize] bytes allocated once (116-117) *)
  ns_pc : loop_pc }.

(** Just before the first poll; [q] is what arrived between [bind] and the registration, for
    which the registration reports readiness. The buffer is [vec![0; buffersize]]. *)
Definition net_init (c : net_config) (q : list datagram) : net_state := {|
  ns_queue := q;
  ns_edge := match q with [] => false | _ => true end;
  ns_buffer := repeat x00 (nc_buffersize c);
  ns_pc := Polling |}.

(** [self.socket.recv_from(buffer)] (128): copies at most the buffer's length (the rest of the datagram
    is discarded by the OS) and returns the number of bytes copied. *)
Definition recv_into (data buffer : list byte) : list byte * nat :=
  let n := Nat.min (length data) (length buffer) in
  (firstn n data ++ skipn n buffer, n).

Definition set_pc (s : net_state) (pc : loop_pc) : net_state := {|
  ns_queue := ns_queue s; ns_edge := ns_edge s; ns_buffer := ns_buffer s; ns_pc := pc |}.

(** What happens in one step; calls of receivers carry everything the receiver is given. *)
Inductive label :=
| LArrive (d : datagram)                              (* the OS queues a datagram *)
| LPoll (events : nat)                                (* poll returns *)
| LPollError (e : error)                              (* poll fails *)
| LNext                                               (* the for loop over the events ends *)
| LRecv                                               (* recv_from returns a datagram *)
| LRecvError (e : error)                              (* recv_from fails *)
| LCall (r : nat) (pkt : list byte) (src : address)   (* receiver r's on_receive is entered *)
| LReturn (r : nat)                                   (* ... returns *)
| LPanic (r : nat)                                    (* ... panics *)
| LScopeEnd.                                          (* scope_fifo returns or propagates a panic *)

Inductive step (c : net_config) : net_state -> label -> net_state -> Prop :=
(** A datagram is queued, at any moment; a new edge. *)
| step_arrive s d :
    step c s (LArrive d)
      {| ns_queue := ns_queue s ++ [d]; ns_edge := true;
         ns_buffer := ns_buffer s; ns_pc := ns_pc s |}
(** One socket is registered, so an edge is reported as one event (120, 123). *)
| step_poll_ready s :
    ns_pc s = Polling -> ns_edge s = true ->
    step c s (LPoll 1)
      {| ns_queue := ns_queue s; ns_edge := false;
         ns_buffer := ns_buffer s; ns_pc := Handling 1 |}
(** Poll returns without events only when a timeout is set. *)
| step_poll_timeout s :
    ns_pc s = Polling -> nc_has_timeout c = true ->
    step c s (LPoll 0) (set_pc s (Handling 0))
(** [poll.poll(..)?] *)
| step_poll_error s e :
    ns_pc s = Polling ->
    step c s (LPollError e) (set_pc s (Stopped (StoppedByError e)))
| step_next s :
    ns_pc s = Handling 0 ->
    step c s LNext (set_pc s Polling)
(** [recv_from], [Packet(buffer[..recv_size].to_vec()).clone()], and entering scope_fifo (128-133) *)
| step_recv s k data src q :
    ns_pc s = Handling (S k) -> ns_queue s = (data, src) :: q ->
    step c s LRecv
      (let '(buffer, recv_size) := recv_into data (ns_buffer s) in
       {| ns_queue := q; ns_edge := ns_edge s; ns_buffer := buffer;
          ns_pc := Dispatching k (firstn recv_size buffer) src
                     (seq 0 (nc_receivers c)) [] false |})
(** The socket is non-blocking: nothing to receive is an error, like any other OS error, which may
    come at any time. [?] ends the loop. *)
| step_recv_empty s k :
    ns_pc s = Handling (S k) -> ns_queue s = [] ->
    step c s (LRecvError EWouldBlock) (set_pc s (Stopped (StoppedByError EWouldBlock)))
| step_recv_error s k :
    ns_pc s = Handling (S k) ->
    step c s (LRecvError EIo) (set_pc s (Stopped (StoppedByError EIo)))
(** [par_iter().for_each(|r| r.on_receive(packet.clone(), Address(address)))] (136-138): any pending receiver
    may be started by some worker at any moment, and workers run concurrently *)
| step_call s k pkt src before r after running pan :
    ns_pc s = Dispatching k pkt src (before ++ r :: after) running pan ->
    step c s (LCall r pkt src)
      (set_pc s (Dispatching k pkt src (before ++ after) (r :: running) pan))
| step_return s k pkt src pending before r after pan :
    ns_pc s = Dispatching k pkt src pending (before ++ r :: after) pan ->
    step c s (LReturn r)
      (set_pc s (Dispatching k pkt src pending (before ++ after) pan))
| step_panic s k pkt src pending before r after pan :
    ns_pc s = Dispatching k pkt src pending (before ++ r :: after) pan ->
    step c s (LPanic r)
      (set_pc s (Dispatching k pkt src pending (before ++ after) true))
(** scope_fifo waits for everything spawned in it; then the loop goes on *)
| step_scope_end s k pkt src :
    ns_pc s = Dispatching k pkt src [] [] false ->
    step c s LScopeEnd (set_pc s (Handling k))
(** after a panic rayon lets running receivers finish, may skip pending ones, and re-panics in the
    listener thread *)
| step_scope_panic s k pkt src pending :
    ns_pc s = Dispatching k pkt src pending [] true ->
    step c s LScopeEnd (set_pc s (Stopped StoppedByPanic)).

(** Executions: [run c s tr s'] - from [s], performing the labels [tr] in this order, to [s']. *)
Inductive run (c : net_config) : net_state -> list label -> net_state -> Prop :=
| run_nil s : run c s [] s
| run_snoc s tr s' l s'' : run c s tr s' -> step c s' l s'' -> run c s (tr ++ [l]) s''.

(** ** The sending side *)

(** [NetworkSender::send] (mod.rs:49-51). [os_send_to] is the operating system: given bytes and
    destination, the number of bytes sent or an error; the first component logs what was handed to it. *)
Definition network_send (os_send_to : list byte -> address -> outcome nat)
  (dst : address) (p : packet) : list (list byte * address) * outcome nat :=
  let raw := packet_bytes p in
  ([(raw, dst)], let* n := os_send_to raw dst in Ok n).
