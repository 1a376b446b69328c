(** * ConfigSpec: what the options of [Config] are said to do, for C136

    configuration.rs:11-28 documents seven options. The code uses [receiving_address], [sending_address] and [threadcount] in [IPv8::new]
    (lib.rs:51-77), and [buffersize], [pollinterval] and [queuesize] in [NetworkReceiver::start] (networking/mod.rs:87-91). *)
From Coq Require Import Strings.String.
From Verif Require Import Base Serde Codec Universe Spec Packet Client Community CommunitySpec Network NetSpec Ipv8 Ipv8Spec World.
Open Scope nat_scope.

(** Two configurations between which a running listener makes no difference: the same size of the buffer, and both with or both without a poll interval. *)
Definition same_buffer_and_timeout (a b : config) : Prop :=
  cf_buffersize a = cf_buffersize b /\ (cf_pollinterval a = None <-> cf_pollinterval b = None).
(** Two configurations between which [IPv8::new] makes no difference. *)
Definition same_addresses_and_threads (a b : config) : Prop :=
  cf_receiving_address a = cf_receiving_address b /\ cf_sending_address a = cf_sending_address b /\ cf_threadcount a = cf_threadcount b.

(** The same programs with other configurations: [f] says which configuration is used instead of another. *)
Definition reconfigured_event (f : config -> config) (e : event) : event :=
  match e with
  | WStart k cfg => WStart k (f cfg)
  | other => other
  end.
Definition reconfigured_call (f : config -> config) (c : call) : call :=
  match c with
  | CNew env cfg => CNew env (f cfg)
  | other => other
  end.

(** What a program can tell about an [IPv8] it got: the sockets; or about the error. *)
Definition answer (r : outcome ipv8) : outcome (address * address) :=
  match r with
  | Ok v => Ok (iv_receiver_socket v, iv_sender_socket v)
  | Err e => Err e
  | Panic x => Panic x
  end.

(** [Events::with_capacity(queuesize)] (networking/mod.rs:113): [Poll::poll] asks the operating system (epoll_wait) for at most that many
    events, which is an error (EINVAL) if it is zero; otherwise one event, for the one registered socket, has room. So these are the executions
    of a listener with queue size [queuesize]; for one or more they are those of Network.v. *)
Definition run_with_queue (queuesize : nat) (c : net_config) (q0 : list datagram) (tr : list label) (s : net_state) : Prop :=
  run c (net_init c q0) tr s /\ (queuesize = 0 -> forall n, ~ In (LPoll n) tr).
