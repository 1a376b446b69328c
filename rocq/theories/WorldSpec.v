(** * WorldSpec: what can be observed of programs on several hosts

    Functions of the sequence of events only. *)
From Verif Require Import Base Codec Network NetSpec Ipv8 World.
Open Scope nat_scope.

(** everything put on the network, by [send] or by anybody else *)
Fixpoint emitted (tr : list event) : list message :=
  match tr with
  | [] => []
  | WSend _ _ m :: t => m :: emitted t
  | WInject m :: t => m :: emitted t
  | _ :: t => emitted t
  end.
(** what the network delivered to socket [k], in order *)
Fixpoint delivered (k : nat) (tr : list event) : list datagram :=
  match tr with
  | [] => []
  | WDeliver j m :: t => if k =? j then datagram_of m :: delivered k t else delivered k t
  | _ :: t => delivered k t
  end.
(** what happened at socket [k]: arrivals, and what its listener did *)
Fixpoint trace_at (k : nat) (tr : list event) : list label :=
  match tr with
  | [] => []
  | WDeliver j m :: t => if k =? j then LArrive (datagram_of m) :: trace_at k t else trace_at k t
  | WListener j l :: t => if k =? j then l :: trace_at k t else trace_at k t
  | _ :: t => trace_at k t
  end.
(** how many receivers were added to socket [k] *)
Fixpoint added (k : nat) (tr : list event) : nat :=
  match tr with
  | [] => 0
  | WAddReceiver j :: t => (if k =? j then 1 else 0) + added k t
  | _ :: t => added k t
  end.

Definition is_inject (e : event) : Prop := match e with WInject _ => True | _ => False end.

(** No address translation: a host can answer. Whatever host [h'] datagrams from [h] to [dst] reach, datagrams from there to the
    source address written in them reach [h]. *)
Definition symmetric_routes (T : topology) : Prop :=
  forall h dst src h', route T h dst = Some h' -> source_for T h dst src -> route T h' src = Some h.

(** socket [k] of the world is open, on host [h], bound to [a] *)
Definition open_at (w : world) (k h : nat) (a : address) : Prop :=
  exists e, nth_error (w_sockets w) k = Some {| sk_host := h; sk_address := a; sk_end := e |} /\ is_open e = true.

(** a listener set up as the configuration says: the buffer size, a poll timeout exactly if there is a poll interval, and this many receivers *)
Definition configured_as (c : net_config) (cfg : config) (receivers : nat) : Prop :=
  nc_buffersize c = cf_buffersize cfg /\ nc_receivers c = receivers /\
  (nc_has_timeout c = true <-> cf_pollinterval cfg <> None).
