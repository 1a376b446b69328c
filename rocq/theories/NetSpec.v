(** * NetSpec: what can be observed of an execution of the listener

    Vocabulary of the theorems about networking/mod.rs: functions of the trace (the labels of [Network.label]),
    not of the listener's internal state. *)
From Verif Require Import Base Codec Network.
Open Scope nat_scope.

(** ** Observations on traces *)
Fixpoint arrivals (tr : list label) : list datagram :=
  match tr with
  | [] => []
  | LArrive d :: r => d :: arrivals r
  | _ :: r => arrivals r
  end.
(** number of datagrams received *)
Fixpoint recvs (tr : list label) : nat :=
  match tr with
  | [] => 0
  | LRecv :: r => S (recvs r)
  | _ :: r => recvs r
  end.
(** what receiver [r] was called with, in order *)
Fixpoint calls (r : nat) (tr : list label) : list (list byte * address) :=
  match tr with
  | [] => []
  | LCall r' pkt src :: t => if Nat.eqb r r' then (pkt, src) :: calls r t else calls r t
  | _ :: t => calls r t
  end.
(** how often receiver [r] returned normally, and panicked *)
Fixpoint returns (r : nat) (tr : list label) : nat :=
  match tr with
  | [] => 0
  | LReturn r' :: t => (if Nat.eqb r r' then 1 else 0) + returns r t
  | _ :: t => returns r t
  end.
Fixpoint panics (r : nat) (tr : list label) : nat :=
  match tr with
  | [] => 0
  | LPanic r' :: t => (if Nat.eqb r r' then 1 else 0) + panics r t
  | _ :: t => panics r t
  end.
(** a datagram as a receiver is to get it: cut to the size of the receive buffer *)
Definition packet_of (c : net_config) (d : datagram) : list byte * address :=
  (firstn (nc_buffersize c) (fst d), snd d).
(** the datagrams received so far: the oldest ones *)
Definition received (q0 : list datagram) (tr : list label) : list datagram :=
  firstn (recvs tr) (q0 ++ arrivals tr).

(** ready events reported by poll, and polls that timed out *)
Fixpoint readies (tr : list label) : nat :=
  match tr with
  | [] => 0
  | LPoll (S k) :: r => S k + readies r
  | _ :: r => readies r
  end.
Fixpoint timeouts (tr : list label) : nat :=
  match tr with
  | [] => 0
  | LPoll 0 :: r => S (timeouts r)
  | _ :: r => timeouts r
  end.

Definition is_arrival (l : label) : Prop := match l with LArrive _ => True | _ => False end.
Definition is_io_error (l : label) : Prop :=
  match l with LPollError _ | LRecvError _ => True | _ => False end.
Definition is_failure (l : label) : Prop :=
  match l with LPollError _ | LRecvError _ | LPanic _ => True | _ => False end.

(** Arrivals are spaced: whenever a datagram arrives, readiness has been reported for every earlier one. *)
Definition spaced (q0 : list datagram) (tr : list label) : Prop :=
  length q0 <= 1 /\
  forall a d b, tr = a ++ LArrive d :: b -> length q0 + length (arrivals a) = readies a.

(** The listener is blocked in poll: nothing but a new datagram (or a timeout or OS error) wakes it up. *)
Definition idle (s : net_state) : Prop := ns_pc s = Polling /\ ns_edge s = false.
Definition stopped (s : net_state) : Prop := exists r, ns_pc s = Stopped r.
(** The position in the loop when no datagram is being dispatched and no receiver has panicked. *)
Definition between_datagrams (s : net_state) : Prop :=
  match ns_pc s with
  | Polling | Handling _ | Stopped (StoppedByError _) => True
  | Dispatching _ _ _ _ _ _ | Stopped StoppedByPanic => False
  end.
