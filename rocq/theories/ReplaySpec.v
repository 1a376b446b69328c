(** * ReplaySpec: who can put which packet on the network, and for whom *)
From Verif Require Import Base Codec Network NetSpec Ipv8 World WorldSpec.
Open Scope nat_scope.

(** [m] is packet [p] as it goes out when the owner of socket [i], a sender's, sends it *)
Definition can_put (T : topology) (w : world) (i : nat) (p : packet) (m : message) : Prop :=
  exists x q, nth_error (w_sockets w) i = Some {| sk_host := m_origin m; sk_address := x; sk_end := Sending q |} /\
    m_data m = packet_bytes p /\ addr_port (m_from m) = addr_port x /\
    (addr_ip (m_from m) = addr_ip x \/ Forall (eq x00) (addr_ip x)) /\
    source_for T (m_origin m) (addr_ip (m_to m)) (addr_ip (m_from m)).

(** the network brings [m] to host [h], to the socket bound to [y] *)
Definition addressed_to (T : topology) (m : message) (h : nat) (y : address) : Prop :=
  route T (m_origin m) (addr_ip (m_to m)) = Some h /\ addr_port (m_to m) = addr_port y /\
  (addr_ip (m_to m) = addr_ip y \/ Forall (eq x00) (addr_ip y)).

(** the packets sent in an execution, by which socket, and how they went out *)
Fixpoint sends (tr : list event) : list (nat * packet * message) :=
  match tr with
  | [] => []
  | WSend i p m :: t => (i, p, m) :: sends t
  | _ :: t => sends t
  end.

(** an event that no listener fails in and nobody else takes part in: a packet is sent, delivered to [k], or listener [k] does something
    that is no failure *)
Definition plain_event (k : nat) (e : event) : Prop :=
  match e with
  | WSend _ _ _ => True
  | WDeliver j _ => j = k
  | WListener j l => j = k /\ ~ is_failure l
  | _ => False
  end.
