(** * PartsSpec: vocabulary for properties of programs that use the parts of an instance on their own *)
From Verif Require Import Base Codec Network NetSpec Ipv8 World WorldSpec Parts.
Open Scope nat_scope.

(** [IPv8::new] was called in these steps *)
Definition calls_new (tr : list (plabel * list event)) : Prop := exists cfg r evs, In (PNew cfg r, evs) tr.
(** rayon's global pool was used in these steps: one of the program's listeners received a datagram, or the rest of the program used rayon *)
Definition rayon_used (tr : list (plabel * list event)) : Prop :=
  (exists k, In (PListener k, [WListener k LRecv]) tr) \/ (exists n, In (PUseRayon n, []) tr).
(** A call made receiver [r], and [a] is the address it was asked to bind; the operating system bound it to [b]: [a] itself, or with a free port instead of port 0. *)
Definition receiver_made (h : nat) (tr : list (plabel * list event)) (r : nat) (a b : address) : Prop :=
  (exists l evs, In (l, evs) tr /\ In (WBindReceiver r h a b) evs /\
     (l = PNewReceiver a (Ok r) \/ exists cfg s, l = PNew cfg (Ok (r, s)) /\ a = cf_receiving_address cfg)) /\
  addr_ip b = addr_ip a /\ (addr_port a <> 0%N -> b = a).
(** A call made sender [s]. *)
Definition sender_made (h : nat) (tr : list (plabel * list event)) (s : nat) (a b : address) : Prop :=
  (exists l evs, In (l, evs) tr /\ In (WBindSender s h a b) evs /\
     (l = PNewSender a (Ok s) \/ exists cfg r, l = PNew cfg (Ok (r, s)) /\ a = cf_sending_address cfg)) /\
  addr_ip b = addr_ip a /\ (addr_port a <> 0%N -> b = a).
(** A step of the program binds socket [k]. *)
Definition binds (tr : list (plabel * list event)) (k : nat) : Prop :=
  exists l evs h a b, In (l, evs) tr /\ l <> POther /\ (In (WBindReceiver k h a b) evs \/ In (WBindSender k h a b) evs).
(** Everything a [send] to [m_to m] on a socket bound to [b] on host [h] needs: the operating system takes the packet (World.v, [wstep_send]). *)
Definition sendable (T : topology) (h : nat) (b : address) (p : packet) (m : message) : Prop :=
  (exists os n, network_send os (m_to m) p = ([(m_data m, m_to m)], Ok n)) /\
  m_origin m = h /\ addr_port (m_from m) = addr_port b /\
  (addr_ip (m_from m) = addr_ip b \/ is_wildcard (addr_ip b) = true) /\
  source_for T h (addr_ip (m_to m)) (addr_ip (m_from m)).
