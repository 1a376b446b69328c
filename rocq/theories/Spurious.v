(** * Spurious: the listener on an operating system that raises false alarms

    Network.v assumes that poll reports readiness only for datagrams that are still there. Neither mio nor Linux promises that: mio's
    documentation of [Poll] asks for "spurious events" to be expected, and Linux reports a UDP socket readable before it has checked the
    datagram's checksum, discarding it when it turns out to be wrong. This is the same loop (networking/mod.rs:122-142) with these two
    more freedoms of the environment; every step of Network.v is a step here. *)
From Verif Require Import Base Codec Network.
Open Scope nat_scope.

Inductive os_label :=
| Do (l : label)            (* a step of Network.v *)
| FalseAlarm                (* poll reports readiness although nothing has become ready *)
| Discard (d : datagram).   (* the OS throws away a datagram of the socket's queue *)

Inductive os_step (c : net_config) : net_state -> os_label -> net_state -> Prop :=
| os_do s l s' : step c s l s' -> os_step c s (Do l) s'
(** [poll.poll(..)?] returns one event (mod.rs:123) *)
| os_false_alarm s :
    ns_pc s = Polling -> os_step c s FalseAlarm (set_pc s (Handling 1))
| os_discard s a d b :
    ns_queue s = a ++ d :: b ->
    os_step c s (Discard d)
      {| ns_queue := a ++ b; ns_edge := ns_edge s; ns_buffer := ns_buffer s; ns_pc := ns_pc s |}.

Inductive os_run (c : net_config) : net_state -> list os_label -> net_state -> Prop :=
| os_run_nil s : os_run c s [] s
| os_run_snoc s tr s' l s'' : os_run c s tr s' -> os_step c s' l s'' -> os_run c s (tr ++ [l]) s''.
