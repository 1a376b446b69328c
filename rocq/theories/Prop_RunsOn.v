(** * Prop_RunsOn: property theorems (statements only; proofs in RunsOnProofs.v) *)
From Verif Require Import Base Codec Network NetSpec NetworkProofs Ipv8 Ipv8Spec Ipv8Proofs World WorldSpec WorldProofs Compose ComposeProofs.
From Verif Require Concurrent ConcurrentSpec ConcurrentProofs.
From Verif Require Import Parallel ParallelProofs RunsOnSpec RunsOnProofs.
Open Scope nat_scope.

(** C141. A listening thread runs on: whatever any thread of its program, the other processes, the operating system and the network do - as long as the
    thread does not end, it listens on the same socket, at the same address, with the same parameters and the same receivers. *)
Theorem C141_runs_on :
  forall (T : topology) (h : nat) (tr tr' : list (option Concurrent.label * list event)) (p p' : parallel) (fd k : nat)
         (a : address) (c : net_config) (s : net_state),
    prun T h tr p -> In fd (Concurrent.st_listeners (pa_process p)) -> is_socket p fd k ->
    nth_error (w_sockets (pa_world p)) k = Some {| sk_host := h; sk_address := a; sk_end := Listening c s |} ->
    continues T h p tr' p' -> does_not_end fd tr' ->
    In fd (Concurrent.st_listeners (pa_process p')) /\ is_socket p' fd k /\
    exists s', nth_error (w_sockets (pa_world p')) k = Some {| sk_host := h; sk_address := a; sk_end := Listening c s' |} /\
      forall r, ns_pc s' <> Stopped r.
Proof. exact p_C141_runs_on. Qed.
Print Assumptions C141_runs_on.

(** C141. It is out of everybody's hands: until the thread ends nothing is ever done with its socket by anybody - no receiver is added, it is not started again, not
    closed, not sent on - except for what arrives and what the thread itself does. (So no call of the library, on any value, stops or changes it.) *)
Theorem C141_out_of_reach :
  forall (T : topology) (h : nat) (tr tr' : list (option Concurrent.label * list event)) (p p' : parallel) (fd k : nat)
         (l : option Concurrent.label) (evs : list event) (e : event),
    prun T h tr p -> In fd (Concurrent.st_listeners (pa_process p)) -> is_socket p fd k ->
    continues T h p tr' p' -> does_not_end fd tr' -> In (l, evs) tr' -> In e evs -> ~ handles k e.
Proof. exact p_C141_out_of_reach. Qed.
Print Assumptions C141_out_of_reach.

(** C141. Its address stays taken: until the thread ends nobody on the host, in this process or another, binds an address that clashes with the one it listens
    on. *)
Theorem C141_keeps_its_address :
  forall (T : topology) (h : nat) (tr tr' : list (option Concurrent.label * list event)) (p p' : parallel) (fd : nat) (a b : address)
         (l : option Concurrent.label) (evs : list event) (e : event),
    prun T h tr p -> In fd (Concurrent.st_listeners (pa_process p)) -> ConcurrentSpec.address_of (pa_process p) fd a ->
    continues T h p tr' p' -> does_not_end fd tr' -> In (l, evs) tr' -> In e evs -> binds_address h b e -> conflict b a = false.
Proof. exact p_C141_keeps_its_address. Qed.
Print Assumptions C141_keeps_its_address.

(** C141. What ends it: in the thread's last step polling failed, or receiving did, or a packet has been dispatched to receivers one of which panicked; and its socket
    is closed with it. *)
Theorem C141_what_ends_it :
  forall (T : topology) (h : nat) (tr : list (option Concurrent.label * list event)) (p : parallel) (l : option Concurrent.label)
         (evs : list event) (p' : parallel) (fd : nat),
    prun T h tr p -> pstep T h p l evs p' -> l = Some (Concurrent.LListenerStops fd) ->
    exists k x, is_socket p fd k /\ evs = [WListener k x] /\
      ((exists e, x = LPollError e) \/ (exists e, x = LRecvError e) \/
       (x = LScopeEnd /\ exists r, In (WListener k (LPanic r)) (world_events tr))) /\
      ~ In fd (Concurrent.st_listeners (pa_process p')) /\ forall h' a, ~ open_at (pa_world p') k h' a.
Proof. exact p_C141_what_ends_it. Qed.
Print Assumptions C141_what_ends_it.

(** C141. Its end is final: afterwards no receiver is called by it any more, nothing arrives, and nothing is done with its socket. *)
Theorem C141_end_is_final :
  forall (T : topology) (h : nat) (tr tr' : list (option Concurrent.label * list event)) (p p' : parallel) (fd k : nat)
         (evs : list event) (l : option Concurrent.label) (evs' : list event) (e : event),
    prun T h tr p -> In (Some (Concurrent.LListenerStops fd), evs) tr -> is_socket p fd k ->
    continues T h p tr' p' -> In (l, evs') tr' -> In e evs' ->
    ~ handles k e /\ ~ listens_on k e /\ forall m, e <> WDeliver k m.
Proof. exact p_C141_end_is_final. Qed.
Print Assumptions C141_end_is_final.

Example ex_C141_runs_on :
  exists p p', prun two_hosts 1 ex_start p /\ In 0 (Concurrent.st_listeners (pa_process p)) /\ is_socket p 0 0 /\
    (exists c s, nth_error (w_sockets (pa_world p)) 0 = Some {| sk_host := 1; sk_address := v4 0 0 0 0 9000; sk_end := Listening c s |}) /\
    continues two_hosts 1 p ex_meanwhile p' /\ does_not_end 0 ex_meanwhile.
Proof. exact ex_C141_runs_on. Qed.

(** another thread of the process binds 0.0.0.0:9001 meanwhile *)
Example ex_C141_binds : In (Some (Concurrent.LBindReceiver 1 ex_env), [WBindReceiver 2 1 (v4 0 0 0 0 9001) (v4 0 0 0 0 9001)]) ex_meanwhile /\
  binds_address 1 (v4 0 0 0 0 9001) (WBindReceiver 2 1 (v4 0 0 0 0 9001) (v4 0 0 0 0 9001)).
Proof. exact ex_C141_binds. Qed.

(** the panic ends the listener; the other call of [new] goes on *)
Example ex_C141_ends :
  exists p p' p3, prun two_hosts 1 (ex_start ++ ex_meanwhile) p /\
    pstep two_hosts 1 p (Some (Concurrent.LListenerStops 0)) [WListener 0 LScopeEnd] p' /\
    prun two_hosts 1 ((ex_start ++ ex_meanwhile) ++ ex_ends) p' /\ is_socket p' 0 0 /\ continues two_hosts 1 p' ex_afterwards p3.
Proof. exact ex_C141_ends. Qed.
