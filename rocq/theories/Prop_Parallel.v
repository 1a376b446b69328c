(** * Prop_Parallel: property theorems (statements only; proofs in ParallelProofs.v) *)
From Verif Require Import Base Codec Network NetSpec NetworkProofs Ipv8 Ipv8Spec Ipv8Proofs World WorldSpec WorldProofs Compose ComposeProofs ParallelProofs.
From Verif Require Concurrent ConcurrentSpec ConcurrentProofs ParallelProofs.
From Verif Require Import Parallel ParallelProofs.
Open Scope nat_scope.

(** C138. Both views are views of the same execution: to every execution of the whole belongs one of the process alone (Concurrent.v, so C79-C84
    hold for it) and one of the sockets alone (World.v, so C85-C90 and C109 hold for it). *)
Theorem C138_two_views :
  forall (T : topology) (h : nat) (tr : list (option Concurrent.label * list event)) (p : parallel),
    prun T h tr p ->
    Concurrent.run Concurrent.initial (steps_of tr) (pa_process p) /\ wrun T world_init (world_events tr) (pa_world p).
Proof. exact p_C138_two_views. Qed.
Print Assumptions C138_two_views.

(** C138. At every moment, also in the middle of calls: a descriptor the process ever had is open, at an address, exactly if its socket is, at that address; no
    two descriptors are the same socket, and every open one is a socket. *)
Theorem C138_sockets_agree :
  forall (T : topology) (h : nat) (tr : list (option Concurrent.label * list event)) (p : parallel),
    prun T h tr p ->
    (forall fd k, is_socket p fd k -> forall a, ConcurrentSpec.address_of (pa_process p) fd a <-> open_at (pa_world p) k h a) /\
    (forall fd fd' k, is_socket p fd k -> is_socket p fd' k -> fd = fd') /\
    (forall fd, In fd (ConcurrentSpec.open_fds (pa_process p)) -> exists k, is_socket p fd k).
Proof. exact p_C138_sockets_agree. Qed.
Print Assumptions C138_sockets_agree.

(** C138. Nothing leaks: every socket a step of the process ever bound - also in a call of [new] that failed afterwards - is closed, or belongs to exactly
    one of: a call in progress, a live value, a listening thread, the rest of the program. *)
Theorem C138_no_leaks :
  forall (T : topology) (h : nat) (tr : list (option Concurrent.label * list event)) (p : parallel) (l : Concurrent.label) (evs : list event)
         (k h' : nat) (a b : address),
    prun T h tr p -> In (Some l, evs) tr -> In (WBindReceiver k h' a b) evs \/ In (WBindSender k h' a b) evs ->
    (forall x y, ~ open_at (pa_world p) k x y) \/
    exists o fd, is_socket p fd k /\ ConcurrentSpec.owns (pa_process p) o fd /\
      forall o', ConcurrentSpec.owns (pa_process p) o' fd -> o' = o.
Proof. exact p_C138_no_leaks. Qed.
Print Assumptions C138_no_leaks.

(** C138. A live value has its two sockets, open and of the right kind: the receiving one waits, the sending one can send; both were bound as its configuration
    says. Whatever other threads do, this is so from the moment its call of [new] has bound them, before it returns. *)
Theorem C138_values :
  forall (T : topology) (h : nat) (tr : list (option Concurrent.label * list event)) (p : parallel) (v : Concurrent.instance),
    prun T h tr p ->
    In v (Concurrent.st_instances (pa_process p)) \/ (exists t, Concurrent.st_threads (pa_process p) t = Concurrent.Returning (Ok v)) ->
    exists ka kb a b n qa qb,
      is_socket p (Concurrent.in_receiver v) ka /\ is_socket p (Concurrent.in_sender v) kb /\ ka <> kb /\
      nth_error (w_sockets (pa_world p)) ka = Some {| sk_host := h; sk_address := a; sk_end := Waiting n qa |} /\
      nth_error (w_sockets (pa_world p)) kb = Some {| sk_host := h; sk_address := b; sk_end := Sending qb |} /\
      In (WBindReceiver ka h (cf_receiving_address (Concurrent.in_config v)) a) (world_events tr) /\
      In (WBindSender kb h (cf_sending_address (Concurrent.in_config v)) b) (world_events tr) /\
      n = added ka (world_events tr) /\ (~ In v (Concurrent.st_instances (pa_process p)) -> n = 0).
Proof. exact p_C138_values. Qed.
Print Assumptions C138_values.

(** C138. Between the two binds of a call of [new] the receiving socket is the call's alone: it waits, with no receiver. *)
Theorem C138_call_in_progress :
  forall (T : topology) (h : nat) (tr : list (option Concurrent.label * list event)) (p : parallel) (t : nat) (cfg : config) (fd : nat),
    prun T h tr p -> Concurrent.st_threads (pa_process p) t = Concurrent.BindingSender cfg fd ->
    exists k a q,
      is_socket p fd k /\
      nth_error (w_sockets (pa_world p)) k = Some {| sk_host := h; sk_address := a; sk_end := Waiting 0 q |} /\
      In (WBindReceiver k h (cf_receiving_address cfg) a) (world_events tr).
Proof. exact p_C138_call_in_progress. Qed.
Print Assumptions C138_call_in_progress.

(** C138. A listening thread is the listener of World.v on the receiving socket of a value that some call of [new] returned, set up as that value's
    configuration says, with as many receivers as were added to it; and these, and no others, have been called with exactly the datagrams delivered to
    that socket and received so far, in order, each cut to the buffer size. *)
Theorem C138_listeners :
  forall (T : topology) (h : nat) (tr : list (option Concurrent.label * list event)) (p : parallel) (fd : nat),
    prun T h tr p -> In fd (Concurrent.st_listeners (pa_process p)) ->
    exists (k : nat) (a : address) (c : net_config) (s : net_state) (t : nat) (v : Concurrent.instance),
      is_socket p fd k /\
      nth_error (w_sockets (pa_world p)) k = Some {| sk_host := h; sk_address := a; sk_end := Listening c s |} /\
      (forall r, ns_pc s <> Stopped r) /\
      In (Concurrent.LReturn t (Ok v)) (steps_of tr) /\ Concurrent.in_receiver v = fd /\
      In (WBindReceiver k h (cf_receiving_address (Concurrent.in_config v)) a) (world_events tr) /\
      In (WStart k (Concurrent.in_config v)) (world_events tr) /\
      configured_as c (Concurrent.in_config v) (added k (world_events tr)) /\
      (forall r, r < added k (world_events tr) -> between_datagrams s ->
         calls r (trace_at k (world_events tr)) =
         map (fun d => (firstn (cf_buffersize (Concurrent.in_config v)) (fst d), snd d))
             (firstn (recvs (trace_at k (world_events tr))) (delivered k (world_events tr)))) /\
      (forall r, added k (world_events tr) <= r -> calls r (trace_at k (world_events tr)) = []).
Proof. exact p_C138_listeners. Qed.
Print Assumptions C138_listeners.

(** C138. Nothing is held back: in every reachable state whatever step Concurrent.v allows can happen (a bind: if the answer of the operating system fits the
    sockets of the other processes of the host), and whatever a listener, or anybody else, can do can happen. *)
Theorem C138_steps_not_held_back :
  forall (T : topology) (h : nat) (tr : list (option Concurrent.label * list event)) (p : parallel) (l : Concurrent.label) (s' : Concurrent.state),
    prun T h tr p -> Concurrent.step (pa_process p) l s' -> (forall fd, l <> Concurrent.LListenerStops fd) ->
    (forall t env a, l = Concurrent.LBindReceiver t env \/ l = Concurrent.LBindSender t env \/ l = Concurrent.LOpen env a -> knows_the_host env h p) ->
    exists evs p', pstep T h p (Some l) evs p' /\ pa_process p' = s'.
Proof. exact p_C138_steps_not_held_back. Qed.
Print Assumptions C138_steps_not_held_back.

Theorem C138_listeners_not_held_back :
  forall (T : topology) (h : nat) (tr : list (option Concurrent.label * list event)) (p : parallel) (e : event) (w' : world),
    prun T h tr p -> wstep T (pa_world p) e w' ->
    (exists fd k l, e = WListener k l /\ is_socket p fd k /\ In fd (Concurrent.st_listeners (pa_process p))) \/ outside p e ->
    exists l p', pstep T h p l [e] p' /\ pa_world p' = w'.
Proof. exact p_C138_listeners_not_held_back. Qed.
Print Assumptions C138_listeners_not_held_back.

(** two calls in progress, between their binds *)
Example ex_C138_calls :
  exists p, prun two_hosts 1 ex_race_start p /\ pa_sockets p = [0; 2] /\
    Concurrent.st_threads (pa_process p) 0 = Concurrent.BindingSender small_config 1 /\
    Concurrent.st_threads (pa_process p) 1 = Concurrent.BindingSender other_config 0.
Proof. exact ex_C138_calls. Qed.

(** ... both have tried to bind the same sending address: one has a value, not returned yet; the other is about to drop its receiver *)
Example ex_C138_race :
  exists p, prun two_hosts 1 (ex_race_start ++ ex_race_middle) p /\ pa_sockets p = [0; 2; 3] /\
    Concurrent.st_threads (pa_process p) 0 = Concurrent.Returning (Ok ex_winner) /\
    Concurrent.st_threads (pa_process p) 1 = Concurrent.DroppingReceiver 0 EAddrInUse.
Proof. exact ex_C138_race. Qed.

(** ... and a running listener, whose receiver has been called with the datagram that came before the start *)
Example ex_C138_listener :
  exists p, prun two_hosts 1 ((ex_race_start ++ ex_race_middle) ++ ex_race_end) p /\ is_socket p 1 2 /\
    Concurrent.st_listeners (pa_process p) = [1] /\
    delivered 2 (world_events ((ex_race_start ++ ex_race_middle) ++ ex_race_end)) = [([x01; x02], v4 10 0 0 1 8000)] /\
    calls 0 (trace_at 2 (world_events ((ex_race_start ++ ex_race_middle) ++ ex_race_end))) = [([x01; x02], v4 10 0 0 1 8000)].
Proof. exact ex_C138_listener. Qed.

Example ex_C138_environment : knows_the_host ex_env 1 parallel_init.
Proof. exact ex_C138_environment. Qed.

(** C138. The process can be killed at any moment, in the middle of calls too: closing its descriptors is all that has to be done. No socket of it is open
    afterwards, those of other processes are as before, and an address that clashes with none of theirs can be bound again at once. *)
Theorem C138_crash :
  forall (T : topology) (h : nat) (tr : list (option Concurrent.label * list event)) (p : parallel),
    prun T h tr p ->
    exists w',
      wrun T (pa_world p) (map WClose (map (socket_number p) (ConcurrentSpec.open_fds (pa_process p)))) w' /\
      (forall fd k, is_socket p fd k -> forall x y, ~ open_at w' k x y) /\
      (forall k, (forall fd, ~ is_socket p fd k) -> nth_error (w_sockets w') k = nth_error (w_sockets (pa_world p)) k) /\
      (forall a, addr_port a <> 0%N ->
         (forall k b, open_at (pa_world p) k h b -> (forall fd, ~ is_socket p fd k) -> conflict a b = false) ->
         exists k w'', wstep T w' (WBindReceiver k h a a) w'').
Proof. exact p_C138_crash. Qed.
Print Assumptions C138_crash.
