(** * Prop_Parts: property theorems (statements only; proofs in PartsProofs.v) *)
From Coq Require Import Permutation.
From Verif Require Import Base Codec Network NetSpec NetworkProofs Ipv8 Ipv8Spec Ipv8Proofs World WorldSpec WorldProofs Compose ComposeProofs.
From Verif Require Import Parts PartsSpec PartsProofs.
Open Scope nat_scope.

(** C142. However the parts were made, taken apart and put together: no socket is held twice; a receiver, also one inside a value, is a waiting socket with the receivers
    that were added to it, a sender is one that can send, and both are bound as was asked for when they were made. *)
Theorem C142_sockets :
  forall (T : topology) (h : nat) (tr : list (plabel * list event)) (p : program),
    parts_run T h program_init tr p ->
    NoDup (flat_map sockets_in (pp_holds p)) /\
    (forall r, In (Receiver r) (pp_holds p) \/ (exists cfg s, In (Value cfg r s) (pp_holds p)) ->
       exists a b q, receiver_made h tr r a b /\
         nth_error (w_sockets (pp_world p)) r = Some {| sk_host := h; sk_address := b; sk_end := Waiting (added r (parts_events tr)) q |}) /\
    (forall s, In (Sender s) (pp_holds p) \/ (exists cfg r, In (Value cfg r s) (pp_holds p)) ->
       exists a b q, sender_made h tr s a b /\
         nth_error (w_sockets (pp_world p)) s = Some {| sk_host := h; sk_address := b; sk_end := Sending q |}).
Proof. exact p_C142_sockets. Qed.
Print Assumptions C142_sockets.

(** C142. Nothing leaks: a socket bound in any call - also of one that failed - is closed or held by the program. *)
Theorem C142_no_leaks :
  forall (T : topology) (h : nat) (tr : list (plabel * list event)) (p : program) (k : nat),
    parts_run T h program_init tr p -> binds tr k ->
    (forall x y, ~ open_at (pp_world p) k x y) \/ exists x, In x (pp_holds p) /\ In k (sockets_in x).
Proof. exact p_C142_no_leaks. Qed.
Print Assumptions C142_no_leaks.

(** C142. A listener runs with the configuration that was handed to the call that started it - the value's at that moment, or the one given to the receiver's [start] -
    whatever the sockets were made with; and every receiver that was added has been called with exactly the datagrams received so far, in order, cut to that buffer size. *)
Theorem C142_listeners :
  forall (T : topology) (h : nat) (tr : list (plabel * list event)) (p : program) (r : nat),
    parts_run T h program_init tr p -> In (Listener r) (pp_holds p) ->
    exists (a b : address) (c : net_config) (s : net_state) (cfg : config) (l : plabel) (evs : list event),
      receiver_made h tr r a b /\
      nth_error (w_sockets (pp_world p)) r = Some {| sk_host := h; sk_address := b; sk_end := Listening c s |} /\
      (forall why, ns_pc s <> Stopped why) /\
      In (l, evs) tr /\ ((exists k, l = PStart cfg r k) \/ l = PStartReceiver r cfg) /\
      configured_as c cfg (added r (parts_events tr)) /\
      (forall i, i < added r (parts_events tr) -> between_datagrams s ->
         calls i (trace_at r (parts_events tr)) =
         map (fun d => (firstn (cf_buffersize cfg) (fst d), snd d))
             (firstn (recvs (trace_at r (parts_events tr))) (delivered r (parts_events tr)))).
Proof. exact p_C142_listeners. Qed.
Print Assumptions C142_listeners.

(** C142. Who comes first decides: if a listener of the program received a datagram (or anything else used rayon) before the first [IPv8::new], that call fails, whatever
    its configuration, and nothing is bound. *)
Theorem C142_first_datagram_decides :
  forall (T : topology) (h : nat) (tr : list (plabel * list event)) (p p' : program) (cfg : config) (r : outcome (nat * nat)) (evs : list event),
    parts_run T h program_init tr p -> ~ calls_new tr -> rayon_used tr -> parts_step T h p (PNew cfg r) evs p' ->
    r = Err EPoolError /\ evs = [] /\ pp_holds p' = pp_holds p /\ pp_pool p' = pp_pool p /\ pp_world p' = pp_world p.
Proof. exact p_C142_first_datagram_decides. Qed.
Print Assumptions C142_first_datagram_decides.

(** C142. Otherwise that call gives the program its pool, with the threads of its configuration, or fails for lack of threads; and the pool stays as it is whatever happens
    later. *)
Theorem C142_thread_count :
  forall (T : topology) (h : nat) (before after : list (plabel * list event)) (p : program) (cfg : config) (r : outcome (nat * nat)) (evs : list event),
    parts_run T h program_init (before ++ (PNew cfg r, evs) :: after) p -> ~ calls_new before -> r <> Err EPoolError ->
    ~ rayon_used before /\ pp_pool p = Some (cf_threadcount cfg).
Proof. exact p_C142_thread_count. Qed.
Print Assumptions C142_thread_count.

(** C142. A later call never fails because of the pool. *)
Theorem C142_later_calls :
  forall (T : topology) (h : nat) (tr : list (plabel * list event)) (p p' : program) (cfg : config) (r : outcome (nat * nat)) (evs : list event),
    parts_run T h program_init tr p -> calls_new tr -> parts_step T h p (PNew cfg r) evs p' -> r <> Err EPoolError /\ pp_pool p' = pp_pool p.
Proof. exact p_C142_later_calls. Qed.
Print Assumptions C142_later_calls.

(** C142. So a stranger can decide it: as long as [IPv8::new] has not been called and nothing has used rayon, a listener that polls is all it takes: one datagram to its address, from
    anywhere and of any content, makes the first [IPv8::new] of the program fail, whatever its configuration; without one it can succeed. *)
Theorem C142_one_datagram :
  forall (T : topology) (h : nat) (tr : list (plabel * list event)) (p : program) (k : nat) (c : net_config) (n : net_state) (s : socket) (m : message)
         (threads : nat),
    parts_run T h program_init tr p -> ~ calls_new tr -> ~ rayon_used tr -> In (Listener k) (pp_holds p) ->
    nth_error (w_sockets (pp_world p)) k = Some s -> sk_end s = Listening c n -> ns_pc n = Polling -> accepts T s m ->
    (exists p', parts_run T h p [(POther, [WInject m]); (POther, [WDeliver k m]); (PListener k, [WListener k (LPoll 1)]);
                                 (PListener k, [WListener k LRecv])] p' /\ pp_pool p' = Some threads /\
       forall cfg r evs p'', parts_step T h p' (PNew cfg r) evs p'' -> r = Err EPoolError) /\
    (forall cfg pool, set_up cfg (pp_once p) (pp_pool p) (Ok tt) pool <-> pool = Some (cf_threadcount cfg)).
Proof. exact p_C142_one_datagram. Qed.
Print Assumptions C142_one_datagram.

(** C142. Nothing stands in the way of a call: every receiver and value can be started with every configuration, everything held can be dropped, every value taken apart and every
    receiver put together with every sender. *)
Theorem C142_calls_work :
  forall (T : topology) (h : nat) (tr : list (plabel * list event)) (p : program),
    parts_run T h program_init tr p ->
    (forall r cfg, In (Receiver r) (pp_holds p) -> exists evs p', parts_step T h p (PStartReceiver r cfg) evs p' /\ In (Listener r) (pp_holds p')) /\
    (forall cfg r s, In (Value cfg r s) (pp_holds p) -> exists evs p', parts_step T h p (PStart cfg r s) evs p' /\ In (Listener r) (pp_holds p')) /\
    (forall cfg r s, In (Value cfg r s) (pp_holds p) -> exists p', parts_step T h p (PTakeApart cfg r s) [] p' /\
       In (Receiver r) (pp_holds p') /\ In (Sender s) (pp_holds p') /\ pp_world p' = pp_world p) /\
    (forall cfg r s, In (Receiver r) (pp_holds p) -> In (Sender s) (pp_holds p) -> exists p', parts_step T h p (PPutTogether cfg r s) [] p' /\
       In (Value cfg r s) (pp_holds p') /\ pp_world p' = pp_world p) /\
    (forall x, In x (pp_holds p) -> (forall r, x <> Listener r) -> exists p', parts_step T h p (PDrop x) (drop_events x) p' /\
       forall k, In k (sockets_in x) -> forall h' a, ~ open_at (pp_world p') k h' a).
Proof. exact p_C142_calls_work. Qed.
Print Assumptions C142_calls_work.

(** C142. How to send while listening: [IPv8::start] closes the sending socket (C64); but a value that is taken apart first can have its receiver started, with the same outcome for
    the listener, and its sender goes on sending for as long as it is held, whatever the listener and everybody else do. *)
Theorem C142_keep_the_sender :
  forall (T : topology) (h : nat) (tr : list (plabel * list event)) (p : program) (cfg : config) (r s : nat),
    parts_run T h program_init tr p -> In (Value cfg r s) (pp_holds p) ->
    exists p1 p2,
      parts_run T h p [(PTakeApart cfg r s, []); (PStartReceiver r cfg, [WStart r cfg])] p1 /\
      In (Listener r) (pp_holds p1) /\ In (Sender s) (pp_holds p1) /\
      nth_error (w_sockets (pp_world p1)) s = nth_error (w_sockets (pp_world p)) s /\
      parts_run T h p [(PStart cfg r s, [WStart r cfg; WClose s])] p2 /\ In (Listener r) (pp_holds p2) /\
      (forall h' b, ~ open_at (pp_world p2) s h' b) /\
      nth_error (w_sockets (pp_world p1)) r = nth_error (w_sockets (pp_world p2)) r.
Proof. exact p_C142_keep_the_sender. Qed.
Print Assumptions C142_keep_the_sender.

(** C142. A sender that is held can send at any time, and so can the one inside a value. *)
Theorem C142_senders_send :
  forall (T : topology) (h : nat) (tr : list (plabel * list event)) (p : program) (s : nat) (b : address) (pk : packet) (m : message),
    parts_run T h program_init tr p -> In (Sender s) (pp_holds p) \/ (exists cfg r, In (Value cfg r s) (pp_holds p)) ->
    open_at (pp_world p) s h b -> sendable T h b pk m ->
    exists p', parts_step T h p (PSend s) [WSend s pk m] p' /\ In m (w_sent (pp_world p')) /\ Permutation (pp_holds p) (pp_holds p').
Proof. exact p_C142_senders_send. Qed.
Print Assumptions C142_senders_send.

(** one empty datagram, and [new] fails *)
Example ex_C142_one_datagram :
  exists p c n s, parts_run two_hosts 1 program_init ex_own p /\ ~ calls_new ex_own /\ ~ rayon_used ex_own /\ In (Listener 0) (pp_holds p) /\
    nth_error (w_sockets (pp_world p)) 0 = Some s /\ sk_end s = Listening c n /\ ns_pc n = Polling /\ accepts two_hosts s stranger.
Proof. exact ex_C142_one_datagram. Qed.

Example ex_C142_new_fails :
  exists p p', parts_run two_hosts 1 program_init (ex_own ++ ex_datagram) p /\ ~ calls_new (ex_own ++ ex_datagram) /\ rayon_used (ex_own ++ ex_datagram) /\
    parts_step two_hosts 1 p (PNew small_config (Err EPoolError)) [] p'.
Proof. exact ex_C142_new_fails. Qed.

(** a value beside a receiver of its own; its sender can send *)
Example ex_C142_value :
  exists p, parts_run two_hosts 1 program_init (ex_own ++ ex_value) p /\ ~ calls_new ex_own /\ calls_new (ex_own ++ ex_value) /\
    pp_holds p = [Value small_config 1 2; Listener 0] /\ binds (ex_own ++ ex_value) 2 /\ open_at (pp_world p) 2 1 (v4 0 0 0 0 8000) /\
    sendable two_hosts 1 (v4 0 0 0 0 8000) (Packet [x03]) to_host_0.
Proof. exact ex_C142_value. Qed.

(** ... and after it was taken apart there are two listeners, with different buffer sizes, and a sender *)
Example ex_C142_apart :
  exists p, parts_run two_hosts 1 program_init ((ex_own ++ ex_value) ++ ex_apart) p /\ pp_holds p = [Listener 1; Sender 2; Listener 0].
Proof. exact ex_C142_apart. Qed.
