(** * Prop_Compose: property theorems (statements only; proofs in ComposeProofs.v) *)
From Verif Require Import Base Codec Network NetSpec NetworkProofs Ipv8 Ipv8Spec Ipv8Proofs World WorldSpec WorldProofs Compose ComposeProofs.
From Coq Require Import Permutation.
Open Scope nat_scope.

(** C137. Both views are views of the same execution: to every execution of the whole belongs one of the process alone (Ipv8.v, so C54-C57, C64
    and C65 hold for it) and one of the sockets alone (World.v, so C85-C90 and C109 hold for it). *)
Theorem C137_two_views :
  forall (T : topology) (h : nat) (tr : list (option call * list event)) (j : joint),
    jrun T h tr j ->
    j_process j = after [] (calls_of tr) /\ wrun T world_init (events_of tr) (j_world j).
Proof. exact p_C137_two_views. Qed.
Print Assumptions C137_two_views.

(** C137. The sockets the process believes to own are exactly its open sockets, at the same addresses; none is counted twice. *)
Theorem C137_sockets_agree :
  forall (T : topology) (h : nat) (tr : list (option call * list event)) (j : joint),
    jrun T h tr j ->
    NoDup (owned j) /\
    exists l : list (nat * address),
      map fst l = owned j /\ map snd l = open_sockets (j_process j) /\
      forall k a, In (k, a) l -> open_at (j_world j) k h a.
Proof. exact p_C137_sockets_agree. Qed.
Print Assumptions C137_sockets_agree.

(** C137. Nothing leaks: every socket an [IPv8::new] of the process ever bound - also one that failed afterwards - belongs to a live
    instance or a running listener, or is closed. *)
Theorem C137_no_leaks :
  forall (T : topology) (h : nat) (tr : list (option call * list event)) (j : joint) (c : call) (evs : list event) (k h' : nat) (a b : address),
    jrun T h tr j -> In (Some c, evs) tr -> In (WBindReceiver k h' a b) evs \/ In (WBindSender k h' a b) evs ->
    In k (owned j) \/ forall x y, ~ open_at (j_world j) k x y.
Proof. exact p_C137_no_leaks. Qed.
Print Assumptions C137_no_leaks.

(** C137. A live instance has its two sockets open, of the right kind: the receiving one waits, with as many receivers as were added, the sending one
    can send; both were bound as the configuration of the instance says. *)
Theorem C137_instances :
  forall (T : topology) (h : nat) (tr : list (option call * list event)) (j : joint) (i : nat) (v : ipv8),
    jrun T h tr j -> get_instance (j_process j) i = Some v ->
    exists a b qa qb,
      nth_error (j_instances j) i = Some (Some (a, b)) /\
      nth_error (w_sockets (j_world j)) a =
        Some {| sk_host := h; sk_address := iv_receiver_socket v; sk_end := Waiting (length (iv_receivers v)) qa |} /\
      nth_error (w_sockets (j_world j)) b = Some {| sk_host := h; sk_address := iv_sender_socket v; sk_end := Sending qb |} /\
      In (WBindReceiver a h (cf_receiving_address (iv_config v)) (iv_receiver_socket v)) (events_of tr) /\
      In (WBindSender b h (cf_sending_address (iv_config v)) (iv_sender_socket v)) (events_of tr).
Proof. exact p_C137_instances. Qed.
Print Assumptions C137_instances.

(** C137. A running listener is the listener of World.v on its socket: with the buffer size and poll interval of its instance's configuration, calling as
    many receivers as the instance had; and these, and no others, have been called with exactly the datagrams delivered to that socket and
    received so far, in order, each cut to the buffer size. *)
Theorem C137_listeners :
  forall (T : topology) (h : nat) (tr : list (option call * list event)) (j : joint) (i : nat) (li : listener),
    jrun T h tr j -> nth_error (pr_listeners (j_process j)) i = Some li ->
    exists (k : nat) (s : net_state),
      nth_error (j_listeners j) i = Some k /\
      nth_error (w_sockets (j_world j)) k =
        Some {| sk_host := h; sk_address := li_socket li; sk_end := Listening (net_config_of li) s |} /\
      (forall r, ns_pc s <> Stopped r) /\
      In (WBindReceiver k h (cf_receiving_address (li_config li)) (li_socket li)) (events_of tr) /\
      In (WStart k (li_config li)) (events_of tr) /\
      (forall r, r < length (li_receivers li) -> between_datagrams s ->
         calls r (trace_at k (events_of tr)) =
         map (fun d => (firstn (cf_buffersize (li_config li)) (fst d), snd d))
             (firstn (recvs (trace_at k (events_of tr))) (delivered k (events_of tr)))) /\
      (forall r, length (li_receivers li) <= r -> calls r (trace_at k (events_of tr)) = []).
Proof. exact p_C137_listeners. Qed.
Print Assumptions C137_listeners.

(** C137. Where a listener comes from: an instance made by [new] with its configuration, and started later; its receivers are exactly those added in between, in order. *)
Theorem C137_listener_origin :
  forall (others : list address) (l : list call) (li : listener),
    In li (pr_listeners (after others l)) ->
    exists (pre : list call) (env : environment) (between : list call) (i : nat) (post : list call) (inst : ipv8),
      l = pre ++ CNew env (li_config li) :: between ++ CStart i :: post /\
      i = length (pr_instances (after others pre)) /\
      snd (ipv8_new env (li_config li) (after others pre)) = Ok inst /\ li_socket li = iv_receiver_socket inst /\
      li_receivers li = receivers_added i between.
Proof. exact p_C137_listener_origin. Qed.
Print Assumptions C137_listener_origin.

(** C137. Nothing is held back: in every reachable state every call can be made (for [new]: whatever answers the operating system gives
    that fit the sockets of the other processes of the host), and whatever a listener of the process, or anybody else, can do can happen. *)
Theorem C137_calls_can_be_made :
  forall (T : topology) (h : nat) (tr : list (option call * list event)) (j : joint) (c : call),
    jrun T h tr j -> (forall i, c <> CListenerEnds i) -> (forall env cfg, c = CNew env cfg -> sees_the_host env h j) ->
    exists evs j', jstep T h j (Some c) evs j'.
Proof. exact p_C137_calls_can_be_made. Qed.
Print Assumptions C137_calls_can_be_made.

Theorem C137_listeners_not_held_back :
  forall (T : topology) (h : nat) (tr : list (option call * list event)) (j : joint) (e : event) (w' : world),
    jrun T h tr j -> wstep T (j_world j) e w' ->
    (exists k l, e = WListener k l /\ In k (j_listeners j)) \/ elsewhere j e ->
    exists c j', jstep T h j c [e] j' /\ j_world j' = w'.
Proof. exact p_C137_listeners_not_held_back. Qed.
Print Assumptions C137_listeners_not_held_back.

(** the hypotheses of [C137_listeners] are met: a running listener; the datagram arrived before the start *)
Example ex_C137_listener :
  exists j, jrun two_hosts 1 ex_joint j /\ owned j = [0] /\
    nth_error (pr_listeners (j_process j)) 0 = Some {| li_socket := v4 0 0 0 0 9000; li_receivers := [7]; li_config := small_config |} /\
    delivered 0 (events_of ex_joint) = [([x01; x02], v4 10 0 0 1 8000)] /\
    calls 0 (trace_at 0 (events_of ex_joint)) = [([x01; x02], v4 10 0 0 1 8000)].
Proof. exact ex_C137_listener. Qed.

(** ... and a live instance, after two calls of [new] that failed (the second left a closed socket), a drop and the end of a listener; the environment knows
    the host *)
Example ex_C137_history :
  exists j, jrun two_hosts 1 (ex_joint ++ ex_joint_end) j /\ owned j = [6; 7] /\
    (exists v, get_instance (j_process j) 2 = Some v /\ iv_receiver_socket v = v4 0 0 0 0 9000) /\
    open_sockets (j_process j) = [v4 0 0 0 0 9000; v4 0 0 0 0 8000].
Proof. exact ex_C137_history. Qed.

Example ex_C137_environment : sees_the_host ex_env 1 joint_init.
Proof. exact ex_C137_environment. Qed.
