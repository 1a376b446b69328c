(** * Prop_Concurrent: property theorems (statements only; proofs in ConcurrentProofs.v) *)
From Coq Require Import Strings.String Sorting.Permutation.
From Verif Require Import Base Serde Codec Universe Packet Community Network Ipv8 Ipv8Spec Spec NetSpec Ipv8Proofs.
From Verif Require Import Concurrent ConcurrentSpec ConcurrentProofs.
Open Scope nat_scope.

(** C79. However many threads call [IPv8::new] at once: the global pool is built at most once. *)
Theorem C79_pool_built_once :
  forall h s, run initial h s -> count is_build h <= 1.
Proof. exact p_C79_pool_built_once. Qed.
Print Assumptions C79_pool_built_once.

(** C79. No call opens a socket before the attempt to build the pool is over, whichever thread makes it. *)
Theorem C79_pool_before_sockets :
  forall h l rest s, run initial (h ++ l :: rest) s -> is_bind l = true ->
    count is_build h = 1 /\ exists t, In (LOnceLeave t) h.
Proof. exact p_C79_pool_before_sockets. Qed.
Print Assumptions C79_pool_before_sockets.

(** C79. There is never a second pool: in any history it comes into being at most once, by a call of [new] or by the rest of the program, and then it stays. So when the rest of the
    program was first, the one call that tries to build it fails. *)
Theorem C79_one_pool :
  forall h s, run initial h s ->
    count sets_pool h <= 1 /\ (st_pool s = None <-> count sets_pool h = 0) /\
    (forall h' s' n, run s h' s' -> st_pool s = Some n -> st_pool s' = Some n) /\
    (forall before n mid t ok rest, h = before ++ LInitPool n :: mid ++ LBuild t ok :: rest -> ok = false).
Proof. exact p_C79_one_pool. Qed.
Print Assumptions C79_one_pool.

(** C79. The pool has the thread count of the configuration of the call that built it, unless the rest of the program
    had set it up before. *)
Theorem C79_pool_size :
  forall h s n, run initial h s -> st_pool s = Some n ->
    In (LInitPool n) h \/
    exists t cfg h1 mine h2,
      h = h1 ++ LCall t cfg :: mine ++ LBuild t true :: h2 /\
      count (is_return_of t) mine = 0 /\ n = cf_threadcount cfg.
Proof. exact p_C79_pool_size. Qed.
Print Assumptions C79_pool_size.

(** C79. A failure to build the pool is reported to one caller, and to the one whose call tried to build it. *)
Theorem C79_failure_reported_to_builder :
  forall h s, run initial h s -> Forall honest h ->
    count is_pool_error h <= 1 /\
    (forall before t rest, h = before ++ LReturn t (Err EPoolError) :: rest ->
       exists h1 cfg mine, before = h1 ++ LCall t cfg :: mine /\
         count (is_return_of t) mine = 0 /\ In (LBuild t false) mine) /\
    (forall before t mid r rest, h = before ++ LBuild t false :: mid ++ LReturn t r :: rest ->
       count (is_return_of t) mid = 0 -> r = Err EPoolError).
Proof. exact p_C79_failure_reported_to_builder. Qed.
Print Assumptions C79_failure_reported_to_builder.

(** C80. At every moment of every interleaving: the open sockets are exactly those somebody owns (a call of
    [new] in progress, a live value, a listening thread, or the rest of the program), and nobody shares one. *)
Theorem C80_one_owner :
  forall s, reachable s ->
    (forall fd, In fd (open_fds s) <-> exists o, owns s o fd) /\
    (forall o o' fd, owns s o fd -> owns s o' fd -> o = o') /\
    (forall i, In i (st_instances s) -> in_receiver i <> in_sender i).
Proof. exact p_C80_one_owner. Qed.
Print Assumptions C80_one_owner.

(** C80. When no call is in progress nothing has leaked: the open sockets are two for every live value, one for every
    listening thread, and those of the rest of the program; so failed calls leave none, and dropped values,
    started senders and stopped listeners have closed theirs. *)
Theorem C80_no_leak :
  forall s, reachable s -> idle s ->
    Permutation (open_fds s)
      (flat_map (fun i => [in_receiver i; in_sender i]) (st_instances s) ++ st_listeners s ++ st_others s).
Proof. exact p_C80_no_leak. Qed.
Print Assumptions C80_no_leak.

(** C80. No two sockets open at the same time clash. *)
Theorem C80_no_clash :
  forall s, reachable s -> disjoint (bound s).
Proof. exact p_C80_no_clash. Qed.
Print Assumptions C80_no_clash.

(** C80. Every live value has both its sockets open, on the configured addresses (or, for port 0, on the port the OS
    chose). *)
Theorem C80_live_values_have_sockets :
  forall s i, reachable s -> In i (st_instances s) ->
    (exists r, address_of s (in_receiver i) r /\ bound_as (cf_receiving_address (in_config i)) r) /\
    (exists r, address_of s (in_sender i) r /\ bound_as (cf_sending_address (in_config i)) r).
Proof. exact p_C80_live_values_have_sockets. Qed.
Print Assumptions C80_live_values_have_sockets.

(** C81. Two live values never use clashing fixed addresses, in whatever interleaving they were created: for one
    address there is at most one live instance. *)
Theorem C81_one_instance_per_address :
  forall s j k i i' a b, reachable s -> j <> k ->
    nth_error (st_instances s) j = Some i -> nth_error (st_instances s) k = Some i' ->
    In a (addresses (in_config i)) -> In b (addresses (in_config i')) ->
    addr_port a <> 0%N -> addr_port b <> 0%N -> ~ clash a b.
Proof. exact p_C81_one_instance_per_address. Qed.
Print Assumptions C81_one_instance_per_address.

(** C81. "Address in use" is only reported when, at the moment of the bind, a socket on a clashing address is open and
    somebody other than this call owns it; for the sending address it can also be the call's own receiving socket. *)
Theorem C81_address_in_use_is_true :
  forall s t env s', reachable s ->
    (forall cfg, st_threads s t = BindingReceiver cfg -> addr_port (cf_receiving_address cfg) <> 0%N ->
       env_refuse env (cf_receiving_address cfg) <> Some EAddrInUse ->
       step s (LBindReceiver t env) s' -> st_threads s' t = Returning (Err EAddrInUse) ->
       exists o fd b, o <> ByCall t /\ owns s o fd /\ address_of s fd b /\ clash (cf_receiving_address cfg) b) /\
    (forall cfg own e, st_threads s t = BindingSender cfg own -> addr_port (cf_sending_address cfg) <> 0%N ->
       env_refuse env (cf_sending_address cfg) <> Some EAddrInUse ->
       step s (LBindSender t env) s' -> st_threads s' t = DroppingReceiver own e -> e = EAddrInUse ->
       exists o fd b, (o = ByCall t -> fd = own) /\ owns s o fd /\ address_of s fd b /\ clash (cf_sending_address cfg) b).
Proof. exact p_C81_address_in_use_is_true. Qed.
Print Assumptions C81_address_in_use_is_true.

(** C81. However many threads race to create an instance sending from the same address, exactly one wins: when all calls
    have returned there is one live value, one call returned it, and every other call returned "address in use". *)
Theorem C81_race_has_one_winner :
  forall A h s, addr_port A <> 0%N -> run initial h s -> Forall (racing A) h -> idle s -> 1 <= count is_call h ->
    (exists i, st_instances s = [i]) /\
    count is_success h = 1 /\
    (forall t e, In (LReturn t (Err e)) h -> e = EAddrInUse).
Proof. exact p_C81_race_has_one_winner. Qed.
Print Assumptions C81_race_has_one_winner.

(** C83. A call of [new] whose steps nobody interrupts does what the sequential model of Ipv8.v says: same error, or the
    same two addresses bound. *)
Theorem C83_uninterrupted_call_is_sequential :
  forall s t cfg env mid r s' p,
    st_threads s t = Outside -> run s (LCall t cfg :: mid ++ [LReturn t r]) s' -> Forall (alone t env) mid ->
    open_sockets p = bound s -> (pr_once p = true <-> st_once s = OnceComplete) ->
    match r, snd (ipv8_new env cfg p) with
    | Ok i, Ok v => address_of s' (in_receiver i) (iv_receiver_socket v) /\
                    address_of s' (in_sender i) (iv_sender_socket v)
    | Err e, Err e' => e = e'
    | _, _ => False
    end.
Proof. exact p_C83_uninterrupted_call_is_sequential. Qed.
Print Assumptions C83_uninterrupted_call_is_sequential.

(** C84. Calls of [new] are not atomic. There are two configurations which can be created one after the other's failure: run
    one after the other, in either order, the first call succeeds. Run at the same time, both calls can fail
    with "address in use", each because of the other's half-made instance, and nothing is left open. *)
Theorem C84_new_is_atomic_refuted :
  exists cfg1 cfg2 env,
    (forall cfg, cfg = cfg1 \/ cfg = cfg2 -> exists i, snd (ipv8_new env cfg (process_init [])) = Ok i) /\
    exists h s, run initial h s /\
      filter is_call h = [LCall 0 cfg1; LCall 1 cfg2] /\
      (forall l, In l h -> match l with
                           | LBindReceiver _ e | LBindSender _ e => e = env
                           | LBuild _ ok => ok = true
                           | _ => thread_of l <> None
                           end) /\
      idle s /\ st_instances s = [] /\ open_fds s = [] /\
      In (LReturn 0 (Err EAddrInUse)) h /\ In (LReturn 1 (Err EAddrInUse)) h.
Proof. exact p_C84_new_is_atomic_refuted. Qed.
Print Assumptions C84_new_is_atomic_refuted.

(** C82. No deadlock: in every reachable state every call in progress can take its next step, except one that waits for another
    thread to finish building the pool; and that thread can take its next step. *)
Theorem C82_no_deadlock :
  forall s t, reachable s -> st_threads s t <> Outside ->
    can_step s t \/
    (exists cfg u, st_threads s t = AtOnce cfg /\ u <> t /\
       exists l s', (l = LBuild u true \/ l = LBuild u false \/ l = LOnceLeave u) /\ step s l s').
Proof. exact p_C82_no_deadlock. Qed.
Print Assumptions C82_no_deadlock.

(** C82. A call takes at most eight steps of its own before it returns, however long it waits for others. *)
Theorem C82_call_is_short :
  forall s h s' t, run s h s' -> st_threads s t = Outside -> count (is_return_of t) h = 0 ->
    count (is_step_of t) h <= 8.
Proof. exact p_C82_call_is_short. Qed.
Print Assumptions C82_call_is_short.

(** C82. No livelock: with calls in progress on [n] threads, at most [8 * n] steps of calls are possible in a row; and when
    no call can take a step any more, no call is in progress. So every schedule that keeps running the calls
    ends, after at most that many steps, with all of them returned. *)
Theorem C82_all_calls_return :
  forall n s h s', reachable s -> at_most_threads n s -> run s h s' -> Forall (fun l => is_call_step l = true) h ->
    length h <= 8 * n /\ ((forall t, ~ can_step s' t) -> idle s').
Proof. exact p_C82_all_calls_return. Qed.
Print Assumptions C82_all_calls_return.

Example ex_C81_race :
  Forall (racing (v4 0 0 0 0 8000)) race_history /\ count is_call race_history = 3 /\
  exists s, run initial race_history s /\ idle s.
Proof. exact ex_C81_race. Qed.

Example ex_C79_pool_fails :
  exists h s, run initial h s /\ Forall honest h /\ count is_pool_error h = 1 /\ length (st_instances s) = 1 /\ st_pool s = None.
Proof. exact ex_C79_pool_fails. Qed.

(** the rest of the program sets the pool up while a call is inside the closure: the call's own attempt then fails *)
Example ex_C79_one_pool :
  exists s, run initial [LCall 0 config_default; LOnceEnter 0; LInitPool 3; LBuild 0 false; LOnceLeave 0] s /\ st_pool s = Some 3.
Proof. exact ex_C79_one_pool. Qed.

Example ex_C80_all_owners :
  exists h s, run initial h s /\ open_fds s = [4; 3; 2; 0] /\
    owns s (ByListener 0) 0 /\ owns s (ByOther 0) 2 /\ owns s (ByInstance 0) 3 /\ owns s (ByInstance 0) 4.
Proof. exact ex_C80_all_owners. Qed.

Example ex_C82_blocked :
  exists h s, run initial h s /\ st_threads s 1 = AtOnce config_default /\ ~ can_step s 1 /\ can_step s 0.
Proof. exact ex_C82_blocked. Qed.

(** an uninterrupted call, from the beginning of the process *)
Example ex_C83_uninterrupted :
  exists mid r s', st_threads initial 0 = Outside /\ run initial (LCall 0 config_default :: mid ++ [LReturn 0 r]) s' /\ Forall (alone 0 env_calm) mid /\
    open_sockets (process_init []) = bound initial /\ (pr_once (process_init []) = true <-> st_once initial = OnceComplete) /\ exists i, r = Ok i.
Proof. exact ex_C83_uninterrupted. Qed.
