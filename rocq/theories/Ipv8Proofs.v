(** * Ipv8Proofs: C54-C57, C64-C65 *)
From Coq Require Import Strings.String Sorting.Permutation.
From Verif Require Import Base Serde Codec Universe Packet Community Network Ipv8 Ipv8Spec Spec SerdeFacts NetSpec NetworkProofs CodecProofs.
Open Scope nat_scope.

Lemma is_wildcard_spec ip : is_wildcard ip = true <-> Forall (eq x00) ip.
Proof.
  unfold is_wildcard. rewrite forallb_forall, Forall_forall.
  split; intros H x I; specialize (H x I); [now apply Byte.byte_dec_bl|subst; reflexivity].
Qed.
Lemma conflict_spec a b : conflict a b = true <-> clash a b.
Proof.
  unfold conflict, clash. rewrite andb_true_iff, !orb_true_iff, N.eqb_eq, bytes_eqb_eq, !is_wildcard_spec. tauto.
Qed.

Lemma do_calls_app p a b : do_calls p (a ++ b) = do_calls (do_calls p a) b.
Proof. apply fold_left_app. Qed.

(** ** C54 *)
Lemma new_pool env cfg p :
  pr_once (fst (ipv8_new env cfg p)) = true /\
  pr_pools (fst (ipv8_new env cfg p)) =
    (if pr_once p then pr_pools p else if env_pool_ok env then pr_pools p ++ [cf_threadcount cfg] else pr_pools p).
Proof.
  unfold ipv8_new, setup_pool. destruct (pr_once p) eqn:O.
  - destruct (os_bind env (open_sockets p) (cf_receiving_address cfg)) as [r| |]; cbn [fst]; auto.
    destruct (os_bind env (r :: open_sockets p) (cf_sending_address cfg)); cbn; auto.
  - destruct (env_pool_ok env); cbn [fst]; [|auto].
    match goal with |- context [os_bind env ?b (cf_receiving_address cfg)] =>
      destruct (os_bind env b (cf_receiving_address cfg)) as [r| |]; cbn [fst]; auto;
      destruct (os_bind env (r :: b) (cf_sending_address cfg)); cbn; auto end.
Qed.
Lemma other_pool p c : ~ is_new c -> pr_once (do_call p c) = pr_once p /\ pr_pools (do_call p c) = pr_pools p.
Proof.
  destruct c; cbn [is_new do_call]; [tauto|..]; intros _; try (destruct (get_instance p i)); cbn; auto.
Qed.
Lemma once_pools p l : pr_once p = true -> pr_pools (do_calls p l) = pr_pools p /\ pr_once (do_calls p l) = true.
Proof.
  revert p. induction l as [|c l IH]; intros p O; [auto|]. cbn.
  assert (K : pr_once (do_call p c) = true /\ pr_pools (do_call p c) = pr_pools p).
  { destruct c as [env cfg| | | | |]; try (rewrite <- O; apply other_pool; exact id).
    cbn [do_call]. destruct (new_pool env cfg p) as [A B]. rewrite O in B. auto. }
  destruct K as [K1 K2]. destruct (IH _ K1) as [X Y]. unfold do_calls in X, Y. now rewrite X, K2.
Qed.
Lemma no_new_pools p l : Forall (fun c => ~ is_new c) l ->
  pr_once (do_calls p l) = pr_once p /\ pr_pools (do_calls p l) = pr_pools p.
Proof.
  revert p. induction l as [|c l IH]; intros p F; [auto|]. inversion F; subst. cbn.
  destruct (IH (do_call p c)) as [A B]; [assumption|]. destruct (other_pool p c) as [C D]; [assumption|].
  unfold do_calls in A, B. now rewrite A, B, C, D.
Qed.

(** C54. In every history the global pool is built by the first [IPv8::new] and by no other call, with the first
    call's thread count; if building fails then, it is never built at all. *)
Lemma p_C54_pool_built_once :
  forall (others : list address) (before rest : list call) (env : environment) (cfg : config),
    Forall (fun c => ~ is_new c) before ->
    pr_pools (after others before) = [] /\
    pr_pools (after others (before ++ CNew env cfg :: rest)) =
      if env_pool_ok env then [cf_threadcount cfg] else [].
Proof.
  intros others before rest env cfg F. unfold after.
  destruct (no_new_pools (process_init others) before F) as [A B].
  split; [exact B|]. rewrite do_calls_app.
  change (CNew env cfg :: rest) with ([CNew env cfg] ++ rest). rewrite do_calls_app. cbn [do_calls fold_left do_call].
  destruct (new_pool env cfg (do_calls (process_init others) before)) as [C D].
  unfold do_calls in *. destruct (once_pools _ rest C) as [X _]. unfold do_calls in X. rewrite X, D, A, B. cbn.
  now destruct (env_pool_ok env).
Qed.

(** C54. A pool that cannot be built makes exactly the first call fail; later calls do not even look. *)
Lemma p_C54_pool_failure_reported_once :
  forall (others : list address) (before rest : list call) (env env' : environment) (cfg cfg' : config),
    Forall (fun c => ~ is_new c) before ->
    (env_pool_ok env = false ->
       snd (ipv8_new env cfg (after others before)) = Err EPoolError /\
       open_sockets (fst (ipv8_new env cfg (after others before))) = open_sockets (after others before)) /\
    (let p := after others (before ++ CNew env cfg :: rest) in
     let retry ok := ipv8_new {| env_pool_ok := ok; env_refuse := env_refuse env'; env_ephemeral := env_ephemeral env' |} cfg' p in
     retry false = retry true).
Proof.
  intros others before rest env env' cfg cfg' F.
  destruct (no_new_pools (process_init others) before F) as [A B]. cbn in A.
  split.
  - intros E. unfold after in *. unfold ipv8_new, setup_pool. rewrite A, E. auto.
  - cbn zeta.
    assert (O : pr_once (after others (before ++ CNew env cfg :: rest)) = true).
    { unfold after. rewrite do_calls_app.
      change (CNew env cfg :: rest) with ([CNew env cfg] ++ rest). rewrite do_calls_app.
      cbn [do_calls fold_left do_call].
      destruct (new_pool env cfg (do_calls (process_init others) before)) as [C D].
      unfold do_calls in *. now destruct (once_pools _ rest C) as [_ X]. }
    unfold ipv8_new, setup_pool. rewrite O. reflexivity.
Qed.

(** ** C55 *)
Lemma os_bind_ok env bound a :
  addr_port a <> 0%N ->
  forall r, os_bind env bound a = Ok r <-> r = a /\ env_refuse env a = None /\ Forall (fun b => ~ clash a b) bound.
Proof.
  intros P r. unfold os_bind. apply N.eqb_neq in P. rewrite P.
  destruct (env_refuse env a) as [e|]; [split; [discriminate|intros (_ & H & _); discriminate]|].
  destruct (existsb (conflict a) bound) eqn:X.
  - split; [discriminate|]. intros (_ & _ & H). apply existsb_exists in X as (b & I & C).
    rewrite Forall_forall in H. apply conflict_spec in C. now apply H in C.
  - split.
    + intros H. assert (r = a) by congruence. subst. split; [reflexivity|]. split; [reflexivity|].
      apply Forall_forall. intros b I C. apply conflict_spec in C.
      assert (existsb (conflict a) bound = true) by (apply existsb_exists; eauto). congruence.
    + now intros (-> & _ & _).
Qed.
Lemma os_bind_total env bound a : exists r, os_bind env bound a = Ok r \/ exists e, os_bind env bound a = Err e.
Proof.
  unfold os_bind. destruct (env_refuse env a); [exists a; eauto|]. destruct (existsb _ _); [exists a; eauto|eauto].
Qed.

(** C55. [IPv8::new] succeeds exactly when the pool is there or can be built, and both addresses can be bound: the OS
    does not refuse them, the receiving address clashes with no open socket, and the sending address neither
    with those nor with the receiving address. (Addresses with port 0, where the OS picks the port: next theorem.)
    Otherwise it returns an error, never panics. *)
Lemma p_C55_new_succeeds_iff :
  forall (env : environment) (cfg : config) (p : process),
    addr_port (cf_receiving_address cfg) <> 0%N -> addr_port (cf_sending_address cfg) <> 0%N ->
    let result := snd (ipv8_new env cfg p) in
    ((exists i, result = Ok i) \/ (exists e, result = Err e)) /\
    ((exists i, result = Ok i) <->
     (pr_once p = true \/ env_pool_ok env = true) /\
     env_refuse env (cf_receiving_address cfg) = None /\ env_refuse env (cf_sending_address cfg) = None /\
     Forall (fun b => ~ clash (cf_receiving_address cfg) b) (open_sockets p) /\
     Forall (fun b => ~ clash (cf_sending_address cfg) b) (cf_receiving_address cfg :: open_sockets p)).
Proof.
  intros env cfg p P1 P2. cbn zeta.
  assert (K : forall q, open_sockets q = open_sockets p ->
    snd (match os_bind env (open_sockets q) (cf_receiving_address cfg) with
      | Err e => (q, Err e)
      | Panic x => (q, Panic x)
      | Ok r =>
          match os_bind env (r :: open_sockets q) (cf_sending_address cfg) with
          | Err e => (q, Err e)
          | Panic x => (q, Panic x)
          | Ok s =>
              let i := {| iv_config := cfg; iv_receiver_socket := r; iv_receivers := [];
                          iv_sender_socket := s; iv_communities := registry_default |} in
              ({| pr_once := pr_once q; pr_pools := pr_pools q;
                  pr_instances := pr_instances q ++ [Some i];
                  pr_listeners := pr_listeners q; pr_other_sockets := pr_other_sockets q |},
               Ok i)
          end
      end) = snd (ipv8_new env cfg p) ->
    ((exists i, snd (ipv8_new env cfg p) = Ok i) \/ (exists e, snd (ipv8_new env cfg p) = Err e)) /\
    ((exists i, snd (ipv8_new env cfg p) = Ok i) <->
     env_refuse env (cf_receiving_address cfg) = None /\ env_refuse env (cf_sending_address cfg) = None /\
     Forall (fun b => ~ clash (cf_receiving_address cfg) b) (open_sockets p) /\
     Forall (fun b => ~ clash (cf_sending_address cfg) b) (cf_receiving_address cfg :: open_sockets p))).
  { intros q Q <-. rewrite Q.
    pose proof (os_bind_ok env (open_sockets p) _ P1) as B1.
    destruct (os_bind env (open_sockets p) (cf_receiving_address cfg)) as [r|e|x] eqn:R.
    - destruct (proj1 (B1 r) eq_refl) as (-> & N1 & F1).
      pose proof (os_bind_ok env (cf_receiving_address cfg :: open_sockets p) _ P2) as B2.
      destruct (os_bind env (cf_receiving_address cfg :: open_sockets p) (cf_sending_address cfg)) as [s|e|x] eqn:S.
      + destruct (proj1 (B2 s) eq_refl) as (-> & N2 & F2). cbn. split; [eauto|]. split; [tauto|eauto].
      + cbn. split; [eauto|]. split; [intros (i & X); discriminate|].
        intros (_ & N2 & _ & F2). specialize (B2 (cf_sending_address cfg)). destruct B2 as [_ B2]. discriminate B2. auto.
      + exfalso. destruct (os_bind_total env (cf_receiving_address cfg :: open_sockets p) (cf_sending_address cfg)) as (? & [?|(? & ?)]); congruence.
    - cbn. split; [eauto|]. split; [intros (i & X); discriminate|].
      intros (N1 & _ & F1 & _). specialize (B1 (cf_receiving_address cfg)). destruct B1 as [_ B1]. discriminate B1. auto.
    - exfalso. destruct (os_bind_total env (open_sockets p) (cf_receiving_address cfg)) as (? & [?|(? & ?)]); congruence. }
  unfold ipv8_new, setup_pool in *. destruct (pr_once p) eqn:O.
  - destruct (K p eq_refl eq_refl) as [K1 K2]. split; [exact K1|]. rewrite K2. tauto.
  - destruct (env_pool_ok env) eqn:PO.
    + match goal with |- context [match ?x with _ => _ end] => idtac end.
      edestruct K as [K1 K2]; [|reflexivity|]; [reflexivity|]. split; [exact K1|]. rewrite K2. tauto.
    + cbn. split; [eauto|]. split; [intros (i & X); discriminate|]. intros ([H|H] & _); discriminate.
Qed.

(** What a call of [IPv8::new] does to the process. *)
Lemma new_effect env cfg p :
  let '(p', result) := ipv8_new env cfg p in
  pr_listeners p' = pr_listeners p /\ pr_other_sockets p' = pr_other_sockets p /\
  match result with
  | Ok i => pr_instances p' = pr_instances p ++ [Some i] /\
      i = {| iv_config := cfg; iv_receiver_socket := iv_receiver_socket i; iv_receivers := [];
             iv_sender_socket := iv_sender_socket i; iv_communities := registry_default |} /\
      os_bind env (open_sockets p) (cf_receiving_address cfg) = Ok (iv_receiver_socket i) /\
      os_bind env (iv_receiver_socket i :: open_sockets p) (cf_sending_address cfg) = Ok (iv_sender_socket i)
  | Err _ => pr_instances p' = pr_instances p
  | Panic _ => False
  end.
Proof.
  unfold ipv8_new, setup_pool. destruct (pr_once p).
  - destruct (os_bind env (open_sockets p) (cf_receiving_address cfg)) as [r|e|x] eqn:R; [|auto|].
    + destruct (os_bind env (r :: open_sockets p) (cf_sending_address cfg)) as [s|e|x] eqn:S; cbn; [repeat split; auto|auto|].
      destruct (os_bind_total env (r :: open_sockets p) (cf_sending_address cfg)) as (? & [?|(? & ?)]); congruence.
    + destruct (os_bind_total env (open_sockets p) (cf_receiving_address cfg)) as (? & [?|(? & ?)]); congruence.
  - destruct (env_pool_ok env); [|auto]. cbv zeta. cbn beta.
    set (q := {| pr_once := true; pr_pools := _; pr_instances := _; pr_listeners := _; pr_other_sockets := _ |}).
    change (open_sockets q) with (open_sockets p).
    destruct (os_bind env (open_sockets p) (cf_receiving_address cfg)) as [r|e|x] eqn:R; [|auto|].
    + destruct (os_bind env (r :: open_sockets p) (cf_sending_address cfg)) as [s|e|x] eqn:S; cbn; [repeat split; auto|auto|].
      destruct (os_bind_total env (r :: open_sockets p) (cf_sending_address cfg)) as (? & [?|(? & ?)]); congruence.
    + destruct (os_bind_total env (open_sockets p) (cf_receiving_address cfg)) as (? & [?|(? & ?)]); congruence.
Qed.

Definition sockets_of (o : option ipv8) : list address :=
  match o with Some i => [iv_receiver_socket i; iv_sender_socket i] | None => [] end.
Lemma open_sockets_eq p :
  open_sockets p = flat_map sockets_of (pr_instances p) ++ map li_socket (pr_listeners p) ++ pr_other_sockets p.
Proof. reflexivity. Qed.

(** C55. A call that fails leaves nothing behind (the receiving socket is closed again when the sending one cannot
    be bound); one that succeeds opens exactly two sockets, on the requested addresses (or with a port of the OS's choice
    if port 0 was requested), and the instance has no receivers and no communities. *)
Lemma p_C55_failed_new_leaks_nothing :
  forall (env : environment) (cfg : config) (p : process) (e : error),
    snd (ipv8_new env cfg p) = Err e ->
    let p' := fst (ipv8_new env cfg p) in
    open_sockets p' = open_sockets p /\ pr_instances p' = pr_instances p /\ pr_listeners p' = pr_listeners p.
Proof.
  intros env cfg p e H. pose proof (new_effect env cfg p) as E. destruct (ipv8_new env cfg p) as [p' r]. cbn in *. subst r.
  destruct E as (A & B & C). rewrite !open_sockets_eq, A, B, C. auto.
Qed.
(** C55. A call that succeeds opens exactly the two requested sockets and changes nothing else. *)
Lemma p_C55_new_opens_two_sockets :
  forall (env : environment) (cfg : config) (p : process) (i : ipv8),
    snd (ipv8_new env cfg p) = Ok i ->
    let p' := fst (ipv8_new env cfg p) in
    Permutation (open_sockets p') (iv_receiver_socket i :: iv_sender_socket i :: open_sockets p) /\
    pr_instances p' = pr_instances p ++ [Some i] /\ pr_listeners p' = pr_listeners p /\
    iv_config i = cfg /\ iv_receivers i = [] /\ iv_communities i = [] /\
    addr_ip (iv_receiver_socket i) = addr_ip (cf_receiving_address cfg) /\
    addr_ip (iv_sender_socket i) = addr_ip (cf_sending_address cfg) /\
    (addr_port (cf_receiving_address cfg) <> 0%N -> iv_receiver_socket i = cf_receiving_address cfg) /\
    (addr_port (cf_sending_address cfg) <> 0%N -> iv_sender_socket i = cf_sending_address cfg).
Proof.
  intros env cfg p i H. pose proof (new_effect env cfg p) as E. destruct (ipv8_new env cfg p) as [p' r]. cbn in *. subst r.
  destruct E as (A & B & C & D & R & S).
  assert (ip : forall bound a x, os_bind env bound a = Ok x -> addr_ip x = addr_ip a).
  { intros bound a x. unfold os_bind. destruct (env_refuse env a); [discriminate|].
    destruct (existsb _ _); [discriminate|]. intros X. injection X as <-.
    destruct (N.eqb _ _); [|reflexivity]. now destruct a. }
  split; [|repeat split; auto].
  - rewrite !open_sockets_eq, A, B, C, flat_map_app. cbn [flat_map sockets_of app].
    rewrite <- app_assoc. cbn [app]. rewrite Permutation_app_comm. cbn [app].
    constructor. constructor. apply Permutation_app_comm.
  - rewrite D. reflexivity.
  - rewrite D. reflexivity.
  - rewrite D. reflexivity.
  - eapply ip; exact R.
  - eapply ip; exact S.
  - intros P. now apply (os_bind_ok env _ _ P) in R.
  - intros P. now apply (os_bind_ok env _ _ P) in S.
Qed.

(** Slots. *)
Lemma nth_error_set_nth {A} n m (x : A) l :
  nth_error (set_nth n x l) m = if andb (n =? m) (n <? length l) then Some x else nth_error l m.
Proof.
  revert n m. induction l as [|y l IH]; intros n m.
  - cbn [length]. replace (n <? 0) with false by reflexivity. rewrite andb_false_r. destruct n; reflexivity.
  - destruct n, m; cbn [set_nth nth_error length]; try reflexivity. rewrite IH. cbn [Nat.eqb].
    destruct (n =? m) eqn:E; [|reflexivity]. cbn. reflexivity.
Qed.
Lemma get_with_instances p i j v l : pr_instances p = l ->
  get_instance (with_instances p (set_nth i v l)) j =
  if andb (i =? j) (i <? length l) then v else get_instance p j.
Proof.
  intros <-. unfold get_instance. cbn [with_instances pr_instances]. rewrite nth_error_set_nth.
  destruct (_ && _); [now destruct v|reflexivity].
Qed.
Lemma get_lt p i v : get_instance p i = Some v -> i < length (pr_instances p).
Proof. unfold get_instance. intros H. apply nth_error_Some. destruct (nth_error _ _); discriminate. Qed.

Lemma set_nth_split {A} n (x y : A) l : nth_error l n = Some y ->
  exists a b, l = a ++ y :: b /\ set_nth n x l = a ++ x :: b.
Proof.
  revert n. induction l as [|z l IH]; intros n; destruct n; cbn; try discriminate.
  - intros H. injection H as ->. exists [], l. auto.
  - intros H. destruct (IH n H) as (a & b & -> & E). exists (z :: a), b. now rewrite E.
Qed.
Lemma get_nth p i v : get_instance p i = Some v -> nth_error (pr_instances p) i = Some (Some v).
Proof. unfold get_instance. destruct (nth_error _ _) as [[x|]|]; congruence. Qed.

Lemma replace_sockets l i v w : nth_error l i = Some (Some v) ->
  Permutation (sockets_of w ++ flat_map sockets_of l) (sockets_of (Some v) ++ flat_map sockets_of (set_nth i w l)).
Proof.
  intros H. destruct (set_nth_split i w (Some v) l H) as (a & b & -> & ->).
  rewrite !flat_map_app. cbn [flat_map]. rewrite !app_assoc. apply Permutation_app_tail.
  rewrite <- !app_assoc. rewrite (Permutation_app_comm (sockets_of w)), <- app_assoc.
  rewrite (Permutation_app_comm (sockets_of (Some v)) (flat_map sockets_of a ++ sockets_of w)), <- app_assoc.
  apply Permutation_app_head, Permutation_app_comm.
Qed.

(** C64. [start] keeps the receiving socket, now owned by the listener together with the instance's configuration and
    receivers, and closes the sending socket; the value is gone, and with it the registry of communities. *)
Lemma p_C64_start_effect :
  forall (p : process) (k : nat) (v : ipv8),
    get_instance p k = Some v ->
    let p' := do_call p (CStart k) in
    get_instance p' k = None /\
    pr_listeners p' = pr_listeners p ++
      [{| li_socket := iv_receiver_socket v; li_receivers := iv_receivers v; li_config := iv_config v |}] /\
    Permutation (open_sockets p) (iv_sender_socket v :: open_sockets p') /\
    (forall j, j <> k -> get_instance p' j = get_instance p j).
Proof.
  intros p k v H. cbn zeta. cbn [do_call]. rewrite H.
  pose proof (get_lt _ _ _ H) as L. pose proof (get_nth _ _ _ H) as N. split; [|split; [reflexivity|split]].
  - unfold get_instance. cbn [pr_instances]. rewrite nth_error_set_nth, Nat.eqb_refl.
    apply Nat.ltb_lt in L. rewrite L. reflexivity.
  - rewrite !open_sockets_eq. cbn [pr_instances pr_listeners pr_other_sockets].
    pose proof (replace_sockets _ _ _ None N) as R. cbn [sockets_of app] in R. rewrite R.
    rewrite map_app. cbn [map li_socket]. cbn [app].
    apply perm_trans with (iv_sender_socket v :: iv_receiver_socket v ::
      flat_map sockets_of (set_nth k None (pr_instances p)) ++ map li_socket (pr_listeners p) ++ pr_other_sockets p);
      [apply perm_swap|].
    constructor. rewrite <- !app_assoc. cbn [app]. rewrite !app_assoc. apply Permutation_middle.
  - intros j J. unfold get_instance. cbn [pr_instances]. rewrite nth_error_set_nth.
    replace (k =? j) with false by (symmetry; apply Nat.eqb_neq; congruence). reflexivity.
Qed.

(** C64. Dropping an instance closes both its sockets. *)
Lemma p_C64_drop_effect :
  forall (p : process) (k : nat) (v : ipv8),
    get_instance p k = Some v ->
    let p' := do_call p (CDrop k) in
    get_instance p' k = None /\ pr_listeners p' = pr_listeners p /\
    Permutation (open_sockets p) (iv_receiver_socket v :: iv_sender_socket v :: open_sockets p').
Proof.
  intros p k v H. cbn zeta. cbn [do_call].
  pose proof (get_lt _ _ _ H) as L. pose proof (get_nth _ _ _ H) as N. split; [|split; [reflexivity|]].
  - rewrite get_with_instances by reflexivity. rewrite Nat.eqb_refl. apply Nat.ltb_lt in L. now rewrite L.
  - rewrite !open_sockets_eq. cbn [with_instances pr_instances pr_listeners pr_other_sockets].
    pose proof (replace_sockets _ _ _ None N) as R. cbn [sockets_of app] in R. rewrite R. reflexivity.
Qed.

(** Sockets of live instances are where their configuration says. *)
Definition at_config (v : ipv8) : Prop :=
  addr_ip (iv_sender_socket v) = addr_ip (cf_sending_address (iv_config v)) /\
  (addr_port (cf_sending_address (iv_config v)) <> 0%N -> iv_sender_socket v = cf_sending_address (iv_config v)) /\
  (addr_port (cf_receiving_address (iv_config v)) <> 0%N -> iv_receiver_socket v = cf_receiving_address (iv_config v)).
Lemma live_at_config others l k v : get_instance (after others l) k = Some v -> at_config v.
Proof.
  revert k v. unfold after. induction l as [|c l IH] using rev_ind; intros k v.
  - unfold get_instance. cbn. destruct k; discriminate.
  - rewrite do_calls_app. cbn [do_calls fold_left]. fold (do_calls (process_init others) l).
    set (p := do_calls (process_init others) l) in *. destruct c as [env cfg|i r|i c|i|i|i]; cbn [do_call].
    + pose proof (new_effect env cfg p) as E. pose proof (p_C55_new_opens_two_sockets env cfg p) as F.
      destruct (ipv8_new env cfg p) as [p' res]. cbn [fst snd] in *. destruct E as (_ & _ & E).
      destruct res as [i|e|x]; [|intros H; apply (IH k); unfold get_instance in *; now rewrite <- E|contradiction].
      destruct (F i eq_refl) as (_ & G & _ & C & _ & _ & _ & I2 & R & S).
      intros H. apply get_nth in H. rewrite G in H.
      destruct (Nat.lt_ge_cases k (length (pr_instances p))) as [L|L].
      * rewrite nth_error_app1 in H by assumption. apply (IH k). unfold get_instance. now rewrite H.
      * rewrite nth_error_app2 in H by assumption. destruct (k - length (pr_instances p)) as [|m]; [|destruct m; discriminate].
        cbn in H. assert (v = i) by congruence. subst v. unfold at_config. rewrite C. auto.
    + destruct (get_instance p i) as [w|] eqn:G; [|apply IH].
      rewrite get_with_instances by reflexivity. destruct (_ && _); [|apply IH].
      intros H. assert (E : v = {| iv_config := iv_config w; iv_receiver_socket := iv_receiver_socket w;
             iv_receivers := iv_receivers w ++ [r]; iv_sender_socket := iv_sender_socket w; iv_communities := iv_communities w |}) by congruence.
      subst v. exact (IH i w G).
    + destruct (get_instance p i) as [w|] eqn:G; [|apply IH].
      rewrite get_with_instances by reflexivity. destruct (_ && _); [|apply IH].
      intros H. assert (E : v = {| iv_config := iv_config w; iv_receiver_socket := iv_receiver_socket w;
             iv_receivers := iv_receivers w; iv_sender_socket := iv_sender_socket w; iv_communities := fst (add_community (iv_communities w) c) |}) by congruence.
      subst v. exact (IH i w G).
    + destruct (get_instance p i) as [w|] eqn:G; [|apply IH]. unfold get_instance at 1. cbn [pr_instances].
      rewrite nth_error_set_nth. destruct (_ && _); [discriminate|]. apply IH.
    + rewrite get_with_instances by reflexivity. destruct (_ && _); [discriminate|]. apply IH.
    + exact (IH k v).
Qed.

(** C55. In any history, while an instance is alive (not started, not dropped), no second one can be created whose
    sending address clashes with the first one's - in particular not with the default configuration, whose
    sending port 8000 is fixed. *)
Lemma p_C55_no_second_instance :
  forall (others : list address) (l : list call) (k : nat) (v : ipv8) (env : environment) (cfg : config),
    get_instance (after others l) k = Some v ->
    addr_port (cf_sending_address cfg) <> 0%N ->
    clash (cf_sending_address cfg) (cf_sending_address (iv_config v)) ->
    exists e, snd (ipv8_new env cfg (after others l)) = Err e.
Proof.
  intros others l k v env cfg H P C. destruct (live_at_config _ _ _ _ H) as (_ & A & _).
  assert (P' : addr_port (cf_sending_address (iv_config v)) <> 0%N) by (destruct C as [C _]; congruence).
  specialize (A P').
  pose proof (new_effect env cfg (after others l)) as E. destruct (ipv8_new env cfg (after others l)) as [p' r].
  cbn [snd]. destruct E as (_ & _ & E). destruct r as [i|e|x]; [|eauto|contradiction].
  destruct E as (_ & _ & _ & S). apply (os_bind_ok env _ _ P) in S as (_ & _ & F).
  exfalso. rewrite Forall_forall in F. apply (F (iv_sender_socket v)).
  - right. rewrite open_sockets_eq. apply in_or_app. left. apply in_flat_map. exists (Some v).
    split; [|cbn; auto]. eapply nth_error_In, get_nth, H.
  - now rewrite A.
Qed.

(** C55. In particular only one instance with the default configuration can be alive. *)
Lemma p_C55_no_second_default_instance :
  forall (others : list address) (l : list call) (k : nat) (v : ipv8) (env : environment),
    get_instance (after others l) k = Some v -> iv_config v = config_default ->
    exists e, snd (ipv8_new env config_default (after others l)) = Err e.
Proof.
  intros others l k v env H C. eapply p_C55_no_second_instance; [exact H|discriminate|].
  rewrite C. split; [reflexivity|now left].
Qed.

(** ** No two open sockets clash, ever *)
Lemma clash_sym a b : clash a b -> clash b a.
Proof. unfold clash. intros (A & [B|[B|B]]); split; auto. Qed.
Lemma disjoint_perm l l' : Permutation l l' -> disjoint l -> disjoint l'.
Proof.
  induction 1 as [|x l l' P IH|x y l|l l' l'' P1 IH1 P2 IH2]; intros D.
  - exact D.
  - inversion D; subst. constructor; [|now apply IH]. eapply Permutation_Forall; eassumption.
  - inversion D as [|? ? A B]; subst. inversion B as [|? ? A' B']; subst. inversion A; subst.
    constructor; [constructor; [intros C; apply clash_sym in C; contradiction|assumption]|]. constructor; assumption.
  - auto.
Qed.
Lemma os_bind_disjoint env bound a r : os_bind env bound a = Ok r -> Forall (fun b => ~ clash r b) bound.
Proof.
  unfold os_bind. destruct (env_refuse env a); [discriminate|].
  set (a' := if N.eqb _ _ then _ else _). destruct (existsb (conflict a') bound) eqn:X; [discriminate|].
  intros H. assert (r = a') by congruence. subst r. apply Forall_forall. intros b I C. apply conflict_spec in C.
  assert (existsb (conflict a') bound = true) by (apply existsb_exists; eauto). congruence.
Qed.

Definition same_sockets (v w : ipv8) : Prop :=
  iv_receiver_socket v = iv_receiver_socket w /\ iv_sender_socket v = iv_sender_socket w.
Lemma update_open_sockets p k v w : get_instance p k = Some v -> same_sockets v w ->
  open_sockets (with_instances p (set_nth k (Some w) (pr_instances p))) = open_sockets p.
Proof.
  intros G [A B]. rewrite !open_sockets_eq. cbn [with_instances pr_instances pr_listeners pr_other_sockets]. f_equal.
  apply get_nth in G. destruct (set_nth_split k (Some w) _ _ G) as (a & b & E1 & E2). rewrite E2, E1.
  rewrite !flat_map_app. cbn [flat_map sockets_of]. now rewrite A, B.
Qed.

(** C64. When a listener ends, exactly its socket is closed, so that its address can be bound again (C55). *)
Lemma p_C64_listener_end_effect :
  forall (p : process) (k : nat) (li : listener),
    nth_error (pr_listeners p) k = Some li ->
    let p' := do_call p (CListenerEnds k) in
    Permutation (open_sockets p) (li_socket li :: open_sockets p') /\
    Permutation (pr_listeners p) (li :: pr_listeners p') /\
    pr_instances p' = pr_instances p /\ pr_pools p' = pr_pools p.
Proof.
  intros p k li H p'.
  assert (P : Permutation (pr_listeners p) (li :: pr_listeners p')).
  { cbn. clear p'. revert k H. induction (pr_listeners p) as [|x l IH]; intros [|k] H; try discriminate.
    - injection H as ->. reflexivity.
    - cbn [firstn skipn app]. cbn in H. etransitivity; [apply perm_skip, (IH k H)|apply perm_swap]. }
  repeat split; [|exact P]. rewrite !open_sockets_eq. cbn [p' do_call pr_instances pr_other_sockets].
  etransitivity; [apply Permutation_app_head, Permutation_app_tail, Permutation_map, P|].
  cbn [map app p' do_call pr_listeners]. symmetry. apply Permutation_middle.
Qed.

(** C65. In every history, no two sockets open in the process clash. *)
Lemma p_C65_sockets_never_clash :
  forall (others : list address) (l : list call),
    disjoint others -> disjoint (open_sockets (after others l)).
Proof.
  intros others l D. unfold after. induction l as [|c l IH] using rev_ind; [exact D|].
  rewrite do_calls_app. cbn [do_calls fold_left]. fold (do_calls (process_init others) l).
  set (p := do_calls (process_init others) l) in *. destruct c as [env cfg|i r|i c|i|i|i].
  - cbn [do_call]. pose proof (new_effect env cfg p) as E. pose proof (p_C55_new_opens_two_sockets env cfg p) as F.
    destruct (ipv8_new env cfg p) as [p' res]. cbn [fst snd] in *. destruct E as (E1 & E2 & E3).
    destruct res as [i|e|x]; [|rewrite open_sockets_eq, E1, E2, E3; exact IH|contradiction].
    destruct (F i eq_refl) as (P & _). eapply disjoint_perm; [apply Permutation_sym, P|].
    destruct E3 as (_ & _ & R & S). apply os_bind_disjoint in R, S.
    eapply disjoint_perm; [apply perm_swap|]. constructor; [exact S|]. constructor; [exact R|exact IH].
  - cbn [do_call]. destruct (get_instance p i) as [w|] eqn:G; [|exact IH].
    erewrite update_open_sockets; [exact IH|exact G|split; reflexivity].
  - cbn [do_call]. destruct (get_instance p i) as [w|] eqn:G; [|exact IH].
    erewrite update_open_sockets; [exact IH|exact G|split; reflexivity].
  - destruct (get_instance p i) as [w|] eqn:G; [|cbn [do_call]; rewrite G; exact IH].
    destruct (p_C64_start_effect p i w G) as (_ & _ & P & _).
    pose proof (disjoint_perm _ _ P IH) as X. inversion X; assumption.
  - destruct (get_instance p i) as [w|] eqn:G.
    + destruct (p_C64_drop_effect p i w G) as (_ & _ & P).
      pose proof (disjoint_perm _ _ P IH) as X. inversion X as [|? ? _ Y]; subst. inversion Y; assumption.
    + assert (E : open_sockets (do_call p (CDrop i)) = open_sockets p); [|rewrite E; exact IH].
      cbn [do_call]. rewrite !open_sockets_eq. cbn [with_instances pr_instances pr_listeners pr_other_sockets]. f_equal.
      clear -G. unfold get_instance in G. revert i G.
      induction (pr_instances p) as [|o ll IHl]; intros i G; [destruct i; reflexivity|]. destruct i as [|i]; cbn in *.
      * destruct o; [discriminate|reflexivity].
      * now rewrite IHl.
  - destruct (nth_error (pr_listeners p) i) as [li|] eqn:G.
    + destruct (p_C64_listener_end_effect p i li G) as (P & _).
      pose proof (disjoint_perm _ _ P IH) as X. inversion X; assumption.
    + assert (E : open_sockets (do_call p (CListenerEnds i)) = open_sockets p); [|rewrite E; exact IH].
      rewrite !open_sockets_eq. cbn [do_call pr_instances pr_listeners pr_other_sockets].
      apply nth_error_None in G. rewrite firstn_all2, skipn_all2, app_nil_r by lia. reflexivity.
Qed.

(** ** C56: who gets the packets *)
Lemma Forall_without_nth {A} (P : A -> Prop) i l : Forall P l -> Forall P (firstn i l ++ skipn (S i) l).
Proof.
  intros F. revert i. induction F as [|x l H F IH]; intros [|i]; cbn [firstn skipn app]; auto; constructor; [exact H|apply IH].
Qed.
Lemma no_receivers others l : Forall (fun c => ~ adds_receiver c) l ->
  (forall k v, get_instance (after others l) k = Some v -> iv_receivers v = []) /\
  Forall (fun li => li_receivers li = []) (pr_listeners (after others l)).
Proof.
  unfold after. induction l as [|c l IH] using rev_ind; intros F.
  - split; [|constructor]. intros k v. unfold get_instance. cbn. destruct k; discriminate.
  - apply Forall_app in F as [F1 F2]. inversion F2 as [|? ? F3 _]; subst. destruct (IH F1) as [I1 I2]. clear IH.
    rewrite do_calls_app. cbn [do_calls fold_left]. fold (do_calls (process_init others) l).
    set (p := do_calls (process_init others) l) in *. destruct c as [env cfg|i r|i c|i|i|i]; cbn [do_call].
    + pose proof (new_effect env cfg p) as E. destruct (ipv8_new env cfg p) as [p' res]. cbn [fst].
      destruct E as (E1 & E2 & E3). rewrite E1. split; [|exact I2]. intros k v H.
      destruct res as [i|e|x]; [|apply (I1 k); unfold get_instance in *; now rewrite <- E3|contradiction].
      destruct E3 as (E3 & E4 & _). apply get_nth in H. rewrite E3 in H.
      destruct (Nat.lt_ge_cases k (length (pr_instances p))) as [L|L].
      * rewrite nth_error_app1 in H by assumption. apply (I1 k). unfold get_instance. now rewrite H.
      * rewrite nth_error_app2 in H by assumption. destruct (k - length (pr_instances p)) as [|m]; [|destruct m; discriminate].
        cbn in H. assert (v = i) by congruence. subst v. rewrite E4. reflexivity.
    + exfalso. apply F3. exact I.
    + destruct (get_instance p i) as [w|] eqn:G; [|auto]. split; [|exact I2]. intros k v.
      rewrite get_with_instances by reflexivity. destruct (_ && _); [|apply I1].
      intros H. assert (E : v = {| iv_config := iv_config w; iv_receiver_socket := iv_receiver_socket w;
             iv_receivers := iv_receivers w; iv_sender_socket := iv_sender_socket w; iv_communities := fst (add_community (iv_communities w) c) |}) by congruence.
      subst v. exact (I1 i w G).
    + destruct (get_instance p i) as [w|] eqn:G; [|auto]. split.
      * intros k v. unfold get_instance at 1. cbn [pr_instances]. rewrite nth_error_set_nth.
        destruct (_ && _); [discriminate|]. apply I1.
      * cbn [pr_listeners]. apply Forall_app. split; [exact I2|]. constructor; [|constructor]. exact (I1 i w G).
    + split; [|exact I2]. intros k v. rewrite get_with_instances by reflexivity. destruct (_ && _); [discriminate|]. apply I1.
    + split; [exact I1|]. cbn [pr_listeners]. apply Forall_without_nth, I2.
Qed.

(** C56 (refuted). In a program that never adds a receiver by hand, whatever communities it registers and whatever
    packets arrive, a started listener calls nobody, in every execution. *)
Lemma p_C56_refuted_registry_not_connected :
  forall (others : list address) (l : list call) (li : listener),
    Forall (fun c => ~ adds_receiver c) l ->
    In li (pr_listeners (after others l)) ->
    forall (q0 : list datagram) (tr : list label) (s : net_state) r pkt src,
      run (net_config_of li) (net_init (net_config_of li) q0) tr s -> ~ In (LCall r pkt src) tr.
Proof.
  intros others l li F I q0 tr s r pkt src R C. destruct (no_receivers others l F) as [_ N].
  rewrite Forall_forall in N. specialize (N li I).
  apply in_split in C as (a & b & ->).
  change (a ++ LCall r pkt src :: b) with (a ++ [LCall r pkt src] ++ b) in R. rewrite app_assoc in R.
  apply run_app_inv in R as (s1 & R & _). apply p_C50_one_datagram_at_a_time in R as (R & _).
  cbn in R. rewrite N in R. cbn in R. lia.
Qed.

Lemma live_slot (p : process) (k : nat) (v : ipv8) (l : list call) :
  get_instance p k = Some v -> Forall (fun c => c <> CStart k /\ c <> CDrop k) l ->
  exists w, get_instance (do_calls p l) k = Some w /\
    iv_receivers w = iv_receivers v ++ receivers_added k l /\
    iv_communities w = fold_left (fun reg c => fst (add_community reg c)) (communities_added k l) (iv_communities v) /\
    iv_config w = iv_config v /\ same_sockets v w.
Proof.
  revert p v. induction l as [|c l IH]; intros p v G F.
  - exists v. rewrite app_nil_r. repeat split; auto.
  - inversion F as [|? ? [F1 F2] F3]; subst. pose proof (get_lt _ _ _ G) as L.
    assert (K : exists v1, get_instance (do_call p c) k = Some v1 /\
      iv_receivers v1 = iv_receivers v ++ receivers_added k [c] /\
      iv_communities v1 = fold_left (fun reg c => fst (add_community reg c)) (communities_added k [c]) (iv_communities v) /\
      iv_config v1 = iv_config v /\ same_sockets v v1).
    { destruct c as [env cfg|i r|i c|i|i|i].
      - exists v. cbn [do_call receivers_added communities_added fold_left]. rewrite app_nil_r.
        split; [|repeat split; auto]. pose proof (new_effect env cfg p) as E.
        destruct (ipv8_new env cfg p) as [p' res]. cbn [fst]. destruct E as (_ & _ & E).
        unfold get_instance in *. destruct res as [i|e|x]; [destruct E as (E & _)| |contradiction]; rewrite E; [|exact G].
        rewrite nth_error_app1 by assumption. exact G.
      - cbn [do_call receivers_added communities_added fold_left].
        destruct (Nat.eqb_spec i k) as [->|Ne].
        + rewrite G. eexists. split; [rewrite get_with_instances by reflexivity; rewrite Nat.eqb_refl;
            apply Nat.ltb_lt in L; rewrite L; reflexivity|]. repeat split; auto.
        + rewrite app_nil_r. exists v. split; [|repeat split; auto].
          destruct (get_instance p i); [|exact G]. rewrite get_with_instances by reflexivity.
          apply Nat.eqb_neq in Ne. rewrite Ne. exact G.
      - cbn [do_call receivers_added communities_added]. rewrite app_nil_r.
        destruct (Nat.eqb_spec i k) as [->|Ne].
        + rewrite G. eexists. split; [rewrite get_with_instances by reflexivity; rewrite Nat.eqb_refl;
            apply Nat.ltb_lt in L; rewrite L; reflexivity|]. repeat split; auto.
        + exists v. split; [|repeat split; auto].
          destruct (get_instance p i); [|exact G]. rewrite get_with_instances by reflexivity.
          apply Nat.eqb_neq in Ne. rewrite Ne. exact G.
      - exists v. cbn [receivers_added communities_added fold_left]. rewrite app_nil_r. split; [|repeat split; auto].
        assert (i <> k) by congruence. destruct (get_instance p i) as [w|] eqn:E.
        + destruct (p_C64_start_effect p i w E) as (_ & _ & _ & X). rewrite X by congruence. exact G.
        + cbn [do_call]. now rewrite E.
      - exists v. cbn [receivers_added communities_added fold_left]. rewrite app_nil_r. split; [|repeat split; auto].
        assert (i <> k) by congruence. cbn [do_call]. rewrite get_with_instances by reflexivity.
        apply Nat.eqb_neq in H. rewrite H. exact G.
      - exists v. cbn [receivers_added communities_added fold_left]. rewrite app_nil_r. split; [exact G|repeat split; auto]. }
    destruct K as (v1 & G1 & A1 & B1 & C1 & D1).
    destruct (IH _ v1 G1 F3) as (w & Gw & A & B & C & D). exists w. split; [exact Gw|].
    split; [|split; [|split]].
    + rewrite A, A1, <- app_assoc. f_equal. destruct c; cbn; try reflexivity. now destruct (_ =? _).
    + rewrite B, B1. destruct c; cbn; try reflexivity. now destruct (_ =? _).
    + congruence.
    + destruct D, D1. split; congruence.
Qed.

(** C56, what does hold: whatever else happens in the process, an instance keeps what was added to it, in order, and
    [start] starts a listener on its socket, with its configuration, notifying exactly the receivers added by hand. *)
Lemma p_C56_started_listener :
  forall (env : environment) (cfg : config) (p : process) (i : ipv8) (l : list call),
    snd (ipv8_new env cfg p) = Ok i ->
    let k := length (pr_instances p) in
    Forall (fun c => c <> CStart k /\ c <> CDrop k) l ->
    let p1 := do_calls (fst (ipv8_new env cfg p)) l in
    (exists w, get_instance p1 k = Some w /\
       iv_communities w = fold_left (fun reg c => fst (add_community reg c)) (communities_added k l) []) /\
    pr_listeners (do_call p1 (CStart k)) = pr_listeners p1 ++
      [{| li_socket := iv_receiver_socket i; li_receivers := receivers_added k l; li_config := cfg |}].
Proof.
  intros env cfg p i l H k F p1.
  destruct (p_C55_new_opens_two_sockets env cfg p i H) as (_ & I1 & _ & C & R & Co & _).
  assert (G : get_instance (fst (ipv8_new env cfg p)) k = Some i).
  { unfold get_instance. rewrite I1, nth_error_app2, Nat.sub_diag by apply Nat.le_refl. reflexivity. }
  destruct (live_slot _ k i l G F) as (w & Gw & A & B & Cw & [D1 D2]). fold p1 in Gw.
  split.
  - exists w. split; [exact Gw|]. rewrite B, Co. reflexivity.
  - destruct (p_C64_start_effect p1 k w Gw) as (_ & X & _). rewrite X, A, Cw, R, C, <- D1. reflexivity.
Qed.

(** ** C57 *)
Lemma defaults_ok : Forall (fun a => in_range TAddress a /\ encodable TAddress a) default_addresses.
Proof. repeat (constructor; [split; [vm_compute; reflexivity|exact I]|]). constructor. Qed.
(** C57. All addresses of the default configuration are IPv4: each is written in six bytes and read back. *)
Lemma p_C57_defaults_on_the_wire :
  forall (a : address) (p : packet) (later : list byte),
    In a default_addresses ->
    exists q, packet_add TAddress p a = (q, Ok tt) /\
      length (packet_raw q) = length (packet_raw p) + 6 /\
      next_payload TAddress {| pntr := Packet (packet_raw q ++ later); index := length (packet_raw p) |}
      = ({| pntr := Packet (packet_raw q ++ later); index := length (packet_raw q) |}, Ok a).
Proof.
  intros a p later I. pose proof defaults_ok as D. rewrite Forall_forall in D. destruct (D a I) as [R E].
  exists (Packet (packet_raw p ++ layout TAddress a)).
  assert (A : packet_add TAddress p a = (Packet (packet_raw p ++ layout TAddress a), Ok tt)) by now apply p_C05_wire_layout.
  split; [exact A|]. split.
  - cbn [packet_raw packet_bytes]. unfold packet_raw. cbn [packet_bytes]. rewrite app_length. f_equal. destruct a; [reflexivity|contradiction].
  - pose proof (p_C06_round_trip TAddress p _ a later R eq_refl A) as X. cbn zeta in X. rewrite X.
    now rewrite p_C06_nothing_lost.
Qed.

(** C57. The default configuration is the documented one: sizes, no timeout, one thread per core, sockets on all interfaces, and these
    hosts in this order. (One of them is there twice.) *)
Lemma p_C57_documented_defaults :
  cf_queuesize config_default = 100 /\ cf_buffersize config_default = 2 ^ 11 /\ cf_pollinterval config_default = None /\
  cf_threadcount config_default = 0 /\
  dotted (cf_sending_address config_default) = "0.0.0.0:8000"%string /\ dotted (cf_receiving_address config_default) = "0.0.0.0:0"%string /\
  map dotted (cf_default_hosts config_default) =
    ["130.161.119.206:6421"; "130.161.119.206:6422"; "131.180.27.155:6423"; "131.180.27.156:6424"; "131.180.27.161:6427";
     "131.180.27.161:6427"; "131.180.27.161:6521"; "131.180.27.161:6522"; "131.180.27.162:6523"; "131.180.27.162:6524";
     "130.161.119.215:6525"; "130.161.119.215:6526"; "81.171.27.194:6527"; "81.171.27.194:6528"]%string.
Proof. repeat split; reflexivity. Qed.

(** ** A concrete history *)
Definition ex_env : environment := {|
  env_pool_ok := true; env_refuse := fun _ => None;
  env_ephemeral := fun bound _ => (50000 + N.of_nat (length bound))%N |}.
Definition ex_community : community := {|
  c_tag := 0; c_mid := repeat x2a 20; c_on_receive := fun _ _ _ => Ok tt |}.
(** two attempts with the default configuration, the second one while the first instance is alive; a community and a
    receiver are added; start; a third attempt *)
Definition ex_history : list call :=
  [CNew ex_env config_default; CNew ex_env config_default; CAddCommunity 0 ex_community; CAddReceiver 0 7;
   CStart 0; CNew ex_env config_default].

Example ex_C54_history :
  pr_pools (after [] ex_history) = [0] /\
  map (fun n => length (pr_instances (after [] (firstn n ex_history)))) [1; 2; 3; 4; 5; 6] = [1; 1; 1; 1; 1; 2] /\
  map li_receivers (pr_listeners (after [] ex_history)) = [[7]] /\
  open_sockets (after [] ex_history) = [v4 0 0 0 0 50001; v4 0 0 0 0 8000; v4 0 0 0 0 50000].
Proof. repeat split; vm_compute; reflexivity. Qed.

Example ex_C55_success_and_failure :
  (exists i, snd (ipv8_new ex_env config_default (after [] [])) = Ok i) /\
  snd (ipv8_new ex_env config_default (after [] (firstn 1 ex_history))) = Err EAddrInUse /\
  (exists i, snd (ipv8_new ex_env config_default (after [] (firstn 5 ex_history))) = Ok i).
Proof. split; [eexists; vm_compute; reflexivity|]. split; [vm_compute; reflexivity|eexists; vm_compute; reflexivity]. Qed.

(** the hypotheses of the refutation of C56: community registered, listener started, nobody added by hand *)
Example ex_C56_program :
  let l := [CNew ex_env config_default; CAddCommunity 0 ex_community; CStart 0] in
  Forall (fun c => ~ adds_receiver c) l /\ length (pr_listeners (after [] l)) = 1.
Proof. cbn zeta. split; [repeat constructor; exact id|vm_compute; reflexivity]. Qed.

Example ex_C65_distinct : disjoint [v4 127 0 0 1 80; v4 127 0 0 2 80; v4 0 0 0 0 81].
Proof.
  assert (K : forall a b, conflict a b = false -> ~ clash a b).
  { intros a b E C. apply conflict_spec in C. congruence. }
  unfold disjoint. apply FOP_cons.
  - apply Forall_cons; [now apply K|]. apply Forall_cons; [now apply K|]. apply Forall_nil.
  - apply FOP_cons; [|apply FOP_cons; [apply Forall_nil|apply FOP_nil]].
    apply Forall_cons; [now apply K|]. apply Forall_nil.
Qed.
