(** * ConfigProofs: C136 *)
From Coq Require Import Strings.String.
From Verif Require Import Base Serde Codec Universe Spec Packet Client HeaderProofs Community CommunitySpec CommunityProofs Network NetSpec NetworkProofs EndToEndSpec EndToEndProofs Ipv8 Ipv8Spec Ipv8Proofs World WorldSpec WorldProofs ConfigSpec.
Open Scope nat_scope.

Lemma listen_config_same a b n : same_buffer_and_timeout a b -> listen_config a n = listen_config b n.
Proof.
  intros [B P]. unfold listen_config. rewrite B. destruct (cf_pollinterval a), (cf_pollinterval b); try reflexivity.
  - discriminate (proj2 P eq_refl).
  - discriminate (proj1 P eq_refl).
Qed.

Lemma wstep_reconfigured T f : (forall c, same_buffer_and_timeout c (f c)) ->
  forall w e w', wstep T w e w' <-> wstep T w (reconfigured_event f e) w'.
Proof.
  intros F w e w'. destruct e; cbn [reconfigured_event]; try tauto. split; intros H; inversion H; subst.
  - rewrite (listen_config_same cfg (f cfg)) by apply F. now apply wstep_start.
  - rewrite <- (listen_config_same cfg (f cfg)) by apply F. now apply wstep_start.
Qed.

(** C136. On the network no option but [buffersize] and the presence of [pollinterval] makes any difference once the sockets are bound:
    whatever else is changed in the configurations listeners are started with - queue size (but see below), number of threads, the length of the
    poll interval, default hosts, addresses - the executions of the whole network are the same. *)
Lemma p_C136_network_ignores_the_other_options :
  forall (T : topology) (f : config -> config) (tr : list event) (w : world),
    (forall c, same_buffer_and_timeout c (f c)) ->
    (wrun T world_init tr w <-> wrun T world_init (map (reconfigured_event f) tr) w).
Proof.
  intros T f tr w F. revert w. induction tr as [|e tr IH] using rev_ind; intros w; [reflexivity|].
  rewrite map_app. cbn [map]. split; intros H.
  - inversion H as [|? ? w1 ? ? R S E]; [destruct tr; discriminate|].
    match goal with X : _ ++ _ = _ ++ _ |- _ => apply app_inj_tail in X as [-> ->] end.
    eapply wrun_snoc; [apply IH; eassumption|now apply wstep_reconfigured].
  - inversion H as [|? ? w1 ? ? R S E]; [destruct tr; discriminate|].
    match goal with X : _ ++ _ = _ ++ _ |- _ => apply app_inj_tail in X as [-> ->] end.
    eapply wrun_snoc; [apply IH; eassumption|now apply (wstep_reconfigured T f F)].
Qed.

Definition reconf_instance (f : config -> config) (v : ipv8) : ipv8 := {|
  iv_config := f (iv_config v); iv_receiver_socket := iv_receiver_socket v; iv_receivers := iv_receivers v;
  iv_sender_socket := iv_sender_socket v; iv_communities := iv_communities v |}.
Definition reconf_listener (f : config -> config) (l : listener) : listener := {|
  li_socket := li_socket l; li_receivers := li_receivers l; li_config := f (li_config l) |}.
Definition reconf (f : config -> config) (p : process) : process := {|
  pr_once := pr_once p; pr_pools := pr_pools p;
  pr_instances := map (option_map (reconf_instance f)) (pr_instances p);
  pr_listeners := map (reconf_listener f) (pr_listeners p);
  pr_other_sockets := pr_other_sockets p |}.

Lemma reconf_open f p : open_sockets (reconf f p) = open_sockets p.
Proof.
  unfold open_sockets. cbn [pr_instances pr_listeners pr_other_sockets reconf]. f_equal; [|f_equal].
  - induction (pr_instances p) as [|[v|] l IH]; cbn; [reflexivity|now rewrite IH|exact IH].
  - rewrite map_map. reflexivity.
Qed.
Lemma reconf_get f p k : get_instance (reconf f p) k = option_map (reconf_instance f) (get_instance p k).
Proof.
  unfold get_instance. cbn [pr_instances reconf]. rewrite nth_error_map.
  destruct (nth_error (pr_instances p) k) as [[v|]|]; reflexivity.
Qed.
Lemma reconf_set f k o l :
  map (option_map (reconf_instance f)) (set_nth k o l) = set_nth k (option_map (reconf_instance f) o) (map (option_map (reconf_instance f)) l).
Proof. revert k. induction l as [|x l IH]; intros [|k]; cbn; try reflexivity. now rewrite IH. Qed.

Lemma reconf_new f env cfg p : (forall c, same_addresses_and_threads c (f c)) ->
  ipv8_new env (f cfg) (reconf f p) =
  (reconf f (fst (ipv8_new env cfg p)), match snd (ipv8_new env cfg p) with Ok v => Ok (reconf_instance f v) | Err e => Err e | Panic x => Panic x end).
Proof.
  intros F. destruct (F cfg) as (R & S & T). unfold ipv8_new.
  assert (SP : setup_pool env (f cfg) (reconf f p) = (reconf f (fst (setup_pool env cfg p)), snd (setup_pool env cfg p))).
  { unfold setup_pool. cbn [pr_once reconf]. destruct (pr_once p); [reflexivity|]. rewrite <- T. destruct (env_pool_ok env); reflexivity. }
  rewrite SP. destruct (setup_pool env cfg p) as [p1 [u|e|x]]; cbn [fst snd]; try reflexivity.
  rewrite reconf_open, <- R, <- S. destruct (os_bind env (open_sockets p1) (cf_receiving_address cfg)) as [r|e|x]; cbn [fst snd]; try reflexivity.
  destruct (os_bind env (r :: open_sockets p1) (cf_sending_address cfg)) as [q|e|x]; cbn [fst snd]; try reflexivity.
  f_equal. unfold reconf. cbn [pr_once pr_pools pr_instances pr_listeners pr_other_sockets]. rewrite map_app. reflexivity.
Qed.

Lemma reconf_call f p c : (forall c, same_addresses_and_threads c (f c)) ->
  do_call (reconf f p) (reconfigured_call f c) = reconf f (do_call p c).
Proof.
  intros F. destruct c as [env cfg|k r|k c|k|k|k]; cbn [reconfigured_call do_call].
  - rewrite reconf_new by exact F. reflexivity.
  - rewrite reconf_get. destruct (get_instance p k) as [v|]; cbn [option_map]; [|reflexivity].
    unfold with_instances, reconf. cbn [pr_once pr_pools pr_instances pr_listeners pr_other_sockets]. rewrite reconf_set. reflexivity.
  - rewrite reconf_get. destruct (get_instance p k) as [v|]; cbn [option_map]; [|reflexivity].
    unfold with_instances, reconf. cbn [pr_once pr_pools pr_instances pr_listeners pr_other_sockets]. rewrite reconf_set. reflexivity.
  - rewrite reconf_get. destruct (get_instance p k) as [v|]; cbn [option_map]; [|reflexivity].
    unfold reconf. cbn [pr_once pr_pools pr_instances pr_listeners pr_other_sockets]. rewrite reconf_set, map_app. reflexivity.
  - unfold with_instances, reconf. cbn [pr_once pr_pools pr_instances pr_listeners pr_other_sockets]. rewrite reconf_set. reflexivity.
  - unfold reconf. cbn [pr_once pr_pools pr_instances pr_listeners pr_other_sockets]. rewrite map_app, firstn_map, skipn_map. reflexivity.
Qed.
Lemma reconf_after f others l : (forall c, same_addresses_and_threads c (f c)) ->
  after others (map (reconfigured_call f) l) = reconf f (after others l).
Proof.
  intros F. unfold after, do_calls. change (process_init others) with (reconf f (process_init others)) at 1.
  generalize (process_init others). induction l as [|c l IH]; intros p; [reflexivity|].
  cbn [map fold_left]. rewrite reconf_call by exact F. apply IH.
Qed.

(** C136. And to [IPv8::new] nothing but the two addresses and [threadcount] makes a difference: whatever a program did with [IPv8]
    values, had it used configurations that differ in other options, the same sockets were open, the same pool built, the same receivers
    behind the same listeners, and the next attempt to create an instance would have had the same answer. *)
Lemma p_C136_creation_ignores_the_other_options :
  forall (others : list address) (l : list call) (f : config -> config),
    (forall c, same_addresses_and_threads c (f c)) ->
    let p := after others l in
    let p' := after others (map (reconfigured_call f) l) in
    open_sockets p' = open_sockets p /\ pr_pools p' = pr_pools p /\
    map (fun li => (li_socket li, li_receivers li)) (pr_listeners p') = map (fun li => (li_socket li, li_receivers li)) (pr_listeners p) /\
    forall (env : environment) (cfg : config), answer (snd (ipv8_new env (f cfg) p')) = answer (snd (ipv8_new env cfg p)).
Proof.
  intros others l f F p p'. subst p p'. rewrite reconf_after by exact F. split; [apply reconf_open|]. split; [reflexivity|].
  split; [cbn [pr_listeners reconf]; rewrite map_map; reflexivity|].
  intros env cfg. rewrite reconf_new by exact F. cbn [snd]. destruct (snd (ipv8_new env cfg (after others l))); reflexivity.
Qed.

(** C136. Every queue size from one on is as good as any other: the executions are the same. *)
Lemma p_C136_queue_sizes_are_all_alike :
  forall (n m : nat) (c : net_config) (q0 : list datagram) (tr : list label) (s : net_state),
    1 <= n -> 1 <= m -> (run_with_queue n c q0 tr s <-> run_with_queue m c q0 tr s).
Proof. intros n m c q0 tr s N M. unfold run_with_queue. split; intros [R _]; (split; [exact R|lia]). Qed.

(** C136 (refuted). "[queuesize] is the amount of space reserved for queueing up incoming messages": with any queue size any number of messages
    wait and none of them is given up; *)
Lemma p_C136_queue_size_is_a_limit_refuted :
  forall (n : nat) (c : net_config) (waiting : list datagram),
    exists tr s, run_with_queue n c [] tr s /\ recvs tr = 0 /\ ns_queue s = waiting.
Proof.
  intros n c waiting. exists (map LArrive waiting), {| ns_queue := waiting; ns_edge := (0 <? length waiting); ns_buffer := ns_buffer (net_init c []); ns_pc := Polling |}.
  assert (G : run c (net_init c []) (map LArrive waiting) {| ns_queue := waiting; ns_edge := (0 <? length waiting); ns_buffer := ns_buffer (net_init c []); ns_pc := Polling |}).
  { induction waiting as [|d l IH] using rev_ind; [constructor|]. rewrite map_app. cbn [map]. eapply run_snoc; [exact IH|].
    replace (0 <? length (l ++ [d])) with true by (rewrite app_length; cbn; destruct (length l); reflexivity).
    apply (step_arrive c {| ns_queue := l; ns_edge := (0 <? length l); ns_buffer := ns_buffer (net_init c []); ns_pc := Polling |} d). }
  split; [split; [exact G|]|].
  - intros _ k H. apply in_map_iff in H as (d & E & _). discriminate E.
  - split; [|reflexivity]. clear. induction waiting; [reflexivity|exact IHwaiting].
Qed.

(** with zero the listener never receives anything, whatever arrives: the only thing it can do is to fail. *)
Lemma p_C136_queue_size_zero_receives_nothing :
  forall (c : net_config) (q0 : list datagram) (tr : list label) (s : net_state) (r : nat),
    run_with_queue 0 c q0 tr s -> recvs tr = 0 /\ calls r tr = [] /\ (ns_pc s = Polling \/ stopped s) /\ ns_queue s = q0 ++ arrivals tr.
Proof.
  intros c q0 tr s r [R Z]. specialize (Z eq_refl).
  assert (G : recvs tr = 0 /\ (forall x, calls x tr = []) /\ (ns_pc s = Polling \/ stopped s) /\ ns_queue s = q0 ++ arrivals tr).
  { remember (net_init c q0) as s0 eqn:E0. induction R as [s0|s0 tr s1 l s2 R IH S].
    - subst s0. cbn. rewrite app_nil_r. auto.
    - destruct IH as (H1 & H2 & H3 & H4); [exact E0|intros k H; apply (Z k), in_or_app; now left|].
      rewrite recvs_app, arrivals_app, H1. cbn [plus].
      assert (NP : forall k, l <> LPoll k) by (intros k ->; apply (Z k), in_or_app; right; now left).
      inversion S; subst; cbn [ns_pc ns_queue set_pc recvs arrivals] in *;
        try (match goal with P : ns_pc s1 = _ |- _ => destruct H3 as [H3|[x H3]]; rewrite P in H3; discriminate H3 end);
        try (exfalso; eapply NP; reflexivity).
      + split; [reflexivity|]. split; [intros x; rewrite calls_app, H2; reflexivity|]. split; [exact H3|]. now rewrite H4, <- app_assoc.
      + split; [reflexivity|]. split; [intros x; rewrite calls_app, H2; reflexivity|]. split; [right; eexists; reflexivity|]. now rewrite H4, app_nil_r. }
  destruct G as (G1 & G2 & G3 & G4). auto.
Qed.

(** C136. A buffer of fewer than 23 bytes is too small for a header: behind a receiver that forwards packets to communities no handler is ever called. *)
Lemma p_C136_small_buffers_reach_no_handler :
  forall (cfg : net_config) (q0 : list datagram) (tr : list label) (s : net_state) (r tag : nat) (cs : list community),
    run cfg (net_init cfg q0) tr s -> nc_buffersize cfg < 23 -> handler_calls tag (effects_behind cs r tr) = [].
Proof.
  intros cfg q0 tr s r tag cs R B. apply handler_calls_none. intros h d a H. unfold effects_behind in H.
  apply in_flat_map in H as ([pkt src] & I & H). unfold forward in H. cbn [fst snd] in H.
  apply p_C42_routing in H as (_ & L & _).
  assert (IC : In (LCall r pkt src) tr).
  { clear - I. induction tr as [|l tr IH]; [contradiction I|]. destruct l; cbn [calls] in I; try (right; apply IH, I).
    destruct (Nat.eqb_spec r r0) as [->|N]; [|right; apply IH, I]. destruct I as [E|I]; [injection E as -> ->; now left|right; apply IH, I]. }
  destruct (p_C49_no_stale_bytes cfg q0 tr s r pkt src R IC) as (data & _ & _ & E). lia.
Qed.

(** configurations with everything else changed meet the hypotheses of the first two *)
Definition ex_other_listener_options (c : config) : config := {|
  cf_queuesize := S (cf_queuesize c); cf_buffersize := cf_buffersize c; cf_pollinterval := option_map N.succ (cf_pollinterval c);
  cf_threadcount := 7; cf_default_hosts := []; cf_sending_address := v4 127 0 0 1 1; cf_receiving_address := v4 127 0 0 1 2 |}.
Definition ex_other_creation_options (c : config) : config := {|
  cf_queuesize := 0; cf_buffersize := 1; cf_pollinterval := Some 5%N; cf_threadcount := cf_threadcount c; cf_default_hosts := [];
  cf_sending_address := cf_sending_address c; cf_receiving_address := cf_receiving_address c |}.
Example ex_C136_options :
  (forall c, same_buffer_and_timeout c (ex_other_listener_options c)) /\ (forall c, same_addresses_and_threads c (ex_other_creation_options c)) /\
  ex_other_listener_options config_default <> config_default /\ ex_other_creation_options config_default <> config_default /\
  length (pr_listeners (after [] (map (reconfigured_call ex_other_creation_options) ex_history))) = 1.
Proof.
  split; [intros c; split; [reflexivity|]; cbn; destruct (cf_pollinterval c); cbn; split; congruence|].
  split; [intros c; repeat split|]. split; [discriminate|]. split; [discriminate|]. vm_compute. reflexivity.
Qed.

(** a listener with queue size 0: a datagram arrives, the poll fails *)
Example ex_C136_zero :
  exists s, run_with_queue 0 ex_cfg [ex_d1] [LArrive ex_d2; LPollError EIo] s /\ stopped s /\ ns_queue s = [ex_d1; ex_d2].
Proof.
  eexists. split; [split|].
  - eapply run_cons; [apply step_arrive|]. apply run_one. apply step_poll_error. reflexivity.
  - intros _ n [E|[E|[]]]; discriminate E.
  - split; [eexists; reflexivity|reflexivity].
Qed.

(** a listener whose buffer has 4 bytes calls its receivers (ex_C48_run) *)
Example ex_C136_small_buffer :
  nc_buffersize ex_cfg < 23 /\ run ex_cfg (net_init ex_cfg []) ex_trace ex_final /\ length (calls 0 ex_trace) = 2.
Proof. split; [cbn; lia|]. split; [exact ex_run|reflexivity]. Qed.
