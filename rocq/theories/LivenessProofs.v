(** * LivenessProofs: C99 *)
From Verif Require Import Base Codec Network NetSpec NetworkProofs LivenessSpec.
Open Scope nat_scope.

Lemma trace_upto_S lb n : trace_upto lb (S n) = trace_upto lb n ++ [lb n].
Proof. unfold trace_upto. now rewrite seq_S, map_app. Qed.

Lemma infinite_prefix c q0 st lb : infinite_run c q0 st lb -> forall n, run c (net_init c q0) (trace_upto lb n) (st n).
Proof.
  intros [H0 HS] n. induction n as [|n IH].
  - rewrite H0. constructor.
  - rewrite trace_upto_S. econstructor; [exact IH|apply HS].
Qed.

Lemma trace_upto_no_failure lb n : never_fails lb -> Forall (fun l => ~ is_failure l) (trace_upto lb n).
Proof. intros H. unfold trace_upto. apply Forall_forall. intros l Hl. apply in_map_iff in Hl as (i & <- & _). apply H. Qed.

Lemma no_failure_panics tr r : Forall (fun l => ~ is_failure l) tr -> panics r tr = 0.
Proof.
  induction 1 as [|l tr H _ IH]; [reflexivity|]. destruct l; cbn in *; auto. now exfalso; apply H.
Qed.

Lemma not_stopped_step c s l s' : step c s l s' -> ~ is_failure l -> ~ stopped s ->
  (forall k pkt src pe ru, ns_pc s <> Dispatching k pkt src pe ru true) -> ~ stopped s'.
Proof.
  intros S F N P [r H]. inversion S; subst; cbn [set_pc ns_pc] in H; try discriminate.
  all: try (now apply F). all: try (now apply N; exists r).
  eapply P; eassumption.
Qed.

Lemma never_panicked c s tr s' : run c s tr s' -> Forall (fun l => ~ is_failure l) tr -> ~ stopped s ->
  (forall k pkt src pe ru, ns_pc s <> Dispatching k pkt src pe ru true) ->
  ~ stopped s' /\ (forall k pkt src pe ru, ns_pc s' <> Dispatching k pkt src pe ru true).
Proof.
  induction 1 as [s|s tr s1 l s2 R IH S]; intros F N P; [split; assumption|].
  apply Forall_app in F as [F1 F2]. inversion F2 as [|? ? Fl _]; subst.
  destruct (IH F1 N P) as [N1 P1]. split; [eapply not_stopped_step; eassumption|].
  intros k pkt src pe ru E. inversion S; subst; cbn [set_pc ns_pc] in E; try discriminate.
  - now eapply P1; eassumption.
  - inversion E; subst. eapply P1; eassumption.
  - inversion E; subst. eapply P1; eassumption.
  - now apply Fl.
Qed.

(** steps of the listener and the receivers left before the next reception, as long as readiness is reported *)
Definition rank (s : net_state) : nat :=
  match ns_pc s with
  | Handling (S _) => 0
  | Polling => 1
  | Handling 0 => 2
  | Dispatching _ _ _ pe ru _ => 3 + 2 * length pe + length ru
  | Stopped _ => 0
  end.
Definition will_receive (s : net_state) : Prop := ns_edge s = true \/ exists k, ns_pc s = Handling (S k).

Lemma rank_step c s l s' : step c s l s' -> will_receive s -> ~ is_arrival l -> ~ is_failure l -> ~ stopped s ->
  (forall k pkt src pe ru, ns_pc s <> Dispatching k pkt src pe ru true) ->
  (ns_edge s = true -> l <> LPoll 0) ->
  l = LRecv \/ (will_receive s' /\ rank s' < rank s).
Proof.
  intros S W A F N P E. unfold will_receive, rank in *. inversion S; subst; cbn [set_pc ns_pc ns_edge] in *.
  - now exfalso; apply A.
  - right. rewrite H. split; [right; eexists; reflexivity|lia].
  - exfalso. destruct W as [W|[k W]]; [now apply (E W)|congruence].
  - now exfalso; apply F.
  - right. rewrite H. destruct W as [W|[k W]]; [|congruence]. split; [now left|lia].
  - now left.
  - now exfalso; apply F.
  - now exfalso; apply F.
  - right. rewrite H. destruct W as [W|[k' W]]; [|congruence]. split; [now left|]. rewrite !app_length. cbn. lia.
  - right. rewrite H. destruct W as [W|[k' W]]; [|congruence]. split; [now left|]. rewrite !app_length. cbn. lia.
  - now exfalso; apply F.
  - right. rewrite H. destruct W as [W|[k' W]]; [|congruence]. split; [now left|]. cbn. destruct k; lia.
  - exfalso. eapply P; eassumption.
Qed.

Lemma arrival_step c s l s' : step c s l s' -> is_arrival l -> ns_pc s' = ns_pc s /\ ns_edge s' = true.
Proof. intros S A. inversion S; subst; cbn in A; try contradiction. now split. Qed.

Lemma is_arrival_dec l : {is_arrival l} + {~ is_arrival l}.
Proof. destruct l; cbn; auto. Qed.

(** either only arrivals from [n] on up to [n + j], or a first step that is no arrival *)
Lemma search lb n j : (forall i, n <= i < n + j -> is_arrival (lb i)) \/
  exists m, n <= m < n + j /\ ~ is_arrival (lb m) /\ forall i, n <= i < m -> is_arrival (lb i).
Proof.
  induction j as [|j IH]; [left; intros; lia|].
  destruct IH as [IH|(m & Hm & H1 & H2)].
  - destruct (is_arrival_dec (lb (n + j))) as [Y|N].
    + left. intros i Hi. destruct (Nat.eq_dec i (n + j)) as [->|]; [exact Y|apply IH; lia].
    + right. exists (n + j). repeat split; try lia; auto.
  - right. exists m. repeat split; try lia; auto.
Qed.

Section infinite.
  Context (c : net_config) (q0 : list datagram) (st : nat -> net_state) (lb : nat -> label).
  Context (RUN : infinite_run c q0 st lb) (NF : never_fails lb) (FA : fair c st lb) (PP : prompt_poll st lb).

  Lemma inf_alive n : ~ stopped (st n) /\ (forall k pkt src pe ru, ns_pc (st n) <> Dispatching k pkt src pe ru true).
  Proof.
    eapply never_panicked; [apply infinite_prefix, RUN|now apply trace_upto_no_failure| |]; cbn.
    - intros [r H]. discriminate.
    - discriminate.
  Qed.

  Lemma inf_arrivals n m : n <= m -> (forall i, n <= i < m -> is_arrival (lb i)) ->
    ns_pc (st m) = ns_pc (st n) /\ (will_receive (st n) -> will_receive (st m)).
  Proof.
    induction 1 as [|m Hm IH]; intros A; [auto|].
    destruct IH as [E W]; [intros; apply A; lia|].
    destruct (arrival_step _ _ _ _ (proj2 RUN m) (A m ltac:(lia))) as [E1 E2].
    split; [congruence|]. intros _. now left.
  Qed.

  Lemma inf_can_go_on n : will_receive (st n) -> can_go_on c (st n).
  Proof.
    intros W. destruct (p_C61_never_stuck c q0 _ _ (infinite_prefix _ _ _ _ RUN n)) as [H|[[H1 H2]|H]].
    - exfalso. now apply (proj1 (inf_alive n)).
    - exfalso. destruct W as [W|[k W]]; congruence.
    - exact H.
  Qed.

  Lemma inf_next n : will_receive (st n) ->
    exists m, n <= m /\ ~ is_arrival (lb m) /\ ns_pc (st m) = ns_pc (st n) /\ will_receive (st m).
  Proof.
    intros W. destruct (FA n) as (j & Hj & F).
    assert (X : exists m, n <= m /\ ~ is_arrival (lb m) /\ forall i, n <= i < m -> is_arrival (lb i)).
    { destruct (search lb n (S j - n)) as [A|(m & Hm & H1 & H2)].
      - exfalso. destruct F as [F|F]; [|apply F, A; lia].
        apply F, inf_can_go_on. apply (inf_arrivals n j Hj); [intros; apply A; lia|exact W].
      - exists m. repeat split; auto; lia. }
    destruct X as (m & Hm & H1 & H2). destruct (inf_arrivals n m Hm H2) as [E W']. exists m. auto.
  Qed.

  Lemma inf_receives R : forall n, will_receive (st n) -> rank (st n) <= R -> exists m, n <= m /\ lb m = LRecv.
  Proof.
    induction R as [R IH] using lt_wf_ind. intros n W HR.
    destruct (inf_next n W) as (m & Hm & A & E & W').
    destruct (inf_alive m) as [N P].
    destruct (rank_step _ _ _ _ (proj2 RUN m) W' A (NF m) N P (PP m)) as [L|[W2 LT]]; [now exists m|].
    assert (E' : rank (st m) = rank (st n)) by (unfold rank; now rewrite E).
    destruct (IH (rank (st (S m))) ltac:(lia) (S m) W2 ltac:(lia)) as (m' & Hm' & L).
    exists m'. split; [lia|exact L].
  Qed.

  Context (TR : traffic_goes_on lb).

  Lemma recvs_upto_mono n m : n <= m -> recvs (trace_upto lb n) <= recvs (trace_upto lb m).
  Proof. induction 1 as [|m H IH]; [lia|]. rewrite trace_upto_S, recvs_app. lia. Qed.

  Lemma inf_recvs k : exists n, k <= recvs (trace_upto lb n).
  Proof.
    induction k as [|k [n IH]]; [exists 0; lia|].
    destruct (TR n) as (a & Ha & A). destruct (arrival_step _ _ _ _ (proj2 RUN a) A) as [_ E].
    destruct (inf_receives _ (S a) (or_introl E) (le_n _)) as (m & Hm & L).
    exists (S m). rewrite trace_upto_S, recvs_app, L. cbn.
    pose proof (recvs_upto_mono n m ltac:(lia)). lia.
  Qed.

  Lemma arrivals_upto_prefix n m : n <= m -> exists x, arrivals (trace_upto lb m) = arrivals (trace_upto lb n) ++ x.
  Proof.
    induction 1 as [|m H [x IH]]; [exists []; now rewrite app_nil_r|].
    rewrite trace_upto_S, arrivals_app, IH, <- app_assoc. eexists. reflexivity.
  Qed.

  Lemma inf_served n k d r : nth_error (q0 ++ arrivals (trace_upto lb n)) k = Some d -> r < nc_receivers c ->
    exists m, nth_error (calls r (trace_upto lb m)) k = Some (packet_of c d).
  Proof.
    intros Hk Hr. destruct (inf_recvs (S (S k))) as [m0 Hm0].
    set (m := Nat.max n m0).
    assert (Hm : S (S k) <= recvs (trace_upto lb m)).
    { etransitivity; [exact Hm0|]. apply recvs_upto_mono. lia. }
    exists m. pose proof (infinite_prefix _ _ _ _ RUN m) as R.
    destruct (p_C48_exactly_once_in_order _ _ _ _ r R) as [X _]. destruct (X Hr) as (missing & E & L & _).
    pose proof (i_count _ _ _ _ (inv_run _ _ _ _ R)) as C.
    assert (Lc : k < length (calls r (trace_upto lb m))).
    { apply (f_equal (@length _)) in E. rewrite map_length, app_length in E. lia. }
    destruct (arrivals_upto_prefix n m ltac:(lia)) as [x Ex].
    assert (Hk' : nth_error (received q0 (trace_upto lb m)) k = Some d).
    { pose proof (i_queue _ _ _ _ (inv_run _ _ _ _ R)) as Q.
      rewrite <- (nth_error_app1 _ (ns_queue (st m))) by lia. rewrite <- Q, Ex, app_assoc.
      rewrite nth_error_app1; [exact Hk|]. apply nth_error_Some. congruence. }
    rewrite <- (nth_error_app1 _ missing) by exact Lc. rewrite <- E. now apply map_nth_error.
  Qed.
End infinite.

(** C99. While traffic goes on, no datagram waits for ever: in every infinite execution without failures, with a fair
    scheduler and infinitely many arrivals, each datagram that ever arrived - the k-th one - is at some time handed to
    every receiver, as that receiver's k-th packet, however large the backlog. (C52 says that this is no longer so once
    traffic stops.) *)
Lemma p_C99_no_datagram_waits_forever :
  forall (c : net_config) (q0 : list datagram) (st : nat -> net_state) (lb : nat -> label),
    infinite_run c q0 st lb -> never_fails lb -> traffic_goes_on lb -> fair c st lb -> prompt_poll st lb ->
    forall (n k : nat) (d : datagram) (r : nat),
      nth_error (q0 ++ arrivals (trace_upto lb n)) k = Some d -> r < nc_receivers c ->
      exists m, nth_error (calls r (trace_upto lb m)) k = Some (packet_of c d).
Proof. intros c q0 st lb RUN NF TR FA PP n k d r. now apply (inf_served c q0 st lb RUN NF FA PP TR n k d r). Qed.

(** C99. Without a poll timeout in the configuration ([Config.pollinterval] is [None]) the assumption about poll holds by itself. *)
Lemma p_C99_prompt_without_timeout :
  forall (c : net_config) (q0 : list datagram) (st : nat -> net_state) (lb : nat -> label),
    infinite_run c q0 st lb -> nc_has_timeout c = false -> prompt_poll st lb.
Proof.
  intros c q0 st lb [_ H] N n _ E. specialize (H n). rewrite E in H. inversion H; congruence.
Qed.

(** ** An infinite execution *)
Definition ex_live_cfg : net_config := {| nc_buffersize := 1; nc_has_timeout := false; nc_receivers := 1 |}.
Definition ex_live_d : datagram := ([x00], V4 x01 x02 x03 x04 5%N).
(** one datagram was there before the first poll, another one arrives before it, and from then on one per turn: there is always
    one more in the socket than the listener gets at *)
Definition ex_live_lb (n : nat) : label :=
  match n mod 7 with
  | 0 => LArrive ex_live_d
  | 1 => LPoll 1
  | 2 => LRecv
  | 3 => LCall 0 [x00] (snd ex_live_d)
  | 4 => LReturn 0
  | 5 => LScopeEnd
  | _ => LNext
  end.
Definition ex_live_st (n : nat) : net_state :=
  match n mod 7 with
  | 0 => {| ns_queue := [ex_live_d]; ns_edge := match n with 0 => true | _ => false end; ns_buffer := [x00]; ns_pc := Polling |}
  | 1 => {| ns_queue := [ex_live_d; ex_live_d]; ns_edge := true; ns_buffer := [x00]; ns_pc := Polling |}
  | 2 => {| ns_queue := [ex_live_d; ex_live_d]; ns_edge := false; ns_buffer := [x00]; ns_pc := Handling 1 |}
  | 3 => {| ns_queue := [ex_live_d]; ns_edge := false; ns_buffer := [x00];
            ns_pc := Dispatching 0 [x00] (snd ex_live_d) [0] [] false |}
  | 4 => {| ns_queue := [ex_live_d]; ns_edge := false; ns_buffer := [x00];
            ns_pc := Dispatching 0 [x00] (snd ex_live_d) [] [0] false |}
  | 5 => {| ns_queue := [ex_live_d]; ns_edge := false; ns_buffer := [x00];
            ns_pc := Dispatching 0 [x00] (snd ex_live_d) [] [] false |}
  | _ => {| ns_queue := [ex_live_d]; ns_edge := false; ns_buffer := [x00]; ns_pc := Handling 0 |}
  end.

Lemma ex_live_step n : step ex_live_cfg (ex_live_st n) (ex_live_lb n) (ex_live_st (S n)).
Proof.
  pose proof (Nat.div_mod n 7 ltac:(lia)) as D. pose proof (Nat.mod_upper_bound n 7 ltac:(lia)) as B.
  assert (E : S n mod 7 = if n mod 7 =? 6 then 0 else S (n mod 7)).
  { destruct (Nat.eqb_spec (n mod 7) 6) as [e|ne].
    - symmetry. apply (Nat.mod_unique _ _ (S (n / 7))); lia.
    - symmetry. apply (Nat.mod_unique _ _ (n / 7)); lia. }
  unfold ex_live_st, ex_live_lb. rewrite E. clear E D.
  destruct (n mod 7) as [|[|[|[|[|[|[|x]]]]]]]; cbn [Nat.eqb]; try lia.
  - apply (step_arrive _ {| ns_queue := [ex_live_d]; ns_edge := _; ns_buffer := [x00]; ns_pc := Polling |}).
  - apply (step_poll_ready _ {| ns_queue := [ex_live_d; ex_live_d]; ns_edge := true; ns_buffer := [x00]; ns_pc := Polling |}); reflexivity.
  - apply (step_recv ex_live_cfg {| ns_queue := [ex_live_d; ex_live_d]; ns_edge := false; ns_buffer := [x00]; ns_pc := Handling 1 |}
             0 [x00] (snd ex_live_d) [ex_live_d]); reflexivity.
  - apply (step_call ex_live_cfg {| ns_queue := [ex_live_d]; ns_edge := false; ns_buffer := [x00]; ns_pc := Dispatching 0 [x00] (snd ex_live_d) [0] [] false |}
             0 [x00] (snd ex_live_d) [] 0 [] [] false). reflexivity.
  - apply (step_return ex_live_cfg {| ns_queue := [ex_live_d]; ns_edge := false; ns_buffer := [x00]; ns_pc := Dispatching 0 [x00] (snd ex_live_d) [] [0] false |}
             0 [x00] (snd ex_live_d) [] [] 0 [] false). reflexivity.
  - apply (step_scope_end ex_live_cfg {| ns_queue := [ex_live_d]; ns_edge := false; ns_buffer := [x00]; ns_pc := Dispatching 0 [x00] (snd ex_live_d) [] [] false |}
             0 [x00] (snd ex_live_d)). reflexivity.
  - apply (step_next ex_live_cfg {| ns_queue := [ex_live_d]; ns_edge := false; ns_buffer := [x00]; ns_pc := Handling 0 |}). reflexivity.
Qed.

(** C99: an infinite execution that meets the assumptions, with a datagram in the socket that no readiness is ever reported for
    separately *)
Example ex_C99_run :
  infinite_run ex_live_cfg [ex_live_d] ex_live_st ex_live_lb /\ never_fails ex_live_lb /\
  traffic_goes_on ex_live_lb /\ fair ex_live_cfg ex_live_st ex_live_lb /\ prompt_poll ex_live_st ex_live_lb /\
  nth_error ([ex_live_d] ++ arrivals (trace_upto ex_live_lb 8)) 2 = Some ex_live_d.
Proof.
  assert (R : infinite_run ex_live_cfg [ex_live_d] ex_live_st ex_live_lb) by (split; [reflexivity|exact ex_live_step]).
  assert (M : forall n j, j < 7 -> (7 * n + j) mod 7 = j).
  { intros n j Hj. symmetry. apply (Nat.mod_unique _ _ n); lia. }
  split; [exact R|]. split; [|split; [|split; [|split]]].
  - intros n. unfold ex_live_lb. destruct (n mod 7) as [|[|[|[|[|[|]]]]]]; cbn; auto.
  - intros n. exists (7 * n + 0). split; [lia|]. unfold ex_live_lb. rewrite M by lia. exact Logic.I.
  - intros n. exists (7 * n + 1). split; [lia|]. right. unfold ex_live_lb. rewrite M by lia. cbn. auto.
  - now apply (p_C99_prompt_without_timeout ex_live_cfg [ex_live_d]).
  - reflexivity.
Qed.
