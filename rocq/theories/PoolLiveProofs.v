(** * PoolLiveProofs: C111 *)
From Verif Require Import Base Codec Network NetSpec NetworkProofs LivenessSpec LivenessProofs LivenessFacts Pool PoolSpec PoolProofs PoolLiveSpec.
Open Scope nat_scope.

Lemma pool_upto_S ev n : pool_upto ev (S n) = pool_upto ev n ++ [ev n].
Proof. unfold pool_upto. now rewrite seq_S, map_app. Qed.
Lemma pool_prefix N st ev : infinite_pool N st ev -> forall n, pool_run N [] (pool_upto ev n) (st n).
Proof.
  intros [H0 HS] n. induction n as [|n IH].
  - rewrite H0. constructor.
  - rewrite pool_upto_S. econstructor; [exact IH|apply HS].
Qed.

Definition pool_label_at (i : nat) (e : pool_label) : option label :=
  match e with GStep j l => if i =? j then Some l else None | GStart _ _ => None end.
Lemma trace_of_one i e : trace_of i [e] = match pool_label_at i e with Some l => [l] | None => [] end.
Proof. destruct e; cbn; [reflexivity|]. now destruct (_ =? _). Qed.
Lemma pool_label_at_some i e l : pool_label_at i e = Some l -> e = GStep i l.
Proof. destruct e as [c q|j l']; cbn; [discriminate|]. destruct (Nat.eqb_spec i j) as [->|]; congruence. Qed.

Section one_listener.
  Context (N : nat) (st : nat -> pool_state) (ev : nat -> pool_label) (i a0 : nat) (c : net_config) (q0 : list datagram).
  Context (HN : 1 <= N) (RUN : infinite_pool N st ev) (START : nth_error (started (pool_upto ev a0)) i = Some (c, q0))
          (FRESH : trace_of i (pool_upto ev a0) = [])
          (NF : listener_never_fails i ev) (GO : listener_traffic i ev) (PP : listener_prompt_poll i st ev)
          (CB : receivers_come_back ev) (FA : fair_to N i st ev).

  Lemma pool_started n : a0 <= n -> nth_error (started (pool_upto ev n)) i = Some (c, q0).
  Proof.
    induction 1 as [|n H IH]; [exact START|]. rewrite pool_upto_S, started_app, nth_error_app1; [exact IH|].
    apply nth_error_Some. congruence.
  Qed.
  Definition pool_state_at (n : nat) : net_state := match nth_error (st n) i with Some (_, s) => s | None => net_init c [] end.
  Lemma pool_live n : a0 <= n -> nth_error (st n) i = Some (c, pool_state_at n) /\
    run c (net_init c q0) (trace_of i (pool_upto ev n)) (pool_state_at n).
  Proof.
    intros H. destruct (p_C66_listeners_do_not_interfere _ _ _ _ _ _ (pool_prefix _ _ _ RUN n) (pool_started n H)) as (s & E & R).
    unfold pool_state_at. rewrite E. auto.
  Qed.
  Lemma pool_live_step n : a0 <= n ->
    match pool_label_at i (ev n) with
    | Some l => step c (pool_state_at n) l (pool_state_at (S n))
    | None => pool_state_at (S n) = pool_state_at n
    end.
  Proof.
    intros H. destruct (pool_live n H) as [E _]. destruct (pool_live (S n) ltac:(lia)) as [E' _].
    pose proof (proj2 RUN n) as S. set (s := pool_state_at n) in *. set (s' := pool_state_at (Datatypes.S n)) in *.
    destruct (ev n) as [c' q|j l]; cbn.
    - inversion S as [ps c1 q1 E1 E2 E3|]; subst. rewrite <- E3, nth_error_app1 in E' by (apply nth_error_Some; congruence). congruence.
    - inversion S as [|ps1 c1 s1 ps2 l1 s1' St G E1 E2 E3]; subst. rewrite <- E1 in E. rewrite <- E3 in E'.
      destruct (Nat.eqb_spec i (length ps1)) as [->|Ne].
      + rewrite nth_error_mid in E, E'. congruence.
      + rewrite (nth_error_other _ _ (c1, s1')) in E by exact Ne. congruence.
  Qed.

  Lemma pool_trace n : trace_of i (pool_upto ev (a0 + n)) = labels_from (fun j => pool_label_at i (ev j)) a0 n.
  Proof.
    induction n as [|n IH]; [rewrite Nat.add_0_r; exact FRESH|].
    rewrite Nat.add_succ_r, pool_upto_S, trace_of_app, IH, trace_of_one, labels_from_S. reflexivity.
  Qed.
  Lemma pool_no_failure n : Forall (fun l => ~ is_failure l) (trace_of i (pool_upto ev n)).
  Proof.
    induction n as [|n IH]; [constructor|]. rewrite pool_upto_S, trace_of_app, trace_of_one. apply Forall_app. split; [exact IH|].
    destruct (pool_label_at i (ev n)) as [l|] eqn:E; [|constructor]. constructor; [|constructor].
    apply (NF n), pool_label_at_some, E.
  Qed.
  Lemma pool_alive n : a0 <= n -> ~ stopped (pool_state_at n).
  Proof.
    intros H. destruct (pool_live n H) as [_ R]. eapply never_panicked; [exact R|apply pool_no_failure| |]; cbn.
    - intros [r X]. discriminate.
    - discriminate.
  Qed.

  (** a step the listener can take by itself is one it can take in the process, except when it must wait for a worker *)
  Lemma lift_step n l s' : a0 <= n -> step c (pool_state_at n) l s' ->
    (forall r pkt src, l = LCall r pkt src -> busy_workers (st n) < N) -> exists ps', pool_step N (st n) (GStep i l) ps'.
  Proof.
    intros H S G. destruct (pool_live n H) as [E _]. apply nth_error_split in E as (ps1 & ps2 & E & L).
    exists (ps1 ++ (c, s') :: ps2). rewrite E in *. rewrite <- L. now constructor.
  Qed.
  Lemma can_or_full n : a0 <= n -> will_receive (pool_state_at n) -> listener_can_go_on N (st n) i \/ busy_workers (st n) >= N.
  Proof.
    intros H W. destruct (Nat.lt_ge_cases (busy_workers (st n)) N) as [Lt|Ge]; [left|now right].
    destruct (pool_live n H) as [_ R]. destruct (p_C61_never_stuck _ _ _ _ R) as [X|[[H1 H2]|(l & s' & S & A & F)]].
    - exfalso. exact (pool_alive n H X).
    - exfalso. destruct W as [W|[k W]]; congruence.
    - destruct (lift_step n l s' H S) as (ps' & P); [auto|]. exists l, ps'. auto.
  Qed.

  (** either the listener does something of its own between [n] and [m], or only datagrams arrive *)
  Lemma own_step_between n m : a0 <= n -> n <= m ->
    (exists j l, n <= j < m /\ ev j = GStep i l /\ ~ is_arrival l) \/
    (will_receive (pool_state_at n) -> will_receive (pool_state_at m)).
  Proof.
    intros Hn. induction 1 as [|m H [(j & l & Hj & E & A)|W]]; [now right|left; exists j, l; repeat split; auto; lia|].
    pose proof (pool_live_step m ltac:(lia)) as S. destruct (pool_label_at i (ev m)) as [l|] eqn:E.
    - destruct (is_arrival_dec l) as [A|A].
      + right. intros _. left. eapply arrival_step; eassumption.
      + left. exists m, l. split; [lia|]. split; [|exact A]. now apply pool_label_at_some.
    - right. intros X. rewrite S. auto.
  Qed.

  Lemma again_and_again n : exists m, n <= m /\ listener_can_go_on N (st m) i.
  Proof.
    destruct (GO (a0 + n)) as (a & d & Ha & E).
    assert (W : will_receive (pool_state_at (S a))).
    { left. pose proof (pool_live_step a ltac:(lia)) as S. rewrite E in S. cbn in S. rewrite Nat.eqb_refl in S.
      eapply arrival_step; [exact S|exact Logic.I]. }
    destruct (can_or_full (S a) ltac:(lia) W) as [C|Full]; [exists (S a); split; [lia|exact C]|].
    destruct (busy_run _ _ _ (pool_prefix _ _ _ RUN (S a))) as [B _].
    destruct (CB (S a)) as (m & j & r & Hm & Em); [lia|].
    destruct (own_step_between (S a) (S m) ltac:(lia) ltac:(lia)) as [(o & l & Ho & Eo & A)|K].
    - exists o. split; [lia|]. exists l. exists (st (S o)). split; [|split; [exact A|exact (NF _ _ Eo)]].
      rewrite <- Eo. apply RUN.
    - exists (S m). split; [lia|].
      destruct (can_or_full (S m) ltac:(lia) (K W)) as [C|Full']; [exact C|exfalso].
      destruct (busy_run _ _ _ (pool_prefix _ _ _ RUN m)) as [B1 L1].
      destruct (busy_run _ _ _ (pool_prefix _ _ _ RUN (S m))) as [B2 L2].
      rewrite pool_upto_S, entered_app, came_back_app in B2. destruct Em as [Em|Em]; rewrite Em in B2; cbn in B2; lia.
  Qed.

  Lemma pool_served n k d r : nth_error (q0 ++ arrivals (trace_of i (pool_upto ev n))) k = Some d -> r < nc_receivers c ->
    exists m, nth_error (calls r (trace_of i (pool_upto ev m))) k = Some (packet_of c d).
  Proof.
    intros Hd Hr.
    assert (P : forall a b, a <= b -> exists x, trace_of i (pool_upto ev b) = trace_of i (pool_upto ev a) ++ x).
    { induction 1 as [|b H [x IH]]; [exists []; now rewrite app_nil_r|]. rewrite pool_upto_S, trace_of_app, IH, <- app_assoc. eauto. }
    destruct (P n (a0 + n) ltac:(lia)) as [x Ex].
    destruct (observed_served c q0 a0 pool_state_at (fun j => pool_label_at i (ev j))) with (n := n) (k := k) (d := d) (r := r) as (m & Hm).
    - destruct (pool_live a0 (le_n _)) as [_ R]. rewrite FRESH in R. inversion R as [|? tr ? ? ? ? ? E]; [reflexivity|destruct tr; discriminate].
    - exact pool_live_step.
    - intros j l E. apply (NF j), pool_label_at_some, E.
    - intros j. destruct (GO j) as (m & d' & H & E). exists m, d'. split; [exact H|]. rewrite E. cbn. now rewrite Nat.eqb_refl.
    - intros j. destruct (FA again_and_again j) as (m & l & H & E & A). exists m. split; [exact H|]. right. exists l.
      rewrite E. cbn. rewrite Nat.eqb_refl. auto.
    - intros j Hj Ed E. destruct (pool_live j Hj) as [L _]. exact (PP j _ _ L Ed (pool_label_at_some _ _ _ E)).
    - rewrite <- pool_trace, Ex, arrivals_app, app_assoc, nth_error_app1; [exact Hd|]. apply nth_error_Some. congruence.
    - exact Hr.
    - exists (a0 + m). now rewrite pool_trace.
  Qed.
End one_listener.

(** C111. Listeners share the threads of one pool, but as long as receivers come back none of them is starved: in every infinite execution of
    a process with any number of listeners and at least one thread, if whenever calls are in progress one of them comes back later,
    the scheduler and the pool are fair to a listener, nothing fails there and its traffic goes on, then each datagram
    that ever arrived at it is at some time handed to each of its receivers, in order. (If no receiver comes back this is false: C69.) *)
Lemma p_C111_no_listener_is_starved :
  forall (workers : nat) (st : nat -> pool_state) (ev : nat -> pool_label) (i n0 : nat) (c : net_config) (q : list datagram),
    1 <= workers -> infinite_pool workers st ev -> nth_error (started (pool_upto ev n0)) i = Some (c, q) ->
    listener_never_fails i ev -> listener_traffic i ev -> listener_prompt_poll i st ev ->
    receivers_come_back ev -> fair_to workers i st ev ->
    forall (n k : nat) (d : datagram) (r : nat),
      nth_error (q ++ arrivals (trace_of i (pool_upto ev n))) k = Some d -> r < nc_receivers c ->
      exists m, nth_error (calls r (trace_of i (pool_upto ev m))) k = Some (packet_of c d).
Proof.
  intros N st ev i n0 c q HN RUN ST NF GO PP CB FA n k d r.
  (* the moment of the start *)
  assert (X : exists a, nth_error (started (pool_upto ev a)) i = Some (c, q) /\ trace_of i (pool_upto ev a) = []).
  { clear - RUN ST. induction n0 as [|n0 IH]; [destruct i; discriminate|].
    destruct (nth_error (started (pool_upto ev n0)) i) as [y|] eqn:E.
    - rewrite pool_upto_S, started_app, nth_error_app1 in ST by (apply nth_error_Some; congruence). apply IH. congruence.
    - exists (S n0). split; [exact ST|]. pose proof (pool_prefix _ _ _ RUN n0) as R.
      destruct (pool_inv _ _ _ R) as (L & T & _). apply nth_error_None in E.
      rewrite pool_upto_S, trace_of_app, (T i) by lia. cbn [app].
      rewrite pool_upto_S, started_app in ST. destruct (ev n0) as [c' q'|j l]; [reflexivity|].
      cbn in ST. rewrite app_nil_r in ST. assert (nth_error (started (pool_upto ev n0)) i <> None) by congruence.
      apply nth_error_Some in H. lia. }
  destruct X as (a & Sa & Fa).
  exact (pool_served N st ev i a c q HN RUN Sa Fa NF GO PP CB FA n k d r).
Qed.

(** ** An infinite execution: two listeners, one thread *)
Definition ex_pool_cfg : net_config := {| nc_buffersize := 1; nc_has_timeout := false; nc_receivers := 1 |}.
Definition ex_pool_src : address := V4 x01 x02 x03 x04 5%N.
Definition ex_pool_d : datagram := ([x00], ex_pool_src).
(** a turn of a listener: nothing there, a datagram arrived, poll returned, received, receiver running, came back, all came back *)
Definition ex_turn (phase : nat) : net_state :=
  let mk q e pc := {| ns_queue := q; ns_edge := e; ns_buffer := [x00]; ns_pc := pc |} in
  match phase with
  | 0 => mk [] false Polling
  | 1 => mk [ex_pool_d] true Polling
  | 2 => mk [ex_pool_d] false (Handling 1)
  | 3 => mk [] false (Dispatching 0 [x00] ex_pool_src [0] [] false)
  | 4 => mk [] false (Dispatching 0 [x00] ex_pool_src [] [0] false)
  | 5 => mk [] false (Dispatching 0 [x00] ex_pool_src [] [] false)
  | _ => mk [] false (Handling 0)
  end.
(** Both listeners have a datagram at the same time; the second one has to wait until the first one's receiver came back. *)
Definition ex_phases : list (nat * nat) :=
  [(0, 0); (1, 0); (1, 1); (2, 1); (2, 2); (3, 2); (3, 3); (4, 3); (5, 3); (5, 4); (5, 5); (6, 5); (6, 6); (0, 6); (0, 0)].
Definition ex_pool_turn (p : nat) : pool_state :=
  let '(x, y) := nth p ex_phases (0, 0) in [(ex_pool_cfg, ex_turn x); (ex_pool_cfg, ex_turn y)].
Definition ex_pool_labels : list pool_label :=
  [GStep 0 (LArrive ex_pool_d); GStep 1 (LArrive ex_pool_d); GStep 0 (LPoll 1); GStep 1 (LPoll 1); GStep 0 LRecv; GStep 1 LRecv;
   GStep 0 (LCall 0 [x00] ex_pool_src); GStep 0 (LReturn 0); GStep 1 (LCall 0 [x00] ex_pool_src); GStep 1 (LReturn 0);
   GStep 0 LScopeEnd; GStep 1 LScopeEnd; GStep 0 LNext; GStep 1 LNext].
Definition ex_pool_st (n : nat) : pool_state :=
  match n with
  | 0 => []
  | 1 => [(ex_pool_cfg, ex_turn 0)]
  | S (S m) => ex_pool_turn (m mod 14)
  end.
Definition ex_pool_ev (n : nat) : pool_label :=
  match n with
  | 0 | 1 => GStart ex_pool_cfg []
  | S (S m) => nth (m mod 14) ex_pool_labels (GStart ex_pool_cfg [])
  end.

Lemma turn_step phase l : phase < 7 ->
  l = nth phase [LArrive ex_pool_d; LPoll 1; LRecv; LCall 0 [x00] ex_pool_src; LReturn 0; LScopeEnd; LNext] LRecv ->
  step ex_pool_cfg (ex_turn phase) l (ex_turn (if phase =? 6 then 0 else S phase)).
Proof.
  intros H ->. destruct phase as [|[|[|[|[|[|[|phase]]]]]]]; [..|lia]; cbn [Nat.eqb nth].
  - exact (step_arrive ex_pool_cfg (ex_turn 0) ex_pool_d).
  - exact (step_poll_ready ex_pool_cfg (ex_turn 1) eq_refl eq_refl).
  - exact (step_recv ex_pool_cfg (ex_turn 2) 0 [x00] ex_pool_src [] eq_refl eq_refl).
  - exact (step_call ex_pool_cfg (ex_turn 3) 0 [x00] ex_pool_src [] 0 [] [] false eq_refl).
  - exact (step_return ex_pool_cfg (ex_turn 4) 0 [x00] ex_pool_src [] [] 0 [] false eq_refl).
  - exact (step_scope_end ex_pool_cfg (ex_turn 5) 0 [x00] ex_pool_src eq_refl).
  - exact (step_next ex_pool_cfg (ex_turn 6) eq_refl).
Qed.
Lemma first_turns x y l ps' : x < 7 -> (forall r pkt src, l = LCall r pkt src -> busy_workers [(ex_pool_cfg, ex_turn x); (ex_pool_cfg, ex_turn y)] < 1) ->
  l = nth x [LArrive ex_pool_d; LPoll 1; LRecv; LCall 0 [x00] ex_pool_src; LReturn 0; LScopeEnd; LNext] LRecv ->
  ps' = [(ex_pool_cfg, ex_turn (if x =? 6 then 0 else S x)); (ex_pool_cfg, ex_turn y)] ->
  pool_step 1 [(ex_pool_cfg, ex_turn x); (ex_pool_cfg, ex_turn y)] (GStep 0 l) ps'.
Proof.
  intros Hx G E ->. exact (pool_listener 1 [] ex_pool_cfg (ex_turn x) [(ex_pool_cfg, ex_turn y)] l _ (turn_step x l Hx E) G).
Qed.
Lemma second_turns x y l ps' : y < 7 -> (forall r pkt src, l = LCall r pkt src -> busy_workers [(ex_pool_cfg, ex_turn x); (ex_pool_cfg, ex_turn y)] < 1) ->
  l = nth y [LArrive ex_pool_d; LPoll 1; LRecv; LCall 0 [x00] ex_pool_src; LReturn 0; LScopeEnd; LNext] LRecv ->
  ps' = [(ex_pool_cfg, ex_turn x); (ex_pool_cfg, ex_turn (if y =? 6 then 0 else S y))] ->
  pool_step 1 [(ex_pool_cfg, ex_turn x); (ex_pool_cfg, ex_turn y)] (GStep 1 l) ps'.
Proof.
  intros Hy G E ->. exact (pool_listener 1 [(ex_pool_cfg, ex_turn x)] ex_pool_cfg (ex_turn y) [] l _ (turn_step y l Hy E) G).
Qed.
Lemma ex_turn_step p : p < 14 -> pool_step 1 (ex_pool_turn p) (nth p ex_pool_labels (GStart ex_pool_cfg [])) (ex_pool_turn (S p)).
Proof.
  intros H. destruct p as [|[|[|[|[|[|[|[|[|[|[|[|[|[|p]]]]]]]]]]]]]]; [..|lia].
  all: unfold ex_pool_turn; cbn [nth ex_phases ex_pool_labels];
    (apply first_turns || apply second_turns); try reflexivity; try lia; try discriminate; intros; cbn; lia.
Qed.
Lemma mod14 q j : j < 14 -> (14 * q + j) mod 14 = j.
Proof. intros Hj. symmetry. apply (Nat.mod_unique _ _ q); lia. Qed.
Lemma ex_infinite_pool : infinite_pool 1 ex_pool_st ex_pool_ev.
Proof.
  split; [reflexivity|]. intros [|[|m]].
  - apply (pool_start 1 [] ex_pool_cfg []).
  - exact (pool_start 1 [(ex_pool_cfg, ex_turn 0)] ex_pool_cfg []).
  - cbn [ex_pool_st ex_pool_ev].
    pose proof (Nat.div_mod m 14 ltac:(lia)) as D. pose proof (Nat.mod_upper_bound m 14 ltac:(lia)) as B.
    pose proof (ex_turn_step (m mod 14) B) as S. destruct (Nat.eq_dec (m mod 14) 13) as [E|NE].
    + rewrite E in *. replace (Datatypes.S m mod 14) with 0; [exact S|]. apply (Nat.mod_unique _ _ (Datatypes.S (m / 14))); lia.
    + replace (Datatypes.S m mod 14) with (Datatypes.S (m mod 14)); [exact S|]. apply (Nat.mod_unique _ _ (m / 14)); lia.
Qed.

(** the hypotheses of C111 are met by this execution, for the listener that has to wait in every turn *)
Example ex_C111_two_listeners :
  infinite_pool 1 ex_pool_st ex_pool_ev /\ nth_error (started (pool_upto ex_pool_ev 2)) 1 = Some (ex_pool_cfg, []) /\
  listener_never_fails 1 ex_pool_ev /\ listener_traffic 1 ex_pool_ev /\ listener_prompt_poll 1 ex_pool_st ex_pool_ev /\
  receivers_come_back ex_pool_ev /\ fair_to 1 1 ex_pool_st ex_pool_ev /\
  nth_error (arrivals (trace_of 1 (pool_upto ex_pool_ev 30))) 1 = Some ex_pool_d /\
  (* it waits for the other one's receiver *)
  (exists s, nth_error (ex_pool_st 9) 1 = Some (ex_pool_cfg, s) /\ can_go_on ex_pool_cfg s) /\ ~ listener_can_go_on 1 (ex_pool_st 9) 1.
Proof.
  assert (L : forall n j, j < 14 -> ex_pool_ev (2 + (14 * n + j)) = nth j ex_pool_labels (GStart ex_pool_cfg [])).
  { intros n j H. cbn [Nat.add ex_pool_ev]. now rewrite mod14. }
  assert (E1 : forall n l, ex_pool_ev n = GStep 1 l -> In (GStep 1 l) ex_pool_labels).
  { intros [|[|m]] l; [discriminate|discriminate|]. cbn [ex_pool_ev]. intros <-. apply nth_In. apply (Nat.mod_upper_bound m 14). lia. }
  split; [exact ex_infinite_pool|]. split; [reflexivity|].
  split. { intros n l H F. apply E1 in H. cbn in H. repeat (destruct H as [H|H]; [inversion H; subst; exact F|]). destruct H. }
  split. { intros n. exists (2 + (14 * n + 1)), ex_pool_d. split; [lia|]. exact (L n 1 ltac:(lia)). }
  split. { intros n c s _ _ H. apply E1 in H. cbn in H. repeat (destruct H as [H|H]; [discriminate|]). destruct H. }
  split. { intros n _. exists (2 + (14 * n + 7)), 0, 0. split; [lia|]. left. exact (L n 7 ltac:(lia)). }
  split. { intros _ n. exists (2 + (14 * n + 3)), (LPoll 1). split; [lia|]. split; [exact (L n 3 ltac:(lia))|]. cbn. auto. }
  split; [reflexivity|]. split.
  - exists (ex_turn 3). split; [reflexivity|]. exists (LCall 0 [x00] ex_pool_src), (ex_turn 4). split; [exact (turn_step 3 _ ltac:(lia) eq_refl)|].
    split; cbn; auto.
  - intros (l & ps' & S & A & F). change (ex_pool_st 9) with [(ex_pool_cfg, ex_turn 4); (ex_pool_cfg, ex_turn 3)] in S.
    inversion S as [|ps1 c s ps2 l' s' St G E2 E3 E4]; subst.
    destruct ps1 as [|x1 [|x2 ps1]]; [discriminate| |discriminate].
    injection E2 as E2 E5 E6 E7. subst. inversion St; cbn in *; try discriminate; subst.
    all: try (now apply A). all: try (now apply F).
    all: match goal with H : Dispatching _ _ _ _ _ _ = Dispatching _ _ _ _ _ _ |- _ => injection H; intros; subst end.
    + specialize (G _ _ _ eq_refl). lia.
    + destruct before; discriminate.
Qed.
