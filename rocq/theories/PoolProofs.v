(** * PoolProofs *)
From Verif Require Import Base Codec Network NetSpec NetworkProofs Pool PoolSpec.
Open Scope nat_scope.

Lemma started_app a b : started (a ++ b) = started a ++ started b.
Proof. induction a as [|[c q|i l] a IH]; cbn; congruence. Qed.
Lemma trace_of_app i a b : trace_of i (a ++ b) = trace_of i a ++ trace_of i b.
Proof. induction a as [|[c q|j l] a IH]; cbn; auto. destruct (i =? j); cbn; congruence. Qed.
Lemma entered_app a b : entered (a ++ b) = entered a + entered b.
Proof. induction a as [|[c q|j l] a IH]; cbn; auto. destruct l; cbn; lia. Qed.
Lemma came_back_app a b : came_back (a ++ b) = came_back a + came_back b.
Proof. induction a as [|[c q|j l] a IH]; cbn; auto. destruct l; cbn; lia. Qed.
Lemma busy_app a b : busy_workers (a ++ b) = busy_workers a + busy_workers b.
Proof. unfold busy_workers. induction a; cbn; lia. Qed.

Lemma nth_error_mid {A} (a : list A) x b : nth_error (a ++ x :: b) (length a) = Some x.
Proof. rewrite nth_error_app2 by lia. now rewrite Nat.sub_diag. Qed.
Lemma nth_error_other {A} (a : list A) x y b i : i <> length a -> nth_error (a ++ x :: b) i = nth_error (a ++ y :: b) i.
Proof.
  intros H. destruct (Nat.lt_ge_cases i (length a)).
  - now rewrite !nth_error_app1 by lia.
  - rewrite !nth_error_app2 by lia. destruct (i - length a) eqn:E; [lia | reflexivity].
Qed.

Lemma pool_inv N tr ps : pool_run N [] tr ps ->
  length ps = length (started tr) /\
  (forall i, length ps <= i -> trace_of i tr = []) /\
  (forall i c q, nth_error (started tr) i = Some (c, q) ->
     exists s, nth_error ps i = Some (c, s) /\ run c (net_init c q) (trace_of i tr) s).
Proof.
  intros R. remember [] as ps0 eqn:E. induction R as [ps|ps tr ps' l ps'' R IH S]; subst.
  - split; [reflexivity|]. split; [reflexivity|]. intros [|i] c q; discriminate.
  - destruct (IH eq_refl) as (L & T & P). destruct S as [ps c q | ps1 c s ps2 l s' S G].
    + rewrite started_app, !app_length, L. split; [reflexivity|]. split.
      * intros i Hi. rewrite trace_of_app, T by (cbn in Hi; lia). reflexivity.
      * intros i c' q' H. rewrite trace_of_app. cbn. rewrite app_nil_r.
        destruct (Nat.lt_ge_cases i (length (started tr))).
        -- rewrite nth_error_app1 in H by lia. destruct (P _ _ _ H) as (s & Hs & Hr).
           exists s. split; [|exact Hr]. rewrite nth_error_app1 by lia. exact Hs.
        -- rewrite nth_error_app2 in H by lia. cbn in H.
           destruct (i - length (started tr)) as [|k] eqn:Ek; [|now destruct k].
           injection H as <- <-. exists (net_init c q).
           rewrite nth_error_app2 by lia. replace (i - length ps) with 0 by lia.
           split; [reflexivity|]. rewrite T by lia. constructor.
    + rewrite started_app. cbn. rewrite app_nil_r, <- L, !app_length. split; [reflexivity|].
      cbn [length] in *. split.
      * intros i Hi. rewrite trace_of_app, T by (rewrite app_length; cbn; lia). cbn.
        destruct (Nat.eqb_spec i (length ps1)); [lia | reflexivity].
      * intros i c' q' H. rewrite trace_of_app. cbn.
        destruct (P _ _ _ H) as (s0 & Hs & Hr).
        destruct (Nat.eqb_spec i (length ps1)) as [->|Hi].
        -- rewrite nth_error_mid in Hs. injection Hs as -> ->.
           exists s'. rewrite nth_error_mid. split; [reflexivity|]. econstructor; eauto.
        -- rewrite app_nil_r. exists s0. split; [|exact Hr].
           rewrite <- Hs. now apply nth_error_other.
Qed.

(** C66. Listeners of one process do not interfere: whatever the other listeners do and however many there are, what one
    listener does is an execution of that listener alone; so all properties of a single listener (C48-C53, C60-C63)
    hold for each of them. *)
Lemma p_C66_listeners_do_not_interfere :
  forall (workers : nat) (tr : list pool_label) (ps : pool_state) (i : nat) (c : net_config) (q : list datagram),
    pool_run workers [] tr ps -> nth_error (started tr) i = Some (c, q) ->
    exists s, nth_error ps i = Some (c, s) /\ run c (net_init c q) (trace_of i tr) s.
Proof. intros N tr ps i c q R H. destruct (pool_inv _ _ _ R) as (_ & _ & P). eauto. Qed.

(** C66, for instance: exactly-once, in-order delivery holds for each listener of the process, with its own buffer size,
    its own receivers and its own datagrams only. *)
Lemma p_C66_delivery_per_listener :
  forall (workers : nat) (tr : list pool_label) (ps : pool_state) (i r : nat) (c : net_config) (q : list datagram) (s : net_state),
    pool_run workers [] tr ps -> nth_error (started tr) i = Some (c, q) -> nth_error ps i = Some (c, s) ->
    between_datagrams s -> r < nc_receivers c ->
    calls r (trace_of i tr) = map (packet_of c) (received q (trace_of i tr)).
Proof.
  intros N tr ps i r c q s R H Hs B Hr.
  destruct (p_C66_listeners_do_not_interfere _ _ _ _ _ _ R H) as (s' & Hs' & Run).
  rewrite Hs in Hs'. injection Hs' as <-.
  destruct (p_C48_exactly_once_in_order _ _ _ _ r Run) as [D _].
  destruct (D Hr) as (m & E & _ & Em). rewrite (Em B), app_nil_r in E. now symmetry.
Qed.

Lemma running_step c s l s' : step c s l s' ->
  length (running_of s') + (match l with LReturn _ | LPanic _ => 1 | _ => 0 end)
  = length (running_of s) + (match l with LCall _ _ _ => 1 | _ => 0 end).
Proof.
  unfold running_of. intros S. destruct S; cbn [set_pc ns_pc];
    repeat match goal with H : ns_pc _ = _ |- _ => rewrite H; clear H end; cbn; try reflexivity;
    rewrite ?app_length; cbn; try lia.
Qed.

Lemma busy_run N tr ps : pool_run N [] tr ps ->
  busy_workers ps + came_back tr = entered tr /\ busy_workers ps <= N.
Proof.
  intros R. remember [] as ps0 eqn:E. induction R as [ps|ps tr ps' l ps'' R IH S]; subst.
  - cbn. lia.
  - destruct (IH eq_refl) as (B & L). rewrite entered_app, came_back_app.
    destruct S as [ps c q | ps1 c s ps2 l s' S G].
    + rewrite busy_app. cbn. lia.
    + pose proof (running_step _ _ _ _ S) as Q. rewrite busy_app in *. cbn in *.
      destruct l; try lia.
      pose proof (G _ _ _ eq_refl) as G'. cbn in G'. lia.
Qed.

(** C67. At no moment are more receiver calls in progress, over all listeners of the process, than the pool has
    threads; no call comes back that was not entered. (Every prefix of an execution is an execution, so this
    speaks about every moment.) *)
Lemma p_C67_concurrency_bounded_by_pool :
  forall (workers : nat) (tr : list pool_label) (ps : pool_state),
    pool_run workers [] tr ps ->
    came_back tr <= entered tr <= came_back tr + workers.
Proof. intros N tr ps R. destruct (busy_run _ _ _ R). lia. Qed.

Lemma quiet_busy ps : quiet ps -> busy_workers ps = 0.
Proof.
  unfold quiet. induction 1 as [|[c s] ps [[r H]|[H _]] F IH]; cbn in *; auto; unfold running_of in *; rewrite H; cbn; auto.
Qed.

(** C67. Capacity is never leaked: when all listeners are stopped (by errors or panics, in any combination) or waiting in
    poll, every call that was entered has come back, so the whole pool is free again. *)
Lemma p_C67_capacity_never_leaks :
  forall (workers : nat) (tr : list pool_label) (ps : pool_state),
    pool_run workers [] tr ps -> quiet ps -> entered tr = came_back tr.
Proof. intros N tr ps R Q. destruct (busy_run _ _ _ R). rewrite (quiet_busy _ Q) in *. lia. Qed.

Lemma pool_run_split N ps a b ps'' : pool_run N ps (a ++ b) ps'' ->
  exists ps', pool_run N ps a ps' /\ pool_run N ps' b ps''.
Proof.
  revert ps''. induction b as [|l b IH] using rev_ind; intros ps'' R.
  - rewrite app_nil_r in R. exists ps''. split; [exact R | constructor].
  - rewrite app_assoc in R. inversion R as [|x tr y l' z R' S E1 E2 E3].
    + now destruct (a ++ b).
    + apply app_inj_tail in E2 as [-> ->]. destruct (IH _ R') as (m & A & B).
      exists m. split; [exact A|]. econstructor; eauto.
Qed.

Lemma busy_some ps : 0 < busy_workers ps ->
  exists ps1 c s ps2, ps = ps1 ++ (c, s) :: ps2 /\ running_of s <> [].
Proof.
  induction ps as [|[c s] ps IH]; cbn; [lia|]. intros H.
  destruct (running_of s) eqn:E.
  - cbn in H. destruct (IH H) as (ps1 & c' & s' & ps2 & -> & K). exists ((c, s) :: ps1), c', s', ps2. auto.
  - exists [], c, s, ps. split; [reflexivity|]. congruence.
Qed.

(** C68. With at least one worker the process never deadlocks: unless every listener is stopped or blocked in poll, some
    listener or receiver can take a step which is neither a failure nor a doing of the outside world. *)
Lemma p_C68_pool_never_deadlocks :
  forall (workers : nat) (tr : list pool_label) (ps : pool_state),
    1 <= workers -> pool_run workers [] tr ps ->
    quiet ps \/
    exists l ps', pool_step workers ps l ps' /\ ~ is_external l /\ ~ is_pool_failure l.
Proof.
  intros N tr ps HN R. pose proof (pool_inv _ _ _ R) as (L & _ & P).
  assert (reach : forall ps1 c s ps2, ps = ps1 ++ (c, s) :: ps2 -> exists q, run c (net_init c q) (trace_of (length ps1) tr) s).
  { intros ps1 c s ps2 E. destruct (nth_error (started tr) (length ps1)) as [[c' q]|] eqn:H.
    - destruct (P _ _ _ H) as (s' & Hs & Hr). subst ps. rewrite nth_error_mid in Hs. injection Hs as <- <-. eauto.
    - apply nth_error_None in H. rewrite <- L, E, app_length in H. cbn in H. lia. }
  assert (D : quiet ps \/ exists ps1 c s ps2, ps = ps1 ++ (c, s) :: ps2 /\
               exists l s', step c s l s' /\ ~ is_arrival l /\ ~ is_failure l).
  { assert (forall a b, ps = a ++ b -> Forall (fun x => stopped (snd x) \/ idle (snd x)) b \/
             exists ps1 c s ps2, ps = ps1 ++ (c, s) :: ps2 /\ exists l s', step c s l s' /\ ~ is_arrival l /\ ~ is_failure l) as K.
    { intros a b. revert a. induction b as [|[c s] b IH]; intros a E; [left; constructor|].
      destruct (reach _ _ _ _ E) as (q & Rn).
      destruct (p_C61_never_stuck _ _ _ _ Rn) as [St|[Id|W]].
      - destruct (IH (a ++ [(c, s)])) as [F|W]; [now rewrite <- app_assoc| |right; exact W]. left. constructor; auto.
      - destruct (IH (a ++ [(c, s)])) as [F|W]; [now rewrite <- app_assoc| |right; exact W]. left. constructor; auto.
      - right. exists a, c, s, b. auto. }
    apply (K [] ps eq_refl). }
  destruct D as [Q|(ps1 & c & s & ps2 & E & l & s' & S & NA & NF)]; [now left|right].
  destruct (Nat.lt_ge_cases (busy_workers ps) N) as [Lt|Ge].
  - exists (GStep (length ps1) l), (ps1 ++ (c, s') :: ps2). rewrite E in *.
    split; [constructor; auto|]. split; assumption.
  - destruct (busy_some ps) as (pa & ca & sa & pb & E' & K); [lia|].
    unfold running_of in K. destruct (ns_pc sa) as [| |k pkt src pending running pan|] eqn:Epc; try congruence.
    destruct running as [|r running]; [congruence|].
    exists (GStep (length pa) (LReturn r)), (pa ++ (ca, set_pc sa (Dispatching k pkt src pending ([] ++ running) pan)) :: pb).
    rewrite E'. split; [constructor; [|discriminate]|].
    + apply step_return with (before := []). exact Epc.
    + split; cbn; auto.
Qed.

Lemma trace_length tr n :
  (forall i, n <= i -> trace_of i tr = []) ->
  length tr = length (started tr) + total (fun i => length (trace_of i tr)) (seq 0 n).
Proof.
  revert n. induction tr as [|[c q|j l] tr IH]; intros n H; cbn.
  - induction (seq 0 n); cbn; auto.
  - f_equal. rewrite (IH n) by (intros i Hi; exact (H i Hi)). reflexivity.
  - rewrite (IH n).
    2:{ intros i Hi. specialize (H i Hi). cbn in H. destruct (i =? j); [discriminate | exact H]. }
    assert (Hj : j < n). { destruct (Nat.lt_ge_cases j n) as [|G]; auto. specialize (H j G). cbn in H. rewrite Nat.eqb_refl in H. discriminate. }
    assert (K : forall l0,
       total (fun i => length (if i =? j then l :: trace_of i tr else trace_of i tr)) l0 =
       total (fun i => length (trace_of i tr)) l0 + countn j l0).
    { intros l0. unfold total. induction l0 as [|x l0 IHl]; [reflexivity|]. cbn [fold_right]. rewrite IHl, countn_cons.
      rewrite (Nat.eqb_sym j x). destruct (x =? j); cbn [length]; lia. }
    rewrite K, countn_seq. destruct (Nat.ltb_spec j n); lia.
Qed.

(** C68. Nor does it livelock: the number of steps of any execution is bounded linearly in what the outside world does
    (listeners started, datagrams arriving, polls timing out). With the theorem before: if receivers keep coming back and
    nothing new arrives, the process gets to the state where every listener is stopped or blocked in poll. *)
Lemma p_C68_pool_never_livelocks :
  forall (workers : nat) (tr : list pool_label) (ps : pool_state),
    pool_run workers [] tr ps ->
    length tr <= length (started tr) +
      total (fun x => let '(i, (c, _)) := x in
               (2 * nc_receivers c + 5) * (1 + length (arrivals (trace_of i tr))) + 2 * timeouts (trace_of i tr))
            (combine (seq 0 (length (started tr))) (started tr)).
Proof.
  intros N tr ps R. pose proof (pool_inv _ _ _ R) as (L & T & P).
  rewrite (trace_length tr (length ps) T). rewrite L. apply Nat.add_le_mono_l.
  assert (K : forall l k, (forall i c q, nth_error l i = Some (c, q) -> nth_error (started tr) (k + i) = Some (c, q)) ->
    total (fun i => length (trace_of i tr)) (seq k (length l)) <=
    total (fun x => let '(i, (c, _)) := x in
               (2 * nc_receivers c + 5) * (1 + length (arrivals (trace_of i tr))) + 2 * timeouts (trace_of i tr))
            (combine (seq k (length l)) l)).
  { induction l as [|[c q] l IH]; intros k H; [cbn; lia|]. cbn [seq length combine total fold_right].
    apply Nat.add_le_mono.
    - specialize (H 0 c q eq_refl). rewrite Nat.add_0_r in H. destruct (P _ _ _ H) as (s & _ & Rn).
      pose proof (p_C62_no_livelock _ _ _ _ Rn) as B. exact B.
    - apply IH. intros i c' q' Hi. specialize (H (S i) c' q' Hi). now rewrite Nat.add_succ_r in H. }
  apply K. intros i c q H. exact H.
Qed.

(** ** Slow receivers of one listener and the other listeners *)

Lemma pool_run_app N ps a ps' b ps'' : pool_run N ps a ps' -> pool_run N ps' b ps'' -> pool_run N ps (a ++ b) ps''.
Proof.
  intros A B. induction B as [|ps' tr m l ps'' B IH S]; [now rewrite app_nil_r|].
  rewrite app_assoc. econstructor; [apply IH|]; eauto.
Qed.

Lemma pool_run_one N ps l ps' : pool_step N ps l ps' -> pool_run N ps [l] ps'.
Proof. intros S. apply (pool_run_snoc N ps [] ps l ps'); [constructor | exact S]. Qed.

(** C69. Exactly when can the next receiver of a listener be called: the listener has one waiting, and fewer calls are in
    progress in the whole process than the pool has threads. *)
Lemma p_C69_call_possible_iff :
  forall (workers : nat) (tr : list pool_label) (ps1 ps2 : pool_state) (c : net_config) (s : net_state),
    pool_run workers [] tr (ps1 ++ (c, s) :: ps2) ->
    ((exists l ps', is_call l /\ pool_step workers (ps1 ++ (c, s) :: ps2) (GStep (length ps1) l) ps') <->
     (exists l s', is_call l /\ step c s l s') /\ entered tr < came_back tr + workers).
Proof.
  intros N tr ps1 ps2 c s R. destruct (busy_run _ _ _ R) as (B & _). split.
  - intros (l & ps' & C & S). inversion S as [|a c' s' b l' s'' St G E1 E2 E3]; subst.
    assert (Hl : length a = length ps1) by assumption.
    assert (a = ps1 /\ (c', s') :: b = (c, s) :: ps2) as (-> & E).
    { clear - E1 Hl. revert a Hl E1. induction ps1 as [|x ps1 IH]; intros [|y a] Hl E1; cbn in *; try discriminate; auto.
      injection E1 as -> E1. destruct (IH a) as (-> & ?); auto. }
    injection E as -> -> ->. split; [eauto|].
    destruct l; cbn in C; try contradiction. specialize (G _ _ _ eq_refl). lia.
  - intros ((l & s' & C & S) & Lt). exists l, (ps1 ++ (c, s') :: ps2). split; [exact C|].
    constructor; [exact S|]. intros. lia.
Qed.

(** the first [n] receivers of a listener with [m] receivers get called *)
Lemma call_many N m src pkt : forall n ps1 c s ps2 k,
  n <= m -> nc_receivers c = m -> ns_pc s = Dispatching k pkt src (seq 0 m) [] false ->
  busy_workers (ps1 ++ (c, s) :: ps2) + n <= N ->
  exists tr s', pool_run N (ps1 ++ (c, s) :: ps2) tr (ps1 ++ (c, s') :: ps2) /\
    started tr = [] /\ Forall (fun l => ~ is_pool_failure l) tr /\ came_back tr = 0 /\
    (forall i, i <> length ps1 -> trace_of i tr = []) /\ arrivals (trace_of (length ps1) tr) = [] /\
    (exists running, ns_pc s' = Dispatching k pkt src (seq n (m - n)) running false /\ length running = n).
Proof.
  induction n as [|n IH]; intros ps1 c s ps2 k Hn Hm Pc B.
  - exists [], s. split; [constructor|]. repeat split; auto. exists []. rewrite Nat.sub_0_r. auto.
  - destruct (IH ps1 c s ps2 k) as (tr & s' & R & St & F & Lf & O & Ar & running & Pc' & Lr); auto; try lia.
    assert (E : seq n (m - n) = n :: seq (S n) (m - S n)).
    { replace (m - n) with (S (m - S n)) by lia. reflexivity. }
    exists (tr ++ [GStep (length ps1) (LCall n pkt src)]),
      (set_pc s' (Dispatching k pkt src (seq (S n) (m - S n)) (n :: running) false)).
    split.
    { apply (pool_run_app _ _ _ _ _ _ R). apply pool_run_one. constructor.
      - apply step_call with (before := []). now rewrite Pc', E.
      - intros _ _ _ _. rewrite busy_app in *. cbn in *. unfold running_of in *. rewrite Pc in B. rewrite Pc'. cbn in *. lia. }
    rewrite started_app, came_back_app. cbn. rewrite St, Lf. split; [reflexivity|]. split.
    { apply Forall_app. split; auto. }
    split; [reflexivity|]. split.
    { intros i Hi. rewrite trace_of_app, O by auto. cbn. destruct (Nat.eqb_spec i (length ps1)); congruence. }
    split.
    { rewrite trace_of_app, arrivals_app, Ar. cbn. now rewrite Nat.eqb_refl. }
    exists (n :: running). cbn. auto.
Qed.

Lemma saturated_run N c s ps2 tr' ps' :
  N <= length (running_of s) ->
  pool_run N ((c, s) :: ps2) tr' ps' ->
  (forall r, returns r (trace_of 0 tr') = 0 /\ panics r (trace_of 0 tr') = 0) ->
  entered tr' = 0 /\ exists c' s' ps2', ps' = (c', s') :: ps2' /\ N <= length (running_of s').
Proof.
  intros H R. remember ((c, s) :: ps2) as ps eqn:E.
  induction R as [ps|ps tr ps' l ps'' R IH S]; subst; intros Q.
  - split; [reflexivity|]. eauto.
  - destruct (IH eq_refl) as (En & c' & s' & ps2' & -> & L).
    { intros r. destruct (Q r) as [Q1 Q2]. rewrite trace_of_app in Q1, Q2.
      rewrite returns_app in Q1. rewrite panics_app in Q2. lia. }
    rewrite entered_app, En. inversion S as [ps0 c0 q0 E1 E2 E3|a c0 s0 b l0 s1 St G E1 E2 E3]; subst.
    + cbn. split; [reflexivity|]. eauto.
    + assert (NC : forall r pkt src, l0 <> LCall r pkt src).
      { intros r pkt src ->. pose proof (G _ _ _ eq_refl) as G'. rewrite E1 in G'. cbn in G'. lia. }
      split.
      { cbn. destruct l0; auto. exfalso. eapply NC. reflexivity. }
      destruct a as [|x a]; cbn in E1.
      * injection E1 as -> -> ->. exists c', s1, ps2'. split; [reflexivity|].
        pose proof (running_step _ _ _ _ St) as K.
        assert (match l0 with LReturn _ | LPanic _ => 1 | _ => 0 end = 0).
        { destruct l0; auto; exfalso; destruct (Q r) as [Q1 Q2]; rewrite trace_of_app in Q1, Q2;
            rewrite returns_app in Q1; rewrite panics_app in Q2; cbn in Q1, Q2; rewrite ?Nat.eqb_refl in *; lia. }
        lia.
      * injection E1 as -> <-. exists c', s', (a ++ (c0, s1) :: b). auto.
Qed.

(** C69, refuted: a listener is not isolated from slow receivers of another one. For every size of the pool there is an
    execution without failures in which one instance's receivers occupy all workers while another listener has taken its
    datagram from the socket; as long as none of those receivers comes back, no receiver of any listener is called. *)
Lemma p_C69_slow_receivers_starve_other_listeners_refuted :
  forall (workers : nat) (d1 d2 : datagram) (c2 : net_config),
    exists (c1 : net_config) (tr : list pool_label) (ps : pool_state),
      pool_run workers [] tr ps /\ started tr = [(c1, [d1]); (c2, [d2])] /\
      Forall (fun l => ~ is_pool_failure l) tr /\ recvs (trace_of 1 tr) = 1 /\
      (forall r, calls r (trace_of 1 tr) = []) /\
      forall tr' ps', pool_run workers ps tr' ps' ->
        (forall r, returns r (trace_of 0 tr') = 0 /\ panics r (trace_of 0 tr') = 0) ->
        entered tr' = 0.
Proof.
  intros N [b1 a1] [b2 a2] c2.
  pose (c1 := {| nc_buffersize := 2048; nc_has_timeout := false; nc_receivers := N |}).
  exists c1.
  pose (r1 := recv_into b1 (repeat x00 2048)). pose (r2 := recv_into b2 (repeat x00 (nc_buffersize c2))).
  pose (s1 := {| ns_queue := []; ns_edge := false; ns_buffer := fst r1;
                 ns_pc := Dispatching 0 (firstn (snd r1) (fst r1)) a1 (seq 0 N) [] false |}).
  pose (s2 := {| ns_queue := []; ns_edge := false; ns_buffer := fst r2;
                 ns_pc := Dispatching 0 (firstn (snd r2) (fst r2)) a2 (seq 0 (nc_receivers c2)) [] false |}).
  pose (h1 := {| ns_queue := [(b1, a1)]; ns_edge := false; ns_buffer := repeat x00 2048; ns_pc := Handling 1 |}).
  pose (h2 := {| ns_queue := [(b2, a2)]; ns_edge := false; ns_buffer := repeat x00 (nc_buffersize c2); ns_pc := Handling 1 |}).
  pose (pre := [GStart c1 [(b1, a1)]; GStart c2 [(b2, a2)]; GStep 0 (LPoll 1); GStep 1 (LPoll 1); GStep 0 LRecv; GStep 1 LRecv]).
  assert (R : pool_run N [] pre [(c1, s1); (c2, s2)]).
  { change pre with (((((([] ++ [GStart c1 [(b1, a1)]]) ++ [GStart c2 [(b2, a2)]]) ++ [GStep 0 (LPoll 1)])
       ++ [GStep 1 (LPoll 1)]) ++ [GStep 0 LRecv]) ++ [GStep 1 LRecv]).
    eapply pool_run_snoc; [eapply pool_run_snoc; [eapply pool_run_snoc; [eapply pool_run_snoc;
      [eapply pool_run_snoc; [eapply pool_run_snoc; [constructor|]|]|]|]|]|].
    - apply pool_start.
    - apply (pool_start N [(c1, net_init c1 [(b1, a1)])]).
    - apply (pool_listener N [] c1 (net_init c1 [(b1, a1)]) [(c2, net_init c2 [(b2, a2)])] (LPoll 1) h1); [|discriminate].
      apply step_poll_ready; reflexivity.
    - apply (pool_listener N [(c1, h1)] c2 (net_init c2 [(b2, a2)]) [] (LPoll 1) h2); [|discriminate].
      apply step_poll_ready; reflexivity.
    - apply (pool_listener N [] c1 h1 [(c2, h2)] LRecv s1); [|discriminate].
      pose proof (step_recv c1 h1 0 b1 a1 [] eq_refl eq_refl) as K. exact K.
    - apply (pool_listener N [(c1, s1)] c2 h2 [] LRecv s2); [|discriminate].
      pose proof (step_recv c2 h2 0 b2 a2 [] eq_refl eq_refl) as K. exact K. }
  destruct (call_many N N a1 (firstn (snd r1) (fst r1)) N [] c1 s1 [(c2, s2)] 0) as
    (tr & s' & R' & St & F & Lf & O & Ar & running & Pc & Lr);
    [lia | reflexivity | reflexivity | cbn; lia |].
  exists (pre ++ tr), ((c1, s') :: [(c2, s2)]).
  split; [exact (pool_run_app _ _ _ _ _ _ R R')|].
  rewrite started_app, St. split; [reflexivity|]. split.
  { apply Forall_app. split; [|exact F]. repeat constructor; cbn; auto. }
  rewrite trace_of_app, (O 1) by (cbn; lia). split; [reflexivity|]. split; [reflexivity|].
  intros tr' ps' R2 Q. apply (saturated_run N c1 s' [(c2, s2)] tr' ps'); auto.
  unfold running_of. rewrite Pc. lia.
Qed.

(** C67: both workers of a pool of two in use, and C66/C68: a process with two listeners doing something *)
Example ex_C67_full_pool :
  exists tr ps, pool_run 2 [] tr ps /\ length (started tr) = 2 /\ entered tr = 2 /\ came_back tr = 0 /\ ~ quiet ps.
Proof.
  pose (c := {| nc_buffersize := 2048; nc_has_timeout := false; nc_receivers := 1 |}).
  pose (a := V4 x7f x00 x00 x01 80%N). pose (q := [([x01], a)] : list datagram).
  pose (h := {| ns_queue := q; ns_edge := false; ns_buffer := repeat x00 2048; ns_pc := Handling 1 |}).
  pose (r := recv_into [x01] (repeat x00 2048)).
  pose (d := fun running => {| ns_queue := []; ns_edge := false; ns_buffer := fst r;
                 ns_pc := Dispatching 0 (firstn (snd r) (fst r)) a (match running with [] => [0] | _ => [] end) running false |}).
  exists ((((((((([] ++ [GStart c q]) ++ [GStart c q]) ++ [GStep 0 (LPoll 1)]) ++ [GStep 1 (LPoll 1)]) ++ [GStep 0 LRecv])
          ++ [GStep 1 LRecv]) ++ [GStep 0 (LCall 0 (firstn (snd r) (fst r)) a)]) ++ [GStep 1 (LCall 0 (firstn (snd r) (fst r)) a)])).
  exists [(c, d [0]); (c, d [0])]. split.
  - eapply pool_run_snoc; [eapply pool_run_snoc; [eapply pool_run_snoc; [eapply pool_run_snoc; [eapply pool_run_snoc; [eapply pool_run_snoc;
      [eapply pool_run_snoc; [eapply pool_run_snoc; [constructor|]|]|]|]|]|]|]|].
    + apply pool_start.
    + apply (pool_start 2 [(c, net_init c q)]).
    + apply (pool_listener 2 [] c (net_init c q) [(c, net_init c q)] (LPoll 1) h); [|discriminate]. apply step_poll_ready; reflexivity.
    + apply (pool_listener 2 [(c, h)] c (net_init c q) [] (LPoll 1) h); [|discriminate]. apply step_poll_ready; reflexivity.
    + apply (pool_listener 2 [] c h [(c, h)] LRecv (d [])); [|discriminate].
      exact (step_recv c h 0 [x01] a [] eq_refl eq_refl).
    + apply (pool_listener 2 [(c, d [])] c h [] LRecv (d [])); [|discriminate].
      exact (step_recv c h 0 [x01] a [] eq_refl eq_refl).
    + apply (pool_listener 2 [] c (d []) [(c, d [])] _ (d [0])); [|intros; cbn; lia].
      exact (step_call c (d []) 0 _ a [] 0 [] [] false eq_refl).
    + apply (pool_listener 2 [(c, d [0])] c (d []) [] _ (d [0])); [|intros; cbn; lia].
      exact (step_call c (d []) 0 _ a [] 0 [] [] false eq_refl).
  - cbn [app started entered came_back length]. repeat split.
    intros Q. inversion Q as [|x l [[w H]|[H _]] F]; discriminate.
Qed.
