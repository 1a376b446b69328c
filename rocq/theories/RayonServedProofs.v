(** * RayonServedProofs: C118, the listener's side *)
From Coq Require Import Permutation.
From Verif Require Import Base Codec Network NetSpec NetworkProofs LivenessSpec LivenessProofs Pool PoolSpec PoolProofs PoolLiveSpec PoolLiveProofs
  Rayon RayonSpec RayonProofs RayonLiveSpec RayonLiveProofs.
Open Scope nat_scope.

Lemma nth_error_mid_eq {A} (l1 : list A) x l2 y : nth_error (l1 ++ x :: l2) (length l1) = Some y -> y = x.
Proof. rewrite nth_error_mid. congruence. Qed.
(** what a step does to one listener *)
Lemma listener_step s l s' i c x c' x' : ry_step s l s' -> nth_error (ry_listeners s) i = Some (c, x) -> nth_error (ry_listeners s') i = Some (c', x') ->
  (exists lab, l = RListener (GStep i lab) /\ step c x lab x' /\ (listeners_own lab = true \/ lab = LRecv)) \/
  (exists w k pkt src pe ru pa, l = RWorker w (Some (GStep i LScopeEnd)) /\ ns_pc x = Dispatching k pkt src pe ru pa /\
     (x' = set_pc x (Handling k) \/ x' = set_pc x (Stopped StoppedByPanic))) \/
  (x' = x /\ (forall lab, l <> RListener (GStep i lab)) /\ forall w, l <> RWorker w (Some (GStep i LScopeEnd))).
Proof.
  intros S E E'. destruct S; cbn [ry_listeners] in *; try (right; right; repeat split; [congruence|discriminate..]).
  - right. right. rewrite nth_error_app1 in E' by (apply nth_error_Some; congruence). repeat split; [congruence|discriminate..].
  - destruct (Nat.eq_dec i (length l1)) as [->|Ne].
    + apply nth_error_mid_eq in E. apply nth_error_mid_eq in E'. injection E as -> ->. injection E' as -> ->. left. eauto 6.
    + right. right. rewrite (nth_error_other _ _ (c0, s') _ i Ne) in E. repeat split; [congruence..|discriminate].
  - destruct (Nat.eq_dec i (length l1)) as [->|Ne].
    + apply nth_error_mid_eq in E. apply nth_error_mid_eq in E'. injection E as -> ->. injection E' as -> ->. left. eauto 6.
    + right. right. rewrite (nth_error_other _ _ (c0, s') _ i Ne) in E. repeat split; [congruence..|discriminate].
  - destruct (Nat.eq_dec i (length l1)) as [->|Ne].
    + apply nth_error_mid_eq in E. apply nth_error_mid_eq in E'. injection E as -> ->. injection E' as -> ->.
      right. left. do 7 eexists. split; [reflexivity|]. split; [eassumption|]. destruct (existsb _ pn); auto.
    + right. right. match type of E' with nth_error (_ ++ ?y :: _) _ = _ => rewrite (nth_error_other _ _ y _ i Ne) in E end. repeat split; [congruence|discriminate|congruence].
Qed.

Definition at_listener (i : nat) (e : ry_label) : option label :=
  match seen e with Some p => pool_label_at i p | None => None end.
Lemma trace_one i e : trace_of i (visible [e]) = match at_listener i e with Some l => [l] | None => [] end.
Proof. unfold at_listener. destruct e as [p|w [p|]]; cbn [visible seen]; try apply trace_of_one. reflexivity. Qed.
Lemma at_listener_some i e l : at_listener i e = Some l -> seen e = Some (GStep i l).
Proof. unfold at_listener. destruct (seen e) as [p|]; [|discriminate]. intros H. f_equal. now apply pool_label_at_some. Qed.
Definition own_event (i : nat) (e : ry_label) : bool :=
  match e with RListener (GStep j l) => (i =? j) && match l with LArrive _ => false | _ => true end | _ => false end.
Lemma own_event_iff i e : own_event i e = true <-> exists l, e = RListener (GStep i l) /\ ~ is_arrival l.
Proof.
  destruct e as [[c q|j l]|w l]; cbn; try (split; [discriminate|intros (l' & E & _); discriminate]).
  rewrite andb_true_iff, Nat.eqb_eq. split.
  - intros [-> H]. exists l. split; [reflexivity|]. destruct l; try discriminate; auto.
  - intros (l' & E & H). injection E as -> ->. split; [reflexivity|]. destruct l'; cbn in H; tauto.
Qed.

Section served.
  Context (N : nat) (st : nat -> ry_state) (ev : nat -> ry_label) (RUN : infinite_ry N st ev) (HN : 1 <= N)
    (CB : every_call_comes_back ev) (FT : fair_to_threads st ev) (FJ : fair_to_jobs st) (NM : no_more_listeners ev)
    (i a0 : nat) (c : net_config) (q : list datagram) (START : nth_error (started (visible (ry_upto ev a0))) i = Some (c, q))
    (FL : fair_to_listener i st ev) (NF : no_failure_at i ev) (GO : traffic_at i ev) (PP : prompt_poll_at i st ev).

  Definition tr (n : nat) : list label := trace_of i (visible (ry_upto ev n)).
  Lemma tr_S n : tr (S n) = tr n ++ match at_listener i (ev n) with Some l => [l] | None => [] end.
  Proof. unfold tr. now rewrite ry_upto_S, visible_app, trace_of_app, trace_one. Qed.
  Lemma is_started n : a0 <= n -> nth_error (started (visible (ry_upto ev n))) i = Some (c, q).
  Proof.
    induction 1 as [|n H IH]; [exact START|]. rewrite ry_upto_S, visible_app, started_app, nth_error_app1; [exact IH|].
    apply nth_error_Some. congruence.
  Qed.
  Definition lis (n : nat) (x : net_state) : Prop := nth_error (ry_listeners (st n)) i = Some (c, x).
  Lemma abstract n : a0 <= n -> exists x y, lis n x /\ run c (net_init c q) (tr n) y /\ (dispatching x <-> dispatching y) /\ (~ dispatching x -> y = x).
  Proof.
    intros H. destruct (p_C115_work_stealing_refines_pool _ _ _ (ry_prefix _ _ _ RUN n)) as (ps & P & L & R).
    destruct (p_C66_listeners_do_not_interfere _ _ _ _ _ _ P (is_started n H)) as (y & Ey & Ry).
    assert (exists c' x, nth_error (ry_listeners (st n)) i = Some (c', x)) as (c' & x & Ex).
    { assert (i < length (ry_listeners (st n))) as Li by (rewrite <- L; apply nth_error_Some; congruence). apply nth_error_Some in Li.
      destruct (nth_error (ry_listeners (st n)) i) as [[c' x]|]; [eauto|congruence]. }
    destruct (R i c' x Ex) as (y' & Ey' & D1 & D2). rewrite Ey in Ey'. injection Ey' as <- <-. exists x, y. unfold lis, tr. auto.
  Qed.
  Lemma lis_exists n : a0 <= n -> exists x, lis n x.
  Proof. intros H. destruct (abstract n H) as (x & y & L & _). eauto. Qed.
  Lemma lis_run n x : a0 <= n -> lis n x -> ~ dispatching x -> run c (net_init c q) (tr n) x.
  Proof.
    intros H L ND. destruct (abstract n H) as (x' & y & L' & R & D & E). unfold lis in *. assert (x' = x) as -> by congruence.
    rewrite (E ND) in R. exact R.
  Qed.
  Lemma no_failure_upto n : Forall (fun l => ~ is_failure l) (tr n).
  Proof.
    induction n as [|n IH]; [constructor|]. rewrite tr_S. apply Forall_app. split; [exact IH|].
    destruct (at_listener i (ev n)) as [l|] eqn:E; constructor; [|constructor]. apply (NF n), at_listener_some, E.
  Qed.
  Lemma alive n x : a0 <= n -> lis n x -> ~ stopped x.
  Proof.
    intros H L S. assert (ND : ~ dispatching x) by (destruct S as [r S]; unfold dispatching; rewrite S; auto).
    pose proof (lis_run n x H L ND) as R. revert S. eapply never_panicked; [exact R|apply no_failure_upto| |]; cbn.
    - intros [r X]. discriminate.
    - discriminate.
  Qed.

  Lemma quiet_listener n m x : a0 <= n -> lis n x -> ~ dispatching x -> n <= m -> (forall k, n <= k < m -> own_event i (ev k) = false) ->
    exists x', lis m x' /\ ns_pc x' = ns_pc x /\ (ns_edge x = true -> ns_edge x' = true).
  Proof.
    intros H L ND. induction 1 as [|m Hm IH]; intros Q; [exists x; auto|].
    destruct IH as (x1 & L1 & P1 & E1); [intros; apply Q; lia|]. destruct (lis_exists (S m) ltac:(lia)) as (x2 & L2).
    exists x2. split; [exact L2|].
    destruct (listener_step _ _ _ _ _ _ _ _ (proj2 RUN m) L1 L2) as [(lab & E & St & _)|[(w & k & pkt & src & pe & ru & pa & _ & D & _)|[-> _]]].
    - specialize (Q m ltac:(lia)). rewrite E in Q. cbn in Q. rewrite Nat.eqb_refl in Q. cbn in Q. destruct lab; try discriminate.
      destruct (arrival_step _ _ _ _ St Logic.I) as [E2 E3]. split; [congruence|auto].
    - exfalso. apply ND. unfold dispatching. now rewrite <- P1, D.
    - auto.
  Qed.
  Lemma can_go_on_here n x : a0 <= n -> lis n x -> ~ dispatching x -> will_receive x -> listener_thread_can_go_on (st n) i.
  Proof.
    intros H L ND W. destruct (p_C61_never_stuck _ _ _ _ (lis_run n x H L ND)) as [X|[[H1 H2]|(l & s' & S & A & F)]].
    - exfalso. exact (alive n x H L X).
    - exfalso. destruct W as [W|[k W]]; congruence.
    - unfold lis in L. destruct (st n) as [ls ts sts pn ck]. cbn [ry_listeners] in L. destruct (nth_error_split _ _ L) as (l1 & l2 & -> & <-).
      unfold dispatching in ND.
      assert (C : listeners_own l = true \/ l = LRecv).
      { inversion S; subst; cbn; auto; exfalso; apply ND; match goal with H : ns_pc x = _ |- _ => now rewrite H end. }
      destruct C as [C| ->].
      + exists l. eexists. split; [apply ry_listener; [exact S|exact C]|auto].
      + exists LRecv. eexists. split; [eapply ry_recv; exact S|auto].
  Qed.
  Lemma own_acts n x : a0 <= n -> lis n x -> ~ dispatching x -> will_receive x ->
    exists m l x', n <= m /\ ev m = RListener (GStep i l) /\ ~ is_arrival l /\ lis m x' /\ ns_pc x' = ns_pc x /\ will_receive x'.
  Proof.
    intros H L ND W. destruct (FL n) as (m & Hm & F).
    assert (WQ : forall x', ns_pc x' = ns_pc x -> (ns_edge x = true -> ns_edge x' = true) -> will_receive x').
    { intros x' P E. destruct W as [W|[k W]]; [left; auto|right; exists k; congruence]. }
    destruct (search_first (fun k => own_event i (ev k)) n (1 + m - n)) as [Q|(m' & Hm' & E & Q)].
    - exfalso. destruct F as [F|F].
      + apply own_event_iff in F. rewrite Q in F by lia. discriminate.
      + destruct (quiet_listener n m x H L ND Hm) as (x' & L' & P & E); [intros; apply Q; lia|].
        apply F. eapply can_go_on_here; [lia|exact L'| |auto]. unfold dispatching in *. now rewrite P.
    - destruct (quiet_listener n m' x H L ND ltac:(lia)) as (x' & L' & P & E'); [intros; apply Q; lia|].
      apply own_event_iff in E as (l & E & A). exists m', l, x'. repeat split; auto; lia.
  Qed.
  Lemma receives_from_here R : forall n x, a0 <= n -> lis n x -> ~ dispatching x -> will_receive x -> LivenessProofs.rank x <= R ->
    exists m, n <= m /\ ev m = RListener (GStep i LRecv).
  Proof.
    induction R as [R IH] using lt_wf_ind. intros n x H L ND W HR.
    destruct (own_acts n x H L ND W) as (m & l & x1 & Hm & E & A & L1 & P1 & W1).
    assert (ND1 : ~ dispatching x1) by (unfold dispatching in *; now rewrite P1).
    destruct (lis_exists (S m) ltac:(lia)) as (x2 & L2).
    destruct (listener_step _ _ _ _ _ _ _ _ (proj2 RUN m) L1 L2) as [(lab & E2 & St & _)|[(w & k & pkt & src & pe & ru & pa & E2 & _)|[_ F]]];
      [|congruence|exfalso; eapply (proj1 F); exact E].
    assert (lab = l) as -> by congruence.
    destruct (rank_step _ _ _ _ St W1 A) as [->|[W2 LT]]; [| | | |now exists m|].
    - apply (NF m). now rewrite E.
    - eapply alive; [|exact L1]. lia.
    - intros k pkt src pe ru D. apply ND1. unfold dispatching. now rewrite D.
    - intros Ed ->. eapply PP; [exact L1|exact Ed|now rewrite E].
    - assert (ND2 : ~ dispatching x2).
      { intros D. apply ND1. unfold dispatching in *. inversion St; subst; cbn [set_pc ns_pc] in *; try contradiction;
          try match goal with H : ns_pc x1 = _ |- _ => rewrite H; exact Logic.I end; try assumption.
        exfalso. unfold LivenessProofs.rank in LT. cbn in LT. destruct (recv_into _ _); cbn in LT. rewrite H0 in LT. lia. }
      assert (Er : LivenessProofs.rank x1 = LivenessProofs.rank x) by (unfold LivenessProofs.rank; now rewrite P1).
      destruct (IH (LivenessProofs.rank x2) ltac:(lia) (S m) x2 ltac:(lia) L2 ND2 W2 (le_n _)) as (m2 & Hm2 & E3).
      exists m2. split; [lia|exact E3].
  Qed.

  Definition scope_end (e : ry_label) : bool := match e with RWorker _ (Some (GStep j LScopeEnd)) => i =? j | _ => false end.
  Lemma scope_end_iff e : scope_end e = true <-> exists w, e = RWorker w (Some (GStep i LScopeEnd)).
  Proof.
    destruct e as [p|w [[c' q'|j l]|]]; cbn; try (split; [discriminate|intros (w' & E); discriminate]).
    split.
    - destruct l; try discriminate. intros E. apply Nat.eqb_eq in E as <-. eauto.
    - intros (w' & E). injection E as _ -> ->. apply Nat.eqb_refl.
  Qed.
  Lemma receives n x : a0 <= n -> lis n x -> ns_edge x = true -> exists m, n <= m /\ ev m = RListener (GStep i LRecv).
  Proof.
    intros H L Ed.
    assert (Dc : dispatching x \/ ~ dispatching x) by (unfold dispatching; destruct (ns_pc x); auto).
    destruct Dc as [D|ND]; [|eapply receives_from_here; [exact H|exact L|exact ND|now left|apply le_n]].
    assert (I : in_scope (ry_listeners (st n)) i = true) by (eapply dispatching_in_scope; [exact L|exact D]).
    destruct (scope_ends N st ev RUN CB FT HN FJ NM n i I) as (m0 & w & Hm0 & E0).
    destruct (search_first (fun k => scope_end (ev k)) n (1 + m0 - n)) as [Q|(m & Hm & E & Q)].
    { exfalso. assert (X : scope_end (ev m0) = true) by (apply scope_end_iff; eauto). rewrite Q in X by lia. discriminate. }
    assert (X : forall k, n <= k <= m -> exists x', lis k x' /\ dispatching x' /\ ns_edge x' = true).
    { intros k [Hk Hkm]. induction Hk as [|k Hk IH]; [eauto|]. destruct (IH ltac:(lia)) as (x1 & L1 & D1 & E1).
      destruct (lis_exists (S k) ltac:(lia)) as (x2 & L2). exists x2. split; [exact L2|].
      destruct (listener_step _ _ _ _ _ _ _ _ (proj2 RUN k) L1 L2) as [(lab & E2 & St & Ow)|[(w' & k' & pkt & src & pe & ru & pa & E2 & _)|[-> _]]]; auto.
      - unfold dispatching in *. destruct Ow as [Ow| ->].
        + inversion St; subst; cbn in *; try discriminate; auto; match goal with H : ns_pc x1 = _ |- _ => rewrite H in D1; contradiction end.
        + inversion St; subst. match goal with H : ns_pc x1 = _ |- _ => rewrite H in D1; contradiction end.
      - exfalso. assert (X : scope_end (ev k) = true) by (apply scope_end_iff; eauto). rewrite Q in X by lia. discriminate. }
    destruct (X m ltac:(lia)) as (x1 & L1 & D1 & E1). destruct (lis_exists (S m) ltac:(lia)) as (x2 & L2).
    apply scope_end_iff in E as (w' & E).
    destruct (listener_step _ _ _ _ _ _ _ _ (proj2 RUN m) L1 L2) as [(lab & E2 & _)|[(w2 & k' & pkt & src & pe & ru & pa & E2 & P & [-> | ->])|(_ & _ & F)]].
    - congruence.
    - destruct (receives_from_here _ (S m) _ ltac:(lia) L2 ltac:(cbn; auto) (or_introl E1) (le_n _)) as (m2 & Hm2 & E3). exists m2. split; [lia|exact E3].
    - exfalso. eapply (alive (S m)); [|exact L2|]; [lia|]. eexists. reflexivity.
    - exfalso. eapply F; exact E.
  Qed.

  Lemma tr_recvs_mono n m : n <= m -> recvs (tr n) <= recvs (tr m).
  Proof. induction 1 as [|m H IH]; [lia|]. rewrite tr_S, recvs_app. lia. Qed.
  Lemma enough_recvs k : exists n, a0 <= n /\ k <= recvs (tr n).
  Proof.
    induction k as [|k (n & Hn & IH)]; [exists a0; lia|].
    destruct (GO n) as (a & d & Ha & E).
    destruct (lis_exists a ltac:(lia)) as (x1 & L1). destruct (lis_exists (S a) ltac:(lia)) as (x2 & L2).
    assert (Ed : ns_edge x2 = true).
    { destruct (listener_step _ _ _ _ _ _ _ _ (proj2 RUN a) L1 L2) as [(lab & E2 & St & _)|[(w2 & k' & pkt & src & pe & ru & pa & E2 & _)|(_ & F1 & _)]].
      - rewrite E2 in E. injection E as ->. now destruct (arrival_step _ _ _ _ St Logic.I).
      - rewrite E2 in E. discriminate.
      - exfalso. destruct (ev a) as [p|w [p|]] eqn:Ea; cbn in E; try discriminate; injection E as ->; [eapply F1; reflexivity|].
        pose proof (proj2 RUN a) as S. rewrite Ea in S. inversion S. }
    destruct (receives (S a) x2 ltac:(lia) L2 Ed) as (m & Hm & Er).
    exists (S m). split; [lia|]. rewrite tr_S, recvs_app, Er. unfold at_listener. cbn. rewrite Nat.eqb_refl. cbn.
    pose proof (tr_recvs_mono n m ltac:(lia)). lia.
  Qed.
  Lemma tr_arrivals_prefix n m : n <= m -> exists x, arrivals (tr m) = arrivals (tr n) ++ x.
  Proof.
    induction 1 as [|m H [x IH]]; [exists []; now rewrite app_nil_r|]. rewrite tr_S, arrivals_app, IH, <- app_assoc. eexists. reflexivity.
  Qed.
  Lemma served n k d r : nth_error (q ++ arrivals (tr n)) k = Some d -> r < nc_receivers c ->
    exists m, nth_error (calls r (tr m)) k = Some (packet_of c d).
  Proof.
    intros Hk Hr. destruct (enough_recvs (S (S k))) as (m0 & Ha & Hm0).
    set (m := Nat.max n m0).
    assert (Hm : S (S k) <= recvs (tr m)).
    { etransitivity; [exact Hm0|]. apply tr_recvs_mono. lia. }
    exists m. destruct (abstract m ltac:(lia)) as (x & y & _ & R & _).
    destruct (p_C48_exactly_once_in_order _ _ _ _ r R) as [X _]. destruct (X Hr) as (missing & E & L & _).
    pose proof (i_count _ _ _ _ (inv_run _ _ _ _ R)) as C.
    assert (Lc : k < length (calls r (tr m))).
    { apply (f_equal (@length _)) in E. rewrite map_length, app_length in E. lia. }
    destruct (tr_arrivals_prefix n m ltac:(lia)) as [z Ez].
    assert (Hk' : nth_error (received q (tr m)) k = Some d).
    { pose proof (i_queue _ _ _ _ (inv_run _ _ _ _ R)) as Q.
      rewrite <- (nth_error_app1 _ (ns_queue y)) by lia. rewrite <- Q, Ez, app_assoc.
      rewrite nth_error_app1; [exact Hk|]. apply nth_error_Some. congruence. }
    rewrite <- (nth_error_app1 _ missing) by exact Lc. rewrite <- E. now apply map_nth_error.
  Qed.
End served.

(** C118. On a work-stealing pool every dispatch comes to an end: in every infinite execution of a process with at least one worker and any
    number of listeners, all of which have been started at some time, if every call of a receiver comes back and the scheduler is
    fair to the threads of the pool and the pool to the jobs, then a listener that is in a scope leaves it - although the workers that wait for it execute jobs of
    other listeners on top of it in the meantime, and may take new ones before they look again. (While a receiver does not come back this is false: C117.) *)
Lemma p_C118_every_dispatch_ends :
  forall (workers : nat) (st : nat -> ry_state) (ev : nat -> ry_label),
    1 <= workers -> infinite_ry workers st ev -> no_more_listeners ev -> every_call_comes_back ev -> fair_to_threads st ev -> fair_to_jobs st ->
    forall (n i : nat) (c : net_config) (x : net_state),
      nth_error (ry_listeners (st n)) i = Some (c, x) -> dispatching x ->
      exists m, n <= m /\ seen (ev m) = Some (GStep i LScopeEnd).
Proof.
  intros N st ev HN RUN NM CB FT FJ n i c x E D.
  destruct (scope_ends N st ev RUN CB FT HN FJ NM n i (dispatching_in_scope _ _ _ _ E D)) as (m & w & H & Em).
  exists m. split; [exact H|]. now rewrite Em.
Qed.

(** C118. ... and so no listener is starved: if besides the scheduler is fair to the listener's thread, nothing fails there and traffic goes on, each datagram that
    ever arrived there is at some time handed to each of its receivers, in order. *)
Lemma p_C118_no_listener_is_starved :
  forall (workers : nat) (st : nat -> ry_state) (ev : nat -> ry_label) (i n0 : nat) (c : net_config) (q : list datagram),
    1 <= workers -> infinite_ry workers st ev -> no_more_listeners ev -> every_call_comes_back ev -> fair_to_threads st ev -> fair_to_jobs st ->
    nth_error (started (visible (ry_upto ev n0))) i = Some (c, q) ->
    fair_to_listener i st ev -> no_failure_at i ev -> traffic_at i ev -> prompt_poll_at i st ev ->
    forall (n k : nat) (d : datagram) (r : nat),
      nth_error (q ++ arrivals (trace_of i (visible (ry_upto ev n)))) k = Some d -> r < nc_receivers c ->
      exists m, nth_error (calls r (trace_of i (visible (ry_upto ev m)))) k = Some (packet_of c d).
Proof.
  intros N st ev i n0 c q HN RUN NM CB FT FJ ST FL NF GO PP n k d r.
  exact (served N st ev RUN HN CB FT FJ NM i n0 c q ST FL NF GO PP n k d r).
Qed.

(** ** An infinite execution *)
Definition ex_ry_cfg : net_config := {| nc_buffersize := 1; nc_has_timeout := false; nc_receivers := 2 |}.
Definition ex_ry_src : address := V4 x01 x02 x03 x04 5%N.
Definition ex_ry_d : datagram := ([x00], ex_ry_src).
(** one turn, in which the only worker splits the receivers in two, calls the first one, waits, and so takes the second half itself *)
Definition ex_ry_turn (ck phase : nat) : ry_state :=
  let mk q e pc := {| ns_queue := q; ns_edge := e; ns_buffer := [x00]; ns_pc := pc |} in
  let D := mk [] false (Dispatching 0 [x00] ex_ry_src [0; 1] [] false) in
  let at_ x ts s c := RY [(ex_ry_cfg, x)] ts [s] [] c in
  let sc p := InScope ck 0 ck p in
  let top a := InPart (1 + ck) ck 0 [2 + ck] a in
  match phase with
  | 0 => at_ (mk [] false Polling) [] [] ck
  | 1 => at_ (mk [ex_ry_d] true Polling) [] [] ck
  | 2 => at_ (mk [ex_ry_d] false (Handling 1)) [] [] ck
  | 3 => at_ D [TaskScope 0] [] ck
  | 4 => at_ D [TaskPart ck 0 [0; 1]] [sc false] (1 + ck)
  | 5 => at_ D [TaskPart ck 0 [0; 1]] [sc true] (1 + ck)
  | 6 => at_ D [] [InPart (1 + ck) ck 0 [] (Deciding [0; 1]); sc false] (2 + ck)
  | 7 => at_ D [TaskPart (2 + ck) 0 [1]] [top (Deciding [0]); sc false] (3 + ck)
  | 8 => at_ D [TaskPart (2 + ck) 0 [1]] [top (Looping [0]); sc false] (3 + ck)
  | 9 => at_ D [TaskPart (2 + ck) 0 [1]] [top (Calling 0 []); sc false] (3 + ck)
  | 10 => at_ D [TaskPart (2 + ck) 0 [1]] [top (Looping []); sc false] (3 + ck)
  | 11 => at_ D [TaskPart (2 + ck) 0 [1]] [top (Joining false); sc false] (3 + ck)
  | 12 => at_ D [TaskPart (2 + ck) 0 [1]] [top (Joining true); sc false] (3 + ck)
  | 13 => at_ D [] [InPart (3 + ck) (2 + ck) 0 [] (Deciding [1]); top (Joining false); sc false] (4 + ck)
  | 14 => at_ D [] [InPart (3 + ck) (2 + ck) 0 [] (Looping [1]); top (Joining false); sc false] (4 + ck)
  | 15 => at_ D [] [InPart (3 + ck) (2 + ck) 0 [] (Calling 1 []); top (Joining false); sc false] (4 + ck)
  | 16 => at_ D [] [InPart (3 + ck) (2 + ck) 0 [] (Looping []); top (Joining false); sc false] (4 + ck)
  | 17 => at_ D [] [InPart (3 + ck) (2 + ck) 0 [] (Joining false); top (Joining false); sc false] (4 + ck)
  | 18 => at_ D [] [top (Joining false); sc false] (4 + ck)
  | 19 => at_ D [] [InPart (1 + ck) ck 0 [] (Joining false); sc false] (4 + ck)
  | 20 => at_ D [] [sc false] (4 + ck)
  | _ => at_ (mk [] false (Handling 0)) [] [] (4 + ck)
  end.
Definition ex_ry_label (phase : nat) : ry_label :=
  match phase with
  | 0 => RListener (GStep 0 (LArrive ex_ry_d))
  | 1 => RListener (GStep 0 (LPoll 1))
  | 2 => RListener (GStep 0 LRecv)
  | 8 => RWorker 0 (Some (GStep 0 (LCall 0 [x00] ex_ry_src)))
  | 9 => RWorker 0 (Some (GStep 0 (LReturn 0)))
  | 14 => RWorker 0 (Some (GStep 0 (LCall 1 [x00] ex_ry_src)))
  | 15 => RWorker 0 (Some (GStep 0 (LReturn 1)))
  | 20 => RWorker 0 (Some (GStep 0 LScopeEnd))
  | 21 => RListener (GStep 0 LNext)
  | _ => RWorker 0 None
  end.
Definition ex_ry_st (n : nat) : ry_state :=
  match n with 0 => ry_init 1 | S n => ex_ry_turn (4 * (n / 22)) (n mod 22) end.
Definition ex_ry_ev (n : nat) : ry_label :=
  match n with 0 => RListener (GStart ex_ry_cfg []) | S n => ex_ry_label (n mod 22) end.

Lemma ex_ry_phase ck p : p < 22 -> ry_step (ex_ry_turn ck p) (ex_ry_label p) (if p =? 21 then ex_ry_turn (4 + ck) 0 else ex_ry_turn ck (S p)).
Proof.
  intros H. destruct p as [|[|[|[|[|[|[|[|[|[|[|[|[|[|[|[|[|[|[|[|[|[|p]]]]]]]]]]]]]]]]]]]]]]; [..|lia]; clear H; cbn [Nat.eqb]; unfold ex_ry_turn, ex_ry_label.
  - apply (ry_listener [] _ _ []); [apply (step_arrive _ {| ns_queue := []; ns_edge := false; ns_buffer := [x00]; ns_pc := Polling |})|reflexivity].
  - apply (ry_listener [] _ _ []); [apply (step_poll_ready _ {| ns_queue := [ex_ry_d]; ns_edge := true; ns_buffer := [x00]; ns_pc := Polling |}); reflexivity|reflexivity].
  - apply (ry_recv [] _ _ [] []). apply (step_recv ex_ry_cfg {| ns_queue := [ex_ry_d]; ns_edge := false; ns_buffer := [x00]; ns_pc := Handling 1 |} 0 [x00] ex_ry_src []); reflexivity.
  - eapply (ry_take_scope _ [] 0 [] [] [] [] [] ck ex_ry_cfg); reflexivity.
  - apply (ry_look_scope _ _ []). left. do 2 eexists. now left.
  - apply (ry_take_part _ [] ck 0 [0; 1] [] [] [InScope ck 0 ck true] []). reflexivity.
  - apply (ry_split _ [] [] _ _ _ _ [0] [1]); discriminate.
  - apply (ry_sequential _ _ []).
  - eapply (ry_call _ _ []); reflexivity.
  - apply (ry_return _ _ []).
  - apply (ry_loop_done _ _ []).
  - apply (ry_look_join _ _ []). left. do 2 eexists. now left.
  - apply (ry_take_part _ [] (2 + ck) 0 [1] [] [] [InPart (1 + ck) ck 0 [2 + ck] (Joining true); InScope ck 0 ck false] []). reflexivity.
  - apply (ry_sequential _ _ []).
  - eapply (ry_call _ _ []); reflexivity.
  - apply (ry_return _ _ []).
  - apply (ry_loop_done _ _ []).
  - apply (ry_part_done _ _ []).
  - apply (ry_join_done _ _ []). intros [(i & rs & [])|(b & i & js & a & [E|[E|[]]])]; [injection E; intros; lia|discriminate].
  - apply (ry_part_done _ _ []).
  - eapply (ry_scope_done [] ex_ry_cfg {| ns_queue := []; ns_edge := false; ns_buffer := [x00]; ns_pc := Dispatching 0 [x00] ex_ry_src [0; 1] [] false |}
      [] [] [] ck ck false [] [] [] (4 + ck) 0); [reflexivity|]. intros [(i & rs & [])|(b & i & js & a & [E|[]])]; discriminate.
  - apply (ry_listener [] _ _ []); [apply (step_next _ {| ns_queue := []; ns_edge := false; ns_buffer := [x00]; ns_pc := Handling 0 |}); reflexivity|reflexivity].
Qed.
Lemma ex_ry_step n : ry_step (ex_ry_st n) (ex_ry_ev n) (ex_ry_st (S n)).
Proof.
  destruct n as [|n]; [apply ry_start|].
  pose proof (Nat.div_mod n 22 ltac:(lia)) as D. pose proof (Nat.mod_upper_bound n 22 ltac:(lia)) as B.
  assert (E : S n mod 22 = (if n mod 22 =? 21 then 0 else S (n mod 22)) /\ S n / 22 = if n mod 22 =? 21 then S (n / 22) else n / 22).
  { destruct (Nat.eqb_spec (n mod 22) 21) as [e|ne]; split; symmetry.
    - apply (Nat.mod_unique _ _ (S (n / 22))); lia.
    - apply (Nat.div_unique _ _ _ 0); lia.
    - apply (Nat.mod_unique _ _ (n / 22)); lia.
    - apply (Nat.div_unique _ _ _ (S (n mod 22))); lia. }
  unfold ex_ry_st, ex_ry_ev. destruct E as [-> ->]. pose proof (ex_ry_phase (4 * (n / 22)) _ B) as P.
  destruct (n mod 22 =? 21); [|exact P]. replace (4 * S (n / 22)) with (4 + 4 * (n / 22)) by lia. exact P.
Qed.
Lemma ex_ry_at k p : p < 22 -> ex_ry_ev (1 + (22 * k + p)) = ex_ry_label p /\ ex_ry_st (1 + (22 * k + p)) = ex_ry_turn (4 * k) p.
Proof.
  intros H. unfold ex_ry_ev, ex_ry_st. cbn [Nat.add].
  rewrite <- (Nat.mod_unique (22 * k + p) 22 k p), <- (Nat.div_unique (22 * k + p) 22 k p) by lia. auto.
Qed.
Lemma worker_exists s w l s' : ry_step s (RWorker w l) s' -> w < length (ry_stacks s).
Proof. intros S. inversion S; subst; cbn [ry_stacks]; rewrite app_length; cbn; lia. Qed.

(** C118: an infinite execution that meets the assumptions *)
Example ex_C118_run :
  infinite_ry 1 ex_ry_st ex_ry_ev /\ no_more_listeners ex_ry_ev /\ every_call_comes_back ex_ry_ev /\ fair_to_threads ex_ry_st ex_ry_ev /\
  fair_to_jobs ex_ry_st /\ nth_error (started (visible (ry_upto ex_ry_ev 1))) 0 = Some (ex_ry_cfg, []) /\
  fair_to_listener 0 ex_ry_st ex_ry_ev /\ no_failure_at 0 ex_ry_ev /\ traffic_at 0 ex_ry_ev /\ prompt_poll_at 0 ex_ry_st ex_ry_ev /\
  nth_error (arrivals (trace_of 0 (visible (ry_upto ex_ry_ev 24)))) 1 = Some ex_ry_d.
Proof.
  assert (SP : forall n, exists k p, S n = 1 + (22 * k + p) /\ p < 22).
  { intros n. exists (n / 22), (n mod 22). split; [|apply Nat.mod_upper_bound; lia]. now rewrite <- Nat.div_mod by lia. }
  assert (R : infinite_ry 1 ex_ry_st ex_ry_ev) by (split; [reflexivity|exact ex_ry_step]).
  split; [exact R|]. split; [|split; [|split; [|split; [|split; [|split; [|split; [|split; [|split]]]]]]]].
  - exists 1. intros [|n] c q H E; [lia|]. destruct (SP n) as (k & p & En & Hp). rewrite En, (proj1 (ex_ry_at k p Hp)) in E.
    do 22 (destruct p as [|p]; [discriminate|]). lia.
  - intros [|n] w i r pkt src E; [discriminate|]. destruct (SP n) as (k & p & En & Hp). rewrite En, (proj1 (ex_ry_at k p Hp)) in E.
    destruct p as [|[|[|[|[|[|[|[|[|[|[|[|[|[|[|[|[|[|[|[|[|[|p]]]]]]]]]]]]]]]]]]]]]]; try discriminate; injection E as <- <- <- <- <-.
    + exists (1 + (22 * k + 9)). split; [lia|]. left. now rewrite (proj1 (ex_ry_at k 9 ltac:(lia))).
    + exists (1 + (22 * k + 15)). split; [lia|]. left. now rewrite (proj1 (ex_ry_at k 15 ltac:(lia))).
  - intros w n. exists (1 + (22 * n + 3)). split; [lia|]. rewrite (proj1 (ex_ry_at n 3 ltac:(lia))), (proj2 (ex_ry_at n 3 ltac:(lia))).
    destruct w as [|w]; [left; eexists; reflexivity|]. right. intros (l & s' & S & _). apply worker_exists in S. cbn in S. lia.
  - intros _ n t _. exists (1 + (22 * n + 0)). split; [lia|]. rewrite (proj2 (ex_ry_at n 0 ltac:(lia))). cbn. auto.
  - reflexivity.
  - intros n. exists (1 + (22 * n + 1)). split; [lia|]. rewrite (proj1 (ex_ry_at n 1 ltac:(lia))). left. eexists. split; [reflexivity|cbn; auto].
  - intros [|n] l E; [discriminate|]. destruct (SP n) as (k & p & En & Hp). rewrite En, (proj1 (ex_ry_at k p Hp)) in E.
    do 22 (destruct p as [|p]; [try discriminate; injection E as <-; cbn; auto|]). lia.
  - intros n. exists (1 + (22 * n + 0)), ex_ry_d. split; [lia|]. now rewrite (proj1 (ex_ry_at n 0 ltac:(lia))).
  - intros [|n] c s _ _ E; [discriminate|]. destruct (SP n) as (k & p & En & Hp). rewrite En, (proj1 (ex_ry_at k p Hp)) in E.
    do 22 (destruct p as [|p]; [discriminate|]). lia.
  - reflexivity.
Qed.
