(** * RayonOrderProofs: executions in rayon's own order *)
From Coq Require Import Permutation.
From Verif Require Import Base Codec Network NetSpec NetworkProofs Pool PoolSpec PoolProofs Rayon RayonSpec RayonOrder RayonProofs
  RayonLiveSpec RayonLiveProofs RayonServedProofs.
Open Scope nat_scope.

(** ** A restriction of Rayon.v *)
Lemma rayon_step_ry s l s' : rayon_step s l s' -> ry_step s l s'.
Proof.
  intros H. destruct H; try assumption.
  - now apply ry_take_part.
  - now apply ry_take_part.
  - now apply (ry_take_scope ls [] i t2 w1 st w2 pn ck c s).
  - apply ry_split; [assumption|]. intros ->. rewrite app_nil_r in H.
    destruct left as [|x left]; [congruence|]. pose proof (Nat.div_lt (length (x :: left)) 2 ltac:(cbn; lia) ltac:(lia)). lia.
  - apply ry_sequential.
Qed.
Lemma rayon_run_ry s tr s' : rayon_run s tr s' -> ry_run s tr s'.
Proof. induction 1; [constructor|]. eapply ry_run_snoc; [eassumption|now apply rayon_step_ry]. Qed.
Lemma rayon_run_app s a s' b s'' : rayon_run s a s' -> rayon_run s' b s'' -> rayon_run s (a ++ b) s''.
Proof.
  intros A B. revert A. induction B; intros A; [now rewrite app_nil_r|]. rewrite app_assoc. econstructor; [apply IHB, A|assumption].
Qed.
Lemma rayon_run_one s l s' : rayon_step s l s' -> rayon_run s [l] s'.
Proof. intros H. apply (rayon_run_snoc s [] s l s'); [constructor|exact H]. Qed.
Lemma rayon_run_cons s l s1 tr s2 : rayon_step s l s1 -> rayon_run s1 tr s2 -> rayon_run s (l :: tr) s2.
Proof. intros A B. apply (rayon_run_app s [l] s1 tr s2); [now apply rayon_run_one|exact B]. Qed.

(** ** No deadlock *)
Lemma not_deciding w1 st w2 : deciding st = false -> deciding (nth (length w1) (w1 ++ st :: w2) []) = false.
Proof. now rewrite nth_middle. Qed.
Lemma goes_on_in_order ls ts w1 st w2 pn ck : forest (RY ls ts (w1 ++ st :: w2) pn ck) -> ~ blocked st ->
  exists l s', rayon_step (RY ls ts (w1 ++ st :: w2) pn ck) l s' /\ ~ is_external_here l /\ ~ is_failure_here l.
Proof.
  unfold forest, flat. cbn [ry_listeners ry_tasks ry_stacks ry_clock]. intros T NB.
  assert (O : forall l s', ry_step (RY ls ts (w1 ++ st :: w2) pn ck) (RWorker (length w1) l) s' -> ry_tasks s' = ts -> deciding st = false ->
    rayon_step (RY ls ts (w1 ++ st :: w2) pn ck) (RWorker (length w1) l) s').
  { intros l s' S E D. apply ro_other; [exact S|exact E|]. cbn [ry_stacks]. now apply not_deciding. }
  destruct st as [|[b i id p|b id i js a] st]; cbn in NB; [tauto| |].
  - destruct p; [tauto|].
    assert (I : in_scope ls i = true).
    { eapply in_scope_job; [exact T|]. eapply Permutation_in; [symmetry; apply flat_top|now left]. }
    destruct (in_scope_exists _ _ I) as (c & s & k & pkt & src & pe & ru & pa & E & PC).
    destruct (nth_error_split _ _ E) as (l1 & l2 & -> & <-).
    destruct (unfinished_dec ts (w1 ++ (InScope b (length l1) id false :: st) :: w2) id) as [U|U].
    + do 2 eexists. split; [apply O; [apply ry_look_scope; exact U|reflexivity|reflexivity]|cbn; tauto].
    + do 2 eexists. split; [apply O; [eapply ry_scope_done; eassumption|reflexivity|reflexivity]|cbn; tauto].
  - assert (I : in_scope ls i = true).
    { eapply part_in_scope; [exact T|]. right. exists b, js, a. eapply Permutation_in; [symmetry; apply flat_top|now left]. }
    destruct (in_scope_exists _ _ I) as (c & s & k & pkt & src & pe & ru & pa & E & PC).
    destruct a as [rs|[|r rs]|r rs|p].
    + destruct (Nat.le_gt_cases (length rs) 1) as [L|L].
      * do 2 eexists. split; [apply ro_sequential|cbn; tauto].
      * rewrite <- (firstn_skipn (length rs / 2) rs).
        assert (Hd : length rs / 2 <= length rs) by (apply Nat.div_le_upper_bound; lia).
        assert (H1 : 1 <= length rs / 2) by (apply Nat.div_le_lower_bound; lia).
        do 2 eexists. split; [apply ro_split|cbn; tauto].
        -- rewrite firstn_skipn, firstn_length. lia.
        -- intros H. apply (f_equal (@length nat)) in H. rewrite firstn_length in H. cbn [length] in H. lia.
    + do 2 eexists. split; [apply O; [apply ry_loop_done|reflexivity|reflexivity]|cbn; tauto].
    + do 2 eexists. split; [apply O; [eapply ry_call; eassumption|reflexivity|reflexivity]|cbn; tauto].
    + do 2 eexists. split; [apply O; [apply ry_return|reflexivity|reflexivity]|cbn; tauto].
    + destruct js as [|j js]; [do 2 eexists; split; [apply O; [apply ry_part_done|reflexivity|reflexivity]|cbn; tauto]|].
      destruct p; [tauto|].
      destruct (unfinished_dec ts (w1 ++ (InPart b id i (j :: js) (Joining false) :: st) :: w2) j) as [U|U].
      * do 2 eexists. split; [apply O; [apply ry_look_join; exact U|reflexivity|reflexivity]|cbn; tauto].
      * do 2 eexists. split; [apply O; [apply ry_join_done; exact U|reflexivity|reflexivity]|cbn; tauto].
Qed.

Definition waits_forb (id : nat) (j : job) : bool :=
  match j with InScope _ _ id' _ => id' =? id | InPart _ _ _ js _ => existsb (Nat.eqb id) js end.
Definition in_deque (sts : list (list job)) (w : nat) (t : task) : bool :=
  match t with
  | TaskPart id _ _ => existsb (waits_forb id) (nth w sts [])
  | TaskScope _ => false
  end.
Lemma waits_forb_iff id j : waits_forb id j = true <-> waits_for j id.
Proof.
  destruct j as [b i id' p|b id' i js a]; cbn; [apply Nat.eqb_eq|].
  rewrite existsb_exists. split; [intros (x & X & E); apply Nat.eqb_eq in E; now subst|]. intros H. exists id. split; [exact H|apply Nat.eqb_refl].
Qed.
Lemma in_deque_iff sts w id i rs : in_deque sts w (TaskPart id i rs) = true <-> pushed_by sts w id.
Proof.
  cbn. rewrite existsb_exists. split.
  - intros (j & J & E). apply waits_forb_iff in E. exists (nth w sts []), j. split; [|auto].
    destruct (nth_error sts w) as [st|] eqn:N; [now rewrite (nth_error_nth _ _ [] N)|].
    apply nth_error_None in N. rewrite nth_overflow in J by lia. destruct J.
  - intros (st & j & N & J & E). exists j. rewrite (nth_error_nth _ _ [] N). split; [exact J|now apply waits_forb_iff].
Qed.
Lemma none_in_deque sts w ts : (forall t, In t ts -> in_deque sts w t = false) -> none_pushed_by sts w ts.
Proof. intros H id i rs I P. apply (in_deque_iff sts w id i rs) in P. now rewrite H in P. Qed.
Lemma first_such {A} (f : A -> bool) l : existsb f l = true -> exists a x b, l = a ++ x :: b /\ f x = true /\ forall y, In y a -> f y = false.
Proof.
  induction l as [|x l IH]; [discriminate|]. cbn. destruct (f x) eqn:E.
  - intros _. exists [], x, l. split; [reflexivity|]. split; [exact E|intros y []].
  - intros H. destruct (IH H) as (a & y & b & -> & Y & N). exists (x :: a), y, b. split; [reflexivity|]. split; [exact Y|]. intros z [<-|Z]; auto.
Qed.
Lemma last_such {A} (f : A -> bool) l : existsb f l = true -> exists a x b, l = a ++ x :: b /\ f x = true /\ forall y, In y b -> f y = false.
Proof.
  intros H. assert (H' : existsb f (rev l) = true).
  { apply existsb_exists in H as (x & X & E). apply existsb_exists. exists x. split; [now apply in_rev in X|exact E]. }
  destruct (first_such f _ H') as (a & x & b & E & X & N). exists (rev b), x, (rev a). split; [|split; [exact X|]].
  - rewrite <- (rev_involutive l), E, rev_app_distr. cbn. now rewrite <- app_assoc.
  - intros y Y. apply N. now apply in_rev.
Qed.
Lemma existsb_false {A} (f : A -> bool) l : existsb f l = false -> forall x, In x l -> f x = false.
Proof. intros H x X. destruct (f x) eqn:E; [|reflexivity]. assert (existsb f l = true) by (apply existsb_exists; eauto). congruence. Qed.
Lemma waiter_pushed sts id i : waiter (concat sts) id i -> exists w, pushed_by sts w id.
Proof.
  assert (K : forall j, In j (concat sts) -> waits_for j id -> exists w, pushed_by sts w id).
  { intros j J W. apply in_concat in J as (st & S & J). apply In_nth_error in S as (w & S). exists w, st, j. auto. }
  intros [(b & p & J)|(b & id' & js & a & J & W)]; eapply K; try exact J; cbn; auto.
Qed.
Lemma takes_in_order ls ts w1 st w2 pn ck : forest (RY ls ts (w1 ++ st :: w2) pn ck) -> may_take st = true -> ts <> [] ->
  exists s', rayon_step (RY ls ts (w1 ++ st :: w2) pn ck) (RWorker (length w1) None) s'.
Proof.
  unfold forest, flat. cbn [ry_listeners ry_tasks ry_stacks ry_clock]. intros T M NE. set (sts := w1 ++ st :: w2) in *.
  destruct (existsb (in_deque sts (length w1)) ts) eqn:Own.
  - destruct (last_such _ _ Own) as (a & [i|id i rs] & b & -> & E & N); [discriminate|]. eexists. apply ro_take_own; [exact M| |].
    + now apply (in_deque_iff sts (length w1) id i rs).
    + now apply none_in_deque.
  - pose proof (existsb_false _ _ Own) as NO. destruct (existsb (fun t => match t with TaskPart _ _ _ => true | _ => false end) ts) eqn:P.
    + apply existsb_exists in P as ([i|id i rs] & I & E); [discriminate|].
      destruct (waiter_pushed sts id i) as (v & V). { apply (tr_parent _ _ _ _ T). left. eauto. }
      assert (Hx : existsb (in_deque sts v) ts = true) by (apply existsb_exists; eexists; split; [exact I|now apply in_deque_iff]).
      destruct (first_such _ _ Hx) as (a & [i'|id' i' rs'] & b & -> & E' & N'); [discriminate|]. eexists. apply (ro_steal ls a id' i' rs' b w1 st w2 pn ck v); [exact M| | |].
      * now apply none_in_deque.
      * now apply (in_deque_iff sts v id' i' rs').
      * now apply none_in_deque.
    + pose proof (existsb_false _ _ P) as NP. destruct ts as [|[i|id i rs] ts]; [congruence| |discriminate (NP _ (or_introl eq_refl))].
      assert (I : in_scope ls i = true) by (eapply task_scope_in_scope; [exact T|now left]).
      destruct (in_scope_exists _ _ I) as (c & s & k & pkt & src & pe & ru & pa & E & PC).
      eexists. eapply ro_injected; [exact M|exact E|]. intros id j rs H. discriminate (NP _ (or_intror H)).
Qed.

(** C119. Taking jobs in rayon's order (each thread its own latest job first, then the oldest job of another thread, and only if there is none
    the next scope of a listener) does not deadlock either. *)
Lemma p_C119_never_deadlocks_in_order :
  forall (workers : nat) (tr : list ry_label) (s : ry_state),
    1 <= workers -> rayon_run (ry_init workers) tr s ->
    quiet (ry_listeners s) \/
    exists l s', rayon_step s l s' /\ ~ is_external_here l /\ ~ is_failure_here l.
Proof.
  intros N tr s HN R0. pose proof (rayon_run_ry _ _ _ R0) as R. pose proof (forest_run _ _ _ R) as T. pose proof (workers_run _ _ _ R) as W.
  destruct (p_C116_work_stealing_never_deadlocks _ _ _ HN R) as [Q|(l & s' & S & NE & NF)]; [now left|right].
  destruct s as [ls ts sts pn ck] eqn:Es. cbn [ry_listeners ry_stacks] in *.
  assert (D : (exists w1 st w2, sts = w1 ++ st :: w2 /\ ~ blocked st) \/ Forall blocked sts).
  { clear. induction sts as [|st sts IH]; [right; constructor|]. destruct (blocked_dec st) as [B|B]; [|left; exists [], st, sts; auto].
    destruct IH as [(w1 & st' & w2 & -> & H)|H]; [left; exists (st :: w1), st', w2; auto|right; now constructor]. }
  destruct D as [(w1 & st & w2 & -> & NB)|B]; [now apply goes_on_in_order|].
  destruct ts as [|t ts].
  2:{ destruct sts as [|st sts]; [cbn in W; lia|]. inversion B; subst. pose proof (blocked_may_take _ H1) as M.
      destruct (takes_in_order ls (t :: ts) [] st sts pn ck T M ltac:(discriminate)) as (s'' & S'').
      exists (RWorker 0 None), s''. split; [exact S''|cbn; tauto]. }
  (* nothing is left to take: what C116 gives is no taking, and no splitting *)
  exists l, s'. split; [|auto]. destruct l as [l|w l]; [now apply ro_listener|]. apply ro_other; [exact S| |].
  - inversion S; subst; try reflexivity; cbn [ry_tasks]; try (symmetry; now apply app_eq_nil in H);
      match goal with H : ?a ++ _ :: _ = [] |- _ => destruct a; discriminate H | _ => idtac end.
    exfalso. rewrite Forall_forall in B. specialize (B _ ltac:(apply in_elt)). cbn in B. now destruct js.
  - cbn [ry_stacks]. destruct (deciding (nth w sts [])) eqn:D; [|reflexivity]. exfalso.
    destruct (nth_error sts w) as [st|] eqn:E.
    + rewrite (nth_error_nth _ _ [] E) in D. rewrite Forall_forall in B. apply nth_error_In in E. specialize (B _ E).
      destruct st as [|[|b id i [|] [| | |[|]]] st]; try discriminate D; cbn in B; exact B.
    + apply nth_error_None in E. rewrite nth_overflow in D by lia. discriminate.
Qed.

(** C119. All that happens in this order is an execution of Rayon.v, so everything proved of all executions there (C115, C116, C118) holds here. *)
Lemma p_C119_order_is_a_restriction :
  forall (s : ry_state) (tr : list ry_label) (s' : ry_state), rayon_run s tr s' -> ry_run s tr s'.
Proof. exact rayon_run_ry. Qed.

(** ** A listener frozen by another one *)
Lemma start_two N c0 c1 d0 d1 :
  rayon_run (ry_init N) [RListener (GStart c0 [d0]); RListener (GStart c1 [d1]); RListener (GStep 0 (LPoll 1)); RListener (GStep 0 LRecv);
                      RListener (GStep 1 (LPoll 1)); RListener (GStep 1 LRecv)]
    (RY [(c0, got c0 d0); (c1, got c1 d1)] [TaskScope 0; TaskScope 1] (repeat [] N) [] 0).
Proof.
  unfold ry_init.
  eapply rayon_run_cons; [apply ro_listener, ry_start|]. eapply rayon_run_cons; [apply ro_listener, ry_start|].
  eapply rayon_run_cons; [apply ro_listener, (ry_listener [] c0 _ [(c1, net_init c1 [d1])] [] _ [] 0 (LPoll 1) _ (poll_step c0 d0) eq_refl)|].
  eapply rayon_run_cons; [apply ro_listener, (ry_recv [] c0 _ [(c1, net_init c1 [d1])] [] _ [] 0 _ (recv_step c0 d0))|].
  eapply rayon_run_cons; [apply ro_listener, (ry_listener [(c0, got c0 d0)] c1 _ [] [TaskScope 0] _ [] 0 (LPoll 1) _ (poll_step c1 d1) eq_refl)|].
  apply rayon_run_one. apply ro_listener, (ry_recv [(c0, got c0 d0)] c1 _ [] [TaskScope 0] _ [] 0 _ (recv_step c1 d1)).
Qed.

(** C117, refuted: a datagram is finished when its receivers have returned. On a work-stealing pool of any size there is an execution,
    in the very order in which rayon takes jobs, without failures in which the only receiver of the first listener has come back, a single receiver is being executed in the
    whole process (one of the other listener) and every other thread of the pool is free; and as long as that receiver does not come back, in whatever order jobs are taken then, the
    first listener does nothing at all: it does not take another datagram from its socket, nor does it call anything. *)
Lemma p_C117_finished_listener_frozen_by_another_refuted :
  forall (workers : nat) (d0 d1 : datagram) (c0 c1 : net_config),
    2 <= workers -> nc_receivers c0 = 1 -> nc_receivers c1 = 1 ->
    exists (tr : list ry_label) (s : ry_state),
      rayon_run (ry_init workers) tr s /\ started (visible tr) = [(c0, [d0]); (c1, [d1])] /\
      Forall (fun l => ~ is_failure_here l) tr /\
      calls 0 (trace_of 0 (visible tr)) = [packet_of c0 d0] /\ returns 0 (trace_of 0 (visible tr)) = 1 /\
      entered (visible tr) = S (came_back (visible tr)) /\
      forall tr' s', ry_run s tr' s' ->
        (forall r, returns r (trace_of 1 (visible tr')) = 0 /\ panics r (trace_of 1 (visible tr')) = 0) ->
        forall l, In l (trace_of 0 (visible tr')) -> is_arrival l.
Proof.
  intros N d0 d1 c0 c1 HN H0 H1. pose proof (start_two N c0 c1 d0 d1) as R0.
  destruct N as [|[|N]]; try lia. cbn [repeat] in R0.
  set (p0 := fst (packet_of c0 d0)). set (p1 := fst (packet_of c1 d1)).
  assert (E0 : ns_pc (got c0 d0) = Dispatching 0 p0 (snd d0) [0] [] false).
  { unfold got, p0, packet_of. cbn [ns_pc fst snd]. rewrite H0. f_equal. apply received_bytes. }
  assert (E1 : ns_pc (got c1 d1) = Dispatching 0 p1 (snd d1) [0] [] false).
  { unfold got, p1, packet_of. cbn [ns_pc fst snd]. rewrite H1. f_equal. apply received_bytes. }
  set (ls := [(c0, got c0 d0); (c1, got c1 d1)]) in *.
  eexists. eexists. split; [eapply rayon_run_app; [exact R0|]|].
  { eapply rayon_run_cons; [apply (ro_injected ls 0 [TaskScope 1] [] [] ([] :: repeat [] N) [] 0 c0 (got c0 d0)); [reflexivity|reflexivity|intros ? ? ? [H|[]]; discriminate H]|].
    rewrite H0. cbn [seq app rearm].
    eapply rayon_run_cons; [apply ro_other; [apply (ry_look_scope ls [TaskScope 1; TaskPart 0 0 [0]] [] 0 0 0 [] ([] :: repeat [] N) [] 1); left; exists 0, [0]; cbn; auto|reflexivity|reflexivity]|].
    eapply rayon_run_cons; [apply (ro_steal ls [TaskScope 1] 0 0 [0] [] [[InScope 0 0 0 true]] [] (repeat [] N) [] 1 0); [reflexivity|now apply none_in_deque; intros t [<-|[<-|[]]]|eexists; eexists; split; [reflexivity|split; [now left|reflexivity]]|intros ? ? ? [H|[]]; discriminate H]|].
    cbn [app rearm].
    eapply rayon_run_cons; [apply (ro_sequential ls [TaskScope 1] [[InScope 0 0 0 true]] 1 0 0 [] [0] [] (repeat [] N) [] 2)|].
    eapply rayon_run_cons; [apply ro_other; [apply (ry_call ls [TaskScope 1] [[InScope 0 0 0 true]] 1 0 0 [] 0 [] [] (repeat [] N) [] 2 c0 (got c0 d0) 0 p0 (snd d0) [0] [] false); [reflexivity|exact E0]|reflexivity|reflexivity]|].
    eapply rayon_run_cons; [apply (ro_injected ls 1 [] [] [InScope 0 0 0 true] ([InPart 1 0 0 [] (Calling 0 [])] :: repeat [] N) [] 2 c1 (got c1 d1)); [reflexivity|reflexivity|intros ? ? ? []]|].
    rewrite H1. cbn [seq app rearm].
    eapply rayon_run_cons; [apply ro_other; [apply (ry_look_scope ls [TaskPart 2 1 [0]] [] 2 1 2 [InScope 0 0 0 false] ([InPart 1 0 0 [] (Calling 0 [])] :: repeat [] N) [] 3); left; exists 1, [0]; cbn; auto|reflexivity|reflexivity]|].
    eapply rayon_run_cons; [apply (ro_take_own ls [] 2 1 [0] [] [] [InScope 2 1 2 true; InScope 0 0 0 false] ([InPart 1 0 0 [] (Calling 0 [])] :: repeat [] N) [] 3); [reflexivity|eexists; eexists; split; [reflexivity|split; [now left|reflexivity]]|intros ? ? ? []]|].
    cbn [app rearm].
    eapply rayon_run_cons; [apply (ro_sequential ls [] [] 3 2 1 [] [0] [InScope 2 1 2 false; InScope 0 0 0 false] ([InPart 1 0 0 [] (Calling 0 [])] :: repeat [] N) [] 4)|].
    eapply rayon_run_cons; [apply ro_other; [apply (ry_call ls [] [] 3 2 1 [] 0 [] [InScope 2 1 2 false; InScope 0 0 0 false] ([InPart 1 0 0 [] (Calling 0 [])] :: repeat [] N) [] 4 c1 (got c1 d1) 0 p1 (snd d1) [0] [] false); [reflexivity|exact E1]|reflexivity|reflexivity]|].
    cbn [app].
    eapply rayon_run_cons; [apply ro_other; [apply (ry_return ls [] [buried 0 2 0 2 3] 1 0 0 [] 0 [] [] (repeat [] N) [] 4)|reflexivity|reflexivity]|].
    eapply rayon_run_cons; [apply ro_other; [apply (ry_loop_done ls [] [buried 0 2 0 2 3] 1 0 0 [] [] (repeat [] N) [] 4)|reflexivity|reflexivity]|].
    apply rayon_run_one. apply ro_other; [apply (ry_part_done ls [] [buried 0 2 0 2 3] 1 0 0 false [] (repeat [] N) [] 4)|reflexivity|reflexivity]. }
  cbn [app visible started trace_of calls returns entered came_back Nat.eqb].
  split; [reflexivity|]. split; [repeat constructor; cbn; tauto|]. split; [reflexivity|]. split; [reflexivity|]. split; [reflexivity|].
  intros tr' s' R HR. eapply (frozen_run 0 2 0 2 3); [exact R| |exact HR].
  unfold frozen. cbn [ry_listeners ry_tasks ry_stacks app]. split; [unfold in_scope, ls; cbn; reflexivity|].
  split; [constructor|]. eexists. split; [reflexivity|]. constructor; [constructor|]. apply Forall_forall. intros x X. apply repeat_spec in X. subst. constructor.
Qed.


(** ** If new listeners are started again and again *)
Definition pile_cfg : net_config := {| nc_buffersize := 1; nc_has_timeout := false; nc_receivers := 1 |}.
Fixpoint pile (k : nat) : list job :=
  match k with 0 => [] | S k => InScope (2 * k) k (2 * k) false :: pile k end.
Definition pile_mk (q : list datagram) (e : bool) (pc : loop_pc) : net_config * net_state :=
  (pile_cfg, {| ns_queue := q; ns_edge := e; ns_buffer := [x00]; ns_pc := pc |}).
Definition pile_pc : loop_pc := Dispatching 0 [x00] ex_ry_src [0] [] false.
(** [k] listeners but for the first one, all of them dispatching; [a] datagrams have arrived at the first one in the meantime *)
Definition pile_ls (k a : nat) : pool_state := pile_mk (repeat ex_ry_d a) (match a with 0 => false | _ => true end) pile_pc :: repeat (pile_mk [] false pile_pc) k.
Definition pile_part (k : nat) : task := TaskPart (2 * k) k [0].
Definition pile_top (k : nat) (p : bool) : list job := InScope (2 * k) k (2 * k) p :: pile k.
Definition pile_turn (N k phase : nat) : ry_state :=
  let part k a := [InPart (1 + 2 * k) (2 * k) k [] a] in
  let at_ ls ts s0 s1 ck := RY ls ts (s0 :: s1 :: repeat [] N) [] ck in
  let ls := pile_ls (1 + k) k in
  match phase with
  | 0 => at_ (pile_ls k k) [] (pile_top k true) (part k (Calling 0 [])) (2 + 2 * k)
  | 1 => at_ (pile_ls k k ++ [pile_mk [ex_ry_d] true Polling]) [] (pile_top k true) (part k (Calling 0 [])) (2 + 2 * k)
  | 2 => at_ (pile_ls k k ++ [pile_mk [ex_ry_d] false (Handling 1)]) [] (pile_top k true) (part k (Calling 0 [])) (2 + 2 * k)
  | 3 => at_ ls [TaskScope (1 + k)] (pile_top k true) (part k (Calling 0 [])) (2 + 2 * k)
  | 4 => at_ ls [pile_part (1 + k)] (pile_top (1 + k) false) (part k (Calling 0 [])) (3 + 2 * k)
  | 5 => at_ ls [pile_part (1 + k)] (pile_top (1 + k) false) (part k (Looping [])) (3 + 2 * k)
  | 6 => at_ ls [pile_part (1 + k)] (pile_top (1 + k) false) (part k (Joining false)) (3 + 2 * k)
  | 7 => at_ ls [pile_part (1 + k)] (pile_top (1 + k) false) [] (3 + 2 * k)
  | 8 => at_ ls [] (pile_top (1 + k) false) (part (1 + k) (Deciding [0])) (4 + 2 * k)
  | 9 => at_ ls [] (pile_top (1 + k) false) (part (1 + k) (Looping [0])) (4 + 2 * k)
  | 10 => at_ ls [] (pile_top (1 + k) false) (part (1 + k) (Calling 0 [])) (4 + 2 * k)
  | _ => at_ ls [] (pile_top (1 + k) true) (part (1 + k) (Calling 0 [])) (4 + 2 * k)
  end.
Definition pile_label (k phase : nat) : ry_label :=
  match phase with
  | 0 => RListener (GStart pile_cfg [ex_ry_d])
  | 1 => RListener (GStep (1 + k) (LPoll 1))
  | 2 => RListener (GStep (1 + k) LRecv)
  | 3 | 10 => RWorker 0 None
  | 4 => RWorker 1 (Some (GStep k (LReturn 0)))
  | 9 => RWorker 1 (Some (GStep (1 + k) (LCall 0 [x00] ex_ry_src)))
  | 11 => RListener (GStep 0 (LArrive ex_ry_d))
  | _ => RWorker 1 None
  end.
Definition pile_st (N n : nat) : ry_state :=
  let at_ ls ts s0 s1 ck := RY ls ts (s0 :: s1 :: repeat [] N) [] ck in
  let part a := [InPart 1 0 0 [] a] in
  match n with
  | 0 => ry_init (S (S N))
  | 1 => at_ [pile_mk [ex_ry_d] true Polling] [] [] [] 0
  | 2 => at_ [pile_mk [ex_ry_d] false (Handling 1)] [] [] [] 0
  | 3 => at_ (pile_ls 0 0) [TaskScope 0] [] [] 0
  | 4 => at_ (pile_ls 0 0) [pile_part 0] (pile_top 0 false) [] 1
  | 5 => at_ (pile_ls 0 0) [] (pile_top 0 false) (part (Deciding [0])) 2
  | 6 => at_ (pile_ls 0 0) [] (pile_top 0 false) (part (Looping [0])) 2
  | 7 => at_ (pile_ls 0 0) [] (pile_top 0 false) (part (Calling 0 [])) 2
  | S (S (S (S (S (S (S (S n))))))) => pile_turn N (n / 12) (n mod 12)
  end.
Definition pile_ev (n : nat) : ry_label :=
  match n with
  | 0 => RListener (GStart pile_cfg [ex_ry_d])
  | 1 => RListener (GStep 0 (LPoll 1))
  | 2 => RListener (GStep 0 LRecv)
  | 3 | 7 => RWorker 0 None
  | 4 | 5 => RWorker 1 None
  | 6 => RWorker 1 (Some (GStep 0 (LCall 0 [x00] ex_ry_src)))
  | S (S (S (S (S (S (S (S n))))))) => pile_label (n / 12) (n mod 12)
  end.
Lemma pile_nth k a : exists s, nth_error (pile_ls k a) k = Some (pile_cfg, s) /\ ns_pc s = pile_pc.
Proof.
  destruct k as [|k]; [eexists; split; reflexivity|]. unfold pile_ls. cbn [nth_error].
  rewrite (nth_error_nth' _ (pile_mk [] false pile_pc)) by (rewrite repeat_length; lia). rewrite nth_repeat. eexists. split; reflexivity.
Qed.
Lemma pile_ls_S k a : pile_ls (1 + k) a = pile_ls k a ++ [pile_mk [] false pile_pc].
Proof. unfold pile_ls. cbn [app]. f_equal. symmetry. change [pile_mk [] false pile_pc] with (repeat (pile_mk [] false pile_pc) 1). now rewrite <- repeat_app, Nat.add_comm. Qed.
Lemma pile_length k a : length (pile_ls k a) = 1 + k.
Proof. unfold pile_ls. cbn. now rewrite repeat_length. Qed.
Lemma pile_poll k : step pile_cfg (snd (pile_mk [ex_ry_d] true k)) (LPoll 1) (snd (pile_mk [ex_ry_d] false (Handling 1))) <-> k = Polling.
Proof. split; [intros H; now inversion H|]. intros ->. apply (step_poll_ready pile_cfg (snd (pile_mk [ex_ry_d] true Polling))); reflexivity. Qed.
Lemma pile_recv : step pile_cfg (snd (pile_mk [ex_ry_d] false (Handling 1))) LRecv (snd (pile_mk [] false pile_pc)).
Proof. apply (step_recv pile_cfg {| ns_queue := [ex_ry_d]; ns_edge := false; ns_buffer := [x00]; ns_pc := Handling 1 |} 0 [x00] ex_ry_src []); reflexivity. Qed.

Lemma pile_phase N k p : p < 12 -> rayon_step (pile_turn N k p) (pile_label k p) (if p =? 11 then pile_turn N (1 + k) 0 else pile_turn N k (S p)).
Proof.
  intros H. destruct p as [|[|[|[|[|[|[|[|[|[|[|[|p]]]]]]]]]]]]; [..|lia]; clear H; cbn [Nat.eqb]; unfold pile_turn, pile_label.
  - apply ro_listener, ry_start.
  - apply ro_listener. rewrite <- (pile_length k k). apply (ry_listener _ _ _ []); [|reflexivity]. now apply pile_poll.
  - apply ro_listener. rewrite pile_ls_S. rewrite <- (pile_length k k). apply (ry_recv _ _ _ [] []). exact pile_recv.
  - replace (pile_part (1 + k)) with (TaskPart (2 + 2 * k) (1 + k) [0]) by (unfold pile_part; f_equal; lia).
    replace (pile_top (1 + k) false) with (InScope (2 + 2 * k) (1 + k) (2 + 2 * k) false :: rearm (pile_top k true))
      by (unfold pile_top; replace (2 * (1 + k)) with (2 + 2 * k) by lia; reflexivity).
    destruct (pile_nth (1 + k) k) as (s & E & _).
    eapply (ro_injected _ (1 + k) [] [] (pile_top k true) _ [] (2 + 2 * k) pile_cfg); [reflexivity|exact E|intros ? ? ? []].
  - apply ro_other; [apply (ry_return _ _ [_])|reflexivity|reflexivity].
  - apply ro_other; [apply (ry_loop_done _ _ [_])|reflexivity|reflexivity].
  - apply ro_other; [apply (ry_part_done _ _ [_])|reflexivity|reflexivity].
  - replace (1 + 2 * (1 + k)) with (3 + 2 * k) by lia. apply (ro_steal _ [] (2 * (1 + k)) (1 + k) [0] [] [_] [] _ [] (3 + 2 * k) 0); [reflexivity| | |].
    + intros id i rs _ (st & j & E & J & _). injection E as <-. destruct J.
    + eexists. eexists. split; [reflexivity|]. split; [now left|reflexivity].
    + intros ? ? ? [].
  - apply (ro_sequential _ _ [_]).
  - apply ro_other; [|reflexivity|reflexivity]. destruct (pile_nth (1 + k) k) as (s & E & PC). eapply (ry_call _ _ [_]); [exact E|exact PC].
  - apply ro_other; [|reflexivity|reflexivity]. apply (ry_look_scope _ _ []). right. do 4 eexists. apply in_concat. eexists. split; [right; now left|now left].
  - replace (2 + 2 * (1 + k)) with (4 + 2 * k) by lia. apply ro_listener, (ry_listener []); [|reflexivity].
    pose proof (step_arrive pile_cfg (snd (pile_mk (repeat ex_ry_d k) (match k with 0 => false | _ => true end) pile_pc)) ex_ry_d) as S.
    cbn in S. change [ex_ry_d] with (repeat ex_ry_d 1) in S. rewrite <- repeat_app, Nat.add_comm in S. exact S.
Qed.
Lemma pile_step N n : rayon_step (pile_st N n) (pile_ev n) (pile_st N (S n)).
Proof.
  destruct n as [|[|[|[|[|[|[|[|n]]]]]]]].
  - apply ro_listener, ry_start.
  - apply ro_listener, (ry_listener [] _ _ []); [|reflexivity]. now apply pile_poll.
  - apply ro_listener, (ry_recv [] _ _ [] []). exact pile_recv.
  - eapply (ro_injected _ 0 [] [] [] _ [] 0 pile_cfg); [reflexivity|reflexivity|intros ? ? ? []].
  - apply (ro_steal _ [] 0 0 [0] [] [_] [] _ [] 1 0); [reflexivity| | |intros ? ? ? []].
    + intros id i rs _ (st & j & E & J & _). injection E as <-. destruct J.
    + eexists. eexists. split; [reflexivity|]. split; [now left|reflexivity].
  - apply (ro_sequential _ _ [_]).
  - apply ro_other; [|reflexivity|reflexivity]. eapply (ry_call _ _ [_]); reflexivity.
  - apply (ro_other (RY (pile_ls 0 0) [] (pile_top 0 false :: [InPart 1 0 0 [] (Calling 0 [])] :: repeat [] N) [] 2) 0 None (RY (pile_ls 0 0) [] (pile_top 0 true :: [InPart 1 0 0 [] (Calling 0 [])] :: repeat [] N) [] 2)); [|reflexivity|reflexivity].
    apply (ry_look_scope _ _ []). right. do 4 eexists. apply in_concat. eexists. split; [right; now left|now left].
  - pose proof (Nat.div_mod n 12 ltac:(lia)) as D. pose proof (Nat.mod_upper_bound n 12 ltac:(lia)) as B.
    assert (E : S n mod 12 = (if n mod 12 =? 11 then 0 else S (n mod 12)) /\ S n / 12 = if n mod 12 =? 11 then S (n / 12) else n / 12).
    { destruct (Nat.eqb_spec (n mod 12) 11) as [e|ne]; split; symmetry.
      - apply (Nat.mod_unique _ _ (S (n / 12))); lia.
      - apply (Nat.div_unique _ _ _ 0); lia.
      - apply (Nat.mod_unique _ _ (n / 12)); lia.
      - apply (Nat.div_unique _ _ _ (S (n mod 12))); lia. }
    unfold pile_st, pile_ev. destruct E as [-> ->]. pose proof (pile_phase N (n / 12) _ B) as P. now destruct (n mod 12 =? 11).
Qed.
Lemma pile_at N k p : p < 12 -> pile_ev (8 + (12 * k + p)) = pile_label k p /\ pile_st N (8 + (12 * k + p)) = pile_turn N k p.
Proof.
  intros H. unfold pile_ev, pile_st. cbn [Nat.add].
  rewrite <- (Nat.mod_unique (12 * k + p) 12 k p), <- (Nat.div_unique (12 * k + p) 12 k p) by lia. auto.
Qed.
Lemma pile_split n : n < 8 \/ exists k p, n = 8 + (12 * k + p) /\ p < 12.
Proof.
  destruct (Nat.lt_ge_cases n 8) as [L|G]; [now left|]. right. exists ((n - 8) / 12), ((n - 8) mod 12).
  split; [rewrite <- Nat.div_mod by lia; lia|apply Nat.mod_upper_bound; lia].
Qed.
Lemma nothing_to_take s w l s' : ry_step s (RWorker w l) s' -> ry_tasks s = [] -> nth w (ry_stacks s) [] <> [].
Proof.
  intros S E. inversion S; subst; cbn [ry_tasks ry_stacks] in *; rewrite nth_middle; try discriminate;
    match goal with H : ?a ++ _ :: _ = [] |- _ => destruct a; discriminate H end.
Qed.

(** C118: the assumption that listeners are not started for ever is needed. On every pool of at least two threads there is an infinite execution, in the very order in which
    rayon takes jobs, in which nothing fails, every receiver comes back, the
    scheduler and the pool are fair and the first listener gets traffic, but more and more listeners are started; and the first one's first dispatch
    never ends, although its only receiver has returned: the thread that should end it has piled the others' scopes on top of it. *)
Lemma p_C118_starved_if_listeners_are_started_for_ever_refuted :
  forall (workers : nat), 2 <= workers ->
  exists (st : nat -> ry_state) (ev : nat -> ry_label) (c : net_config) (d : datagram),
    st 0 = ry_init workers /\ (forall n, rayon_step (st n) (ev n) (st (S n))) /\
    every_call_comes_back ev /\ fair_to_threads st ev /\ fair_to_jobs st /\
    started (visible (ry_upto ev 1)) = [(c, [d])] /\ nc_receivers c = 1 /\
    fair_to_listener 0 st ev /\ (forall n, ~ is_failure_here (ev n)) /\ traffic_at 0 ev /\ prompt_poll_at 0 st ev /\
    recvs (trace_of 0 (visible (ry_upto ev 3))) = 1 /\ returns 0 (trace_of 0 (visible (ry_upto ev 13))) = 1 /\
    forall n, seen (ev n) <> Some (GStep 0 LScopeEnd).
Proof.
  intros [|[|N]] HN; try lia. clear HN.
  exists (pile_st N), pile_ev, pile_cfg, ex_ry_d.
  split; [reflexivity|]. split; [exact (pile_step N)|].
  assert (LB : forall n, n < 8 \/ exists k p, n = 8 + (12 * k + p) /\ p < 12 /\ pile_ev n = pile_label k p).
  { intros n. destruct (pile_split n) as [L|(k & p & -> & H)]; [left; auto|]. right. exists k, p. split; [reflexivity|]. split; [exact H|apply (pile_at N), H]. }
  split; [|split; [|split; [|split; [|split; [|split; [|split; [|split; [|split; [|split; [|split]]]]]]]]]].
  - intros n w i r pkt src E. destruct (LB n) as [L|(k & p & En & Hp & Ep)].
    + destruct n as [|[|[|[|[|[|[|[|n]]]]]]]]; try discriminate E; [|lia]. injection E as <- <- <- <- <-.
      exists (8 + (12 * 0 + 4)). split; [lia|]. left. now rewrite (proj1 (pile_at N 0 4 ltac:(lia))).
    + rewrite Ep in E. destruct p as [|[|[|[|[|[|[|[|[|[|[|[|p]]]]]]]]]]]]; try discriminate. injection E as <- <- <- <- <-.
      exists (8 + (12 * (1 + k) + 4)). split; [lia|]. left. now rewrite (proj1 (pile_at N (1 + k) 4 ltac:(lia))).
  - intros w n. destruct w as [|[|w]].
    + exists (8 + (12 * n + 3)). split; [lia|]. left. rewrite (proj1 (pile_at N n 3 ltac:(lia))). eexists. reflexivity.
    + exists (8 + (12 * n + 5)). split; [lia|]. left. rewrite (proj1 (pile_at N n 5 ltac:(lia))). eexists. reflexivity.
    + exists (8 + (12 * n + 0)). split; [lia|]. right. rewrite (proj2 (pile_at N n 0 ltac:(lia))).
      intros (l & s' & S & _). pose proof (nothing_to_take _ _ _ _ S eq_refl) as T. apply T. cbn [pile_turn ry_stacks nth].
      destruct (Nat.lt_ge_cases w N) as [L|G]; [apply nth_repeat|apply nth_overflow; now rewrite repeat_length].
  - intros _ n t _. exists (8 + (12 * n + 0)). split; [lia|]. rewrite (proj2 (pile_at N n 0 ltac:(lia))). intros [].
  - reflexivity.
  - reflexivity.
  - intros n. exists (8 + (12 * n + 0)). split; [lia|]. right. rewrite (proj2 (pile_at N n 0 ltac:(lia))).
    intros (l & s' & S & A & F). unfold pile_turn in S. inversion S as [|l1 c s l2 ts sts pn ck l' s2 St Ow|l1 c s l2 ts sts pn ck s2 St| | | | | | | | | | | | | ]; subst;
      (destruct l1; [|discriminate]); unfold pile_ls in *; cbn [app] in *; match goal with H : _ :: _ = _ :: _ |- _ => injection H as -> -> -> end.
    + inversion St; subst; cbn in *; try discriminate. contradiction.
    + inversion St; subst; cbn in *; discriminate.
  - intros n. destruct (LB n) as [L|(k & p & En & Hp & Ep)].
    + destruct n as [|[|[|[|[|[|[|[|n]]]]]]]]; try (cbn; tauto). lia.
    + rewrite Ep. destruct p as [|[|[|[|[|[|[|[|[|[|[|[|p]]]]]]]]]]]]; cbn; auto.
  - intros n. exists (8 + (12 * n + 11)), ex_ry_d. split; [lia|]. now rewrite (proj1 (pile_at N n 11 ltac:(lia))).
  - intros n c s _ _ E. destruct (LB n) as [L|(k & p & En & Hp & Ep)].
    + destruct n as [|[|[|[|[|[|[|[|n]]]]]]]]; try discriminate E. lia.
    + rewrite Ep in E. destruct p as [|[|[|[|[|[|[|[|[|[|[|[|p]]]]]]]]]]]]; discriminate.
  - reflexivity.
  - reflexivity.
  - intros n E. destruct (LB n) as [L|(k & p & En & Hp & Ep)].
    + destruct n as [|[|[|[|[|[|[|[|n]]]]]]]]; try discriminate E. lia.
    + rewrite Ep in E. destruct p as [|[|[|[|[|[|[|[|[|[|[|[|p]]]]]]]]]]]]; discriminate.
Qed.

(** ** Slow receivers *)
Definition calling0 (st : list job) : Prop := exists b id js r rs st', st = InPart b id 0 js (Calling r rs) :: st'.
Definition only_calls0 (l : ry_label) : Prop := exists w, l = RWorker w None \/ exists r pkt src, l = RWorker w (Some (GStep 0 (LCall r pkt src))).
Lemma spread ls c0 s0 k pkt src all running p :
  nth_error ls 0 = Some (c0, s0) -> ns_pc s0 = Dispatching k pkt src all running p ->
  forall n rs, length rs = n -> 1 <= n -> forall ts, (forall id i rs, ~ In (TaskPart id i rs) ts) ->
  forall pre b id js st post pn ck,
  exists tr mid ck', rayon_run (RY ls ts (pre ++ (InPart b id 0 js (Deciding rs) :: st) :: repeat [] (n - 1) ++ post) pn ck) tr (RY ls ts (pre ++ mid ++ post) pn ck') /\
    length mid = n /\ Forall calling0 mid /\ Forall only_calls0 tr.
Proof.
  intros E PC n. induction n as [n IH] using lt_wf_ind. intros rs L H1 ts NP pre b id js st post pn ck.
  destruct (Nat.eq_dec n 1) as [->|N1].
  - destruct rs as [|r [|]]; try discriminate. cbn [Nat.sub repeat app].
    exists [RWorker (length pre) None; RWorker (length pre) (Some (GStep 0 (LCall r pkt src)))], [InPart b id 0 js (Calling r []) :: st], ck.
    split; [|split; [reflexivity|split]].
    + eapply rayon_run_cons; [apply ro_sequential|]. apply rayon_run_one. cbn [app]. apply ro_other; [|reflexivity|cbn [ry_stacks]; now rewrite nth_middle].
      eapply ry_call; eassumption.
    + repeat constructor. unfold calling0. do 6 eexists. reflexivity.
    + repeat constructor; eexists; [now left|right; eauto].
  - assert (Hd1 : 1 <= n / 2) by (apply Nat.div_le_lower_bound; lia).
    assert (Hd2 : n / 2 < n) by (apply Nat.div_lt; lia).
    set (h := n / 2) in *. rewrite <- (firstn_skipn h rs). set (left := firstn h rs). set (right := skipn h rs).
    assert (Ll : length left = h) by (unfold left; rewrite firstn_length; lia).
    assert (Lr : length right = n - h) by (unfold right; rewrite skipn_length; lia).
    replace (n - 1) with ((h - 1) + S (n - h - 1)) by lia. rewrite repeat_app. cbn [repeat].
    set (vict := InPart b id 0 (ck :: js) (Deciding left) :: st).
    assert (S1 : rayon_step (RY ls ts (pre ++ (InPart b id 0 js (Deciding (left ++ right)) :: st) :: (repeat [] (h - 1) ++ [] :: repeat [] (n - h - 1)) ++ post) pn ck)
      (RWorker (length pre) None) (RY ls (ts ++ [TaskPart ck 0 right]) (pre ++ vict :: (repeat [] (h - 1) ++ [] :: repeat [] (n - h - 1)) ++ post) pn (S ck))).
    { apply ro_split.
      2: { intro Z0.
      rewrite Z0 in Ll. change (0 = h) in Ll. clearbody h. lia. }
 rewrite Ll, app_length, Ll, Lr. replace (h + (n - h)) with n by lia. reflexivity. }
    set (w1 := pre ++ vict :: repeat [] (h - 1)). set (w2 := repeat ([] : list job) (n - h - 1) ++ post).
    assert (Es : pre ++ vict :: (repeat [] (h - 1) ++ [] :: repeat [] (n - h - 1)) ++ post = w1 ++ [] :: w2).
    { unfold w1, w2. rewrite <- !app_assoc. reflexivity. }
    assert (S2 : rayon_step (RY ls (ts ++ TaskPart ck 0 right :: []) (w1 ++ [] :: w2) pn (S ck)) (RWorker (length w1) None)
      (RY ls (ts ++ []) (w1 ++ (InPart (S ck) ck 0 [] (Deciding right) :: rearm []) :: w2) pn (S (S ck)))).
    { apply (ro_steal ls ts ck 0 right [] w1 [] w2 pn (S ck) (length pre)); [reflexivity| | |].
      - intros id' i' rs' _ (st' & j & N' & J & _). rewrite nth_error_app2, Nat.sub_diag in N' by lia. injection N' as <-. destruct J.
      - exists vict, (InPart b id 0 (ck :: js) (Deciding left)). split; [|split; [now left|now left]].
        unfold w1. rewrite <- app_assoc. rewrite nth_error_app2, Nat.sub_diag by lia. reflexivity.
      - intros id' i' rs' I. now apply NP in I. }
    rewrite app_nil_r in S2. cbn [rearm] in S2.
    destruct (IH h Hd2 left Ll Hd1 ts NP pre b id (ck :: js) st ([InPart (S ck) ck 0 [] (Deciding right)] :: w2) pn (S (S ck))) as (t1 & m1 & ck1 & R1 & Lm1 & C1 & O1).
    destruct (IH (n - h) ltac:(lia) right Lr ltac:(lia) ts NP (pre ++ m1) (S ck) ck [] [] post pn ck1) as (t2 & m2 & ck2 & R2 & Lm2 & C2 & O2).
    exists (RWorker (length pre) None :: RWorker (length w1) None :: t1 ++ t2), (m1 ++ m2), ck2. split; [|split; [rewrite app_length; lia|split]].
    + eapply rayon_run_cons; [exact S1|]. rewrite Es. eapply rayon_run_cons; [exact S2|]. eapply rayon_run_app.
      * unfold w1. rewrite <- app_assoc. cbn [app]. exact R1.
      * rewrite <- !app_assoc in R2. rewrite <- app_assoc. exact R2.
    + now apply Forall_app.
    + constructor; [eexists; now left|]. constructor; [eexists; now left|]. now apply Forall_app.
Qed.
Lemma busy_step s l s' : ry_step s l s' -> Forall calling0 (ry_stacks s) ->
  (forall w r, l <> RWorker w (Some (GStep 0 (LReturn r))) /\ l <> RWorker w (Some (GStep 0 (LPanic r)))) ->
  Forall calling0 (ry_stacks s') /\ entered (visible [l]) = 0.
Proof.
  intros S F H.
  assert (K : forall w1 st w2, Forall calling0 (w1 ++ st :: w2) -> calling0 st).
  { intros w1 st w2 Fo. apply Forall_app in Fo as [_ Fo]. now inversion Fo. }
  destruct S; cbn [ry_stacks] in *;
    try (match goal with |- _ /\ entered (visible [RListener (GStep _ ?l)]) = 0 => split; [exact F|destruct l; try discriminate; reflexivity] end);
    try (split; [exact F|reflexivity]);
    pose proof (K _ _ _ F) as (b' & id' & js' & r' & rs' & st' & Ec); try discriminate Ec; try (injection Ec; intros; discriminate);
    try (subst st; discriminate).
  - injection Ec as -> -> -> -> -> -> ->. exfalso. exact (proj1 (H (length w1) r') eq_refl).
  - injection Ec as -> -> -> -> -> -> ->. exfalso. exact (proj2 (H (length w1) r') eq_refl).
Qed.
Lemma busy_run s tr s' : ry_run s tr s' -> Forall calling0 (ry_stacks s) ->
  (forall r, returns r (trace_of 0 (visible tr)) = 0 /\ panics r (trace_of 0 (visible tr)) = 0) ->
  Forall calling0 (ry_stacks s') /\ entered (visible tr) = 0.
Proof.
  intros R. induction R as [s|s tr s' l s'' R IH S]; intros F H; [auto|].
  assert (H1 : forall r, returns r (trace_of 0 (visible tr)) = 0 /\ panics r (trace_of 0 (visible tr)) = 0).
  { intros r. destruct (H r) as [A B]. rewrite visible_app, trace_of_app in A, B. rewrite returns_app in A. rewrite panics_app in B. lia. }
  destruct (IH F H1) as (F1 & A1). destruct (busy_step _ _ _ S F1) as [F2 A2].
  { intros w r. destruct (H r) as [A B]. rewrite visible_app, trace_of_app in A, B. rewrite returns_app in A. rewrite panics_app in B.
    split; intros ->; cbn in A, B; rewrite Nat.eqb_refl in *; lia. }
  split; [exact F2|]. rewrite visible_app, entered_app. lia.
Qed.

(** C69 on the work-stealing pool, in rayon's own order of taking jobs: for every size of the pool there is an execution without failures in which one instance's receivers
    occupy all threads while another listener has taken its datagram from the socket; as long as none of those receivers comes back,
    no receiver of any listener is called. *)
Lemma p_C69_slow_receivers_starve_on_rayon_refuted :
  forall (workers : nat) (d1 d2 : datagram) (c2 : net_config),
    1 <= workers ->
    exists (c1 : net_config) (tr : list ry_label) (s : ry_state),
      rayon_run (ry_init workers) tr s /\ started (visible tr) = [(c1, [d1]); (c2, [d2])] /\
      Forall (fun l => ~ is_failure_here l) tr /\ recvs (trace_of 1 (visible tr)) = 1 /\
      (forall r, calls r (trace_of 1 (visible tr)) = []) /\
      forall tr' s', ry_run s tr' s' ->
        (forall r, returns r (trace_of 0 (visible tr')) = 0 /\ panics r (trace_of 0 (visible tr')) = 0) ->
        entered (visible tr') = 0.
Proof.
  intros N d1 d2 c2 HN. set (c1 := {| nc_buffersize := 0; nc_has_timeout := false; nc_receivers := N |}).
  pose proof (start_two N c1 c2 d1 d2) as R0. set (ls := [(c1, got c1 d1); (c2, got c2 d2)]) in *.
  assert (En : repeat ([] : list job) N = [] :: repeat [] (N - 1)) by (destruct N; [lia|]; cbn; now rewrite Nat.sub_0_r).
  destruct (spread ls c1 (got c1 d1) _ _ _ _ _ _ eq_refl eq_refl N (seq 0 N) (seq_length _ _) HN [TaskScope 1]
    ltac:(intros id i rs [H|[]]; discriminate H) [] 1 0 [] [InScope 0 0 0 false] [] [] 2) as (tr & mid & ck' & R & Lm & C & O).
  assert (R1 : rayon_run (RY ls [TaskScope 0; TaskScope 1] ([] :: repeat [] (N - 1)) [] 0) [RWorker 0 None; RWorker 0 None; RWorker 0 None]
    (RY ls [TaskScope 1] ([] ++ (InPart 1 0 0 [] (Deciding (seq 0 N)) :: [InScope 0 0 0 false]) :: repeat [] (N - 1) ++ []) [] 2)).
  { eapply rayon_run_cons; [apply (ro_injected ls 0 [TaskScope 1] [] [] (repeat [] (N - 1)) [] 0 c1 (got c1 d1)); [reflexivity|reflexivity|intros ? ? ? [H|[]]; discriminate H]|].
    cbn [rearm app nc_receivers c1].
    eapply rayon_run_cons; [apply ro_other; [apply (ry_look_scope ls [TaskScope 1; TaskPart 0 0 (seq 0 N)] [] 0 0 0 [] (repeat [] (N - 1)) [] 1); left; exists 0, (seq 0 N); cbn; auto|reflexivity|reflexivity]|].
    apply rayon_run_one. rewrite app_nil_r. cbn [app].
    apply (ro_take_own ls [TaskScope 1] 0 0 (seq 0 N) [] [] [InScope 0 0 0 true] (repeat [] (N - 1)) [] 1); [reflexivity| |intros ? ? ? []].
    eexists. eexists. split; [reflexivity|]. split; [now left|reflexivity]. }
  exists c1. eexists. eexists. split; [eapply rayon_run_app; [exact R0|eapply rayon_run_app; [rewrite En; exact R1|exact R]]|].
  assert (T : forall l, In l (visible tr) -> exists r pkt src, l = GStep 0 (LCall r pkt src)).
  { clear - O. induction O as [|l tr (w & Hl) O IH]; [intros l []|]. destruct Hl as [->|(r & pkt & src & ->)]; cbn [visible seen]; [exact IH|].
    intros x [<-|X]; [eauto|now apply IH]. }
  assert (T1 : trace_of 1 (visible tr) = [] /\ started (visible tr) = []).
  { induction (visible tr) as [|l v IH]; [auto|]. destruct (T l (or_introl eq_refl)) as (r & pkt & src & ->). cbn. apply IH. intros x X. apply T. now right. }
  destruct T1 as [T1 T2].
  assert (St : forall a b, started (a ++ b) = started a ++ started b).
  { induction a as [|[] a IHa]; intros x; cbn; [reflexivity|now rewrite IHa|apply IHa]. }
  rewrite !visible_app, !trace_of_app, !St, T1, T2. cbn [visible seen trace_of started app Nat.eqb].
  split; [reflexivity|]. split; [|split; [reflexivity|split; [reflexivity|]]].
  - do 9 (constructor; [cbn; tauto|]).
    eapply Forall_impl; [|exact O]. intros l (w & [->|(r & pkt & src & ->)]); cbn; tauto.
  - intros tr' s' R' H. apply (busy_run _ _ _ R'); [|exact H]. cbn [ry_stacks app]. now rewrite app_nil_r.
Qed.
