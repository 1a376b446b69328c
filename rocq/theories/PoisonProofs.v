(** * PoisonProofs: proofs about Poison.v *)
From Coq Require Import Strings.String.
From Verif Require Import Base Codec Network Ipv8 Ipv8Spec Ipv8Proofs Concurrent ConcurrentSpec ConcurrentProofs Poison.
Open Scope nat_scope.

Lemma prun_app p h1 p1 h2 p2 : prun p h1 p1 -> prun p1 h2 p2 -> prun p (h1 ++ h2) p2.
Proof. induction 1; cbn; [auto|]. intros. econstructor; eauto. Qed.
Lemma prun_snoc_ind (P : list plabel -> poisonable -> Prop) :
  P [] poison_init -> (forall h p l p', prun poison_init h p -> P h p -> pstep p l p' -> P (h ++ [l]) p') ->
  forall h p, prun poison_init h p -> P h p.
Proof.
  intros P0 PS. assert (G : forall q h p, prun q h p -> forall h0, prun poison_init h0 q -> P h0 q -> P (h0 ++ h) p).
  { induction 1 as [q|q l q1 h q2 S R IH]; intros h0 R0 H0; [now rewrite app_nil_r|].
    change (l :: h) with ([l] ++ h). rewrite app_assoc. apply IH; [|now apply (PS _ q)].
    eapply prun_app; [exact R0|]. econstructor; [exact S|constructor]. }
  intros h p R. exact (G _ _ _ R [] (prun_nil _) P0).
Qed.

(** As long as the closure of the [Once] has not come back, no call has got further. *)
Definition early (h : list label) (s : state) : Prop :=
  st_once s <> OnceComplete ->
  (forall l, In l h -> is_bind l = false /\ forall t r, l <> LReturn t r) /\
  st_instances s = [] /\ st_listeners s = [] /\ (forall fd, In fd (open_fds s) -> In fd (st_others s)).
Lemma early_threads h s t : run initial h s -> st_once s <> OnceComplete -> before_once (st_threads s t) \/ in_closure (st_threads s t).
Proof.
  intros R N. pose proof (once_inv_holds _ _ R) as I. unfold once_inv in I. destruct (st_once s); [left; apply I| |congruence].
  destruct I as (w & A & B & _). destruct (Nat.eq_dec t w) as [->|NE]; [now right|left; now apply B].
Qed.
Lemma early_holds h s : run initial h s -> early h s.
Proof.
  revert h s. apply run_ind_right.
  { intros _. split; [intros l []|]. split; [reflexivity|]. split; [reflexivity|]. intros fd []. }
  intros h s l s' R I S O'.
  assert (O : st_once s <> OnceComplete).
  { intros E. apply O'. destruct S; cbn; try congruence; (exfalso; pose proof (once_inv_holds _ _ R) as J; unfold once_inv in J; rewrite E in J;
    destruct J as (J & _); apply (J t); rewrite H; exact Logic.I). }
  destruct (I O) as (A & B & C & D).
  assert (ET : forall t, before_once (st_threads s t) \/ in_closure (st_threads s t)) by (intros t; eapply early_threads; eassumption).
  assert (X : (is_bind l = false /\ forall t r, l <> LReturn t r) /\
     st_instances s' = [] /\ st_listeners s' = [] /\ (forall fd, In fd (open_fds s') -> In fd (st_others s'))).
  { destruct S; try (exfalso; destruct (ET t) as [Q|Q]; rewrite H in Q; contradiction);
      try (exfalso; rewrite B in H; destruct before; discriminate); try (exfalso; rewrite C in H; destruct before; discriminate);
      try (cbn in O'; congruence);
      (split; [split; [reflexivity|discriminate]|]; cbn; split; [exact B|]; split; [exact C|]); try exact D.
    - intros fd [<-|Q]; [now left|right; now apply D].
    - intros fd' Q. unfold open_fds in Q. cbn in Q. apply in_map_iff in Q as ([f a] & <- & Q). apply filter_In in Q as [Q NE]. cbn in *.
      apply negb_true_iff, Nat.eqb_neq in NE. assert (Q' : In f (st_others s)) by (apply D, in_map_iff; exists (f, a); auto).
      rewrite H in Q'. apply in_app_or in Q' as [Q'|[Q'|Q']]; [apply in_or_app; auto|congruence|apply in_or_app; auto]. }
  destruct X as (X & Y). split; [|exact Y]. intros l0 J. apply in_app_or in J as [J|[<-|[]]]; [now apply A|exact X].
Qed.

Definition is_once_panic (l : plabel) : bool := match l with PBuildPanics _ _ => true | _ => false end.

(** what a poisoned process can be *)
Definition lost_point (q : program_point) : Prop := before_once q \/ exists r, q = Returning (Panic r).
Record poisoned_inv (h : list plabel) (p : poisonable) : Prop := {
  po_once : st_once (po_state p) = OnceRunning;
  po_points : forall t, lost_point (st_threads (po_state p) t);
  po_instances : st_instances (po_state p) = [];
  po_listeners : st_listeners (po_state p) = [];
  po_sockets : forall fd, In fd (open_fds (po_state p)) -> In fd (st_others (po_state p));
  po_history : forall l, In (PStep l) h -> is_bind l = false /\ (forall t r, l = LReturn t r -> exists q, r = Panic q) }.
Definition poison_inv (h : list plabel) (p : poisonable) : Prop :=
  if po_poisoned p then (exists t q, In (PBuildPanics t q) h) /\ poisoned_inv h p
  else exists h', h = map PStep h' /\ run initial h' (po_state p).

Lemma step_poisoned h p l s' : poisoned_inv h p -> step (po_state p) l s' ->
  poisoned_inv (h ++ [PStep l]) {| po_state := s'; po_poisoned := true |}.
Proof.
  intros [O P I L D H] S.
  assert (PT : forall t, before_once (st_threads (po_state p) t) \/ exists r, st_threads (po_state p) t = Returning (Panic r)) by exact P.
  assert (X : st_once s' = OnceRunning /\ (forall t, lost_point (st_threads s' t)) /\ st_instances s' = [] /\ st_listeners s' = [] /\
     (forall fd, In fd (open_fds s') -> In fd (st_others s')) /\ is_bind l = false /\ (forall t r, l = LReturn t r -> exists q, r = Panic q)).
  { destruct S; try congruence;
      try (exfalso; destruct (PT t) as [Q|(r0 & Q)]; rewrite H0 in Q; [contradiction|discriminate]);
      try (exfalso; rewrite I in H0; destruct before; discriminate); try (exfalso; rewrite L in H0; destruct before; discriminate).
    - cbn. split; [exact O|]. split; [intros u; destruct (u =? t); [left; exact Logic.I|apply P]|]. repeat split; auto; discriminate.
    - cbn. destruct (PT t) as [Q|(r0 & Q)]; rewrite H0 in Q; [contradiction|]. injection Q as ->. cbn. rewrite app_nil_r.
      split; [exact O|]. split; [intros u; destruct (u =? t); [left; exact Logic.I|apply P]|]. repeat split; auto.
      intros t0 r E. injection E as _ <-. eauto.
    - cbn. repeat split; auto; try discriminate. intros fd [<-|Q]; [now left|right; now apply D].
    - cbn. repeat split; auto; try discriminate.
      intros fd' Q. unfold open_fds in Q. cbn in Q. apply in_map_iff in Q as ([f a] & <- & Q). apply filter_In in Q as [Q NE]. cbn in *.
      apply negb_true_iff, Nat.eqb_neq in NE. match type of H0 with ?x = _ => assert (Q' : In f x) by (apply D, in_map_iff; exists (f, a); auto) end.
      rewrite H0 in Q'. apply in_app_or in Q' as [Q'|[Q'|Q']]; [apply in_or_app; auto|congruence|apply in_or_app; auto].
    - cbn. repeat split; auto; discriminate. }
  destruct X as (X1 & X2 & X3 & X4 & X5 & X6). constructor; cbn; auto.
  intros l0 J. apply in_app_or in J as [J|[E|[]]]; [now apply H|]. injection E as <-. exact X6.
Qed.

Lemma poison_inv_holds h p : prun poison_init h p -> poison_inv h p.
Proof.
  revert h p. apply prun_snoc_ind.
  { exists []. split; [reflexivity|constructor]. }
  intros h p l p' _ I S. unfold poison_inv in *. destruct S as [p l s' S|p t cfg q H|p t cfg q PO H]; cbn [po_poisoned po_state].
  - destruct (po_poisoned p).
    + destruct I as [(t & q & I1) I2]. split; [exists t, q; apply in_or_app; auto|]. eapply step_poisoned; eassumption.
    + destruct I as (h' & -> & R). exists (h' ++ [l]). split; [now rewrite map_app|]. eapply run_app; [exact R|eapply run_one; exact S].
  - split; [exists t, q; apply in_or_app; right; now left|].
    destruct (po_poisoned p).
    + exfalso. destruct I as [_ I]. destruct (po_points _ _ I t) as [Q|(r & Q)]; rewrite H in Q; [contradiction|discriminate].
    + destruct I as (h' & -> & R). pose proof (once_inv_holds _ _ R) as OI. unfold once_inv in OI.
      destruct (st_once (po_state p)) eqn:E.
      * exfalso. destruct OI as [Q _]. specialize (Q t). rewrite H in Q. contradiction.
      * destruct OI as (w & A & B & _). assert (t = w).
        { destruct (Nat.eq_dec t w) as [|NE]; [assumption|]. exfalso. specialize (B t NE). rewrite H in B. contradiction. }
        subst w. destruct (early_holds _ _ R) as (F1 & F2 & F3 & F4); [congruence|].
        constructor; cbn; auto.
        -- intros u. destruct (Nat.eqb_spec u t) as [->|NE]; [right; eauto|left; now apply B].
        -- intros l J. apply in_app_or in J as [J|[J|[]]]; [|discriminate]. apply in_map_iff in J as (l' & J1 & J2). injection J1 as ->.
           destruct (F1 _ J2) as [G1 G2]. split; [exact G1|]. intros t0 r Q. now destruct (G2 _ _ Q).
      * exfalso. destruct OI as [Q _]. apply (Q t). rewrite H. exact Logic.I.
  - rewrite PO in I. destruct I as [(t0 & q0 & I1) [O P I L D HI]]. split; [exists t0, q0; apply in_or_app; auto|].
    constructor; cbn; auto.
    + intros u. destruct (u =? t); [right; eauto|apply P].
    + intros l J. apply in_app_or in J as [J|[J|[]]]; [now apply HI|discriminate].
Qed.

(** ** C139 *)
(** C139. Until a panic happens everything is as in Concurrent.v (so C79-C84 hold). *)
Lemma p_C139_before_a_panic :
  forall (h : list plabel) (p : poisonable),
    prun poison_init h p -> (forall t q, ~ In (PBuildPanics t q) h) ->
    exists h', h = map PStep h' /\ run initial h' (po_state p).
Proof.
  intros h p R N. pose proof (poison_inv_holds _ _ R) as I. unfold poison_inv in I. destruct (po_poisoned p); [|exact I].
  exfalso. destruct I as [(t & q & I) _]. exact (N t q I).
Qed.

Lemma panic_poisons h p : prun poison_init h p -> (exists t q, In (PBuildPanics t q) h) -> po_poisoned p = true.
Proof.
  revert h p. apply (prun_snoc_ind (fun h p => (exists t q, In (PBuildPanics t q) h) -> po_poisoned p = true)).
  - intros (t & q & []).
  - intros h p l p' R IH S (t & q & I). destruct S; cbn; try reflexivity. apply IH. exists t, q. apply in_app_or in I as [I|[I|[]]]; [exact I|discriminate].
Qed.

(** C139. If [build_global] panicked in any call of [new], no call has ever returned a value and none ever will: every call of the process that ends, whenever
    it began, panics; none binds a socket; there is no value and no listener, and the open sockets are those of the rest of the program. *)
Lemma p_C139_no_value_ever :
  forall (h : list plabel) (p : poisonable) (t : nat) (q : panic),
    prun poison_init h p -> In (PBuildPanics t q) h ->
    (forall u r, In (PStep (LReturn u r)) h -> exists reason, r = Panic reason) /\
    (forall l, In (PStep l) h -> is_bind l = false) /\
    st_instances (po_state p) = [] /\ st_listeners (po_state p) = [] /\
    (forall fd, In fd (open_fds (po_state p)) -> In fd (st_others (po_state p))).
Proof.
  intros h p t q R I. pose proof (panic_poisons _ _ R (ex_intro _ t (ex_intro _ q I))) as PO.
  pose proof (poison_inv_holds _ _ R) as J. unfold poison_inv in J. rewrite PO in J. destruct J as [_ [O P IN L D H]].
  split; [intros u r K; exact (proj2 (H _ K) u r eq_refl)|]. split; [intros l K; exact (proj1 (H _ K))|]. auto.
Qed.

(** C139. The pool is built at most once, also when that panics. *)
Lemma p_C139_one_attempt :
  forall (h : list plabel) (p : poisonable),
    prun poison_init h p ->
    length (filter (fun l => match l with PStep l => is_build l | PBuildPanics _ _ => true | POncePanics _ _ => false end) h) <= 1.
Proof.
  intros h p R.
  set (f := fun l => match l with PStep l => is_build l | PBuildPanics _ _ => true | POncePanics _ _ => false end).
  assert (MAP : forall h', length (filter f (map PStep h')) = count is_build h').
  { intros h'. unfold count. induction h' as [|l h' IH]; [reflexivity|]. cbn. destruct (is_build l); cbn; now rewrite IH. }
  revert h p R. apply (prun_snoc_ind (fun h p => length (filter f h) <= 1)); [cbn; lia|].
  intros h p l p' R IH S. rewrite filter_app, app_length. pose proof (poison_inv_holds _ _ R) as I. unfold poison_inv in I.
  destruct S as [p l s' S|p t cfg q H|p t cfg q PO H].
  - destruct (po_poisoned p) eqn:E.
    + cbn. destruct (is_build l) eqn:B; [|cbn; lia]. exfalso. destruct I as [_ I]. pose proof (po_points _ _ I) as P. destruct S; try discriminate;
        destruct (P t) as [Q|(r & Q)]; rewrite H in Q; try contradiction; discriminate.
    + destruct I as (h' & -> & R'). assert (R2 : run initial (h' ++ [l]) s') by (eapply run_app; [exact R'|now apply run_one]).
      pose proof (MAP (h' ++ [l])) as M. rewrite map_app, filter_app, app_length in M. cbn [map] in M. rewrite M.
      pose proof (once_inv_holds _ _ R2) as OI. unfold once_inv in OI. destruct (st_once s').
      * destruct OI as [_ ->]. lia.
      * destruct OI as (w & _ & _ & ->). destruct (st_threads s' w); cbn; lia.
      * destruct OI as (_ & -> & _). lia.
  - destruct (po_poisoned p) eqn:E.
    + exfalso. destruct I as [_ I]. destruct (po_points _ _ I t) as [Q|(r & Q)]; rewrite H in Q; [contradiction|discriminate].
    + destruct I as (h' & -> & R'). rewrite MAP. pose proof (once_inv_holds _ _ R') as OI. unfold once_inv in OI. cbn.
      destruct (st_once (po_state p)).
      * destruct OI as [_ ->]. lia.
      * destruct OI as (w & _ & B & ->). assert (t = w).
        { destruct (Nat.eq_dec t w) as [|NE]; [assumption|]. exfalso. specialize (B t NE). rewrite H in B. contradiction. }
        subst w. rewrite H. cbn. lia.
      * exfalso. destruct OI as [Q _]. apply (Q t). rewrite H. exact Logic.I.
  - cbn. lia.
Qed.

(** C139. Nobody waits for ever: after the panic every call in progress can take a step of its own, and all that a thread can do is: call [new], panic in
    [call_once], and leave the call with a panic. *)
Lemma p_C139_nobody_waits :
  forall (h : list plabel) (p : poisonable) (t : nat) (q : panic),
    prun poison_init h p -> In (PBuildPanics t q) h ->
    (forall u, st_threads (po_state p) u <> Outside ->
       exists l p', pstep p l p' /\
         ((exists r, l = POncePanics u r) \/ (exists r, l = PStep (LReturn u (Panic r)) /\ st_threads (po_state p') u = Outside))) /\
    (forall l p', pstep p l p' ->
       match l with
       | PBuildPanics _ _ => False
       | POncePanics u _ => exists r, st_threads (po_state p') u = Returning (Panic r)
       | PStep (LCall u _) => exists cfg, st_threads (po_state p') u = AtOnce cfg
       | PStep (LReturn u r) => exists reason, r = Panic reason
       | PStep l => thread_of l = None
       end).
Proof.
  intros h p t q R I. pose proof (panic_poisons _ _ R (ex_intro _ t (ex_intro _ q I))) as PO.
  pose proof (poison_inv_holds _ _ R) as J. unfold poison_inv in J. rewrite PO in J. destruct J as [_ J]. destruct J as [O P IN L D H]. split.
  - intros u N. destruct (P u) as [Q|(r & Q)].
    + destruct (st_threads (po_state p) u) eqn:E; try contradiction; try congruence.
      eexists _, _. split; [eapply (pstep_once_panics p u cfg q PO E)|]. left. eauto.
    + eexists _, _. split; [apply pstep_step, step_return; exact Q|]. right. exists r. split; [reflexivity|]. cbn. now rewrite Nat.eqb_refl.
  - intros l p' S. destruct S as [p l s' S|p u cfg r E|p u cfg r E1 E].
    + destruct S; cbn in *; try congruence;
        try (exfalso; destruct (P t0) as [Q|(r0 & Q)]; rewrite H0 in Q; [contradiction|discriminate]); try reflexivity.
      * rewrite Nat.eqb_refl. eauto.
      * destruct (P t0) as [Q|(r0 & Q)]; rewrite H0 in Q; [contradiction|]. injection Q as ->. eauto.
    + destruct (P u) as [Q|(r0 & Q)]; rewrite E in Q; [contradiction|discriminate].
    + cbn. rewrite Nat.eqb_refl. eauto.
Qed.

(** ** Concrete cases *)
Ltac pgo s := eapply prun_cons; [apply pstep_step; eapply s; first [reflexivity|discriminate]|].
(** two calls at once: the pool of the first one cannot be built, the second one waits; a third call comes later; the second socket is the program's own *)
Definition ex_poison : list plabel := [
  PStep (LCall 0 (cfg_ports 5000 5001)); PStep (LCall 1 (cfg_ports 5002 5003)); PStep (LOnceEnter 0);
  PStep (LOpen env_calm (v4 127 0 0 1 4000)); PBuildPanics 0 (PUser 1); PStep (LReturn 0 (Panic (PUser 1)));
  POncePanics 1 (PUser 2); PStep (LReturn 1 (Panic (PUser 2))); PStep (LCall 2 (cfg_ports 5002 5003)); POncePanics 2 (PUser 2)].
Example ex_C139_panic :
  exists p, prun poison_init ex_poison p /\ In (PBuildPanics 0 (PUser 1)) ex_poison /\ st_threads (po_state p) 2 = Returning (Panic (PUser 2)) /\
    open_fds (po_state p) = [0].
Proof.
  eexists. split; [|split; [|split]].
  - unfold ex_poison. pgo step_call. pgo step_call. pgo step_once_enter. pgo step_open.
    eapply prun_cons; [eapply pstep_build_panics; reflexivity|]. pgo step_return.
    eapply prun_cons; [eapply pstep_once_panics; reflexivity|]. pgo step_return. pgo step_call.
    eapply prun_cons; [eapply pstep_once_panics; reflexivity|]. apply prun_nil.
  - cbn. auto 10.
  - reflexivity.
  - reflexivity.
Qed.
(** An error of [build_global] is another matter: only the call that built reports it, the others go on. *)
Example ex_C139_error :
  exists h p i, prun poison_init h p /\ In (PStep (LReturn 0 (Err EPoolError))) h /\ In (PStep (LReturn 1 (Ok i))) h.
Proof.
  eexists [PStep (LCall 0 (cfg_ports 5000 5001)); PStep (LCall 1 (cfg_ports 5000 5001)); PStep (LOnceEnter 0); PStep (LBuild 0 false); PStep (LOnceLeave 0);
    PStep (LCheckPool 0); PStep (LReturn 0 (Err EPoolError)); PStep (LOncePass 1); PStep (LCheckPool 1); PStep (LBindReceiver 1 env_calm);
    PStep (LBindSender 1 env_calm); PStep (LReturn 1 (Ok {| in_config := cfg_ports 5000 5001; in_receiver := 0; in_sender := 1 |}))].
  eexists _, _. split; [|split].
  - pgo step_call. pgo step_call. pgo step_once_enter. pgo step_build_fails. pgo step_once_leave. pgo step_check_fails. pgo step_return.
    pgo step_once_pass. pgo step_check_ok. pgo step_bind_receiver. pgo step_bind_sender. pgo step_return. apply prun_nil.
  - cbn. auto 12.
  - cbn. auto 15.
Qed.
