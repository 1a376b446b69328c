(** * SpuriousProofs: false alarms (C114) *)
From Verif Require Import Base Codec Network NetSpec NetworkProofs Spurious SpuriousSpec.
Open Scope nat_scope.

Lemma plain_app a b : plain (a ++ b) = plain a ++ plain b.
Proof. induction a as [|[] a IH]; cbn; rewrite ?IH; reflexivity. Qed.
Lemma discarded_app a b : discarded (a ++ b) = discarded a ++ discarded b.
Proof. induction a as [|[] a IH]; cbn; rewrite ?IH; reflexivity. Qed.

Lemma sub_refl {A} (l : list A) : subsequence l l.
Proof. induction l; constructor; auto. Qed.
Lemma sub_app {A} (a b c d : list A) : subsequence a b -> subsequence c d -> subsequence (a ++ c) (b ++ d).
Proof. intros H K. induction H; cbn; try constructor; auto. Qed.
Lemma sub_trans {A} (b c : list A) : subsequence b c -> forall a, subsequence a b -> subsequence a c.
Proof.
  intros H. induction H as [|x b c H IH|x b c H IH]; intros a K.
  - exact K.
  - inversion K; subst; constructor; auto.
  - constructor. auto.
Qed.
Lemma sub_remove {A} (a b : list A) d : subsequence (a ++ b) (a ++ d :: b).
Proof. apply sub_app; [apply sub_refl|]. constructor. apply sub_refl. Qed.

(** labels other than arrivals *)
Fixpoint no_arrivals (tr : list label) : list label :=
  match tr with
  | [] => []
  | LArrive _ :: t => no_arrivals t
  | l :: t => l :: no_arrivals t
  end.
Lemma na_app a b : no_arrivals (a ++ b) = no_arrivals a ++ no_arrivals b.
Proof. induction a as [|[] a IH]; cbn; rewrite ?IH; reflexivity. Qed.
Lemma na_arrivals tr : arrivals (no_arrivals tr) = [].
Proof. induction tr as [|[] tr IH]; cbn; auto. Qed.
Lemma na_calls r tr : calls r (no_arrivals tr) = calls r tr.
Proof. induction tr as [|[] tr IH]; cbn; rewrite ?IH; auto. Qed.
Lemma na_returns r tr : returns r (no_arrivals tr) = returns r tr.
Proof. induction tr as [|[] tr IH]; cbn; rewrite ?IH; auto. Qed.
Lemma na_panics r tr : panics r (no_arrivals tr) = panics r tr.
Proof. induction tr as [|[] tr IH]; cbn; rewrite ?IH; auto. Qed.
Lemma na_recvs tr : recvs (no_arrivals tr) = recvs tr.
Proof. induction tr as [|[] tr IH]; cbn; rewrite ?IH; auto. Qed.

(** The invariant of Network.v, for the datagrams that are not discarded *)
Lemma os_inv c q0 tr s : os_run c (net_init c q0) tr s ->
  exists Q, inv c Q (no_arrivals (plain tr)) s /\ subsequence Q (q0 ++ arrivals (plain tr)) /\
            length Q + length (discarded tr) = length (q0 ++ arrivals (plain tr)).
Proof.
  intros R. remember (net_init c q0) as s0 eqn:E0. induction R as [s|s tr s1 x s2 R IH S]; subst.
  - exists q0. cbn [plain no_arrivals arrivals discarded length]. rewrite app_nil_r, Nat.add_0_r. split; [apply inv_init|]. split; [apply sub_refl|reflexivity].
  - destruct (IH eq_refl) as (Q & I & Sub & Len). clear IH. rewrite plain_app, discarded_app. inversion S; subst; clear S.
    + (* a step of Network.v *) cbn [plain]. rewrite na_app, arrivals_app. cbn [discarded]. rewrite app_nil_r.
      match goal with H : step _ _ _ _ |- _ => rename H into ST end.
      destruct l; try (exists Q; cbn [no_arrivals arrivals]; rewrite app_nil_r; split; [exact (inv_step _ _ _ _ _ _ I ST)|split; assumption]).
      (* an arrival *)
      exists (Q ++ [d]). cbn [no_arrivals arrivals]. rewrite app_nil_r. split; [|split].
      * inversion ST; subst. destruct I as [i1 i2 i3 i4].
        assert (Rc : received (Q ++ [d]) (no_arrivals (plain tr)) = received Q (no_arrivals (plain tr))).
        { unfold received in *. rewrite na_arrivals, !app_nil_r in *. rewrite firstn_app.
          replace (recvs (no_arrivals (plain tr)) - length Q) with 0 by (rewrite firstn_length in i2; lia).
          rewrite firstn_O, app_nil_r. reflexivity. }
        constructor; cbn [ns_queue ns_buffer ns_pc].
        -- rewrite Rc, na_arrivals, app_nil_r in *. rewrite i1 at 1. rewrite <- app_assoc. reflexivity.
        -- rewrite Rc. exact i2.
        -- exact i3.
        -- unfold inv_pc in *. cbn [ns_pc]. rewrite Rc. exact i4.
      * rewrite app_assoc. apply sub_app; [exact Sub|apply sub_refl].
      * rewrite app_assoc, !app_length in *. cbn [length]. lia.
    + (* a false alarm *) cbn [plain]. rewrite na_app, arrivals_app. cbn [discarded no_arrivals arrivals]. rewrite !app_nil_r.
      exists Q. split; [|split; assumption]. destruct I as [i1 i2 i3 i4].
      assert (Rc : received Q (no_arrivals (plain tr) ++ [LPoll 1]) = received Q (no_arrivals (plain tr))) by (apply received_other; reflexivity).
      constructor.
      * rewrite Rc, arrivals_app, app_nil_r. exact i1.
      * rewrite Rc, recvs_app, Nat.add_0_r. exact i2.
      * exact i3.
      * unfold inv_pc in *. rewrite Rc. match goal with H : ns_pc s1 = Polling |- _ => rewrite H in i4 end. cbn [set_pc ns_pc].
        apply delivered_other; try reflexivity. exact i4.
    + (* discarded *) cbn [plain discarded]. rewrite app_nil_r.
      match goal with H : ns_queue s1 = _ |- _ => rename H into HQ end.
      destruct I as [i1 i2 i3 i4].
      set (t := no_arrivals (plain tr)) in *. set (taken := received Q t) in *.
      assert (A0 : arrivals t = []) by apply na_arrivals.
      rewrite A0, app_nil_r, HQ in i1.
      assert (Rc : received (taken ++ a ++ b) t = taken).
      { unfold received at 1. rewrite A0, app_nil_r, <- i2, firstn_app, firstn_all, Nat.sub_diag, firstn_O, app_nil_r. reflexivity. }
      exists (taken ++ a ++ b). split; [|split].
      * constructor; cbn [ns_queue ns_buffer ns_pc].
        -- rewrite Rc, A0, app_nil_r. reflexivity.
        -- rewrite Rc. exact i2.
        -- exact i3.
        -- unfold inv_pc in *. cbn [ns_pc]. rewrite Rc. exact i4.
      * eapply sub_trans; [exact Sub|]. rewrite i1. rewrite !app_assoc. apply sub_remove.
      * rewrite i1 in Len. rewrite !app_length in *. cbn [length] in *. lia.
Qed.

(** C114. What is still true when readiness is unreliable: every receiver is called once per received datagram, in the order of arrival, with the
    bytes (cut to the buffer) and the source of that datagram; of those that arrived, only the ones the operating system threw away are neither
    received nor still waiting. *)
Lemma p_C114_delivery_with_false_alarms :
  forall (c : net_config) (q0 : list datagram) (tr : list os_label) (s : net_state) (r : nat),
    os_run c (net_init c q0) tr s -> r < nc_receivers c ->
    exists taken missing,
      subsequence (taken ++ ns_queue s) (q0 ++ arrivals (plain tr)) /\
      length (taken ++ ns_queue s) + length (discarded tr) = length (q0 ++ arrivals (plain tr)) /\
      map (packet_of c) taken = calls r (plain tr) ++ missing /\ length missing <= 1 /\
      (between_datagrams s -> missing = []).
Proof.
  intros c q0 tr s r R Hr. destruct (os_inv c q0 tr s R) as (Q & [i1 i2 i3 P] & Sub & Len).
  set (t := no_arrivals (plain tr)) in *.
  assert (E : Q = received Q t ++ ns_queue s) by (rewrite <- i1; unfold t; rewrite na_arrivals, app_nil_r; reflexivity).
  exists (received Q t).
  assert (X : exists missing, map (packet_of c) (received Q t) = calls r t ++ missing /\ length missing <= 1 /\
         (between_datagrams s -> missing = [])).
  { unfold inv_pc in P. unfold between_datagrams.
    destruct (ns_pc s) as [|k|k pkt src pe ru pan|[e|]] eqn:Epc.
    1,2,4: exists []; rewrite app_nil_r; destruct (proj1 (P r) Hr) as (-> & _); auto.
    - destruct P as (done & G & Hbig & H1 & H2 & H3). rewrite G. destruct (H2 r Hr) as (-> & _).
      exists (if countn r pe =? 0 then [] else [(pkt, src)]). rewrite <- app_assoc.
      split; [now destruct (_ =? _)|]. split; [destruct (_ =? _); cbn; lia|]. contradiction.
    - destruct P as (done & x & G & Hbig & H2). rewrite G. destruct (H2 r Hr) as ([-> | ->] & _).
      + exists [x]. repeat split; auto. contradiction.
      + exists []. rewrite app_nil_r. repeat split; auto. }
  destruct X as (missing & X1 & X2 & X3). exists missing. rewrite <- E.
  split; [exact Sub|]. split; [exact Len|]. split; [|auto]. rewrite X1. unfold t. rewrite na_calls. reflexivity.
Qed.

Lemma os_stopped c s tr s' x : ns_pc s = Stopped x -> os_run c s tr s' ->
  ns_pc s' = Stopped x /\ Forall is_arrival (plain tr).
Proof.
  intros E R. induction R as [s|s tr s1 y s2 R IH S]; [split; [exact E|constructor]|]. destruct (IH E) as [E1 F].
  rewrite plain_app. inversion S; subst.
  - match goal with H : step _ _ _ _ |- _ => inversion H; subst; try congruence end. cbn [ns_pc plain].
    split; [exact E1|]. apply Forall_app. split; [exact F|]. constructor; [exact I|constructor].
  - congruence.
  - cbn [ns_pc plain]. rewrite app_nil_r. auto.
Qed.

(** C114 (refuted: "the listener survives spurious readiness"). Whenever the listener is waiting for a datagram, one false alarm can end it for
    good: [recv_from] finds nothing, the [?] ends the loop with WouldBlock, and nothing that arrives later is ever received. There is no way out: as long as
    nothing arrives, failing is all the listener can do. *)
Lemma p_C114_a_false_alarm_ends_the_listener_refuted :
  forall (c : net_config) (s : net_state),
    ns_pc s = Polling -> ns_queue s = [] ->
    exists s1 s2,
      os_step c s FalseAlarm s1 /\ os_step c s1 (Do (LRecvError EWouldBlock)) s2 /\
      (forall l s', os_step c s1 (Do l) s' -> is_arrival l \/ exists e, l = LRecvError e) /\
      (forall tr s', os_run c s2 tr s' -> stopped s' /\ Forall is_arrival (plain tr) /\ forall r, calls r (plain tr) = []).
Proof.
  intros c s E Q. exists (set_pc s (Handling 1)), (set_pc (set_pc s (Handling 1)) (Stopped (StoppedByError EWouldBlock))).
  split; [now constructor|]. split; [constructor; eapply step_recv_empty; [reflexivity|exact Q]|]. split.
  - intros l s' H. inversion H; subst. match goal with H : step _ _ _ _ |- _ => inversion H; subst; cbn [set_pc ns_pc ns_queue] in *; try congruence end.
    + left. exact I.
    + right. eauto.
    + right. eauto.
  - intros tr s' R. apply (os_stopped _ _ _ _ (StoppedByError EWouldBlock)) in R as [E' F]; [|reflexivity].
    split; [eexists; exact E'|]. split; [exact F|]. intros r. clear - F. induction F as [|l t H F IH]; [reflexivity|].
    destruct l; try contradiction H. exact IH.
Qed.

(** C114. The same with what Linux does: one datagram with a wrong checksum, from anybody, is enough. It is reported, discarded when the listener
    tries to receive it, and the listener ends. *)
Lemma p_C114_one_corrupt_datagram_ends_the_listener_refuted :
  forall (c : net_config) (s : net_state) (d : datagram),
    idle s -> ns_queue s = [] ->
    exists s', os_run c s [Do (LArrive d); Do (LPoll 1); Discard d; Do (LRecvError EWouldBlock)] s' /\ stopped s' /\
      forall tr s'', os_run c s' tr s'' -> stopped s'' /\ forall r, calls r (plain tr) = [].
Proof.
  intros c s d [E Ed] Q.
  eexists. split; [|split].
  - apply (os_run_snoc c s [Do (LArrive d); Do (LPoll 1); Discard d]
             {| ns_queue := []; ns_edge := false; ns_buffer := ns_buffer s; ns_pc := Handling 1 |}
             (Do (LRecvError EWouldBlock))).
    + apply (os_run_snoc c s [Do (LArrive d); Do (LPoll 1)]
             {| ns_queue := [] ++ d :: []; ns_edge := false; ns_buffer := ns_buffer s; ns_pc := Handling 1 |} (Discard d)).
      * apply (os_run_snoc c s [Do (LArrive d)]
             {| ns_queue := ns_queue s ++ [d]; ns_edge := true; ns_buffer := ns_buffer s; ns_pc := ns_pc s |} (Do (LPoll 1))).
        -- apply (os_run_snoc c s [] s (Do (LArrive d))); [constructor|]. constructor. apply step_arrive.
        -- constructor. rewrite Q. cbn [app].
           apply (step_poll_ready c {| ns_queue := [d]; ns_edge := true; ns_buffer := ns_buffer s; ns_pc := ns_pc s |} E eq_refl).
      * apply (os_discard c {| ns_queue := [] ++ d :: []; ns_edge := false; ns_buffer := ns_buffer s; ns_pc := Handling 1 |} [] d []). reflexivity.
    + constructor. eapply step_recv_empty; reflexivity.
  - eexists. reflexivity.
  - intros tr s'' R. apply (os_stopped _ _ _ _ (StoppedByError EWouldBlock)) in R as [E' F]; [|reflexivity].
    split; [eexists; exact E'|]. intros r. clear - F. induction F as [|l t H F IH]; [reflexivity|].
    destruct l; try contradiction H. exact IH.
Qed.

(** C114. Nothing else makes the listener end with WouldBlock. *)
Lemma p_C114_only_false_alarms_end_it_so :
  forall (c : net_config) (q0 : list datagram) (tr : list os_label) (s : net_state),
    os_run c (net_init c q0) tr s -> In (Do (LRecvError EWouldBlock)) tr ->
    In FalseAlarm tr \/ exists d, In (Discard d) tr.
Proof.
  intros c q0 tr s R H.
  assert (D : (In FalseAlarm tr \/ exists d, In (Discard d) tr) \/ tr = map Do (plain tr)).
  { clear. induction tr as [|x tr IH]; [now right|]. destruct x.
    - destruct IH as [[IH|[d IH]]|IH]; [left; left; now right|left; right; exists d; now right|]. right. cbn. now rewrite <- IH.
    - left. left. now left.
    - left. right. exists d. now left. }
  destruct D as [D|D]; [exact D|]. exfalso.
  assert (R' : run c (net_init c q0) (plain tr) s).
  { clear H. rewrite D in R. remember (plain tr) as t eqn:Et. clear Et D tr. revert s R.
    induction t as [|l t IH] using rev_ind; intros s R.
    - inversion R; subst; [constructor|]. destruct tr; discriminate.
    - rewrite map_app in R. inversion R as [s0 E0 E1|s0 tr1 s1 x s2 R1 S E1 E2 E3]; subst; [destruct (map Do t); discriminate|].
      apply app_inj_tail in E2 as [-> ->]. inversion S; subst. econstructor; [apply IH, R1|assumption]. }
  apply (p_C60_receive_never_finds_empty c q0 (plain tr) s R').
  rewrite D in H. apply in_map_iff in H as (l & E & I). now injection E as ->.
Qed.

(** C114 is not about an empty set of executions: a false alarm with a datagram that was left behind (C52) gets it delivered, and one with nothing there
    ends the listener *)
Example ex_C114_runs :
  exists s1 s2,
    os_run ex_cfg (net_init ex_cfg []) [Do (LArrive ex_d1); FalseAlarm; Do LRecv; Do (LCall 0 ex_p1 ex_src)] s1 /\
    os_run ex_cfg (net_init ex_cfg []) [FalseAlarm; Do (LRecvError EWouldBlock); Do (LArrive ex_d1)] s2 /\ stopped s2.
Proof.
  do 2 eexists. split; [|split].
  - eapply (os_run_snoc _ _ [Do (LArrive ex_d1); FalseAlarm; Do LRecv]).
    + eapply (os_run_snoc _ _ [Do (LArrive ex_d1); FalseAlarm]).
      * eapply (os_run_snoc _ _ [Do (LArrive ex_d1)]).
        -- eapply (os_run_snoc _ _ []); [constructor|]. constructor. apply step_arrive.
        -- apply os_false_alarm. reflexivity.
      * constructor. eapply step_recv; reflexivity.
    + constructor. eapply (step_call _ _ _ _ _ []). reflexivity.
  - eapply (os_run_snoc _ _ [FalseAlarm; Do (LRecvError EWouldBlock)]).
    + eapply (os_run_snoc _ _ [FalseAlarm]).
      * eapply (os_run_snoc _ _ []); [constructor|]. apply os_false_alarm. reflexivity.
      * constructor. eapply step_recv_empty; reflexivity.
    + constructor. apply step_arrive.
  - eexists. reflexivity.
Qed.
