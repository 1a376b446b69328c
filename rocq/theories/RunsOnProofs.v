(** * RunsOnProofs: a listening thread runs on until an error or a panic ends it *)
From Verif Require Import Base Codec Network NetSpec NetworkProofs Ipv8 Ipv8Spec Ipv8Proofs World WorldSpec WorldProofs Compose ComposeProofs.
From Verif Require Concurrent ConcurrentSpec ConcurrentProofs.
From Verif Require Import Parallel ParallelProofs RunsOnSpec.
Open Scope nat_scope.

Lemma continues_run T h tr p tr' p' : prun T h tr p -> continues T h p tr' p' -> prun T h (tr ++ tr') p'.
Proof.
  intros R S. revert tr R. induction S as [p|p l evs p' tr' p'' S1 S IH]; intros tr R; [now rewrite app_nil_r|].
  change ((l, evs) :: tr') with ([(l, evs)] ++ tr'). rewrite app_assoc. apply IH. econstructor; eassumption.
Qed.
Lemma continues_app T h p a p' b p'' : continues T h p a p' -> continues T h p' b p'' -> continues T h p (a ++ b) p''.
Proof. intros A B. induction A; [exact B|]. cbn. econstructor; eauto. Qed.

(** the events of one step are a run of the world *)
Lemma pstep_world T h p l evs p' : pstep T h p l evs p' -> wrun T (pa_world p) evs (pa_world p').
Proof. intros S. destruct S; cbn; auto using wrun_one. Qed.
Lemma pstep_sockets T h p l evs p' fd k : pstep T h p l evs p' -> is_socket p fd k -> is_socket p' fd k.
Proof.
  intros S K. unfold is_socket in *. destruct S; cbn; auto. unfold sockets_after. destruct (_ =? _); [exact K|].
  rewrite nth_error_app1; [exact K|]. apply nth_error_Some. congruence.
Qed.

(** a step other than its end keeps a listener *)
Lemma pstep_keeps_listener T h p l evs p' fd : pstep T h p l evs p' -> l <> Some (Concurrent.LListenerStops fd) ->
  In fd (Concurrent.st_listeners (pa_process p)) -> In fd (Concurrent.st_listeners (pa_process p')).
Proof.
  intros S N L.
  assert (G : forall s x s', Concurrent.step s x s' -> x <> Concurrent.LListenerStops fd ->
    In fd (Concurrent.st_listeners s) -> In fd (Concurrent.st_listeners s')).
  { clear. intros s x s' S N L. destruct S; cbn in *; auto. rewrite H in L. apply in_app_iff in L.
    apply in_app_iff. destruct L as [L|[->|L]]; auto. congruence. }
  destruct S; cbn; auto; eapply G; eauto; congruence.
Qed.

(** a listening slot keeps listening with the same parameters, or is closed *)
Definition same_listener (c : net_config) (s s' : socket) : Prop :=
  sk_host s' = sk_host s /\ sk_address s' = sk_address s /\ ((exists n, sk_end s' = Listening c n) \/ sk_end s' = Closed).
Lemma wstep_listening T w e w' k s s' c n : wstep T w e w' -> nth_error (w_sockets w) k = Some s -> sk_end s = Listening c n ->
  nth_error (w_sockets w') k = Some s' -> same_listener c s s'.
Proof.
  intros S H E H'. destruct (slot_step _ _ _ _ _ _ S H') as [(s0 & G & C)|(-> & _)].
  - rewrite H in G. injection G as <-. destruct C; unfold same_listener; cbn; try congruence; eauto.
    + rewrite E. cbn. eauto.
    + rewrite E in H0. injection H0 as <- <-. eauto.
  - exfalso. assert (L : length (w_sockets w) < length (w_sockets w)) by (apply nth_error_Some; congruence). lia.
Qed.
Lemma no_step_closed c n l n' : is_open (Listening c n) = false -> step c n l n' -> (forall d, l <> LArrive d) -> False.
Proof.
  intros O S N. cbn in O. destruct (ns_pc n) eqn:P; try discriminate. destruct S; try congruence. eapply N; reflexivity.
Qed.
Lemma wstep_closed T w e w' k s s' : wstep T w e w' -> nth_error (w_sockets w) k = Some s -> is_open (sk_end s) = false ->
  nth_error (w_sockets w') k = Some s' -> s' = s /\ about k e = false.
Proof.
  intros S H O H'. destruct (slot_step _ _ _ _ _ _ S H') as [(s0 & G & C)|(-> & _)].
  - rewrite H in G. injection G as <-. destruct C; auto; try congruence; rewrite H0 in O; try discriminate. exfalso. eapply no_step_closed; eassumption.
  - exfalso. assert (L : length (w_sockets w) < length (w_sockets w)) by (apply nth_error_Some; congruence). lia.
Qed.
Lemma wrun_listening T w evs w' k s c n : wrun T w evs w' -> nth_error (w_sockets w) k = Some s -> sk_end s = Listening c n ->
  exists s', nth_error (w_sockets w') k = Some s' /\ same_listener c s s'.
Proof.
  intros R H E. induction R as [w|w tr w1 e w2 R IH S].
  - exists s. split; [exact H|]. split; [reflexivity|]. split; [reflexivity|]. eauto.
  - destruct (IH H) as (s1 & H1 & A & B & C). destruct (slot_kept _ _ _ _ _ _ S H1) as (s2 & H2). exists s2. split; [exact H2|].
    destruct C as [(n1 & C)|C].
    + destruct (wstep_listening _ _ _ _ _ _ _ _ _ S H1 C H2) as (A2 & B2 & C2). split; [congruence|]. split; [congruence|]. exact C2.
    + destruct (wstep_closed _ _ _ _ _ _ _ S H1 ltac:(now rewrite C) H2) as (-> & _). split; [exact A|]. split; [exact B|]. now right.
Qed.

(** one step *)
Lemma one_step T h tr p l evs p' fd k a c s :
  prun T h tr p -> pstep T h p l evs p' -> l <> Some (Concurrent.LListenerStops fd) ->
  In fd (Concurrent.st_listeners (pa_process p)) -> is_socket p fd k ->
  nth_error (w_sockets (pa_world p)) k = Some {| sk_host := h; sk_address := a; sk_end := Listening c s |} ->
  In fd (Concurrent.st_listeners (pa_process p')) /\ is_socket p' fd k /\
  exists s', nth_error (w_sockets (pa_world p')) k = Some {| sk_host := h; sk_address := a; sk_end := Listening c s' |}.
Proof.
  intros R S N L K H. pose proof (pstep_keeps_listener _ _ _ _ _ _ _ S N L) as L'. pose proof (pstep_sockets _ _ _ _ _ _ _ _ S K) as K'.
  split; [exact L'|]. split; [exact K'|].
  destruct (p_C138_listeners _ _ _ _ fd (prun_snoc _ _ _ _ _ _ _ R S) L') as (k1 & a1 & c1 & s1 & _ & _ & K1 & H1 & _).
  assert (k1 = k) by (unfold is_socket in *; congruence). subst k1.
  destruct (wrun_listening _ _ _ _ _ _ _ _ (pstep_world _ _ _ _ _ _ S) H eq_refl) as (s' & H' & A & B & C).
  rewrite H1 in H'. injection H' as <-. cbn in *. subst. destruct C as [(n & C)|C]; [|discriminate]. injection C as -> ->. eauto.
Qed.

(** C141. A listening thread runs on: whatever any thread of its program, the other processes, the operating system and the network do - as long as the
    thread does not end, it listens on the same socket, at the same address, with the same parameters and the same receivers. *)
Lemma p_C141_runs_on :
  forall (T : topology) (h : nat) (tr tr' : list (option Concurrent.label * list event)) (p p' : parallel) (fd k : nat)
         (a : address) (c : net_config) (s : net_state),
    prun T h tr p -> In fd (Concurrent.st_listeners (pa_process p)) -> is_socket p fd k ->
    nth_error (w_sockets (pa_world p)) k = Some {| sk_host := h; sk_address := a; sk_end := Listening c s |} ->
    continues T h p tr' p' -> does_not_end fd tr' ->
    In fd (Concurrent.st_listeners (pa_process p')) /\ is_socket p' fd k /\
    exists s', nth_error (w_sockets (pa_world p')) k = Some {| sk_host := h; sk_address := a; sk_end := Listening c s' |} /\
      forall r, ns_pc s' <> Stopped r.
Proof.
  intros T h tr tr' p p' fd k a c s R L K H C. revert tr s R L K H.
  induction C as [p|p l evs p1 tr' p' S C IH]; intros tr s R L K H N.
  - split; [exact L|]. split; [exact K|]. exists s. split; [exact H|]. intros r E.
    destruct (p_C138_listeners _ _ _ _ fd R L) as (k1 & a1 & c1 & s1 & _ & _ & K1 & H1 & NS & _).
    assert (k1 = k) by (unfold is_socket in *; congruence). subst k1. rewrite H in H1. injection H1 as _ _ <-. exact (NS r E).
  - assert (NL : l <> Some (Concurrent.LListenerStops fd)) by (intros ->; apply (N evs); now left).
    destruct (one_step _ _ _ _ _ _ _ _ _ _ _ _ R S NL L K H) as (L' & K' & s' & H'). eapply IH; [econstructor; eassumption|exact L'|exact K'|exact H'|]. intros evs' I. apply (N evs'). now right.
Qed.

(** events before the listener's end *)
Lemma in_step T h tr tr' p p' fd k a c s l evs :
  prun T h tr p -> In fd (Concurrent.st_listeners (pa_process p)) -> is_socket p fd k ->
  nth_error (w_sockets (pa_world p)) k = Some {| sk_host := h; sk_address := a; sk_end := Listening c s |} ->
  continues T h p tr' p' -> does_not_end fd tr' -> In (l, evs) tr' ->
  exists tr1 p1 p2 s1, prun T h tr1 p1 /\ pstep T h p1 l evs p2 /\ l <> Some (Concurrent.LListenerStops fd) /\
    In fd (Concurrent.st_listeners (pa_process p1)) /\ is_socket p1 fd k /\
    nth_error (w_sockets (pa_world p1)) k = Some {| sk_host := h; sk_address := a; sk_end := Listening c s1 |}.
Proof.
  intros R L K H C. revert tr s R L K H.
  induction C as [p|p l0 evs0 p1 tr' p' S C IH]; intros tr s R L K H N I; [contradiction|].
  assert (NL : l0 <> Some (Concurrent.LListenerStops fd)) by (intros ->; apply (N evs0); now left).
  destruct I as [I|I].
  - injection I as -> ->. exists tr, p, p1, s. auto 10.
  - destruct (one_step _ _ _ _ _ _ _ fd k a c s R S NL L K H) as (L' & K' & s' & H').
    eapply IH; [econstructor; eassumption|exact L'|exact K'|exact H'| |exact I]. intros evs' J. apply (N evs'). now right.
Qed.

(** the middle of a step *)
Lemma wrun_in T w evs w' e : wrun T w evs w' -> In e evs -> exists before after w1 w2, evs = before ++ e :: after /\
  wrun T w before w1 /\ wstep T w1 e w2 /\ wrun T w2 after w'.
Proof.
  intros R I. apply in_split in I as (b & a & ->). exists b, a. apply wrun_app_inv in R as (w1 & R1 & R2).
  apply wrun_cons_inv in R2 as (w2 & S & R2). exists w1, w2. auto.
Qed.

Lemma wrun_closed T w evs w' k s : wrun T w evs w' -> nth_error (w_sockets w) k = Some s -> is_open (sk_end s) = false ->
  nth_error (w_sockets w') k = Some s /\ forall e, In e evs -> about k e = false.
Proof.
  intros R H O. induction R as [w|w tr w1 e w2 R IH S]; [split; [exact H|contradiction]|].
  destruct (IH H) as (H1 & A). destruct (slot_kept _ _ _ _ _ _ S H1) as (s2 & H2).
  destruct (wstep_closed _ _ _ _ _ _ _ S H1 O H2) as (-> & B). split; [exact H2|].
  intros x X. apply in_app_iff in X as [X|[<-|[]]]; auto.
Qed.
Lemma wrun_out_of_reach T w evs w' k s s' c n n' e : wrun T w evs w' ->
  nth_error (w_sockets w) k = Some s -> sk_end s = Listening c n -> nth_error (w_sockets w') k = Some s' -> sk_end s' = Listening c n' ->
  is_open (sk_end s') = true -> In e evs -> ~ handles k e.
Proof.
  intros R H E H' E' O' I HD. destruct (wrun_in _ _ _ _ _ R I) as (b & a & w1 & w2 & _ & R1 & S & R2).
  destruct (wrun_listening _ _ _ _ _ _ _ _ R1 H E) as (s1 & H1 & _ & _ & C1).
  destruct (slot_kept _ _ _ _ _ _ S H1) as (s2 & H2).
  assert (O2 : is_open (sk_end s2) = true).
  { destruct (is_open (sk_end s2)) eqn:O2; [reflexivity|]. destruct (wrun_closed _ _ _ _ _ _ R2 H2 O2) as (X & _). congruence. }
  assert (O1 : is_open (sk_end s1) = true).
  { destruct (is_open (sk_end s1)) eqn:O1; [reflexivity|]. destruct (wstep_closed _ _ _ _ _ _ _ S H1 O1 H2) as (-> & _). congruence. }
  destruct C1 as [(m & C1)|C1]; [|rewrite C1 in O1; discriminate].
  assert (LEN : k < length (w_sockets w1)) by (apply nth_error_Some; congruence).
  destruct S; cbn in HD; try contradiction; subst; try lia; try congruence.
  rewrite H1 in H0. injection H0 as <-. rewrite (set_end_same _ _ _ _ H1) in H2. injection H2 as <-. discriminate.
Qed.

(** C141. It is out of everybody's hands: until the thread ends nothing is ever done with its socket by anybody - no receiver is added, it is not started again, not
    closed, not sent on - except for what arrives and what the thread itself does. (So no call of the library, on any value, stops or changes it.) *)
Lemma p_C141_out_of_reach :
  forall (T : topology) (h : nat) (tr tr' : list (option Concurrent.label * list event)) (p p' : parallel) (fd k : nat)
         (l : option Concurrent.label) (evs : list event) (e : event),
    prun T h tr p -> In fd (Concurrent.st_listeners (pa_process p)) -> is_socket p fd k ->
    continues T h p tr' p' -> does_not_end fd tr' -> In (l, evs) tr' -> In e evs -> ~ handles k e.
Proof.
  intros T h tr tr' p p' fd k l evs e R L K C N I J.
  destruct (p_C138_listeners _ _ _ _ fd R L) as (k1 & a & c & s & _ & _ & K1 & H & _).
  assert (k1 = k) by (unfold is_socket in *; congruence). subst k1.
  destruct (in_step _ _ _ _ _ _ _ _ _ _ _ _ _ R L K H C N I) as (tr1 & p1 & p2 & s1 & R1 & S1 & N1 & L1 & KK & H1).
  destruct (one_step _ _ _ _ _ _ _ _ _ _ _ _ R1 S1 N1 L1 KK H1) as (L2 & K2 & s2 & H2).
  destruct (p_C138_listeners _ _ _ _ fd (prun_snoc _ _ _ _ _ _ _ R1 S1) L2) as (k1 & a1 & c1 & sx & _ & _ & K3 & H3 & NS & _).
  assert (k1 = k) by (unfold is_socket in *; congruence). subst k1. rewrite H2 in H3. injection H3 as _ _ <-.
  eapply (wrun_out_of_reach T _ evs); [exact (pstep_world _ _ _ _ _ _ S1)|exact H1|reflexivity|exact H2|reflexivity| |exact J].
  cbn. destruct (ns_pc s2) eqn:P; try reflexivity. exfalso. now apply (NS r).
Qed.

Lemma bind_fresh T w e w' k h b a s : wstep T w e w' -> binds_address h b e ->
  nth_error (w_sockets w) k = Some s -> sk_host s = h -> sk_address s = a -> is_open (sk_end s) = true -> conflict b a = false.
Proof.
  intros S B H Hh Ha O. apply nth_error_In in H.
  destruct S; cbn in B; try contradiction; destruct B as [-> ->]; destruct H0 as (_ & _ & _ & F); rewrite <- Ha; apply F; auto.
Qed.
(** C141. Its address stays taken: until the thread ends nobody on the host, in this process or another, binds an address that clashes with the one it listens
    on. *)
Lemma p_C141_keeps_its_address :
  forall (T : topology) (h : nat) (tr tr' : list (option Concurrent.label * list event)) (p p' : parallel) (fd : nat) (a b : address)
         (l : option Concurrent.label) (evs : list event) (e : event),
    prun T h tr p -> In fd (Concurrent.st_listeners (pa_process p)) -> ConcurrentSpec.address_of (pa_process p) fd a ->
    continues T h p tr' p' -> does_not_end fd tr' -> In (l, evs) tr' -> In e evs -> binds_address h b e -> conflict b a = false.
Proof.
  intros T h tr tr' p p' fd a b l evs e R L AD C N I J B.
  destruct (p_C138_listeners _ _ _ _ fd R L) as (k & a0 & c & s & _ & _ & K & H & _).
  destruct (p_C138_sockets_agree _ _ _ _ R) as (AG & _). apply (AG _ _ K) in AD as (e0 & AD & _). rewrite H in AD. injection AD as <- <-.
  destruct (in_step _ _ _ _ _ _ _ _ _ _ _ _ _ R L K H C N I) as (tr1 & p1 & p2 & s1 & R1 & S1 & N1 & L1 & KK & H1).
  destruct (one_step _ _ _ _ _ _ _ _ _ _ _ _ R1 S1 N1 L1 KK H1) as (L2 & K2 & s2 & H2).
  destruct (p_C138_listeners _ _ _ _ fd (prun_snoc _ _ _ _ _ _ _ R1 S1) L2) as (k1 & a1 & c1 & sx & _ & _ & K3 & H3 & NS & _).
  assert (k1 = k) by (unfold is_socket in *; congruence). subst k1. rewrite H2 in H3. injection H3 as _ _ <-.
  destruct (wrun_in _ _ _ _ _ (pstep_world _ _ _ _ _ _ S1) J) as (bf & af & w1 & w2 & _ & RB & SM & RA).
  destruct (wrun_listening _ _ _ _ _ _ _ _ RB H1 eq_refl) as (y1 & Y1 & YA & YB & YC). cbn in YA, YB.
  assert (OY : is_open (sk_end y1) = true).
  { destruct (is_open (sk_end y1)) eqn:OY; [reflexivity|]. destruct (slot_kept _ _ _ _ _ _ SM Y1) as (y2 & Y2).
    destruct (wstep_closed _ _ _ _ _ _ _ SM Y1 OY Y2) as (-> & _). destruct (wrun_closed _ _ _ _ _ _ RA Y2 OY) as (X & _).
    rewrite H2 in X. injection X as <-. cbn in OY. destruct (ns_pc s2) eqn:P; try discriminate. exfalso. now apply (NS r). }
  eapply bind_fresh; eassumption.
Qed.

Lemma panics_dec tr : (exists r, In (LPanic r) tr) \/ forall r, panics r tr = 0.
Proof.
  induction tr as [|l tr [(r & IH)|IH]]; [now right|left; exists r; now right|].
  destruct l; try (right; intros; cbn; apply IH). left. exists r. now left.
Qed.
Lemma in_trace_at k tr l : In l (trace_at k tr) -> (forall d, l <> LArrive d) -> In (WListener k l) tr.
Proof.
  intros I N. induction tr as [|e tr IH]; [contradiction|]. destruct e as [| | | | | | | | |j m|j x]; cbn in I; try (right; auto; fail).
  - destruct (Nat.eqb k j); [|right; auto]. destruct I as [I|I]; [|right; auto]. exfalso. eapply N. symmetry. exact I.
  - destruct (Nat.eqb_spec k j) as [<-|]; [|right; auto]. destruct I as [<-|I]; [now left|right; auto].
Qed.
(** C141. What ends it: in the thread's last step polling failed, or receiving did, or a packet has been dispatched to receivers one of which panicked; and its socket
    is closed with it. *)
Lemma p_C141_what_ends_it :
  forall (T : topology) (h : nat) (tr : list (option Concurrent.label * list event)) (p : parallel) (l : option Concurrent.label)
         (evs : list event) (p' : parallel) (fd : nat),
    prun T h tr p -> pstep T h p l evs p' -> l = Some (Concurrent.LListenerStops fd) ->
    exists k x, is_socket p fd k /\ evs = [WListener k x] /\
      ((exists e, x = LPollError e) \/ (exists e, x = LRecvError e) \/
       (x = LScopeEnd /\ exists r, In (WListener k (LPanic r)) (world_events tr))) /\
      ~ In fd (Concurrent.st_listeners (pa_process p')) /\ forall h' a, ~ open_at (pa_world p') k h' a.
Proof.
  intros T h tr p l evs p' fd R S ->. pose proof (prun_snoc _ _ _ _ _ _ _ R S) as R'.
  destruct (p_C138_two_views _ _ _ _ R) as (_ & W). inversion S as [| |pp fd0 k x w' y s' CS K WS HY OY|]; subst; [congruence|].
  destruct (listener_inv _ _ _ _ _ WS) as (s0 & c & n & n' & H0 & E & ST & EQ). subst w'.
  rewrite (set_end_same _ _ _ _ H0) in HY. injection HY as <-. cbn in OY.
  exists k, x. split; [exact K|]. split; [reflexivity|]. split; [|split].
  - destruct (world_inv_run _ _ _ W) as (_ & J & _). specialize (J k _ H0). unfold slot_inv in J. rewrite E in J. destruct J as (J1 & _).
    destruct (ns_pc n') eqn:P; try discriminate.
    assert (NO : forall r, ns_pc n <> Stopped r).
    { intros z Q. destruct (pi_listeners _ _ _ (pinv_run _ _ _ _ R) fd) as (k1 & a1 & c1 & s1 & v & K1 & H1 & O1 & _).
      - inversion CS; subst. match goal with X : Concurrent.st_listeners _ = _ |- _ => rewrite X end. apply in_app_iff. right. now left.
      - assert (k1 = k) by (unfold is_socket in *; congruence). subst k1. rewrite H0 in H1. injection H1 as ->. cbn in E. injection E as -> ->.
        cbn in O1. rewrite Q in O1. discriminate. }
    inversion ST; subst; cbn in P; try discriminate; eauto; try congruence; try (exfalso; eapply NO; eassumption).
    right. right. split; [reflexivity|]. destruct (panics_dec (trace_at k (world_events tr))) as [(q & Q)|Q].
    + exists q. apply in_trace_at; [exact Q|discriminate].
    + destruct (no_panic_flag _ _ _ _ J1 Q) as (_ & F). specialize (F _ _ _ _ _ _ H). discriminate.
  - intros L. destruct (p_C138_listeners _ _ _ _ fd R' L) as (k1 & a1 & c1 & s1 & _ & _ & K1 & H1 & NS & _).
    assert (k1 = k) by (unfold is_socket in *; cbn in *; congruence). subst k1. cbn [pa_world] in H1.
    rewrite (set_end_same _ _ _ _ H0) in H1. injection H1 as _ _ <- <-. destruct (ns_pc n') eqn:P; try discriminate. now apply (NS r).
  - intros h' a (e & H1 & O1). cbn [pa_world] in H1. rewrite (set_end_same _ _ _ _ H0) in H1. injection H1 as _ _ <-. cbn in O1. congruence.
Qed.

Lemma socket_after_end T h tr p fd evs : prun T h tr p -> In (Some (Concurrent.LListenerStops fd), evs) tr ->
  exists k s, is_socket p fd k /\ nth_error (w_sockets (pa_world p)) k = Some s /\ is_open (sk_end s) = false.
Proof.
  intros R. induction R as [|tr p l0 evs0 p1 R IH S]; [contradiction|]. intros I. apply in_app_iff in I as [I|[I|[]]].
  - destruct (IH I) as (k & s & K & H & O). exists k, s. split; [eapply pstep_sockets; eassumption|].
    split; [|exact O]. exact (proj1 (wrun_closed _ _ _ _ _ _ (pstep_world _ _ _ _ _ _ S) H O)).
  - injection I as -> ->. inversion S as [| |pp fd0 k x w' y s' CS K WS HY OY|]; subst; [congruence|]. exists k, y. auto.
Qed.
Lemma continues_closed T h p tr p' k s l evs e : continues T h p tr p' -> nth_error (w_sockets (pa_world p)) k = Some s ->
  is_open (sk_end s) = false -> In (l, evs) tr -> In e evs ->
  exists w1 w2, nth_error (w_sockets w1) k = Some s /\ wstep T w1 e w2.
Proof.
  intros C H O I J. induction C as [p|p l0 evs0 p1 tr p' S C IH]; [contradiction|]. pose proof (pstep_world _ _ _ _ _ _ S) as W.
  destruct I as [I|I].
  - injection I as -> ->. destruct (wrun_in _ _ _ _ _ W J) as (b & a & w1 & w2 & _ & R1 & S1 & _). exists w1, w2. split; [|exact S1].
    exact (proj1 (wrun_closed _ _ _ _ _ _ R1 H O)).
  - apply IH; [|exact I]. exact (proj1 (wrun_closed _ _ _ _ _ _ W H O)).
Qed.

(** C141. Its end is final: afterwards no receiver is called by it any more, nothing arrives, and nothing is done with its socket. *)
Lemma p_C141_end_is_final :
  forall (T : topology) (h : nat) (tr tr' : list (option Concurrent.label * list event)) (p p' : parallel) (fd k : nat)
         (evs : list event) (l : option Concurrent.label) (evs' : list event) (e : event),
    prun T h tr p -> In (Some (Concurrent.LListenerStops fd), evs) tr -> is_socket p fd k ->
    continues T h p tr' p' -> In (l, evs') tr' -> In e evs' ->
    ~ handles k e /\ ~ listens_on k e /\ forall m, e <> WDeliver k m.
Proof.
  intros T h tr tr' p p' fd k evs l evs' e R I K C J EE.
  destruct (socket_after_end _ _ _ _ _ _ R I) as (k1 & s & K1 & H & O).
  assert (k1 = k) by (unfold is_socket in *; congruence). subst k1.
  destruct (continues_closed _ _ _ _ _ _ _ _ _ _ C H O J EE) as (w1 & w2 & H1 & S).
  destruct (slot_kept _ _ _ _ _ _ S H1) as (s2 & H2). destruct (wstep_closed _ _ _ _ _ _ _ S H1 O H2) as (_ & A).
  assert (X : about k e <> true) by congruence. split; [|split].
  - intros HD. destruct e; cbn in HD, X; try contradiction; subst; try (now rewrite Nat.eqb_refl in X);
      inversion S; subst; rewrite H1 in *; match goal with Y : Some _ = Some _ |- _ => injection Y as <- end;
      match goal with Y : sk_end _ = _ |- _ => rewrite Y in O end; discriminate.
  - intros HD. destruct e; cbn in HD, X; try contradiction. subst. now rewrite Nat.eqb_refl in X.
  - intros m ->. cbn in X. now rewrite Nat.eqb_refl in X.
Qed.

(** ** A listener, and what happens around it *)
Definition ex_start : ptrace :=
  [(Some (Concurrent.LCall 0 small_config), []);
   (Some (Concurrent.LOnceEnter 0), []);
   (Some (Concurrent.LBuild 0 true), []);
   (Some (Concurrent.LOnceLeave 0), []);
   (Some (Concurrent.LCheckPool 0), []);
   (Some (Concurrent.LBindReceiver 0 ex_env), [WBindReceiver 0 1 (v4 0 0 0 0 9000) (v4 0 0 0 0 9000)]);
   (Some (Concurrent.LBindSender 0 ex_env), [WBindSender 1 1 (v4 0 0 0 0 8000) (v4 0 0 0 0 8000)]);
   (Some (Concurrent.LReturn 0 (Ok {| Concurrent.in_config := small_config; Concurrent.in_receiver := 0; Concurrent.in_sender := 1 |})), []);
   (None, [WAddReceiver 0]);
   (Some (Concurrent.LStart 0), [WStart 0 small_config; WClose 1])].
(** another thread calls [new] for other addresses while a datagram makes the receiver panic *)
Definition ex_meanwhile : ptrace :=
  [(Some (Concurrent.LCall 1 other_config), []);
   (None, [WInject {| m_origin := 0; m_from := v4 10 0 0 1 8000; m_to := v4 10 0 0 2 9000; m_data := [x01] |}]);
   (Some (Concurrent.LOncePass 1), []);
   (Some (Concurrent.LCheckPool 1), []);
   (Some (Concurrent.LBindReceiver 1 ex_env), [WBindReceiver 2 1 (v4 0 0 0 0 9001) (v4 0 0 0 0 9001)]);
   (None, [WDeliver 0 {| m_origin := 0; m_from := v4 10 0 0 1 8000; m_to := v4 10 0 0 2 9000; m_data := [x01] |}]);
   (None, [WListener 0 (LPoll 1)]);
   (None, [WListener 0 LRecv]);
   (None, [WListener 0 (LCall 0 [x01] (v4 10 0 0 1 8000))]);
   (None, [WListener 0 (LPanic 0)])].
Definition ex_ends : ptrace := [(Some (Concurrent.LListenerStops 0), [WListener 0 LScopeEnd])].
Definition ex_afterwards : ptrace :=
  [(Some (Concurrent.LBindSender 1 ex_env), [WBindSender 3 1 (v4 0 0 0 0 8000) (v4 0 0 0 0 8000)])].

Tactic Notation "listens_here" tactic3(tac) := norm_parallel; eapply ps_cons; [eapply (pstep_listener _ _ _ 0 0);
  [now left|reflexivity|eapply wstep_listener; [reflexivity|reflexivity|tac; reflexivity|discriminate]|reflexivity|reflexivity]|].
Lemma psteps_continues T h p tr p' : psteps T h p tr p' -> continues T h p tr p'.
Proof. intros S. induction S; [constructor|econstructor; eassumption]. Qed.

Lemma ex_runs_on : exists p, psteps two_hosts 1 parallel_init ex_start p /\
  Concurrent.st_listeners (pa_process p) = [0] /\ pa_sockets p = [0; 1] /\
  (exists c s, nth_error (w_sockets (pa_world p)) 0 = Some {| sk_host := 1; sk_address := v4 0 0 0 0 9000; sk_end := Listening c s |}) /\
  exists p', psteps two_hosts 1 p ex_meanwhile p' /\ Concurrent.st_listeners (pa_process p') = [0] /\ pa_sockets p' = [0; 1; 2] /\
  exists p'', pstep two_hosts 1 p' (Some (Concurrent.LListenerStops 0)) [WListener 0 LScopeEnd] p'' /\ pa_sockets p'' = [0; 1; 2] /\
  exists p3, psteps two_hosts 1 p'' ex_afterwards p3.
Proof.
  unfold ex_start. eexists. split; [|split; [|split; [|split]]].
  { silent (eapply Concurrent.step_call).
    silent (eapply Concurrent.step_once_enter).
    silent (eapply Concurrent.step_build_ok).
    silent (eapply Concurrent.step_once_leave).
    silent (eapply Concurrent.step_check_ok).
    binds (eapply Concurrent.step_bind_receiver).
    { match goal with |- wstep _ ?w _ _ => apply (wstep_bind_receiver two_hosts w 1) end; bind_free. }
    binds (eapply Concurrent.step_bind_sender).
    { match goal with |- wstep _ ?w _ _ => apply (wstep_bind_sender two_hosts w 1) end; bind_free. }
    silent (eapply Concurrent.step_return).
    elsewhere_step.
    { intros t fd. destruct t as [|t]; cbn; tauto. }
    { eapply wstep_add_receiver; reflexivity. }
    norm_parallel. eapply ps_process; [reflexivity|discriminate|eapply (Concurrent.step_start _ [] _ []); reflexivity| |].
    { eapply wrun_cons; [eapply wstep_start; reflexivity|]. eapply wrun_cons; [|constructor]. eapply wstep_close; reflexivity. }
    norm_parallel. apply ps_nil. }
  { reflexivity. }
  { reflexivity. }
  { cbn. eexists _, _. reflexivity. }
  unfold ex_meanwhile. eexists. split; [|split; [|split]].
  { silent (eapply Concurrent.step_call).
    elsewhere_step.
    { constructor. }
    silent (eapply Concurrent.step_once_pass).
    silent (eapply Concurrent.step_check_ok).
    binds (eapply Concurrent.step_bind_receiver).
    { match goal with |- wstep _ ?w _ _ => apply (wstep_bind_receiver two_hosts w 1) end; bind_free. }
    elsewhere_step.
    { eapply wstep_deliver; [reflexivity|reflexivity|left; reflexivity|]. split; [reflexivity|]. split; [reflexivity|right; reflexivity]. }
    listens_here (apply step_poll_ready).
    listens_here (eapply step_recv).
    listens_here (eapply (step_call _ _ _ _ _ [] 0 [])).
    listens_here (eapply (step_panic _ _ _ _ _ _ [] 0 [])).
    norm_parallel. apply ps_nil. }
  { reflexivity. }
  { reflexivity. }
  eexists. split; [|split].
  { eapply (pstep_listener_stops _ _ _ 0 0); [eapply (Concurrent.step_listener_stops _ [] 0 []); reflexivity|reflexivity|
      eapply wstep_listener; [reflexivity|reflexivity|eapply step_scope_panic; reflexivity|discriminate]|reflexivity|reflexivity]. }
  { reflexivity. }
  eexists. unfold ex_afterwards.
  binds (eapply Concurrent.step_bind_sender).
  { match goal with |- wstep _ ?w _ _ => apply (wstep_bind_sender two_hosts w 1) end; bind_free. }
  norm_parallel. apply ps_nil.
Qed.

Example ex_C141_runs_on :
  exists p p', prun two_hosts 1 ex_start p /\ In 0 (Concurrent.st_listeners (pa_process p)) /\ is_socket p 0 0 /\
    (exists c s, nth_error (w_sockets (pa_world p)) 0 = Some {| sk_host := 1; sk_address := v4 0 0 0 0 9000; sk_end := Listening c s |}) /\
    continues two_hosts 1 p ex_meanwhile p' /\ does_not_end 0 ex_meanwhile.
Proof.
  destruct ex_runs_on as (p & S & A & B & C & p' & S' & _). exists p, p'.
  split; [exact (prun_steps _ _ [] _ _ _ (prun_nil _ _) S)|]. split; [rewrite A; now left|]. split; [unfold is_socket; now rewrite B|].
  split; [exact C|]. split; [now apply psteps_continues|]. intros evs I. cbn in I. repeat destruct I as [I|I]; try discriminate I. exact I.
Qed.
(** another thread of the process binds 0.0.0.0:9001 meanwhile *)
Example ex_C141_binds : In (Some (Concurrent.LBindReceiver 1 ex_env), [WBindReceiver 2 1 (v4 0 0 0 0 9001) (v4 0 0 0 0 9001)]) ex_meanwhile /\
  binds_address 1 (v4 0 0 0 0 9001) (WBindReceiver 2 1 (v4 0 0 0 0 9001) (v4 0 0 0 0 9001)).
Proof. split; [cbn; tauto|split; reflexivity]. Qed.
(** the panic ends the listener; the other call of [new] goes on *)
Example ex_C141_ends :
  exists p p' p3, prun two_hosts 1 (ex_start ++ ex_meanwhile) p /\
    pstep two_hosts 1 p (Some (Concurrent.LListenerStops 0)) [WListener 0 LScopeEnd] p' /\
    prun two_hosts 1 ((ex_start ++ ex_meanwhile) ++ ex_ends) p' /\ is_socket p' 0 0 /\ continues two_hosts 1 p' ex_afterwards p3.
Proof.
  destruct ex_runs_on as (p & S & _ & _ & _ & p' & S' & _ & _ & p'' & S'' & B & p3 & S3). exists p', p'', p3.
  pose proof (prun_steps _ _ _ _ _ _ (prun_steps _ _ [] _ _ _ (prun_nil _ _) S) S') as R.
  split; [exact R|]. split; [exact S''|]. split; [exact (prun_snoc _ _ _ _ _ _ _ R S'')|]. split; [unfold is_socket; now rewrite B|].
  now apply psteps_continues.
Qed.
