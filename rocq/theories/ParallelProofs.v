(** * ParallelProofs: proofs about Parallel.v *)
From Verif Require Import Base Codec Network NetSpec NetworkProofs Ipv8 Ipv8Spec Ipv8Proofs World WorldSpec WorldProofs Compose ComposeProofs.
From Verif Require Concurrent ConcurrentSpec ConcurrentProofs.
From Verif Require Import Parallel.
Open Scope nat_scope.


Notation plabel := Concurrent.label.
Notation ptrace := (list (option Concurrent.label * list event)).

Lemma steps_of_app a b : steps_of (a ++ b) = steps_of a ++ steps_of b.
Proof. apply flat_map_app. Qed.
Lemma world_events_app a b : world_events (a ++ b) = world_events a ++ world_events b.
Proof. apply flat_map_app. Qed.

(** ** Descriptors and sockets stay in step *)
Record sync (h : nat) (nums : list nat) (w : world) (l : list (nat * address)) (next : nat) : Prop := {
  sy_length : length nums = next;
  sy_nodup : NoDup nums;
  sy_socket : forall fd k, nth_error nums fd = Some k -> exists s, nth_error (w_sockets w) k = Some s /\ sk_host s = h /\
    forall a, In (fd, a) l <-> is_open (sk_end s) = true /\ sk_address s = a;
  sy_below : forall fd a, In (fd, a) l -> fd < next }.

Definition closes (k : nat) (e : event) : Prop := match e with WClose j | WListener j _ => j = k | _ => False end.
Lemma same_end_open e e' : same_end e e' -> is_open e = is_open e'.
Proof. destruct e, e'; cbn -[is_open]; try tauto; try reflexivity; try (intros [_ E]; exact E). Qed.

Lemma open_kept T w e w' k s : wstep T w e w' -> nth_error (w_sockets w) k = Some s -> ~ closes k e ->
  exists s', nth_error (w_sockets w') k = Some s' /\ sk_host s = sk_host s' /\ sk_address s = sk_address s' /\
    is_open (sk_end s) = is_open (sk_end s').
Proof.
  intros S H N. destruct (slot_kept _ _ _ _ _ _ S H) as (s' & H'). exists s'. split; [exact H'|].
  destruct (slot_step _ _ _ _ _ _ S H') as [(s0 & G & C)|(-> & _)].
  - rewrite H in G. injection G as <-. destruct C; cbn in N; try (exfalso; now apply N); auto.
    + rewrite H0. auto.
    + rewrite H0. auto.
    + repeat split; auto. unfold with_end. cbn [sk_end]. symmetry. now destruct (sk_end s).
  - exfalso. assert (L : length (w_sockets w) < length (w_sockets w)) by (apply nth_error_Some; congruence). lia.
Qed.

Lemma sync_step T h nums w l next e w' : sync h nums w l next -> wstep T w e w' ->
  (forall fd k s s', nth_error nums fd = Some k -> nth_error (w_sockets w) k = Some s -> nth_error (w_sockets w') k = Some s' ->
     closes k e -> is_open (sk_end s) = is_open (sk_end s') /\ sk_host s = sk_host s' /\ sk_address s = sk_address s') ->
  sync h nums w' l next.
Proof.
  intros [A B C D] S N. constructor; auto. intros fd k K. destruct (C fd k K) as (s & H & Hh & E).
  assert (CL : closes k e \/ ~ closes k e) by (destruct e; cbn; auto; apply Nat.eq_decidable).
  destruct CL as [CL|CL].
  - destruct (slot_kept _ _ _ _ _ _ S H) as (s' & H'). exists s'. split; [exact H'|].
    destruct (N _ _ _ _ K H H' CL) as (X & Y & Z). rewrite <- X, <- Y, <- Z. auto.
  - destruct (open_kept _ _ _ _ _ _ S H CL) as (s' & H' & X & Y & Z). exists s'. rewrite <- X, <- Y, <- Z. auto.
Qed.
Lemma sync_quiet T h nums w l next e w' : sync h nums w l next -> wstep T w e w' ->
  (forall fd k, nth_error nums fd = Some k -> ~ closes k e) -> sync h nums w' l next.
Proof. intros Y S N. eapply sync_step; [exact Y|exact S|]. intros fd k s s' K _ _ CL. now destruct (N _ _ K CL). Qed.

Lemma sync_open h nums w l next a e : sync h nums w l next -> is_open e = true ->
  sync h (nums ++ [length (w_sockets w)]) (add_socket w h a e) ((next, a) :: l) (S next).
Proof.
  intros [A B C D] O. constructor.
  - rewrite app_length. cbn. lia.
  - apply NoDup_nth_error. intros i j Hi E. rewrite NoDup_nth_error in B. rewrite app_length in Hi. cbn in Hi.
    assert (LT : forall i k, nth_error nums i = Some k -> k < length (w_sockets w)).
    { intros i0 k K. destruct (C _ _ K) as (s & H & _). apply nth_error_Some. congruence. }
    assert (X : forall i, i < length nums \/ i = length nums -> nth_error (nums ++ [length (w_sockets w)]) i =
        if i <? length nums then nth_error nums i else Some (length (w_sockets w))).
    { intros i0 [Hl| ->]; [rewrite nth_error_app1 by exact Hl; apply Nat.ltb_lt in Hl; now rewrite Hl|].
      rewrite Nat.ltb_irrefl. apply nth_app_last. }
    assert (Hj : j < length nums \/ j = length nums).
    { destruct (Nat.lt_ge_cases j (S (length nums))); [lia|]. exfalso.
      rewrite (proj2 (nth_error_None (nums ++ _) j)) in E by (rewrite app_length; cbn; lia).
      apply nth_error_None in E. rewrite app_length in E. cbn in E. lia. }
    rewrite (X i), (X j) in E by lia.
    destruct (Nat.ltb_spec i (length nums)), (Nat.ltb_spec j (length nums)); try lia.
    + now apply B.
    + apply LT in E. lia.
    + symmetry in E. apply LT in E. lia.
  - intros fd k K. destruct (Nat.lt_ge_cases fd (length nums)) as [L|L].
    + rewrite nth_error_app1 in K by exact L. destruct (C fd k K) as (s & H & Hh & E). exists s. split.
      { cbn. rewrite nth_error_app1; [exact H|]. apply nth_error_Some. congruence. }
      split; [exact Hh|]. intros b. rewrite <- E. cbn. split; [|auto]. intros [Q|Q]; [|exact Q]. injection Q as Q _. lia.
    + rewrite nth_error_app2 in K by exact L. destruct (fd - length nums) as [|x] eqn:Q; [|destruct x; discriminate]. cbn in K. injection K as <-.
      eexists. split; [cbn; apply nth_app_last|]. split; [reflexivity|]. intros b. cbn [sk_end sk_address]. rewrite O.
      assert (fd = next) by lia. subst fd. cbn. split.
      * intros [E|E]; [injection E as <-; auto|]. apply D in E. lia.
      * intros [_ <-]. auto.
  - intros fd b [E|E]; [injection E as <- _; lia|]. apply D in E. lia.
Qed.
Lemma sync_close T h nums w l next fd k w' : sync h nums w l next -> nth_error nums fd = Some k -> wstep T w (WClose k) w' ->
  sync h nums w' (filter (fun x => negb (fst x =? fd)) l) next.
Proof.
  intros [A B C D] K S. constructor; auto.
  - intros fd' k' K'. destruct (close_inv _ _ _ _ S) as (s & H & O & ->). destruct (C _ _ K') as (s0 & H0 & Hh & E).
    destruct (Nat.eq_dec k' k) as [->|NE].
    + assert (fd' = fd). { rewrite NoDup_nth_error in B. apply B; [apply nth_error_Some; congruence|congruence]. } subst fd'.
      exists (with_end s Closed). split; [now apply set_end_same|]. rewrite H in H0. injection H0 as <-. split; [exact Hh|].
      intros a. rewrite filter_In. cbn. rewrite Nat.eqb_refl. cbn. intuition discriminate.
    + exists s0. split; [cbn; rewrite nth_error_set_nth; destruct (Nat.eqb_spec k k'); [congruence|exact H0]|]. split; [exact Hh|].
      intros a. rewrite filter_In, E. cbn. assert (fd' <> fd) by congruence. apply Nat.eqb_neq in H1. rewrite H1. cbn. tauto.
  - intros fd' a I. apply filter_In in I as [I _]. eauto.
Qed.
Lemma sync_ext h nums w l l' next : sync h nums w l next -> (forall x, In x l' <-> In x l) -> sync h nums w l' next.
Proof.
  intros [A B C D] E. constructor; auto.
  - intros fd k K. destruct (C _ _ K) as (s & H & Hh & X). exists s. split; [exact H|]. split; [exact Hh|]. intros a. rewrite E. apply X.
  - intros fd a I. apply E in I. eauto.
Qed.

(** ** What is behind the descriptors of calls, values and listeners *)
Definition receiver_at (h : nat) (nums : list nat) (w : world) (evs : list event) (fd : nat) (cfg : config) (P : nat -> Prop) : Prop :=
  exists k a n q, nth_error nums fd = Some k /\
    nth_error (w_sockets w) k = Some {| sk_host := h; sk_address := a; sk_end := Waiting n q |} /\ P n /\
    In (WBindReceiver k h (cf_receiving_address cfg) a) evs.
Definition sender_at (h : nat) (nums : list nat) (w : world) (evs : list event) (fd : nat) (cfg : config) : Prop :=
  exists k a q, nth_error nums fd = Some k /\
    nth_error (w_sockets w) k = Some {| sk_host := h; sk_address := a; sk_end := Sending q |} /\
    In (WBindSender k h (cf_sending_address cfg) a) evs.
Definition thread_at (h : nat) (nums : list nat) (w : world) (evs : list event) (p : Concurrent.program_point) : Prop :=
  match p with
  | Concurrent.BindingSender cfg fd => receiver_at h nums w evs fd cfg (eq 0)
  | Concurrent.Returning (Ok i) =>
      receiver_at h nums w evs (Concurrent.in_receiver i) (Concurrent.in_config i) (eq 0) /\
      sender_at h nums w evs (Concurrent.in_sender i) (Concurrent.in_config i)
  | _ => True
  end.
Definition instance_at (h : nat) (nums : list nat) (w : world) (evs : list event) (i : Concurrent.instance) : Prop :=
  receiver_at h nums w evs (Concurrent.in_receiver i) (Concurrent.in_config i) (fun _ => True) /\
  sender_at h nums w evs (Concurrent.in_sender i) (Concurrent.in_config i).
Definition returned_value (steps : list plabel) (i : Concurrent.instance) : Prop := exists t, In (Concurrent.LReturn t (Ok i)) steps.
Definition listener_at (h : nat) (nums : list nat) (w : world) (evs : list event) (steps : list plabel) (fd : nat) : Prop :=
  exists k a c s i, nth_error nums fd = Some k /\
    nth_error (w_sockets w) k = Some {| sk_host := h; sk_address := a; sk_end := Listening c s |} /\
    is_open (Listening c s) = true /\
    returned_value steps i /\ Concurrent.in_receiver i = fd /\
    In (WBindReceiver k h (cf_receiving_address (Concurrent.in_config i)) a) evs /\ In (WStart k (Concurrent.in_config i)) evs.

Definition extends (nums nums' : list nat) : Prop := forall fd k, nth_error nums fd = Some k -> nth_error nums' fd = Some k.
Lemma extends_refl nums : extends nums nums.
Proof. intros fd k H. exact H. Qed.
Lemma extends_app nums x : extends nums (nums ++ x).
Proof. intros fd k H. rewrite nth_error_app1; [exact H|]. apply nth_error_Some. congruence. Qed.
Definition untouched_fd (nums : list nat) (b : list event) (fd : nat) : Prop :=
  forall k, nth_error nums fd = Some k -> Forall (fun e => ~ touches k e) b.

Lemma receiver_kept T h nums nums' w evs fd cfg P b w' : receiver_at h nums w evs fd cfg P -> extends nums nums' -> wrun T w b w' ->
  untouched_fd nums b fd -> receiver_at h nums' w' (evs ++ b) fd cfg P.
Proof.
  intros (k & a & n & q & K & H & Q & I) X R U. destruct (kept_run _ _ _ _ R _ _ H (U _ K)) as ([h' a' e'] & H' & A & B & C).
  cbn in A, B, C. subst h' a'. destruct e' as [|n' q'| |]; try contradiction. subst n'.
  exists k, a, n, q'. repeat split; auto. apply in_or_app. auto.
Qed.
Lemma receiver_weaken h nums w evs fd cfg P : receiver_at h nums w evs fd cfg P -> receiver_at h nums w evs fd cfg (fun _ => True).
Proof. intros (k & a & n & q & K & H & Q & I). exists k, a, n, q. auto. Qed.
Lemma receiver_added T h nums w evs fd cfg j w' : receiver_at h nums w evs fd cfg (fun _ => True) -> wstep T w (WAddReceiver j) w' ->
  receiver_at h nums w' (evs ++ [WAddReceiver j]) fd cfg (fun _ => True).
Proof.
  intros (k & a & n & q & K & H & Q & I) S. inversion S as [| | |w0 k0 s n0 q0 H0 E| | | | | | |]; subst.
  destruct (Nat.eq_dec j k) as [->|NE].
  - rewrite H in H0. injection H0 as <-. cbn in E. injection E as <- <-.
    exists k, a, (Datatypes.S n), q. split; [exact K|]. split; [exact (set_end_same _ _ _ _ H)|]. split; [exact Logic.I|]. apply in_or_app. auto.
  - exists k, a, n, q. split; [exact K|]. split; [cbn; rewrite nth_error_set_nth; destruct (Nat.eqb_spec j k); [congruence|exact H]|].
    split; [exact Logic.I|]. apply in_or_app. auto.
Qed.
Lemma sender_kept T h nums nums' w evs fd cfg b w' : sender_at h nums w evs fd cfg -> extends nums nums' -> wrun T w b w' ->
  untouched_fd nums b fd -> sender_at h nums' w' (evs ++ b) fd cfg.
Proof.
  intros (k & a & q & K & H & I) X R U. destruct (kept_run _ _ _ _ R _ _ H (U _ K)) as ([h' a' e'] & H' & A & B & C).
  cbn in A, B, C. subst h' a'. destruct e'; try contradiction.
  exists k, a. eexists. repeat split; eauto. apply in_or_app. auto.
Qed.
(** adding a receiver to a sender is impossible *)
Lemma sender_added T h nums w evs fd cfg j w' : sender_at h nums w evs fd cfg -> wstep T w (WAddReceiver j) w' ->
  sender_at h nums w' (evs ++ [WAddReceiver j]) fd cfg.
Proof.
  intros A S. eapply sender_kept; [exact A|apply extends_refl|apply wrun_one; exact S|].
  destruct A as (k & a & q & K & H & I). intros k' K'. constructor; [|constructor]. cbn. intros ->.
  assert (k' = k) by congruence. subst k'. inversion S as [| | |w0 k0 s n0 q0 H0 E| | | | | | |]; subst. rewrite H in H0. injection H0 as <-. discriminate.
Qed.
Lemma thread_kept T h nums nums' w evs p b w' : thread_at h nums w evs p -> extends nums nums' -> wrun T w b w' ->
  (forall fd, In fd (ConcurrentSpec.held p) -> untouched_fd nums b fd) -> thread_at h nums' w' (evs ++ b) p.
Proof.
  intros A X R U. destruct p as [| | | | | |cfg fd| |[i|e|s]]; cbn in A, U |- *; auto.
  - eapply receiver_kept; eauto.
  - destruct A as [A B]. split; [eapply receiver_kept; eauto|eapply sender_kept; eauto].
Qed.
Lemma instance_kept T h nums nums' w evs i b w' : instance_at h nums w evs i -> extends nums nums' -> wrun T w b w' ->
  untouched_fd nums b (Concurrent.in_receiver i) -> untouched_fd nums b (Concurrent.in_sender i) -> instance_at h nums' w' (evs ++ b) i.
Proof. intros [A B] X R U V. split; [eapply receiver_kept; eauto|eapply sender_kept; eauto]. Qed.
Lemma listener_kept T h nums nums' w evs steps steps' fd b w' : listener_at h nums w evs steps fd -> extends nums nums' -> wrun T w b w' ->
  untouched_fd nums b fd -> (forall i, returned_value steps i -> returned_value steps' i) -> listener_at h nums' w' (evs ++ b) steps' fd.
Proof.
  intros (k & a & c & s & i & K & H & O & RV & E & I & J) X R U V.
  destruct (kept_run _ _ _ _ R _ _ H (U _ K)) as ([h' a' e'] & H' & A & B & C).
  cbn -[is_open] in A, B, C. subst h' a'. destruct e' as [| |c' s'|]; cbn -[is_open] in C; try contradiction. destruct C as [<- C].
  exists k, a, c, s', i. repeat split; auto; try congruence; apply in_or_app; auto.
Qed.

(** ** The invariant *)
Record pinv (h : nat) (tr : ptrace) (p : parallel) : Prop := {
  pi_reach : Concurrent.run Concurrent.initial (steps_of tr) (pa_process p);
  pi_sync : sync h (pa_sockets p) (pa_world p) (Concurrent.st_sockets (pa_process p)) (Concurrent.st_next (pa_process p));
  pi_threads : forall t, thread_at h (pa_sockets p) (pa_world p) (world_events tr) (Concurrent.st_threads (pa_process p) t);
  pi_instances : forall i, In i (Concurrent.st_instances (pa_process p)) ->
    instance_at h (pa_sockets p) (pa_world p) (world_events tr) i /\ returned_value (steps_of tr) i;
  pi_listeners : forall fd, In fd (Concurrent.st_listeners (pa_process p)) ->
    listener_at h (pa_sockets p) (pa_world p) (world_events tr) (steps_of tr) fd;
  pi_made : forall l evs k, In (Some l, evs) tr -> made evs k -> exists fd, is_socket p fd k }.

Lemma pinv_reachable h tr p : pinv h tr p -> ConcurrentSpec.reachable (pa_process p).
Proof. intros I. exists (steps_of tr). apply I. Qed.
Lemma owner_unique s o o' fd : ConcurrentSpec.reachable s -> ConcurrentSpec.owns s o fd -> ConcurrentSpec.owns s o' fd -> o = o'.
Proof. intros R. apply (ConcurrentProofs.p_C80_one_owner s R). Qed.
Lemma owner_open s o fd : ConcurrentSpec.reachable s -> ConcurrentSpec.owns s o fd -> In fd (ConcurrentSpec.open_fds s).
Proof. intros R O. apply (ConcurrentProofs.p_C80_one_owner s R). eauto. Qed.
Lemma owner_socket h tr p o fd : pinv h tr p -> ConcurrentSpec.owns (pa_process p) o fd ->
  exists k, is_socket p fd k /\ socket_number p fd = k.
Proof.
  intros I O. pose proof (owner_open _ _ _ (pinv_reachable _ _ _ I) O) as Q. unfold ConcurrentSpec.open_fds in Q.
  apply in_map_iff in Q as ([fd' a] & E & Q). cbn in E. subst fd'. pose proof (sy_below _ _ _ _ _ (pi_sync _ _ _ I) _ _ Q) as L.
  rewrite <- (sy_length _ _ _ _ _ (pi_sync _ _ _ I)) in L. apply nth_error_Some in L. unfold is_socket, socket_number.
  destruct (nth_error (pa_sockets p) fd) as [k|] eqn:N; [|congruence]. exists k. split; [reflexivity|]. now apply nth_error_nth.
Qed.
(** Events that touch sockets of one owner only leave those of the others alone. *)
Definition only_of (p : parallel) (o : ConcurrentSpec.owner) (b : list event) : Prop :=
  forall e k, In e b -> touches k e -> exists fd, is_socket p fd k /\ ConcurrentSpec.owns (pa_process p) o fd.
Lemma other_untouched h tr p o o' b fd : pinv h tr p -> only_of p o b -> ConcurrentSpec.owns (pa_process p) o' fd -> o' <> o ->
  untouched_fd (pa_sockets p) b fd.
Proof.
  intros I U O N k K. apply Forall_forall. intros e E T. destruct (U e k E T) as (fd' & K' & O').
  assert (fd' = fd).
  { pose proof (sy_nodup _ _ _ _ _ (pi_sync _ _ _ I)) as ND. rewrite NoDup_nth_error in ND. unfold is_socket in K'.
    apply ND; [apply nth_error_Some; congruence|congruence]. }
  subst fd'. apply N. eapply owner_unique; [eapply pinv_reachable; exact I|exact O|exact O'].
Qed.

(** ** Steps of the process *)
Lemma assemble T h tr p l evs s' w' nums' o :
  pinv h tr p -> Concurrent.step (pa_process p) l s' -> wrun T (pa_world p) evs w' -> extends (pa_sockets p) nums' -> only_of p o evs ->
  sync h nums' w' (Concurrent.st_sockets s') (Concurrent.st_next s') ->
  (forall t, (Concurrent.st_threads s' t = Concurrent.st_threads (pa_process p) t /\ ConcurrentSpec.ByCall t <> o) \/
     thread_at h nums' w' (world_events tr ++ evs) (Concurrent.st_threads s' t)) ->
  (forall i, In i (Concurrent.st_instances s') ->
     (exists j, nth_error (Concurrent.st_instances (pa_process p)) j = Some i /\ ConcurrentSpec.ByInstance j <> o) \/
     (instance_at h nums' w' (world_events tr ++ evs) i /\ returned_value (steps_of tr ++ [l]) i)) ->
  (forall fd, In fd (Concurrent.st_listeners s') ->
     (exists j, nth_error (Concurrent.st_listeners (pa_process p)) j = Some fd /\ ConcurrentSpec.ByListener j <> o) \/
     listener_at h nums' w' (world_events tr ++ evs) (steps_of tr ++ [l]) fd) ->
  (forall k, made evs k -> exists fd, nth_error nums' fd = Some k) ->
  pinv h (tr ++ [(Some l, evs)]) {| pa_process := s'; pa_world := w'; pa_sockets := nums' |}.
Proof.
  intros I S R X U Y TH IN LI M.
  assert (SO : steps_of (tr ++ [(Some l, evs)]) = steps_of tr ++ [l]) by (now rewrite steps_of_app).
  assert (WE : world_events (tr ++ [(Some l, evs)]) = world_events tr ++ evs) by (rewrite world_events_app; cbn; now rewrite app_nil_r).
  assert (RV : forall i, returned_value (steps_of tr) i -> returned_value (steps_of tr ++ [l]) i).
  { intros i (t & J). exists t. apply in_or_app. auto. }
  constructor; cbn [pa_process pa_world pa_sockets]; rewrite ?SO, ?WE.
  - eapply ConcurrentProofs.run_app; [exact (pi_reach _ _ _ I)|]. now apply ConcurrentProofs.run_one.
  - exact Y.
  - intros t. destruct (TH t) as [[-> N]|A]; [|exact A]. eapply thread_kept; [exact (pi_threads _ _ _ I t)|exact X|exact R|].
    intros fd Q. exact (other_untouched _ _ _ _ (ConcurrentSpec.ByCall t) _ _ I U Q N).
  - intros i Q. destruct (IN i Q) as [(j & J & N)|A]; [|exact A]. destruct (pi_instances _ _ _ I i (nth_error_In _ _ J)) as [B C].
    split; [|auto]. eapply instance_kept; [exact B|exact X|exact R| |];
      refine (other_untouched _ _ _ _ (ConcurrentSpec.ByInstance j) _ _ I U _ N); exists i; split; cbn; auto.
  - intros fd Q. destruct (LI fd Q) as [(j & J & N)|A]; [|exact A].
    eapply listener_kept; [exact (pi_listeners _ _ _ I fd (nth_error_In _ _ J))|exact X|exact R| |exact RV].
    exact (other_untouched _ _ _ _ (ConcurrentSpec.ByListener j) _ _ I U J N).
  - intros l0 evs0 k Q MK. apply in_app_or in Q as [Q|[E|[]]].
    + destruct (pi_made _ _ _ I _ _ _ Q MK) as (fd & K). exists fd. now apply X.
    + injection E as -> ->. exact (M k MK).
Qed.

Lemma made_nil k : ~ made [] k.
Proof. intros (h & a & a' & [[]|[]]). Qed.
Lemma made_receiver j h a r k : made [WBindReceiver j h a r] k -> k = j.
Proof. intros (h' & b & b' & [[E|[]]|[E|[]]]); congruence. Qed.
Lemma made_sender j h a r k : made [WBindSender j h a r] k -> k = j.
Proof. intros (h' & b & b' & [[E|[]]|[E|[]]]); congruence. Qed.
Lemma not_made evs k : (forall h a b, ~ In (WBindReceiver k h a b) evs) -> (forall h a b, ~ In (WBindSender k h a b) evs) -> ~ made evs k.
Proof. intros A B (h & a & b & [J|J]); [exact (A _ _ _ J)|exact (B _ _ _ J)]. Qed.

Definition silent_step (l : plabel) : Prop :=
  match l with
  | Concurrent.LCall _ _ | Concurrent.LOnceEnter _ | Concurrent.LOncePass _ | Concurrent.LBuild _ _ | Concurrent.LOnceLeave _
  | Concurrent.LCheckPool _ | Concurrent.LInitPool _ => True
  | _ => False
  end.
(** the part of the state a silent step, or a failed one, leaves alone *)
Lemma keeps_sockets p s' nums : Concurrent.st_next s' = Concurrent.st_next (pa_process p) -> nums = sockets_after p s' -> nums = pa_sockets p.
Proof. intros E ->. unfold sockets_after. now rewrite E, Nat.eqb_refl. Qed.

Definition bystander : ConcurrentSpec.owner := ConcurrentSpec.ByOther 0.
Lemma nobody_touched p o evs : (forall e k, In e evs -> ~ touches k e) -> only_of p o evs.
Proof. intros N e k I T. now destruct (N e k I). Qed.

Lemma silent_pinv (T : topology) h tr p l s' : pinv h tr p -> Concurrent.step (pa_process p) l s' -> silent_step l ->
  pinv h (tr ++ [(Some l, [])]) {| pa_process := s'; pa_world := pa_world p; pa_sockets := sockets_after p s' |}.
Proof.
  intros I S Q.
  assert (E : Concurrent.st_sockets s' = Concurrent.st_sockets (pa_process p) /\ Concurrent.st_next s' = Concurrent.st_next (pa_process p) /\
    Concurrent.st_instances s' = Concurrent.st_instances (pa_process p) /\ Concurrent.st_listeners s' = Concurrent.st_listeners (pa_process p) /\
    forall t, Concurrent.st_threads s' t = Concurrent.st_threads (pa_process p) t \/ thread_at h (pa_sockets p) (pa_world p) (world_events tr ++ []) (Concurrent.st_threads s' t)).
  { destruct S; try contradiction; cbn; repeat split; auto; intros u; destruct (u =? t); cbn; auto. }
  destruct E as (E1 & E2 & E3 & E4 & E5). rewrite (keeps_sockets p s' _ E2 eq_refl).
  eapply (assemble T) with (o := bystander); [exact I|exact S|constructor|apply extends_refl|intros e k []| | | | |].
  - rewrite E1, E2. exact (pi_sync _ _ _ I).
  - intros t. destruct (E5 t); [left; split; [assumption|discriminate]|now right].
  - intros i J. rewrite E3 in J. apply In_nth_error in J as [j J]. left. exists j. split; [exact J|discriminate].
  - intros fd J. rewrite E4 in J. apply In_nth_error in J as [j J]. left. exists j. split; [exact J|discriminate].
  - intros k M. now apply made_nil in M.
Qed.

Lemma nth_not_middle {A} (a : list A) x b y : In y (a ++ b) -> exists j, nth_error (a ++ x :: b) j = Some y /\ j <> length a.
Proof.
  intros I. apply in_app_or in I as [I|I]; apply In_nth_error in I as [j J].
  - exists j. assert (L : j < length a) by (apply nth_error_Some; congruence). rewrite nth_error_app1 by exact L. split; [exact J|lia].
  - exists (length a + S j). rewrite nth_error_app2 by lia. replace (length a + S j - length a) with (S j) by lia. split; [exact J|lia].
Qed.
Lemma nth_middle {A} (a : list A) x b : nth_error (a ++ x :: b) (length a) = Some x.
Proof. rewrite nth_error_app2, Nat.sub_diag by lia. reflexivity. Qed.

Lemma fails_inv T w h a e w' : wrun T w [WBindFails h a e] w' -> w' = w.
Proof. intros R. apply wrun_cons_inv in R as (w1 & S & R). apply wrun_nil_inv in R. subst w1. now inversion S. Qed.

Lemma process_pinv T h tr p l s' w' :
  pinv h tr p -> (forall fd, l <> Concurrent.LListenerStops fd) -> Concurrent.step (pa_process p) l s' ->
  wrun T (pa_world p) (socket_events h p l) w' ->
  pinv h (tr ++ [(Some l, socket_events h p l)]) {| pa_process := s'; pa_world := w'; pa_sockets := sockets_after p s' |}.
Proof.
  intros I NL S R. pose proof (pi_sync _ _ _ I) as SY.
  assert (SIL : silent_step l -> pinv h (tr ++ [(Some l, socket_events h p l)]) {| pa_process := s'; pa_world := w'; pa_sockets := sockets_after p s' |}).
  { intros Q. assert (E : socket_events h p l = []) by (destruct l; try contradiction; reflexivity). rewrite E in R |- *.
    apply wrun_nil_inv in R. subst w'. now apply (silent_pinv T). }
  assert (IK : forall i, In i (Concurrent.st_instances (pa_process p)) ->
     exists j, nth_error (Concurrent.st_instances (pa_process p)) j = Some i) by (intros i J; now apply In_nth_error).
  assert (LK : forall fd, In fd (Concurrent.st_listeners (pa_process p)) ->
     exists j, nth_error (Concurrent.st_listeners (pa_process p)) j = Some fd) by (intros i J; now apply In_nth_error).
  assert (NX : forall n, (Datatypes.S n =? n) = false) by (intros n; apply Nat.eqb_neq; lia).
  pose proof S as ST. pose proof I as I0. destruct p as [s w nums]. cbn [pa_process pa_world pa_sockets] in *.
  destruct S; try (apply SIL; exact Logic.I); clear SIL; cbn [socket_events pa_process pa_world pa_sockets] in R |- *;
    unfold sockets_after; cbn [pa_process pa_world pa_sockets Concurrent.st_next Concurrent.at_point Concurrent.open_socket Concurrent.close_socket Concurrent.with_owners];
    rewrite ?NX, ?Nat.eqb_refl.
  - (* bind receiver *)
    rewrite H in R |- *. unfold bind_event in R |- *. rewrite H0 in R |- *.
    pose proof R as R0. apply wrun_cons_inv in R0 as (w1 & W & R0). apply wrun_nil_inv in R0. subst w1.
    apply bind_receiver_inv in W as (_ & B & ->).
    eapply (assemble T) with (o := bystander); [exact I0|exact ST|exact R|apply extends_app| | | | | |].
    + apply nobody_touched. intros e k [<-|[]] [].
    + now apply sync_open.
    + intros u. cbn. destruct (u =? t) eqn:E; [right|left; split; [reflexivity|discriminate]].
      exists (length (w_sockets w)), a, 0, []. split; [rewrite <- (sy_length _ _ _ _ _ SY); apply nth_app_last|].
      split; [cbn; apply nth_app_last|]. split; [reflexivity|]. apply in_or_app. right. now left.
    + intros i J. left. destruct (IK _ J) as [j K]. exists j. split; [exact K|discriminate].
    + intros fd J. left. destruct (LK _ J) as [j K]. exists j. split; [exact K|discriminate].
    + intros k M. apply made_receiver in M. subst k. exists (length nums). apply nth_app_last.
  - (* bind receiver fails *)
    rewrite H in R |- *. unfold bind_event in R |- *. rewrite H0 in R |- *. pose proof (fails_inv _ _ _ _ _ _ R) as ->.
    eapply (assemble T) with (o := bystander); [exact I0|exact ST|exact R|apply extends_refl| | | | | |].
    + apply nobody_touched. intros e0 k [<-|[]] [].
    + exact SY.
    + intros u. cbn. destruct (u =? t) eqn:E; [now right|left; split; [reflexivity|discriminate]].
    + intros i J. left. destruct (IK _ J) as [j K]. exists j. split; [exact K|discriminate].
    + intros fd J. left. destruct (LK _ J) as [j K]. exists j. split; [exact K|discriminate].
    + intros k M. exfalso. revert M. apply not_made; intros ? ? ? [E|[]]; discriminate.
  - (* bind sender *)
    rewrite H in R |- *. unfold bind_event in R |- *. rewrite H0 in R |- *.
    pose proof R as R0. apply wrun_cons_inv in R0 as (w1 & W & R0). apply wrun_nil_inv in R0. subst w1.
    apply bind_sender_inv in W as (_ & B & ->).
    eapply (assemble T) with (o := bystander); [exact I0|exact ST|exact R|apply extends_app| | | | | |].
    + apply nobody_touched. intros e k [<-|[]] [].
    + now apply sync_open.
    + intros u. cbn. destruct (u =? t) eqn:E; [right|left; split; [reflexivity|discriminate]]. split.
      * pose proof (pi_threads _ _ _ I0 t) as TA. cbn in TA. rewrite H in TA. cbn in TA.
        eapply receiver_kept; [exact TA|apply extends_app|exact R|]. intros k K. constructor; [intros []|constructor].
      * exists (length (w_sockets w)), a, []. split; [cbn; rewrite <- (sy_length _ _ _ _ _ SY); apply nth_app_last|].
        split; [cbn; apply nth_app_last|]. apply in_or_app. right. now left.
    + intros i J. left. destruct (IK _ J) as [j K]. exists j. split; [exact K|discriminate].
    + intros fd0 J. left. destruct (LK _ J) as [j K]. exists j. split; [exact K|discriminate].
    + intros k M. apply made_sender in M. subst k. exists (length nums). apply nth_app_last.
  - (* bind sender fails *)
    rewrite H in R |- *. unfold bind_event in R |- *. rewrite H0 in R |- *. pose proof (fails_inv _ _ _ _ _ _ R) as ->.
    eapply (assemble T) with (o := bystander); [exact I0|exact ST|exact R|apply extends_refl| | | | | |].
    + apply nobody_touched. intros e0 k [<-|[]] [].
    + exact SY.
    + intros u. cbn. destruct (u =? t) eqn:E; [now right|left; split; [reflexivity|discriminate]].
    + intros i J. left. destruct (IK _ J) as [j K]. exists j. split; [exact K|discriminate].
    + intros fd0 J. left. destruct (LK _ J) as [j K]. exists j. split; [exact K|discriminate].
    + intros k M. exfalso. revert M. apply not_made; intros ? ? ? [E|[]]; discriminate.
  - (* the receiver is dropped *)
    rewrite H in R |- *. assert (O : ConcurrentSpec.owns s (ConcurrentSpec.ByCall t) fd) by (cbn; rewrite H; now left).
    destruct (owner_socket _ _ _ _ _ I0 O) as (k & K & E). rewrite E in R |- *.
    pose proof R as R0. apply wrun_cons_inv in R0 as (w1 & W & R0). apply wrun_nil_inv in R0. subst w1.
    eapply (assemble T) with (o := ConcurrentSpec.ByCall t); [exact I0|exact ST|exact R|apply extends_refl| | | | | |].
    + intros e0 k0 [<-|[]] Q. cbn in Q. subst k0. exists fd. auto.
    + eapply sync_close; [exact SY|exact K|exact W].
    + intros u. cbn. destruct (Nat.eqb_spec u t) as [->|N]; [now right|left; split; [reflexivity|congruence]].
    + intros i J. left. destruct (IK _ J) as [j Kj]. exists j. split; [exact Kj|discriminate].
    + intros fd0 J. left. destruct (LK _ J) as [j Kj]. exists j. split; [exact Kj|discriminate].
    + intros k0 M. exfalso. revert M. apply not_made; intros ? ? ? [Q|[]]; discriminate.
  - (* return *)
    apply wrun_nil_inv in R. subst w'.
    eapply (assemble T) with (o := bystander); [exact I0|exact ST|constructor|apply extends_refl|intros e k []| | | | |].
    + exact SY.
    + intros u. cbn. destruct (u =? t) eqn:E; [now right|left; split; [reflexivity|discriminate]].
    + cbn. intros i J. apply in_app_or in J as [J|J].
      * left. destruct (IK _ J) as [j K]. exists j. split; [exact K|discriminate].
      * right. destruct r as [i'|e|q]; [|contradiction|contradiction]. destruct J as [->|[]].
        pose proof (pi_threads _ _ _ I0 t) as TA. cbn in TA. rewrite H in TA. cbn in TA. destruct TA as [TA TB]. split.
        -- rewrite app_nil_r. split; [eapply receiver_weaken; exact TA|exact TB].
        -- exists t. apply in_or_app. right. now left.
    + intros fd J. left. destruct (LK _ J) as [j K]. exists j. split; [exact K|discriminate].
    + intros k M. now apply made_nil in M.
  - (* start *)
    rewrite H in R |- *. rewrite nth_middle in R |- *.
    assert (IN : nth_error (Concurrent.st_instances s) (length before) = Some i) by (rewrite H; apply nth_middle).
    assert (O1 : ConcurrentSpec.owns s (ConcurrentSpec.ByInstance (length before)) (Concurrent.in_receiver i)) by (exists i; cbn; auto).
    assert (O2 : ConcurrentSpec.owns s (ConcurrentSpec.ByInstance (length before)) (Concurrent.in_sender i)) by (exists i; cbn; auto).
    destruct (owner_socket _ _ _ _ _ I0 O1) as (k1 & K1 & E1). destruct (owner_socket _ _ _ _ _ I0 O2) as (k2 & K2 & E2). rewrite E1, E2 in R |- *.
    pose proof R as R0. apply wrun_cons_inv in R0 as (w1 & W1 & R0). apply wrun_cons_inv in R0 as (w2 & W2 & R0). apply wrun_nil_inv in R0. subst w2.
    pose proof (pi_instances _ _ _ I0 i (nth_error_In _ _ IN)) as [[(k3 & a & n & q & K3 & A1 & _ & A2) _] RV]. cbn in K3, A1.
    assert (k3 = k1) by (unfold is_socket in K1; cbn in K1; congruence). subst k3.
    assert (NE : k2 <> k1).
    { intros ->. pose proof (sy_nodup _ _ _ _ _ SY) as ND. rewrite NoDup_nth_error in ND.
      assert (Q : Concurrent.in_receiver i = Concurrent.in_sender i).
      { apply ND; [apply nth_error_Some; congruence|]. unfold is_socket in K1, K2. cbn in K1, K2. congruence. }
      revert Q. exact (proj2 (proj2 (ConcurrentProofs.p_C80_one_owner s (pinv_reachable _ _ _ I0))) i (nth_error_In _ _ IN)). }
    eapply (assemble T) with (o := ConcurrentSpec.ByInstance (length before)); [exact I0|exact ST|exact R|apply extends_refl| | | | | |].
    + intros e k [<-|[<-|[]]] Q; cbn in Q; subst k; eauto.
    + cbn. eapply sync_close; [|exact K2|exact W2]. eapply sync_quiet; [exact SY|exact W1|]. intros fd k _ [].
    + intros u. left. split; [reflexivity|discriminate].
    + cbn. intros i' J. left. apply (nth_not_middle _ i) in J as (j & J & N). exists j. rewrite <- H in J. split; [exact J|congruence].
    + cbn. intros fd [<-|J].
      * right. assert (X : exists c s0, nth_error (w_sockets w1) k1 = Some {| sk_host := h; sk_address := a; sk_end := Listening c s0 |} /\ is_open (Listening c s0) = true).
        { inversion W1 as [| | | |w0 k0 s1 n0 q0 cfg0 H0 E0| | | | | |]; subst. rewrite A1 in H0. injection H0 as <-.
          eexists _, _. split; [exact (set_end_same _ _ _ _ A1)|reflexivity]. }
        destruct X as (c & s0 & X1 & X2). destruct (kept _ _ _ _ _ _ W2 X1) as ([h' a' e'] & Y & Y1 & Y2 & Y3); [cbn; congruence|].
        cbn -[is_open] in Y1, Y2, Y3. subst h' a'. destruct e' as [| |c' s2|]; cbn -[is_open] in Y3; try contradiction. destruct Y3 as [<- Y3].
        exists k1, a, c, s2, i. split; [exact K1|]. split; [exact Y|]. split; [congruence|].
        split; [destruct RV as (t & RV); exists t; apply in_or_app; auto|]. split; [reflexivity|].
        split; apply in_or_app; [left; exact A2|right; now left].
      * left. destruct (LK _ J) as [j K]. exists j. split; [exact K|discriminate].
    + intros k M. exfalso. revert M. apply not_made; intros ? ? ? [Q|[Q|[]]]; discriminate.
  - (* drop *)
    rewrite H in R |- *. rewrite nth_middle in R |- *.
    assert (IN : nth_error (Concurrent.st_instances s) (length before) = Some i) by (rewrite H; apply nth_middle).
    assert (O1 : ConcurrentSpec.owns s (ConcurrentSpec.ByInstance (length before)) (Concurrent.in_receiver i)) by (exists i; cbn; auto).
    assert (O2 : ConcurrentSpec.owns s (ConcurrentSpec.ByInstance (length before)) (Concurrent.in_sender i)) by (exists i; cbn; auto).
    destruct (owner_socket _ _ _ _ _ I0 O1) as (k1 & K1 & E1). destruct (owner_socket _ _ _ _ _ I0 O2) as (k2 & K2 & E2). rewrite E1, E2 in R |- *.
    pose proof R as R0. apply wrun_cons_inv in R0 as (w1 & W1 & R0). apply wrun_cons_inv in R0 as (w2 & W2 & R0). apply wrun_nil_inv in R0. subst w2.
    eapply (assemble T) with (o := ConcurrentSpec.ByInstance (length before)); [exact I0|exact ST|exact R|apply extends_refl| | | | | |].
    + intros e k [<-|[<-|[]]] Q; cbn in Q; subst k; eauto.
    + cbn. eapply sync_ext; [eapply sync_close; [eapply sync_close; [exact SY|exact K1|exact W1]|exact K2|exact W2]|].
      intros x. rewrite !filter_In. tauto.
    + intros u. left. split; [reflexivity|discriminate].
    + cbn. intros i' J. left. apply (nth_not_middle _ i) in J as (j & J & N). exists j. rewrite <- H in J. split; [exact J|congruence].
    + cbn. intros fd J. left. destruct (LK _ J) as [j K]. exists j. split; [exact K|discriminate].
    + intros k M. exfalso. revert M. apply not_made; intros ? ? ? [Q|[Q|[]]]; discriminate.
  - now destruct (NL fd).
  - (* the rest of the program opens a socket *)
    unfold bind_event in R |- *. rewrite H in R |- *.
    pose proof R as R0. apply wrun_cons_inv in R0 as (w1 & W & R0). apply wrun_nil_inv in R0. subst w1.
    apply bind_sender_inv in W as (_ & B & ->).
    eapply (assemble T) with (o := bystander); [exact I0|exact ST|exact R|apply extends_app| | | | | |].
    + apply nobody_touched. intros e k [<-|[]] [].
    + cbn. now apply sync_open.
    + intros u. left. split; [reflexivity|discriminate].
    + intros i J. left. destruct (IK _ J) as [j K]. exists j. split; [exact K|discriminate].
    + intros fd0 J. left. destruct (LK _ J) as [j K]. exists j. split; [exact K|discriminate].
    + intros k M. apply made_sender in M. subst k. exists (length nums). apply nth_app_last.
  - (* ... and closes one *)
    assert (O : ConcurrentSpec.owns s (ConcurrentSpec.ByOther (length before)) fd) by (cbn; rewrite H; apply nth_middle).
    destruct (owner_socket _ _ _ _ _ I0 O) as (k & K & E). rewrite E in R |- *.
    pose proof R as R0. apply wrun_cons_inv in R0 as (w1 & W & R0). apply wrun_nil_inv in R0. subst w1.
    eapply (assemble T) with (o := ConcurrentSpec.ByOther (length before)); [exact I0|exact ST|exact R|apply extends_refl| | | | | |].
    + intros e0 k0 [<-|[]] Q. cbn in Q. subst k0. exists fd. auto.
    + cbn. eapply sync_close; [exact SY|exact K|exact W].
    + intros u. left. split; [reflexivity|discriminate].
    + intros i J. left. destruct (IK _ J) as [j Kj]. exists j. split; [exact Kj|discriminate].
    + intros fd0 J. left. destruct (LK _ J) as [j Kj]. exists j. split; [exact Kj|discriminate].
    + intros k0 M. exfalso. revert M. apply not_made; intros ? ? ? [Q|[]]; discriminate.
Qed.

(** ** Other steps *)
Lemma listener_step_open T w k l w' s s' : wstep T w (WListener k l) w' -> nth_error (w_sockets w) k = Some s ->
  nth_error (w_sockets w') k = Some s' -> exists c n n', sk_end s = Listening c n /\ s' = with_end s (Listening c n').
Proof.
  intros S H H'. destruct (listener_inv _ _ _ _ _ S) as (s0 & c & n & n' & H0 & E & _ & ->). rewrite H in H0. injection H0 as <-.
  rewrite (set_end_same _ _ _ _ H) in H'. injection H' as <-. eauto.
Qed.
Lemma wlistener_kept T w k l w' j s : wstep T w (WListener k l) w' -> nth_error (w_sockets w) j = Some s -> j <> k ->
  nth_error (w_sockets w') j = Some s.
Proof.
  intros S H N. destruct (listener_inv _ _ _ _ _ S) as (s0 & c & n & n' & H0 & E & _ & ->). cbn. rewrite nth_error_set_nth.
  destruct (Nat.eqb_spec k j); [congruence|exact H].
Qed.
Lemma sync_listener_open T h nums w l next k lab w' s s' : sync h nums w l next -> wstep T w (WListener k lab) w' ->
  nth_error (w_sockets w) k = Some s -> is_open (sk_end s) = true ->
  nth_error (w_sockets w') k = Some s' -> is_open (sk_end s') = true -> sync h nums w' l next.
Proof.
  intros Y S H O H' O'. eapply sync_step; [exact Y|exact S|]. intros fd j s1 s2 _ H1 H2 CL. cbn in CL. subst j.
  rewrite H in H1. injection H1 as <-. rewrite H' in H2. injection H2 as <-.
  destruct (listener_step_open _ _ _ _ _ _ _ S H H') as (c & n & n' & _ & ->). split; [congruence|]. split; reflexivity.
Qed.
Lemma sync_listener_closed T h nums w l next fd k lab w' s' : sync h nums w l next -> nth_error nums fd = Some k ->
  wstep T w (WListener k lab) w' -> nth_error (w_sockets w') k = Some s' -> is_open (sk_end s') = false ->
  sync h nums w' (filter (fun x => negb (fst x =? fd)) l) next.
Proof.
  intros [A B C D] K S H' O'. constructor; auto.
  - intros fd' k' K'. destruct (C _ _ K') as (s0 & H0 & Hh & E). destruct (Nat.eq_dec k' k) as [->|NE].
    + assert (fd' = fd). { rewrite NoDup_nth_error in B. apply B; [apply nth_error_Some; congruence|congruence]. } subst fd'.
      exists s'. split; [exact H'|]. destruct (listener_step_open _ _ _ _ _ _ _ S H0 H') as (c & n & n' & _ & ->). split; [exact Hh|].
      intros a. rewrite filter_In. cbn [fst]. rewrite Nat.eqb_refl. cbn. cbn in O'. rewrite O'. intuition discriminate.
    + exists s0. split; [eapply wlistener_kept; eassumption|]. split; [exact Hh|].
      intros a. rewrite filter_In, E. cbn. assert (X : fd' <> fd) by congruence. apply Nat.eqb_neq in X. rewrite X. cbn. tauto.
  - intros fd' a I. apply filter_In in I as [I _]. eauto.
Qed.

Lemma outside_assemble T h tr p evs w' o :
  pinv h tr p -> wrun T (pa_world p) evs w' -> only_of p o evs ->
  sync h (pa_sockets p) w' (Concurrent.st_sockets (pa_process p)) (Concurrent.st_next (pa_process p)) ->
  (forall t, ConcurrentSpec.ByCall t <> o) -> (forall j, ConcurrentSpec.ByInstance j <> o) ->
  (forall j fd, nth_error (Concurrent.st_listeners (pa_process p)) j = Some fd -> ConcurrentSpec.ByListener j <> o \/
     listener_at h (pa_sockets p) w' (world_events tr ++ evs) (steps_of tr) fd) ->
  pinv h (tr ++ [(None, evs)]) {| pa_process := pa_process p; pa_world := w'; pa_sockets := pa_sockets p |}.
Proof.
  intros I R U Y TH IN LI.
  assert (SO : steps_of (tr ++ [(None, evs)]) = steps_of tr) by (rewrite steps_of_app; cbn; now rewrite app_nil_r).
  assert (WE : world_events (tr ++ [(None, evs)]) = world_events tr ++ evs) by (rewrite world_events_app; cbn; now rewrite app_nil_r).
  constructor; cbn [pa_process pa_world pa_sockets]; rewrite ?SO, ?WE.
  - apply I.
  - exact Y.
  - intros t. eapply thread_kept; [exact (pi_threads _ _ _ I t)|apply extends_refl|exact R|].
    intros fd Q. exact (other_untouched _ _ _ _ (ConcurrentSpec.ByCall t) _ _ I U Q (TH t)).
  - intros i Q. destruct (pi_instances _ _ _ I i Q) as [B C]. apply In_nth_error in Q as [j J].
    split; [|auto]. eapply instance_kept; [exact B|apply extends_refl|exact R| |];
      refine (other_untouched _ _ _ _ (ConcurrentSpec.ByInstance j) _ _ I U _ (IN j)); exists i; split; cbn; auto.
  - intros fd Q. pose proof (pi_listeners _ _ _ I fd Q) as L. apply In_nth_error in Q as [j J]. destruct (LI j fd J) as [N|A]; [|exact A].
    eapply listener_kept; [exact L|apply extends_refl|exact R| |auto].
    exact (other_untouched _ _ _ _ (ConcurrentSpec.ByListener j) _ _ I U J N).
  - intros l0 evs0 k Q MK. apply in_app_or in Q as [Q|[E|[]]]; [|discriminate].
    exact (pi_made _ _ _ I _ _ _ Q MK).
Qed.

Lemma touched_listener h tr p fd j k lab : pinv h tr p -> nth_error (Concurrent.st_listeners (pa_process p)) j = Some fd -> is_socket p fd k ->
  only_of p (ConcurrentSpec.ByListener j) [WListener k lab].
Proof. intros I J K e0 k0 [<-|[]] Q. cbn in Q. subst k0. exists fd. auto. Qed.

Lemma listener_pinv T h tr p fd k l w' s : pinv h tr p ->
  In fd (Concurrent.st_listeners (pa_process p)) -> is_socket p fd k -> wstep T (pa_world p) (WListener k l) w' ->
  nth_error (w_sockets w') k = Some s -> is_open (sk_end s) = true ->
  pinv h (tr ++ [(None, [WListener k l])]) {| pa_process := pa_process p; pa_world := w'; pa_sockets := pa_sockets p |}.
Proof.
  intros I L K S H O. destruct (pi_listeners _ _ _ I fd L) as (k0 & a & c & n & i & K0 & A & AO & RV & E & E1 & E2).
  assert (k0 = k) by (unfold is_socket in K; congruence). subst k0.
  destruct (In_nth_error _ _ L) as [j J].
  eapply outside_assemble with (o := ConcurrentSpec.ByListener j); [exact I|apply wrun_one; exact S|eapply touched_listener; eassumption| | | |]; try discriminate.
  - eapply sync_listener_open; [exact (pi_sync _ _ _ I)|exact S|exact A|exact AO|exact H|exact O].
  - intros j' fd' J'. destruct (Nat.eq_dec j' j) as [->|N]; [right|left; congruence]. assert (fd' = fd) by congruence. subst fd'.
    destruct (listener_step_open _ _ _ _ _ _ _ S A H) as (c' & n0 & n' & Q & ->). cbn in Q. injection Q as <- <-.
    exists k, a, c, n', i. split; [exact K|]. split; [exact H|]. split; [exact O|]. split; [exact RV|]. split; [exact E|].
    split; apply in_or_app; left; assumption.
Qed.
Lemma listener_stops_pinv T h tr p fd k l w' s s' : pinv h tr p ->
  Concurrent.step (pa_process p) (Concurrent.LListenerStops fd) s' -> is_socket p fd k -> wstep T (pa_world p) (WListener k l) w' ->
  nth_error (w_sockets w') k = Some s -> is_open (sk_end s) = false ->
  pinv h (tr ++ [(Some (Concurrent.LListenerStops fd), [WListener k l])]) {| pa_process := s'; pa_world := w'; pa_sockets := pa_sockets p |}.
Proof.
  intros I ST K S H O. inversion ST as [| | | | | | | | | | | | | | | |s0 before fd0 after L| | |]; subst.
  assert (J : nth_error (Concurrent.st_listeners (pa_process p)) (length before) = Some fd) by (rewrite L; apply nth_middle).
  eapply assemble with (o := ConcurrentSpec.ByListener (length before));
    [exact I|exact ST|apply wrun_one; exact S|apply extends_refl|eapply touched_listener; eassumption| | | | |].
  - cbn. eapply sync_listener_closed; [exact (pi_sync _ _ _ I)|exact K|exact S|exact H|exact O].
  - intros u. left. split; [reflexivity|discriminate].
  - cbn. intros i Q. left. apply In_nth_error in Q as [j Q]. exists j. split; [exact Q|discriminate].
  - cbn. intros fd' Q. left. apply (nth_not_middle _ fd) in Q as (j & Q & N). exists j. rewrite <- L in Q. split; [exact Q|congruence].
  - intros k0 M. exfalso. revert M. apply not_made; intros ? ? ? [Q|[]]; discriminate.
Qed.

Lemma outside_pinv T h tr p e w' : pinv h tr p -> outside p e -> wstep T (pa_world p) e w' ->
  pinv h (tr ++ [(None, [e])]) {| pa_process := pa_process p; pa_world := w'; pa_sockets := pa_sockets p |}.
Proof.
  intros I OU S.
  assert (CASE : (exists j, e = WAddReceiver j) \/ (forall k, touches k e -> forall fd, In fd (ConcurrentSpec.open_fds (pa_process p)) -> ~ is_socket p fd k)).
  { destruct e; cbn; eauto; right; cbn in OU; intros k' T'; try contradiction; subst; exact OU. }
  assert (WE : world_events (tr ++ [(None, [e])]) = world_events tr ++ [e]) by (rewrite world_events_app; cbn; reflexivity).
  assert (SO : steps_of (tr ++ [(None, [e])]) = steps_of tr) by (rewrite steps_of_app; cbn; now rewrite app_nil_r).
  assert (PM : forall l0 evs0 k, In (Some l0, evs0) (tr ++ [(None, [e])]) -> made evs0 k -> exists fd, is_socket p fd k).
  { intros l0 evs0 k Q MK. apply in_app_or in Q as [Q|[E|[]]]; [|discriminate]. exact (pi_made _ _ _ I _ _ _ Q MK). }
  destruct CASE as [[j ->]|N].
  - constructor; cbn [pa_process pa_world pa_sockets]; rewrite ?SO, ?WE.
    + apply I.
    + eapply sync_quiet; [exact (pi_sync _ _ _ I)|exact S|]. intros fd k _ [].
    + intros t. eapply thread_kept; [exact (pi_threads _ _ _ I t)|apply extends_refl|apply wrun_one; exact S|].
      intros fd Q k K. constructor; [|constructor]. cbn. intros ->. exact (OU t fd Q K).
    + intros i Q. destruct (pi_instances _ _ _ I i Q) as [[B C] D]. split; [|exact D].
      split; [eapply receiver_added; eassumption|eapply sender_added; eassumption].
    + intros fd Q. pose proof (pi_listeners _ _ _ I fd Q) as L. eapply listener_kept; [exact L|apply extends_refl|apply wrun_one; exact S| |auto].
      intros k K. constructor; [|constructor]. cbn. intros ->. destruct L as (k0 & a & c & n & i & K0 & A & _).
      assert (k0 = k) by congruence. subst k0. inversion S as [| | |w0 k1 s n0 q0 H0 E| | | | | | |]; subst. rewrite A in H0. injection H0 as <-. discriminate.
    + exact PM.
  - assert (U : forall fd, In fd (ConcurrentSpec.open_fds (pa_process p)) -> untouched_fd (pa_sockets p) [e] fd).
    { intros fd O k K. constructor; [|constructor]. intros T'. exact (N k T' fd O K). }
    assert (OW : forall o fd, ConcurrentSpec.owns (pa_process p) o fd -> untouched_fd (pa_sockets p) [e] fd).
    { intros o fd O. apply U. eapply owner_open; [eapply pinv_reachable; exact I|exact O]. }
    constructor; cbn [pa_process pa_world pa_sockets]; rewrite ?SO, ?WE.
    + apply I.
    + eapply sync_step; [exact (pi_sync _ _ _ I)|exact S|]. intros fd k s s' K H H' CL.
      assert (T' : touches k e) by (destruct e; cbn in CL |- *; auto; contradiction).
      assert (X : is_open (sk_end s) = false).
      { destruct (sy_socket _ _ _ _ _ (pi_sync _ _ _ I) _ _ K) as (s0 & H0 & _ & E). rewrite H in H0. injection H0 as <-.
        destruct (is_open (sk_end s)); [|reflexivity]. exfalso. apply (N k T' fd); [|exact K].
        unfold ConcurrentSpec.open_fds. apply in_map_iff. exists (fd, sk_address s). split; [reflexivity|]. now apply E. }
      exfalso. destruct e; cbn in CL; try contradiction; subst.
      * inversion S; subst. congruence.
      * inversion S as [| | | | | | | | | |w0 k1 s3 c3 n3 l3 n4 H3 E3 ST NA]; subst. rewrite H in H3. injection H3 as <-.
        rewrite E3 in X. cbn in X. destruct (ns_pc n3) eqn:P; try discriminate. destruct ST; try congruence.
    + intros t. eapply thread_kept; [exact (pi_threads _ _ _ I t)|apply extends_refl|apply wrun_one; exact S|].
      intros fd Q. exact (OW (ConcurrentSpec.ByCall t) fd Q).
    + intros i Q. destruct (pi_instances _ _ _ I i Q) as [B C]. apply In_nth_error in Q as [j J]. split; [|exact C].
      eapply instance_kept; [exact B|apply extends_refl|apply wrun_one; exact S| |]; apply (OW (ConcurrentSpec.ByInstance j)); exists i; cbn; auto.
    + intros fd Q. pose proof (pi_listeners _ _ _ I fd Q) as L. apply In_nth_error in Q as [j J].
      eapply listener_kept; [exact L|apply extends_refl|apply wrun_one; exact S| |auto]. exact (OW (ConcurrentSpec.ByListener j) fd J).
    + exact PM.
Qed.

Lemma pinv_init h : pinv h [] parallel_init.
Proof.
  constructor; cbn; try contradiction; auto.
  - constructor.
  - constructor; cbn; [reflexivity|constructor| |contradiction]. intros [|fd] k; discriminate.
Qed.
Lemma pinv_run T h tr p : prun T h tr p -> pinv h tr p.
Proof.
  induction 1 as [|tr p l evs p' R IH S]; [apply pinv_init|].
  destruct S.
  - now apply (process_pinv T).
  - eapply listener_pinv; eassumption.
  - eapply listener_stops_pinv; eassumption.
  - eapply outside_pinv; eassumption.
Qed.

(** ** C138 *)
(** C138. Both views are views of the same execution: to every execution of the whole belongs one of the process alone (Concurrent.v, so C79-C84
    hold for it) and one of the sockets alone (World.v, so C85-C90 and C109 hold for it). *)
Lemma p_C138_two_views :
  forall (T : topology) (h : nat) (tr : list (option Concurrent.label * list event)) (p : parallel),
    prun T h tr p ->
    Concurrent.run Concurrent.initial (steps_of tr) (pa_process p) /\ wrun T world_init (world_events tr) (pa_world p).
Proof.
  intros T h tr p R. split; [exact (pi_reach _ _ _ (pinv_run _ _ _ _ R))|].
  induction R as [|tr p l evs p' R IH S]; [constructor|]. rewrite world_events_app. cbn. rewrite app_nil_r.
  eapply wrun_app; [exact IH|]. destruct S; cbn [pa_world]; try (apply wrun_one; assumption). assumption.
Qed.

(** C138. At every moment, also in the middle of calls: a descriptor the process ever had is open, at an address, exactly if its socket is, at that address; no
    two descriptors are the same socket, and every open one is a socket. *)
Lemma p_C138_sockets_agree :
  forall (T : topology) (h : nat) (tr : list (option Concurrent.label * list event)) (p : parallel),
    prun T h tr p ->
    (forall fd k, is_socket p fd k -> forall a, ConcurrentSpec.address_of (pa_process p) fd a <-> open_at (pa_world p) k h a) /\
    (forall fd fd' k, is_socket p fd k -> is_socket p fd' k -> fd = fd') /\
    (forall fd, In fd (ConcurrentSpec.open_fds (pa_process p)) -> exists k, is_socket p fd k).
Proof.
  intros T h tr p R. pose proof (pinv_run _ _ _ _ R) as I. destruct (pi_sync _ _ _ I) as [A B C D]. split; [|split].
  - intros fd k K a. destruct (C _ _ K) as ([h0 a0 e0] & H & Hh & E). cbn in Hh. subst h0. unfold ConcurrentSpec.address_of, open_at. rewrite E. cbn -[is_open].
    split; [intros [O ->]; eauto|]. intros (e & H' & O). rewrite H in H'. injection H' as -> ->. auto.
  - intros fd fd' k K K'. unfold is_socket in *. rewrite NoDup_nth_error in B. apply B; [apply nth_error_Some; congruence|congruence].
  - intros fd O. apply (ConcurrentProofs.p_C80_one_owner _ (pinv_reachable _ _ _ I)) in O as [o O].
    destruct (owner_socket _ _ _ _ _ I O) as (k & K & _). eauto.
Qed.

(** C138. Nothing leaks: every socket a step of the process ever bound - also in a call of [new] that failed afterwards - is closed, or belongs to exactly
    one of: a call in progress, a live value, a listening thread, the rest of the program. *)
Lemma p_C138_no_leaks :
  forall (T : topology) (h : nat) (tr : list (option Concurrent.label * list event)) (p : parallel) (l : Concurrent.label) (evs : list event)
         (k h' : nat) (a b : address),
    prun T h tr p -> In (Some l, evs) tr -> In (WBindReceiver k h' a b) evs \/ In (WBindSender k h' a b) evs ->
    (forall x y, ~ open_at (pa_world p) k x y) \/
    exists o fd, is_socket p fd k /\ ConcurrentSpec.owns (pa_process p) o fd /\
      forall o', ConcurrentSpec.owns (pa_process p) o' fd -> o' = o.
Proof.
  intros T h tr p l evs k h' a b R J M. pose proof (pinv_run _ _ _ _ R) as I.
  destruct (pi_made _ _ _ I l evs k J) as (fd & K); [exists h', a, b; exact M|].
  destruct (sy_socket _ _ _ _ _ (pi_sync _ _ _ I) _ _ K) as ([h0 a0 e0] & H & Hh & E). cbn -[is_open] in Hh, E. subst h0.
  destruct (is_open e0) eqn:O.
  - right. assert (F : In fd (ConcurrentSpec.open_fds (pa_process p))).
    { unfold ConcurrentSpec.open_fds. apply in_map_iff. exists (fd, a0). split; [reflexivity|]. now apply E. }
    pose proof (pinv_reachable _ _ _ I) as RE.
    apply (ConcurrentProofs.p_C80_one_owner _ RE) in F as [o F]. exists o, fd. split; [exact K|]. split; [exact F|].
    intros o' F'. exact (owner_unique _ _ _ _ RE F' F).
  - left. intros x y (e & H' & O'). rewrite H in H'. injection H' as _ _ ->. congruence.
Qed.

(** C138. A live value has its two sockets, open and of the right kind: the receiving one waits, the sending one can send; both were bound as its configuration
    says. Whatever other threads do, this is so from the moment its call of [new] has bound them, before it returns. *)
Lemma p_C138_values :
  forall (T : topology) (h : nat) (tr : list (option Concurrent.label * list event)) (p : parallel) (v : Concurrent.instance),
    prun T h tr p ->
    In v (Concurrent.st_instances (pa_process p)) \/ (exists t, Concurrent.st_threads (pa_process p) t = Concurrent.Returning (Ok v)) ->
    exists ka kb a b n qa qb,
      is_socket p (Concurrent.in_receiver v) ka /\ is_socket p (Concurrent.in_sender v) kb /\ ka <> kb /\
      nth_error (w_sockets (pa_world p)) ka = Some {| sk_host := h; sk_address := a; sk_end := Waiting n qa |} /\
      nth_error (w_sockets (pa_world p)) kb = Some {| sk_host := h; sk_address := b; sk_end := Sending qb |} /\
      In (WBindReceiver ka h (cf_receiving_address (Concurrent.in_config v)) a) (world_events tr) /\
      In (WBindSender kb h (cf_sending_address (Concurrent.in_config v)) b) (world_events tr) /\
      n = added ka (world_events tr) /\ (~ In v (Concurrent.st_instances (pa_process p)) -> n = 0).
Proof.
  intros T h tr p v R V. pose proof (pinv_run _ _ _ _ R) as I.
  assert (X : receiver_at h (pa_sockets p) (pa_world p) (world_events tr) (Concurrent.in_receiver v) (Concurrent.in_config v)
      (fun n => ~ In v (Concurrent.st_instances (pa_process p)) -> n = 0) /\
    sender_at h (pa_sockets p) (pa_world p) (world_events tr) (Concurrent.in_sender v) (Concurrent.in_config v)).
  { destruct V as [V|(t & V)].
    - destruct (pi_instances _ _ _ I v V) as [[(k & a & n & q & A & B & C & D) S] _]. split; [|exact S]. exists k, a, n, q. tauto.
    - pose proof (pi_threads _ _ _ I t) as Q. rewrite V in Q. destruct Q as [(k & a & n & q & A & B & C & D) S].
      split; [|exact S]. exists k, a, n, q. auto. }
  destruct X as [(ka & a & n & qa & A & B & C & D) (kb & b & qb & A' & B' & D')].
  exists ka, kb, a, b, n, qa, qb. repeat split; auto; [intros ->; congruence|].
  destruct (p_C138_two_views _ _ _ _ R) as (_ & W). destruct (world_inv_run _ _ _ W) as (_ & J & _). specialize (J ka _ B). cbn in J. apply J.
Qed.

(** C138. Between the two binds of a call of [new] the receiving socket is the call's alone: it waits, with no receiver. *)
Lemma p_C138_call_in_progress :
  forall (T : topology) (h : nat) (tr : list (option Concurrent.label * list event)) (p : parallel) (t : nat) (cfg : config) (fd : nat),
    prun T h tr p -> Concurrent.st_threads (pa_process p) t = Concurrent.BindingSender cfg fd ->
    exists k a q,
      is_socket p fd k /\
      nth_error (w_sockets (pa_world p)) k = Some {| sk_host := h; sk_address := a; sk_end := Waiting 0 q |} /\
      In (WBindReceiver k h (cf_receiving_address cfg) a) (world_events tr).
Proof.
  intros T h tr p t cfg fd R V. pose proof (pi_threads _ _ _ (pinv_run _ _ _ _ R) t) as Q. rewrite V in Q.
  destruct Q as (k & a & n & q & A & B & <- & D). exists k, a, q. auto.
Qed.

(** C138. A listening thread is the listener of World.v on the receiving socket of a value that some call of [new] returned, set up as that value's
    configuration says, with as many receivers as were added to it; and these, and no others, have been called with exactly the datagrams delivered to
    that socket and received so far, in order, each cut to the buffer size. *)
Lemma p_C138_listeners :
  forall (T : topology) (h : nat) (tr : list (option Concurrent.label * list event)) (p : parallel) (fd : nat),
    prun T h tr p -> In fd (Concurrent.st_listeners (pa_process p)) ->
    exists (k : nat) (a : address) (c : net_config) (s : net_state) (t : nat) (v : Concurrent.instance),
      is_socket p fd k /\
      nth_error (w_sockets (pa_world p)) k = Some {| sk_host := h; sk_address := a; sk_end := Listening c s |} /\
      (forall r, ns_pc s <> Stopped r) /\
      In (Concurrent.LReturn t (Ok v)) (steps_of tr) /\ Concurrent.in_receiver v = fd /\
      In (WBindReceiver k h (cf_receiving_address (Concurrent.in_config v)) a) (world_events tr) /\
      In (WStart k (Concurrent.in_config v)) (world_events tr) /\
      configured_as c (Concurrent.in_config v) (added k (world_events tr)) /\
      (forall r, r < added k (world_events tr) -> between_datagrams s ->
         calls r (trace_at k (world_events tr)) =
         map (fun d => (firstn (cf_buffersize (Concurrent.in_config v)) (fst d), snd d))
             (firstn (recvs (trace_at k (world_events tr))) (delivered k (world_events tr)))) /\
      (forall r, added k (world_events tr) <= r -> calls r (trace_at k (world_events tr)) = []).
Proof.
  intros T h tr p fd R L. destruct (pi_listeners _ _ _ (pinv_run _ _ _ _ R) fd L) as (k & a & c & s & v & K & H & O & (t & RV) & E & B & ST).
  destruct (p_C138_two_views _ _ _ _ R) as (_ & W). destruct (world_inv_run _ _ _ W) as (_ & J & _). specialize (J k _ H). cbn in J.
  destruct J as (J1 & _ & _ & cfg & J4 & J5 & J6). pose proof (J6 _ ST) as Q. subst cfg.
  exists k, a, c, s, t, v. split; [exact K|]. split; [exact H|]. split; [intros r Q; cbn in O; rewrite Q in O; discriminate|].
  split; [exact RV|]. split; [exact E|]. split; [exact B|]. split; [exact ST|].
  pose proof (arrivals_trace_at _ _ _ k W) as AT. split.
  { rewrite J4. split; [reflexivity|]. split; [reflexivity|]. cbn. destruct (cf_pollinterval _); split; congruence. }
  split; intros r Hr; destruct (p_C48_exactly_once_in_order _ _ _ _ r J1) as [X Y].
  - intros BD. rewrite J4 in X. destruct (X Hr) as (missing & X1 & _ & X2). rewrite (X2 BD), app_nil_r in X1. rewrite <- X1. unfold received. cbn [app]. now rewrite AT.
  - apply Y. rewrite J4. exact Hr.
Qed.

Lemma own_open_known h tr p s : pinv h tr p -> In s (w_sockets (pa_world p)) -> sk_host s = h -> is_open (sk_end s) = true ->
  In (sk_address s) (Concurrent.bound (pa_process p)) \/ exists k, open_at (pa_world p) k h (sk_address s) /\ forall fd, ~ is_socket p fd k.
Proof.
  intros I J H O. apply In_nth_error in J as [k J]. destruct (in_dec Nat.eq_dec k (pa_sockets p)) as [IN|NI].
  - left. apply In_nth_error in IN as [fd K]. destruct (sy_socket _ _ _ _ _ (pi_sync _ _ _ I) _ _ K) as (s0 & H0 & _ & E).
    rewrite J in H0. injection H0 as <-. unfold Concurrent.bound. apply in_map_iff. exists (fd, sk_address s). split; [reflexivity|]. now apply E.
  - right. exists k. split; [|intros fd K; apply NI; eapply nth_error_In; exact K]. destruct s as [h0 a0 e0]. cbn in *. subst. now exists e0.
Qed.
Lemma bindable_here h tr p env requested actual : pinv h tr p -> knows_the_host env h p ->
  os_bind env (Concurrent.bound (pa_process p)) requested = Ok actual -> bindable (pa_world p) h requested actual.
Proof.
  intros I SH OB. destruct (SH _ _ _ OB) as (P & U). unfold os_bind in OB.
  destruct (env_refuse env requested); [discriminate|]. destruct (existsb _ (Concurrent.bound _)) eqn:X; [discriminate|]. injection OB as <-.
  split; [|split; [|split; [exact P|]]].
  - destruct (addr_port requested =? 0)%N; [|reflexivity]. destruct requested; reflexivity.
  - intros NZ. apply N.eqb_neq in NZ. now rewrite NZ.
  - intros s J H OP. destruct (own_open_known _ _ _ _ I J H OP) as [IB|(k & OA & NO)]; [|now apply (U k)].
    destruct (conflict _ (sk_address s)) eqn:E; [|reflexivity]. rewrite <- not_true_iff_false in X. exfalso. apply X.
    apply existsb_exists. eauto.
Qed.
Lemma close_possible T w k s : nth_error (w_sockets w) k = Some s -> is_open (sk_end s) = true -> exists w', wrun T w [WClose k] w'.
Proof. intros H O. eexists. apply wrun_one. eapply wstep_close; eassumption. Qed.
Lemma owner_open_socket h tr p o fd : pinv h tr p -> ConcurrentSpec.owns (pa_process p) o fd ->
  exists k s, is_socket p fd k /\ socket_number p fd = k /\ nth_error (w_sockets (pa_world p)) k = Some s /\ is_open (sk_end s) = true.
Proof.
  intros I O. destruct (owner_socket _ _ _ _ _ I O) as (k & K & E). pose proof (owner_open _ _ _ (pinv_reachable _ _ _ I) O) as Q.
  unfold ConcurrentSpec.open_fds in Q. apply in_map_iff in Q as ([fd' a] & <- & Q). cbn in *.
  destruct (sy_socket _ _ _ _ _ (pi_sync _ _ _ I) _ _ K) as (s & H & _ & X). exists k, s. apply X in Q. tauto.
Qed.

(** C138. Nothing is held back: in every reachable state whatever step Concurrent.v allows can happen (a bind: if the answer of the operating system fits the
    sockets of the other processes of the host), and whatever a listener, or anybody else, can do can happen. *)
Lemma p_C138_steps_not_held_back :
  forall (T : topology) (h : nat) (tr : list (option Concurrent.label * list event)) (p : parallel) (l : Concurrent.label) (s' : Concurrent.state),
    prun T h tr p -> Concurrent.step (pa_process p) l s' -> (forall fd, l <> Concurrent.LListenerStops fd) ->
    (forall t env a, l = Concurrent.LBindReceiver t env \/ l = Concurrent.LBindSender t env \/ l = Concurrent.LOpen env a -> knows_the_host env h p) ->
    exists evs p', pstep T h p (Some l) evs p' /\ pa_process p' = s'.
Proof.
  intros T h tr p l s' R S NL SH. pose proof (pinv_run _ _ _ _ R) as I.
  assert (G : exists w', wrun T (pa_world p) (socket_events h p l) w').
  2: { destruct G as (w' & G). eexists _, _. split; [exact (pstep_process T h p l s' w' NL S G)|reflexivity]. }
  remember (pa_process p) as st eqn:EP. destruct S; subst s; try (exists (pa_world p); constructor; fail); cbn [socket_events].
  - rewrite H. unfold bind_event. rewrite H0. eexists. apply wrun_one. apply wstep_bind_receiver. eapply bindable_here; [exact I|apply (SH t env a); auto|exact H0].
  - rewrite H. unfold bind_event. rewrite H0. exists (pa_world p). apply wrun_one. constructor.
  - rewrite H. unfold bind_event. rewrite H0. eexists. apply wrun_one. apply wstep_bind_sender. eapply bindable_here; [exact I|apply (SH t env a); auto|exact H0].
  - rewrite H. unfold bind_event. rewrite H0. exists (pa_world p). apply wrun_one. constructor.
  - rewrite H. destruct (owner_open_socket h tr p (ConcurrentSpec.ByCall t) fd I) as (k & s & _ & -> & A & O); [cbn; rewrite H; now left|].
    eapply close_possible; eassumption.
  - rewrite H, nth_middle. assert (IN : nth_error (Concurrent.st_instances (pa_process p)) (length before) = Some i) by (rewrite H; apply nth_middle).
    destruct (pi_instances _ _ _ I i (nth_error_In _ _ IN)) as [[(ka & a & n & qa & A & B & _ & _) (kb & b & qb & A' & B' & _)] _].
    unfold socket_number. rewrite (nth_error_nth _ _ 0 A), (nth_error_nth _ _ 0 A'). eexists. eapply (wrun_app T _ [_] _ [_]); apply wrun_one.
    + eapply wstep_start; [exact B|reflexivity].
    + eapply wstep_close with (s := {| sk_host := h; sk_address := b; sk_end := Sending qb |}); [|reflexivity].
      cbn. rewrite nth_error_set_nth. destruct (Nat.eqb_spec ka kb) as [->|NE]; [congruence|exact B'].
  - rewrite H, nth_middle. assert (IN : nth_error (Concurrent.st_instances (pa_process p)) (length before) = Some i) by (rewrite H; apply nth_middle).
    destruct (pi_instances _ _ _ I i (nth_error_In _ _ IN)) as [[(ka & a & n & qa & A & B & _ & _) (kb & b & qb & A' & B' & _)] _].
    unfold socket_number. rewrite (nth_error_nth _ _ 0 A), (nth_error_nth _ _ 0 A'). eexists. eapply (wrun_app T _ [_] _ [_]); apply wrun_one.
    + eapply wstep_close; [exact B|reflexivity].
    + eapply wstep_close with (s := {| sk_host := h; sk_address := b; sk_end := Sending qb |}); [|reflexivity].
      cbn. rewrite nth_error_set_nth. destruct (Nat.eqb_spec ka kb) as [->|NE]; [congruence|exact B'].
  - unfold bind_event. rewrite H. eexists. apply wrun_one. apply wstep_bind_sender. eapply bindable_here; [exact I|apply (SH 0 env a); auto|exact H].
  - destruct (owner_open_socket h tr p (ConcurrentSpec.ByOther (length before)) fd I) as (k & s & _ & -> & A & O); [cbn; rewrite H; apply nth_middle|].
    eapply close_possible; eassumption.
Qed.
Lemma p_C138_listeners_not_held_back :
  forall (T : topology) (h : nat) (tr : list (option Concurrent.label * list event)) (p : parallel) (e : event) (w' : world),
    prun T h tr p -> wstep T (pa_world p) e w' ->
    (exists fd k l, e = WListener k l /\ is_socket p fd k /\ In fd (Concurrent.st_listeners (pa_process p))) \/ outside p e ->
    exists l p', pstep T h p l [e] p' /\ pa_world p' = w'.
Proof.
  intros T h tr p e w' R S [(fd & k & l & -> & K & L)|OU].
  - destruct (pi_listeners _ _ _ (pinv_run _ _ _ _ R) fd L) as (k0 & a & c & s & v & K0 & H & O & _).
    assert (k0 = k) by (unfold is_socket in K; congruence). subst k0. destruct (slot_kept _ _ _ _ _ _ S H) as (s2 & H2).
    destruct (is_open (sk_end s2)) eqn:OP.
    + eexists _, _. split; [eapply pstep_listener; eassumption|reflexivity].
    + apply in_split in L as (before & after & L). eexists _, _. split; [eapply pstep_listener_stops; try eassumption|reflexivity].
      eapply Concurrent.step_listener_stops. exact L.
  - eexists _, _. split; [eapply pstep_outside; eassumption|reflexivity].
Qed.
(** ** A concrete execution of several threads *)
Inductive psteps (T : topology) (h : nat) : parallel -> ptrace -> parallel -> Prop :=
| ps_nil p : psteps T h p [] p
| ps_cons p l evs p' tr p'' : pstep T h p l evs p' -> psteps T h p' tr p'' -> psteps T h p ((l, evs) :: tr) p''.
Lemma prun_steps T h tr p tr' p' : prun T h tr p -> psteps T h p tr' p' -> prun T h (tr ++ tr') p'.
Proof.
  intros R S. revert tr R. induction S as [p|p l evs p' tr' p'' S1 S IH]; intros tr R; [now rewrite app_nil_r|].
  change ((l, evs) :: tr') with ([(l, evs)] ++ tr'). rewrite app_assoc. apply IH. econstructor; eassumption.
Qed.
Lemma ps_process T h p l evs s' w' tr p'' : evs = socket_events h p l -> (forall fd, l <> Concurrent.LListenerStops fd) ->
  Concurrent.step (pa_process p) l s' -> wrun T (pa_world p) evs w' ->
  psteps T h {| pa_process := s'; pa_world := w'; pa_sockets := sockets_after p s' |} tr p'' ->
  psteps T h p ((Some l, evs) :: tr) p''.
Proof. intros -> N S W R. eapply ps_cons; [|exact R]. now apply pstep_process. Qed.

(** On host 1 two threads call [new] with the same sending address: the second thread binds its receiver first, but the first one wins the sending address.
    The other call drops its receiver and fails. A receiver is added, a datagram arrives, the value is started, and the receiver is called. *)
Definition ex_winner : Concurrent.instance := {| Concurrent.in_config := small_config; Concurrent.in_receiver := 1; Concurrent.in_sender := 2 |}.
Definition ex_race_start : ptrace :=
  [(Some (Concurrent.LCall 0 small_config), []);
   (Some (Concurrent.LCall 1 other_config), []);
   (Some (Concurrent.LOnceEnter 0), []);
   (Some (Concurrent.LBuild 0 true), []);
   (Some (Concurrent.LOnceLeave 0), []);
   (Some (Concurrent.LOncePass 1), []);
   (Some (Concurrent.LCheckPool 1), []);
   (Some (Concurrent.LCheckPool 0), []);
   (Some (Concurrent.LBindReceiver 1 ex_env), [WBindReceiver 0 1 (v4 0 0 0 0 9001) (v4 0 0 0 0 9001)]);
   (None, [WBindSender 1 0 (v4 0 0 0 0 8000) (v4 0 0 0 0 8000)]);
   (Some (Concurrent.LBindReceiver 0 ex_env), [WBindReceiver 2 1 (v4 0 0 0 0 9000) (v4 0 0 0 0 9000)])].
Definition ex_race_middle : ptrace :=
  [(Some (Concurrent.LBindSender 0 ex_env), [WBindSender 3 1 (v4 0 0 0 0 8000) (v4 0 0 0 0 8000)]);
   (Some (Concurrent.LBindSender 1 ex_env), [WBindFails 1 (v4 0 0 0 0 8000) EAddrInUse]);
   (None, [WSend 1 (Packet [x01; x02]) hello])].
Definition ex_race_end : ptrace :=
  [(Some (Concurrent.LDropReceiver 1), [WClose 0]);
   (Some (Concurrent.LReturn 0 (Ok ex_winner)), []);
   (Some (Concurrent.LReturn 1 (Err EAddrInUse)), []);
   (None, [WAddReceiver 2]);
   (None, [WDeliver 2 hello]);
   (Some (Concurrent.LStart 0), [WStart 2 small_config; WClose 3]);
   (None, [WListener 2 (LPoll 1)]);
   (None, [WListener 2 LRecv]);
   (None, [WListener 2 (LCall 0 [x01; x02] (v4 10 0 0 1 8000))]);
   (None, [WListener 2 (LReturn 0)]);
   (None, [WListener 2 LScopeEnd])].

Ltac norm_parallel := match goal with |- psteps ?T ?h ?p ?tr ?p2 => let p' := eval cbv in p in change (psteps T h p' tr p2) end.
Tactic Notation "silent" tactic3(tac) := norm_parallel; eapply ps_process; [reflexivity|discriminate|tac; first [reflexivity|discriminate]|constructor|].
Tactic Notation "binds" tactic3(tac) := norm_parallel; eapply ps_process; [reflexivity|discriminate|tac; reflexivity|eapply wrun_cons; [|constructor]|].
Ltac elsewhere_step := norm_parallel; eapply ps_cons; [apply pstep_outside; [cbn; first [exact I|idtac]|]|].
Tactic Notation "listens" tactic3(tac) := norm_parallel; eapply ps_cons; [eapply (pstep_listener _ _ _ 1 2);
  [now left|reflexivity|eapply wstep_listener; [reflexivity|reflexivity|tac; reflexivity|discriminate]|reflexivity|reflexivity]|].

Lemma ex_race_steps : exists p, psteps two_hosts 1 parallel_init ex_race_start p /\
  Concurrent.st_threads (pa_process p) 0 = Concurrent.BindingSender small_config 1 /\
  Concurrent.st_threads (pa_process p) 1 = Concurrent.BindingSender other_config 0 /\ pa_sockets p = [0; 2] /\
  exists p', psteps two_hosts 1 p ex_race_middle p' /\
  Concurrent.st_threads (pa_process p') 0 = Concurrent.Returning (Ok ex_winner) /\
  Concurrent.st_threads (pa_process p') 1 = Concurrent.DroppingReceiver 0 EAddrInUse /\
  Concurrent.st_instances (pa_process p') = [] /\ pa_sockets p' = [0; 2; 3] /\
  exists p'', psteps two_hosts 1 p' ex_race_end p'' /\ Concurrent.st_listeners (pa_process p'') = [1] /\ pa_sockets p'' = [0; 2; 3].
Proof.
  unfold ex_race_start. eexists. split; [|split; [|split; [|split]]].
  { silent (eapply Concurrent.step_call).
    silent (eapply Concurrent.step_call).
    silent (eapply Concurrent.step_once_enter).
    silent (eapply Concurrent.step_build_ok).
    silent (eapply Concurrent.step_once_leave).
    silent (eapply Concurrent.step_once_pass).
    silent (eapply Concurrent.step_check_ok).
    silent (eapply Concurrent.step_check_ok).
    binds (eapply Concurrent.step_bind_receiver).
    { match goal with |- wstep _ ?w _ _ => apply (wstep_bind_receiver two_hosts w 1) end; bind_free. }
    elsewhere_step.
    { match goal with |- wstep _ ?w _ _ => apply (wstep_bind_sender two_hosts w 0) end. bind_free. }
    binds (eapply Concurrent.step_bind_receiver).
    { match goal with |- wstep _ ?w _ _ => apply (wstep_bind_receiver two_hosts w 1) end; bind_free. }
    norm_parallel. apply ps_nil. }
  { reflexivity. }
  { reflexivity. }
  { reflexivity. }
  unfold ex_race_middle. eexists. split; [|split; [|split; [|split; [|split]]]].
  { binds (eapply Concurrent.step_bind_sender).
    { match goal with |- wstep _ ?w _ _ => apply (wstep_bind_sender two_hosts w 1) end; bind_free. }
    binds (eapply Concurrent.step_bind_sender_fails).
    { constructor. }
    elsewhere_step.
    { eapply (wstep_send two_hosts _ 1 _ [] (fun _ _ => Ok 2) 2); try reflexivity; [right; reflexivity|left; split; reflexivity]. }
    norm_parallel. apply ps_nil. }
  { reflexivity. }
  { reflexivity. }
  { reflexivity. }
  { reflexivity. }
  unfold ex_race_end. eexists. split; [|split].
  { binds (eapply Concurrent.step_drop_receiver).
    { eapply wstep_close; reflexivity. }
    silent (eapply Concurrent.step_return).
    silent (eapply Concurrent.step_return).
    elsewhere_step.
    { intros t fd. destruct t as [|[|t]]; cbn; tauto. }
    { eapply wstep_add_receiver; reflexivity. }
    elsewhere_step.
    { eapply wstep_deliver; [reflexivity|reflexivity|left; reflexivity|]. split; [reflexivity|]. split; [reflexivity|right; reflexivity]. }
    norm_parallel. eapply ps_process; [reflexivity|discriminate|eapply (Concurrent.step_start _ [] _ []); reflexivity| |].
    { eapply wrun_cons; [eapply wstep_start; reflexivity|]. eapply wrun_cons; [|constructor]. eapply wstep_close; reflexivity. }
    listens (apply step_poll_ready).
    listens (eapply step_recv).
    listens (eapply (step_call _ _ _ _ _ [] 0 [])).
    listens (eapply (step_return _ _ _ _ _ _ [] 0 [])).
    listens (eapply step_scope_end).
    norm_parallel. apply ps_nil. }
  { reflexivity. }
  { reflexivity. }
Qed.

(** two calls in progress, between their binds *)
Example ex_C138_calls :
  exists p, prun two_hosts 1 ex_race_start p /\ pa_sockets p = [0; 2] /\
    Concurrent.st_threads (pa_process p) 0 = Concurrent.BindingSender small_config 1 /\
    Concurrent.st_threads (pa_process p) 1 = Concurrent.BindingSender other_config 0.
Proof.
  destruct ex_race_steps as (p & S & A & B & C & _). exists p. split; [exact (prun_steps _ _ [] _ _ _ (prun_nil _ _) S)|auto].
Qed.
(** ... both have tried to bind the same sending address: one has a value, not returned yet; the other is about to drop its receiver *)
Example ex_C138_race :
  exists p, prun two_hosts 1 (ex_race_start ++ ex_race_middle) p /\ pa_sockets p = [0; 2; 3] /\
    Concurrent.st_threads (pa_process p) 0 = Concurrent.Returning (Ok ex_winner) /\
    Concurrent.st_threads (pa_process p) 1 = Concurrent.DroppingReceiver 0 EAddrInUse.
Proof.
  destruct ex_race_steps as (p & S & _ & _ & _ & p' & S' & A & B & _ & C & _). exists p'.
  split; [exact (prun_steps _ _ _ _ _ _ (prun_steps _ _ [] _ _ _ (prun_nil _ _) S) S')|auto].
Qed.
(** ... and a running listener, whose receiver has been called with the datagram that came before the start *)
Example ex_C138_listener :
  exists p, prun two_hosts 1 ((ex_race_start ++ ex_race_middle) ++ ex_race_end) p /\ is_socket p 1 2 /\
    Concurrent.st_listeners (pa_process p) = [1] /\
    delivered 2 (world_events ((ex_race_start ++ ex_race_middle) ++ ex_race_end)) = [([x01; x02], v4 10 0 0 1 8000)] /\
    calls 0 (trace_at 2 (world_events ((ex_race_start ++ ex_race_middle) ++ ex_race_end))) = [([x01; x02], v4 10 0 0 1 8000)].
Proof.
  destruct ex_race_steps as (p & S & _ & _ & _ & p' & S' & _ & _ & _ & _ & p'' & S'' & A & B). exists p''.
  split; [exact (prun_steps _ _ _ _ _ _ (prun_steps _ _ _ _ _ _ (prun_steps _ _ [] _ _ _ (prun_nil _ _) S) S') S'')|].
  split; [unfold is_socket; now rewrite B|]. split; [exact A|]. split; vm_compute; reflexivity.
Qed.
Example ex_C138_environment : knows_the_host ex_env 1 parallel_init.
Proof.
  intros bound req act H. destruct (ex_C137_environment bound req act H) as [P _]. split; [exact P|].
  intros k a (e & E & _). destruct k; discriminate.
Qed.

(** ** The process can be killed at any moment *)
Lemma close_all T h nums : forall l fds w next, sync h nums w l next -> NoDup fds -> (forall fd, In fd fds -> In fd (map fst l)) ->
  exists w' l', wrun T w (map WClose (map (fun fd => nth fd nums 0) fds)) w' /\ sync h nums w' l' next /\
    (forall fd a, In (fd, a) l' <-> In (fd, a) l /\ ~ In fd fds).
Proof.
  intros l fds. revert l. induction fds as [|fd fds IH]; intros l w next Y N IN.
  - exists w, l. split; [constructor|]. split; [exact Y|]. cbn. tauto.
  - inversion N as [|? ? NI ND]; subst. destruct (proj1 (in_map_iff _ _ _) (IN fd (or_introl eq_refl))) as ([fd' a] & E & I). cbn in E. subst fd'.
    pose proof (sy_below _ _ _ _ _ Y _ _ I) as L. rewrite <- (sy_length _ _ _ _ _ Y) in L. apply nth_error_Some in L.
    destruct (nth_error nums fd) as [k|] eqn:K; [|congruence].
    destruct (sy_socket _ _ _ _ _ Y _ _ K) as (s & H & Hh & X). apply X in I as [O _].
    pose proof (wstep_close T w k s H O) as S.
    pose proof (sync_close _ _ _ _ _ _ _ _ _ Y K S) as Y'.
    destruct (IH _ _ _ Y' ND) as (w' & l' & R & Y2 & E2).
    { intros f F. pose proof (IN f (or_intror F)) as F'. apply in_map_iff in F' as ([f' b] & E & F'). cbn in E. subst f'. apply in_map_iff. exists (f, b).
      split; [reflexivity|]. apply filter_In. split; [exact F'|]. cbn. apply negb_true_iff, Nat.eqb_neq. intros ->. contradiction. }
    exists w', l'. split; [|split; [exact Y2|]].
    + cbn [map]. rewrite (nth_error_nth _ _ 0 K). eapply (wrun_app T _ [_]); [apply wrun_one; exact S|exact R].
    + intros f b. rewrite E2, filter_In. cbn. rewrite negb_true_iff, Nat.eqb_neq. intuition congruence.
Qed.

(** C138. The process can be killed at any moment, in the middle of calls too: closing its descriptors is all that has to be done. No socket of it is open
    afterwards, those of other processes are as before, and an address that clashes with none of theirs can be bound again at once. *)
Lemma p_C138_crash :
  forall (T : topology) (h : nat) (tr : list (option Concurrent.label * list event)) (p : parallel),
    prun T h tr p ->
    exists w',
      wrun T (pa_world p) (map WClose (map (socket_number p) (ConcurrentSpec.open_fds (pa_process p)))) w' /\
      (forall fd k, is_socket p fd k -> forall x y, ~ open_at w' k x y) /\
      (forall k, (forall fd, ~ is_socket p fd k) -> nth_error (w_sockets w') k = nth_error (w_sockets (pa_world p)) k) /\
      (forall a, addr_port a <> 0%N ->
         (forall k b, open_at (pa_world p) k h b -> (forall fd, ~ is_socket p fd k) -> conflict a b = false) ->
         exists k w'', wstep T w' (WBindReceiver k h a a) w'').
Proof.
  intros T h tr p R. pose proof (pinv_run _ _ _ _ R) as I. pose proof (pi_sync _ _ _ I) as Y.
  pose proof (ConcurrentProofs.bk_nodup _ _ _ _ (ConcurrentProofs.books_hold _ (pinv_reachable _ _ _ I))) as N.
  destruct (close_all T _ _ _ (ConcurrentSpec.open_fds (pa_process p)) _ _ Y N (fun fd H => H)) as (w' & l' & R' & Y' & E).
  exists w'. split; [exact R'|].
  assert (A : forall fd k, is_socket p fd k -> forall x y, ~ open_at w' k x y).
  { intros fd k K x y (e & H & O). destruct (sy_socket _ _ _ _ _ Y' _ _ K) as (s & H' & _ & X). rewrite H in H'. injection H' as <-.
    assert (Q : In (fd, y) l') by (apply X; auto). apply E in Q as [Q NQ]. apply NQ. apply in_map_iff. exists (fd, y). auto. }
  split; [exact A|].
  assert (B : forall k, (forall fd, ~ is_socket p fd k) -> nth_error (w_sockets w') k = nth_error (w_sockets (pa_world p)) k).
  { intros k K. assert (G : forall fds w w1, wrun T w (map WClose (map (socket_number p) fds)) w1 ->
        (forall fd, In fd fds -> is_socket p fd (socket_number p fd)) -> nth_error (w_sockets w1) k = nth_error (w_sockets w) k).
    { induction fds as [|fd fds IH]; intros w w1 W F; [apply wrun_nil_inv in W; now subst|].
      cbn in W. apply wrun_cons_inv in W as (w2 & S & W). rewrite (IH _ _ W) by (intros; apply F; now right).
      destruct (close_inv _ _ _ _ S) as (s & H & _ & ->). cbn. rewrite nth_error_set_nth. destruct (Nat.eqb_spec (socket_number p fd) k) as [Q|]; [|reflexivity].
      exfalso. apply (K fd). rewrite <- Q. apply F. now left. }
    apply (G _ _ _ R'). intros fd F. apply (proj1 (ConcurrentProofs.p_C80_one_owner _ (pinv_reachable _ _ _ I))) in F as [o F].
    destruct (owner_socket _ _ _ _ _ I F) as (k0 & K0 & <-). exact K0. }
  split; [exact B|].
  intros a P C. eexists _, _. apply wstep_bind_receiver. split; [reflexivity|]. split; [reflexivity|]. split; [exact P|].
  intros s J H O. apply In_nth_error in J as [k J].
  destruct (in_dec Nat.eq_dec k (pa_sockets p)) as [IN|NI].
  - exfalso. apply In_nth_error in IN as [fd K]. apply (A fd k K (sk_host s) (sk_address s)). exists (sk_end s). split; [destruct s; exact J|exact O].
  - assert (NO : forall fd, ~ is_socket p fd k) by (intros fd K; apply NI; eapply nth_error_In; exact K).
    apply (C k); [|exact NO]. rewrite (B k NO) in J. exists (sk_end s). split; [rewrite <- H; destruct s; exact J|exact O].
Qed.
