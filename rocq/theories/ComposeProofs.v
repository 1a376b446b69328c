(** * ComposeProofs: proofs about Compose.v *)
From Verif Require Import Base Codec Network NetSpec NetworkProofs Ipv8 Ipv8Spec Ipv8Proofs World WorldSpec WorldProofs Compose.
From Coq Require Import Permutation.
Open Scope nat_scope.

Lemma calls_of_app a b : calls_of (a ++ b) = calls_of a ++ calls_of b.
Proof. apply flat_map_app. Qed.
Lemma events_of_app a b : events_of (a ++ b) = events_of a ++ events_of b.
Proof. apply flat_map_app. Qed.

Lemma wrun_cons_inv T w e tr w'' : wrun T w (e :: tr) w'' -> exists w', wstep T w e w' /\ wrun T w' tr w''.
Proof.
  intros H. change (e :: tr) with ([e] ++ tr) in H. apply wrun_app_inv in H as (w' & A & B). exists w'. split; [|exact B].
  change [e] with ([] ++ [e]) in A. apply wrun_snoc_inv in A as (w1 & A & S). inversion A; subst; [exact S|]. now destruct tr0.
Qed.
Lemma wrun_nil_inv T w w' : wrun T w [] w' -> w' = w.
Proof. intros H. inversion H; [reflexivity|]. now destruct tr. Qed.

(** ** Sockets nobody operates on *)
Definition touches (k : nat) (e : event) : Prop :=
  match e with
  | WAddReceiver j | WStart j _ | WClose j | WListener j _ => j = k
  | _ => False
  end.
Definition same_end (e e' : endpoint) : Prop :=
  match e, e' with
  | Sending _, Sending _ | Closed, Closed => True
  | Waiting n _, Waiting n' _ => n = n'
  | Listening c _, Listening c' _ => c = c' /\ is_open e = is_open e'
  | _, _ => False
  end.
Lemma same_end_refl e : same_end e e.
Proof. destruct e; cbn; auto. Qed.
Lemma same_end_trans a b c : same_end a b -> same_end b c -> same_end a c.
Proof. destruct a, b, c; cbn; try tauto; try congruence; intuition congruence. Qed.
Lemma same_end_arrive e d : same_end e (arrive e d).
Proof. destruct e; cbn; auto. Qed.
Definition same_socket (s s' : socket) : Prop :=
  sk_host s = sk_host s' /\ sk_address s = sk_address s' /\ same_end (sk_end s) (sk_end s').
Lemma kept T w e w' k s : wstep T w e w' -> nth_error (w_sockets w) k = Some s -> ~ touches k e ->
  exists s', nth_error (w_sockets w') k = Some s' /\ same_socket s s'.
Proof.
  intros S H N. destruct (slot_kept _ _ _ _ _ _ S H) as (s' & H'). exists s'. split; [exact H'|].
  destruct (slot_step _ _ _ _ _ _ S H') as [(s0 & G & C)|(-> & _)].
  - rewrite H in G. injection G as <-. destruct C; cbn in N; try congruence.
    + unfold same_socket. auto using same_end_refl.
    + unfold same_socket. cbn. auto using same_end_arrive.
  - exfalso. assert (L : length (w_sockets w) < length (w_sockets w)) by (apply nth_error_Some; congruence). lia.
Qed.
Lemma kept_run T w b w' : wrun T w b w' -> forall k s, nth_error (w_sockets w) k = Some s -> Forall (fun e => ~ touches k e) b ->
  exists s', nth_error (w_sockets w') k = Some s' /\ same_socket s s'.
Proof.
  induction 1 as [w|w tr w' e w'' R IH S]; intros k s H F.
  - exists s. split; [exact H|]. unfold same_socket. auto using same_end_refl.
  - apply Forall_app in F as [F1 F2]. inversion F2; subst. destruct (IH _ _ H F1) as (s1 & H1 & A1 & A2 & A3).
    destruct (kept _ _ _ _ _ _ S H1 H2) as (s2 & G & B1 & B2 & B3). exists s2. split; [exact G|].
    unfold same_socket. rewrite A1, A2. eauto using same_end_trans.
Qed.
(** A closed socket stays closed. *)
Lemma closed_kept T w e w' k s : wstep T w e w' -> nth_error (w_sockets w) k = Some s -> is_open (sk_end s) = false ->
  exists s', nth_error (w_sockets w') k = Some s' /\ is_open (sk_end s') = false.
Proof.
  intros S H N. destruct (slot_kept _ _ _ _ _ _ S H) as (s' & H'). exists s'. split; [exact H'|].
  destruct (slot_step _ _ _ _ _ _ S H') as [(s0 & G & C)|(-> & _)].
  - rewrite H in G. injection G as <-. destruct C as [| | | | |s c n l n' E ST NA]; try congruence; try (rewrite H0 in N; discriminate).
    rewrite E in N. cbn in N. cbn [with_end sk_end is_open].
    destruct (ns_pc n) as [| | |r] eqn:P; try discriminate. exfalso. destruct ST; try congruence.
  - exfalso. assert (L : length (w_sockets w) < length (w_sockets w)) by (apply nth_error_Some; congruence). lia.
Qed.
Lemma closed_kept_run T w b w' : wrun T w b w' -> forall k s, nth_error (w_sockets w) k = Some s -> is_open (sk_end s) = false ->
  exists s', nth_error (w_sockets w') k = Some s' /\ is_open (sk_end s') = false.
Proof.
  induction 1 as [w|w tr w' e w'' R IH S]; intros k s H F; [eauto|].
  destruct (IH _ _ H F) as (s1 & H1 & O). eapply closed_kept; eassumption.
Qed.

(** ** Lists *)
Lemma Forall2_set_nth {A B} (R R' : A -> B -> Prop) l l' i x' y' :
  Forall2 R l l' -> R' x' y' ->
  (forall j u v, j <> i -> nth_error l j = Some u -> nth_error l' j = Some v -> R u v -> R' u v) ->
  Forall2 R' (set_nth i x' l) (set_nth i y' l').
Proof.
  intros F. revert i. induction F as [|u v l l' H F IH]; intros i X K; [destruct i; constructor|].
  assert (T : Forall2 R l l' -> (forall j u v, nth_error l j = Some u -> nth_error l' j = Some v -> R u v -> R' u v) -> Forall2 R' l l').
  { clear. induction 1 as [|u v l l' H F IH]; intros K; constructor.
    - now apply (K 0).
    - apply IH. intros j. apply (K (S j)). }
  destruct i; cbn.
  - constructor; [exact X|]. apply T; [exact F|]. intros j u0 v0. apply (K (S j)). discriminate.
  - constructor.
    + now apply (K 0).
    + apply IH; [exact X|]. intros j u0 v0 NE. apply (K (S j)). congruence.
Qed.
Lemma Forall2_impl_nth {A B} (R R' : A -> B -> Prop) l l' :
  Forall2 R l l' -> (forall j u v, nth_error l j = Some u -> nth_error l' j = Some v -> R u v -> R' u v) -> Forall2 R' l l'.
Proof.
  induction 1 as [|u v l l' H F IH]; intros K; constructor.
  - now apply (K 0).
  - apply IH. intros j. apply (K (S j)).
Qed.
Lemma Forall2_nth {A B} (R : A -> B -> Prop) l l' i x : Forall2 R l l' -> nth_error l i = Some x ->
  exists y, nth_error l' i = Some y /\ R x y.
Proof.
  intros F. revert i. induction F as [|u v l l' H F IH]; intros i; destruct i; cbn; try discriminate.
  - intros E. injection E as <-. eauto.
  - apply IH.
Qed.
Lemma Forall2_nth_r {A B} (R : A -> B -> Prop) l l' i y : Forall2 R l l' -> nth_error l' i = Some y ->
  exists x, nth_error l i = Some x /\ R x y.
Proof.
  intros F. revert i. induction F as [|u v l l' H F IH]; intros i; destruct i; cbn; try discriminate.
  - intros E. injection E as <-. eauto.
  - apply IH.
Qed.
Lemma Forall2_remove {A B} (R : A -> B -> Prop) l l' i : Forall2 R l l' ->
  Forall2 R (firstn i l ++ skipn (S i) l) (firstn i l' ++ skipn (S i) l').
Proof.
  intros F. revert i. induction F as [|u v l l' H F IH]; intros i; [destruct i; constructor|].
  destruct i; cbn; [exact F|]. constructor; [exact H|]. exact (IH i).
Qed.
Lemma remove_nth_split {A} (l : list A) i x : nth_error l i = Some x ->
  exists a b, l = a ++ x :: b /\ firstn i l ++ skipn (S i) l = a ++ b.
Proof.
  revert i. induction l as [|y l IH]; intros i; destruct i; cbn; try discriminate.
  - intros E. injection E as ->. exists [], l. auto.
  - intros E. destruct (IH _ E) as (a & b & -> & Q). exists (y :: a), b. cbn. split; [reflexivity|].
    f_equal. exact Q.
Qed.

Lemma NoDup_left {A} (l l' : list A) : NoDup (l ++ l') -> NoDup l.
Proof.
  induction l as [|x l IH]; intros N; [constructor|]. inversion N as [|? ? NI N']; subst. constructor; [|auto].
  intros I. apply NI, in_or_app. auto.
Qed.
Lemma NoDup_right {A} (l l' : list A) : NoDup (l ++ l') -> NoDup l'.
Proof. induction l as [|x l IH]; intros N; [exact N|]. inversion N; auto. Qed.
Lemma NoDup_between {A} (l l' : list A) x : NoDup (l ++ l') -> In x l -> ~ In x l'.
Proof.
  induction l as [|y l IH]; [contradiction|]. intros N [->|I] I'; inversion N as [|? ? NI N']; subst.
  - apply NI, in_or_app. auto.
  - now apply IH.
Qed.

(** ** The invariant *)
Definition inst_ok (h : nat) (w : world) (evs : list event) (o : option ipv8) (n : option (nat * nat)) : Prop :=
  match o, n with
  | Some v, Some (a, b) =>
      (exists q, nth_error (w_sockets w) a =
        Some {| sk_host := h; sk_address := iv_receiver_socket v; sk_end := Waiting (length (iv_receivers v)) q |}) /\
      (exists q, nth_error (w_sockets w) b = Some {| sk_host := h; sk_address := iv_sender_socket v; sk_end := Sending q |}) /\
      In (WBindReceiver a h (cf_receiving_address (iv_config v)) (iv_receiver_socket v)) evs /\
      In (WBindSender b h (cf_sending_address (iv_config v)) (iv_sender_socket v)) evs
  | None, None => True
  | _, _ => False
  end.
Definition lis_ok (h : nat) (w : world) (evs : list event) (li : listener) (k : nat) : Prop :=
  (exists s, nth_error (w_sockets w) k =
     Some {| sk_host := h; sk_address := li_socket li; sk_end := Listening (net_config_of li) s |} /\
     is_open (Listening (net_config_of li) s) = true) /\
  In (WBindReceiver k h (cf_receiving_address (li_config li)) (li_socket li)) evs /\
  In (WStart k (li_config li)) evs.

(** the sockets made by the process, in all its calls of [new] *)
Definition made (evs : list event) (k : nat) : Prop :=
  exists h a a', In (WBindReceiver k h a a') evs \/ In (WBindSender k h a a') evs.
Definition closed_in (w : world) (k : nat) : Prop :=
  exists s, nth_error (w_sockets w) k = Some s /\ is_open (sk_end s) = false.
Definition made_by_calls (tr : list (option call * list event)) (k : nat) : Prop :=
  exists c evs, In (Some c, evs) tr /\ made evs k.

Record jinv (h : nat) (tr : list (option call * list event)) (j : joint) : Prop := {
  ji_others : pr_other_sockets (j_process j) = [];
  ji_instances : Forall2 (inst_ok h (j_world j) (events_of tr)) (pr_instances (j_process j)) (j_instances j);
  ji_listeners : Forall2 (lis_ok h (j_world j) (events_of tr)) (pr_listeners (j_process j)) (j_listeners j);
  ji_apart : NoDup (owned j);
  ji_made : forall k, made_by_calls tr k -> In k (owned j) \/ closed_in (j_world j) k }.

Lemma inst_ok_kept T h w evs o n b w' : inst_ok h w evs o n -> wrun T w b w' ->
  (forall k, In k (numbers n) -> Forall (fun e => ~ touches k e) b) -> inst_ok h w' (evs ++ b) o n.
Proof.
  intros I R F. destruct o as [v|], n as [[a c]|]; cbn in I |- *; try exact I; try contradiction.
  destruct I as ((q & A) & (q' & B) & C & D).
  destruct (kept_run _ _ _ _ R _ _ A) as ([h1 a1 e1] & A' & E1 & E2 & E3); [apply F; cbn; auto|].
  destruct (kept_run _ _ _ _ R _ _ B) as ([h2 a2 e2] & B' & E4 & E5 & E6); [apply F; cbn; auto|].
  cbn in *. subst. destruct e1, e2; cbn in *; try contradiction. subst.
  repeat split; try (apply in_or_app; now left); eauto.
Qed.
Lemma lis_ok_kept T h w evs li k b w' : lis_ok h w evs li k -> wrun T w b w' -> Forall (fun e => ~ touches k e) b ->
  lis_ok h w' (evs ++ b) li k.
Proof.
  intros ((s & A & O) & C & D) R F. destruct (kept_run _ _ _ _ R _ _ A F) as ([h1 a1 e1] & A' & E1 & E2 & E3).
  cbn -[is_open] in E1, E2, E3. subst. destruct e1 as [| |c s'|]; cbn -[is_open] in E3; try contradiction. destruct E3 as [<- E3].
  repeat split; try (apply in_or_app; now left). exists s'. split; [exact A'|]. congruence.
Qed.

Lemma in_numbers j i a b k : nth_error (j_instances j) i = Some (Some (a, b)) -> k = a \/ k = b -> In k (owned j).
Proof.
  intros N K. apply in_or_app. left. apply in_flat_map. exists (Some (a, b)). split; [eapply nth_error_In; exact N|]. cbn. destruct K; subst; auto.
Qed.
Lemma numbers_apart j i x i' x' k : NoDup (owned j) -> nth_error (j_instances j) i = Some x -> nth_error (j_instances j) i' = Some x' ->
  i' <> i -> In k (numbers x) -> ~ In k (numbers x').
Proof.
  unfold owned. intros N A B NE I I'. apply NoDup_left in N.
  revert i i' A B NE N. generalize (j_instances j) as l. induction l as [|y l IH]; intros i i' A B NE N; [destruct i; discriminate|].
  cbn in N. assert (N' : NoDup (flat_map numbers l)) by (apply NoDup_right in N; exact N).
  assert (D : forall k, In k (numbers y) -> ~ In k (flat_map numbers l)).
  { intros m. now apply NoDup_between. }
  destruct i, i'; cbn in A, B; try congruence.
  - injection A as <-. apply (D k I). apply in_flat_map. exists x'. split; [eapply nth_error_In; exact B|exact I'].
  - injection B as <-. apply (D k I'). apply in_flat_map. exists x. split; [eapply nth_error_In; exact A|exact I].
  - eapply (IH i i'); eauto.
Qed.
Lemma listeners_apart j i k i' k' : NoDup (owned j) -> nth_error (j_listeners j) i = Some k -> nth_error (j_listeners j) i' = Some k' ->
  i' <> i -> k' <> k.
Proof.
  unfold owned. intros N A B NE ->. apply NoDup_right in N. apply NE.
  eapply NoDup_nth_error; [exact N|apply nth_error_Some; congruence|congruence].
Qed.
Lemma instance_listener_apart j i x k k' : NoDup (owned j) -> nth_error (j_instances j) i = Some x -> In k' (numbers x) ->
  In k (j_listeners j) -> k' <> k.
Proof.
  unfold owned. intros N A I L ->.
  assert (I' : In k (flat_map numbers (j_instances j))) by (apply in_flat_map; exists x; split; [eapply nth_error_In; exact A|exact I]).
  now apply (NoDup_between _ _ _ N I').
Qed.

(** ** Calls *)
Lemma new_events_cases h k env cfg p :
  pr_listeners (fst (ipv8_new env cfg p)) = pr_listeners p /\
  pr_other_sockets (fst (ipv8_new env cfg p)) = pr_other_sockets p /\
  ((exists i, snd (ipv8_new env cfg p) = Ok i /\ pr_instances (fst (ipv8_new env cfg p)) = pr_instances p ++ [Some i] /\
      iv_config i = cfg /\ iv_receivers i = [] /\
      os_bind env (open_sockets p) (cf_receiving_address cfg) = Ok (iv_receiver_socket i) /\
      os_bind env (iv_receiver_socket i :: open_sockets p) (cf_sending_address cfg) = Ok (iv_sender_socket i) /\
      new_events h k env cfg p = [WBindReceiver k h (cf_receiving_address cfg) (iv_receiver_socket i);
                                  WBindSender (S k) h (cf_sending_address cfg) (iv_sender_socket i)]) \/
   (exists e, snd (ipv8_new env cfg p) = Err e /\ pr_instances (fst (ipv8_new env cfg p)) = pr_instances p /\
      (new_events h k env cfg p = [] \/ (exists a e, new_events h k env cfg p = [WBindFails h a e]) \/
       (exists r e', os_bind env (open_sockets p) (cf_receiving_address cfg) = Ok r /\
          new_events h k env cfg p = [WBindReceiver k h (cf_receiving_address cfg) r; WBindFails h (cf_sending_address cfg) e'; WClose k])))).
Proof.
  unfold new_events, ipv8_new.
  assert (SP : exists p1 o, setup_pool env cfg p = (p1, o) /\ open_sockets p1 = open_sockets p /\ pr_listeners p1 = pr_listeners p /\
     pr_other_sockets p1 = pr_other_sockets p /\ pr_instances p1 = pr_instances p /\ forall q, o <> Panic q).
  { unfold setup_pool. destruct (pr_once p); [exists p, (Ok tt); repeat split; discriminate|].
    destruct (env_pool_ok env); cbv zeta; eexists _, _; repeat split; discriminate. }
  destruct SP as (p1 & o & -> & O & L & OT & I & NP). destruct o as [u|e|q]; [|cbn; rewrite L, OT, I; split; [reflexivity|]; split; [reflexivity|]; right; exists e; auto|now destruct (NP q)].
  rewrite O.
  destruct (os_bind_total env (open_sockets p) (cf_receiving_address cfg)) as (r & [R|(e & R)]); rewrite R.
  - destruct (os_bind_total env (r :: open_sockets p) (cf_sending_address cfg)) as (s & [S|(e & S)]); rewrite S; cbn [fst snd].
    + cbn. rewrite L, OT, I. split; [reflexivity|]. split; [reflexivity|]. left. eexists. repeat split. exact S.
    + rewrite L, OT, I. split; [reflexivity|]. split; [reflexivity|]. right. exists e. split; [reflexivity|]. split; [reflexivity|]. right. right.
      exists r, e. auto.
  - cbn [fst snd]. rewrite L, OT, I. split; [reflexivity|]. split; [reflexivity|]. right. exists e. split; [reflexivity|]. split; [reflexivity|].
    right. left. eauto.
Qed.

Lemma slot_lookup h w evs j i v : Forall2 (inst_ok h w evs) (pr_instances (j_process j)) (j_instances j) ->
  get_instance (j_process j) i = Some v ->
  exists a b, nth_error (j_instances j) i = Some (Some (a, b)) /\ socket_numbers j i = Some (a, b) /\ inst_ok h w evs (Some v) (Some (a, b)).
Proof.
  intros F G. apply get_nth in G. destruct (Forall2_nth _ _ _ _ _ F G) as ([[a b]|] & N & R); [|contradiction].
  exists a, b. unfold socket_numbers. now rewrite N.
Qed.
Lemma slot_lookup_r h w evs j i a b : Forall2 (inst_ok h w evs) (pr_instances (j_process j)) (j_instances j) ->
  socket_numbers j i = Some (a, b) ->
  exists v, get_instance (j_process j) i = Some v /\ nth_error (j_instances j) i = Some (Some (a, b)) /\ inst_ok h w evs (Some v) (Some (a, b)).
Proof.
  unfold socket_numbers, get_instance. intros F G. destruct (nth_error (j_instances j) i) as [[y|]|] eqn:N; try discriminate. injection G as ->.
  destruct (Forall2_nth_r _ _ _ _ _ F N) as ([v|] & N' & R); [|contradiction]. exists v. rewrite N'. auto.
Qed.
Lemma no_slot h w evs j i : Forall2 (inst_ok h w evs) (pr_instances (j_process j)) (j_instances j) ->
  socket_numbers j i = None -> get_instance (j_process j) i = None.
Proof.
  intros F G. destruct (get_instance (j_process j) i) as [v|] eqn:E; [|reflexivity].
  destruct (slot_lookup _ _ _ _ _ _ F E) as (a & b & _ & S & _). congruence.
Qed.
Lemma set_nth_none {A} (l : list (option A)) i : (forall x, nth_error l i <> Some (Some x)) -> set_nth i None l = l.
Proof.
  revert i. induction l as [|y l IH]; intros i H; destruct i; cbn; try reflexivity.
  - destruct y; [exfalso; eapply H; reflexivity|reflexivity].
  - rewrite IH; [reflexivity|]. exact H.
Qed.

(** A step that leaves the process's own sockets alone. *)
Lemma inv_untouched T h tr j c evs w' :
  jinv h tr j -> wrun T (j_world j) evs w' -> (forall k, In k (owned j) -> Forall (fun e => ~ touches k e) evs) ->
  (forall k c', c = Some c' -> made evs k -> closed_in w' k) ->
  jinv h (tr ++ [(c, evs)]) {| j_process := j_process j; j_world := w'; j_instances := j_instances j; j_listeners := j_listeners j |}.
Proof.
  intros [O I L N M] R F MC. constructor; cbn.
  - exact O.
  - rewrite events_of_app. cbn. rewrite app_nil_r. eapply Forall2_impl_nth; [exact I|]. intros x o n A B K. eapply inst_ok_kept; [exact K|exact R|].
    intros k Ik. apply F. apply in_or_app. left. apply in_flat_map. exists n. split; [eapply nth_error_In; exact B|exact Ik].
  - rewrite events_of_app. cbn. rewrite app_nil_r. eapply Forall2_impl_nth; [exact L|]. intros x li k A B K. eapply lis_ok_kept; [exact K|exact R|].
    apply F. apply in_or_app. right. eapply nth_error_In; exact B.
  - exact N.
  - intros k (c' & evs' & IN & MK). apply in_app_or in IN as [IN|[E|[]]].
    + destruct (M k) as [A|(s & A & B)]; [now exists c', evs'|now left|]. right. unfold closed_in. eapply closed_kept_run; eassumption.
    + injection E as -> ->. right. eapply MC; eauto.
Qed.
Lemma inv_made_kept T h tr j evs w' k : jinv h tr j -> wrun T (j_world j) evs w' -> made_by_calls tr k -> In k (owned j) \/ closed_in w' k.
Proof.
  intros J R MK. destruct (ji_made _ _ _ J k MK) as [A|(s & A & B)]; [auto|]. right. unfold closed_in. eapply closed_kept_run; eassumption.
Qed.
Lemma owned_exist h tr j k : jinv h tr j -> In k (owned j) -> k < length (w_sockets (j_world j)).
Proof.
  intros [O I L N M] K. apply nth_error_Some. unfold owned in K. apply in_app_or in K as [K|K].
  - apply in_flat_map in K as ([[a b]|] & K1 & K2); [|contradiction]. apply In_nth_error in K1 as (i & K1).
    destruct (Forall2_nth_r _ _ _ _ _ I K1) as ([v|] & _ & R); [|contradiction]. destruct R as ((q & A) & (q' & B) & _).
    destruct K2 as [<-|[<-|[]]]; congruence.
  - apply In_nth_error in K as (i & K). destruct (Forall2_nth_r _ _ _ _ _ L K) as (li & _ & ((s & A & _) & _)). congruence.
Qed.

Lemma bind_receiver_inv T w k h a r w' : wstep T w (WBindReceiver k h a r) w' ->
  k = length (w_sockets w) /\ bindable w h a r /\ w' = add_socket w h r (Waiting 0 []).
Proof. intros S. inversion S; subst. auto. Qed.
Lemma bind_sender_inv T w k h a r w' : wstep T w (WBindSender k h a r) w' ->
  k = length (w_sockets w) /\ bindable w h a r /\ w' = add_socket w h r (Sending []).
Proof. intros S. inversion S; subst. auto. Qed.
Lemma close_inv T w k w' : wstep T w (WClose k) w' -> exists s, nth_error (w_sockets w) k = Some s /\ is_open (sk_end s) = true /\ w' = set_end w k s Closed.
Proof. intros S. inversion S; subst. eauto. Qed.
Lemma set_end_same w k s e : nth_error (w_sockets w) k = Some s -> nth_error (w_sockets (set_end w k s e)) k = Some (with_end s e).
Proof.
  intros H. cbn. rewrite nth_error_set_nth, Nat.eqb_refl. assert (L : k < length (w_sockets w)) by (apply nth_error_Some; congruence).
  apply Nat.ltb_lt in L. rewrite L. reflexivity.
Qed.
Lemma nth_app_last {A} (l : list A) x : nth_error (l ++ [x]) (length l) = Some x.
Proof. rewrite nth_error_app2, Nat.sub_diag by lia. reflexivity. Qed.

Ltac made_none := let a := fresh in let b := fresh in let X := fresh in
  intros (? & ? & ? & X); cbn in X; destruct X as [X|X]; repeat (destruct X as [X|X]; try discriminate X); contradiction.

Lemma jinv_new T h tr j env cfg w' : jinv h tr j ->
  wrun T (j_world j) (call_events h j (CNew env cfg)) w' ->
  jinv h (tr ++ [(Some (CNew env cfg), call_events h j (CNew env cfg))])
    {| j_process := do_call (j_process j) (CNew env cfg); j_world := w';
       j_instances := call_instances j (CNew env cfg); j_listeners := call_listeners j (CNew env cfg) |}.
Proof.
  intros J R. cbn in R |- *. set (n := length (w_sockets (j_world j))) in *.
  destruct (new_events_cases h n env cfg (j_process j)) as (LE & OE & [(i & RE & IE & CI & RI & B1 & B2 & EV)|(e & RE & IE & EV)]); rewrite RE.
  - rewrite EV in *. pose proof (owned_exist h tr j) as OX.
    assert (K : forall k, In k (owned j) -> Forall (fun e => ~ touches k e) [WBindReceiver n h (cf_receiving_address cfg) (iv_receiver_socket i);
                                  WBindSender (S n) h (cf_sending_address cfg) (iv_sender_socket i)]) by (intros; repeat constructor; tauto).
    pose proof R as R0.
    apply wrun_cons_inv in R as (w1 & S1 & R). apply bind_receiver_inv in S1 as (_ & _ & ->).
    apply wrun_cons_inv in R as (w2 & S2 & R). apply bind_sender_inv in S2 as (_ & _ & ->). apply wrun_nil_inv in R as ->.
    destruct J as [O I L N M] eqn:JE. constructor; cbn -[add_socket].
    + congruence.
    + rewrite IE. apply Forall2_app.
      * rewrite events_of_app. cbn -[add_socket]. eapply Forall2_impl_nth; [exact I|]. intros x o m A B X. eapply inst_ok_kept; [exact X|exact R0|].
        intros k Ik. apply K. apply in_or_app. left. apply in_flat_map. exists m. split; [eapply nth_error_In; exact B|exact Ik].
      * constructor; [|constructor]. cbn -[add_socket nth_error]. rewrite RI, CI, events_of_app. cbn [length events_of flat_map snd app].
        repeat split.
        -- exists []. cbn [add_socket w_sockets]. rewrite nth_error_app1 by (rewrite app_length; cbn; fold n; lia). apply nth_app_last.
        -- exists []. cbn [add_socket w_sockets]. rewrite nth_error_app2 by (rewrite app_length; cbn; fold n; lia). rewrite app_length. cbn [length]. fold n.
           replace (S n - (n + 1)) with 0 by lia. reflexivity.
        -- apply in_or_app. right. cbn. auto.
        -- apply in_or_app. right. cbn. auto.
    + rewrite LE. rewrite events_of_app. cbn -[add_socket]. eapply Forall2_impl_nth; [exact L|]. intros x li k A B X. eapply lis_ok_kept; [exact X|exact R0|].
      apply K. apply in_or_app. right. eapply nth_error_In; exact B.
    + unfold owned. cbn -[add_socket]. rewrite flat_map_app. cbn.
      apply (Permutation_NoDup (l := n :: S n :: owned j)).
      { unfold owned. change (n :: S n :: flat_map numbers (j_instances j) ++ j_listeners j)
          with (([n; S n] ++ flat_map numbers (j_instances j)) ++ j_listeners j).
        apply Permutation_app_tail, Permutation_app_comm. }
      constructor; [|constructor; [|exact N]].
      * intros [E|E]; [lia|]. apply (OX _ J) in E. fold n in E. lia.
      * intros E. apply (OX _ J) in E. fold n in E. lia.
    + intros k (c & evs & IN & MK). apply in_app_or in IN as [IN|[E|[]]].
      * destruct (inv_made_kept _ _ _ _ _ _ k J R0) as [A|A]; [now exists c, evs| |now right]. left. unfold owned in A |- *. cbn -[add_socket].
        rewrite flat_map_app. apply in_app_or in A as [A|A]; apply in_or_app; [left; apply in_or_app; auto|auto].
      * injection E as <- <-. left. unfold owned. cbn -[add_socket]. rewrite flat_map_app. cbn.
        destruct MK as (x & y & z & [MK|MK]); cbn in MK; destruct MK as [MK|[MK|[]]]; try discriminate; injection MK as <- <- <- <-;
          apply in_or_app; left; apply in_or_app; right; cbn; auto.
  - assert (G : jinv h (tr ++ [(Some (CNew env cfg), new_events h n env cfg (j_process j))])
       {| j_process := j_process j; j_world := w'; j_instances := j_instances j; j_listeners := j_listeners j |}).
    { eapply inv_untouched; [exact J|exact R| |].
      - intros k K. apply (owned_exist _ _ _ _ J) in K. fold n in K.
        destruct EV as [->|[(a & e' & ->)|(r & e' & _ & ->)]]; repeat constructor; cbn; try tauto. lia.
      - intros k c' _ MK. destruct EV as [EV|[(a & e' & EV)|(r & e' & _ & EV)]]; rewrite EV in MK, R; [revert MK; made_none|revert MK; made_none|]. assert (k = n) as ->. { destruct MK as (x & y & z & [MK|MK]); cbn in MK; destruct MK as [MK|[MK|[MK|[]]]]; congruence. }
        apply wrun_cons_inv in R as (w1 & S1 & R). apply wrun_cons_inv in R as (w2 & S2 & R). apply wrun_cons_inv in R as (w3 & S3 & R).
        apply wrun_nil_inv in R as ->. apply close_inv in S3 as (s & H & _ & ->). exists (with_end s Closed). split; [now apply set_end_same|reflexivity]. }
    destruct G as [O I L N M]. cbn in *. constructor; cbn; try congruence; assumption.
Qed.

Lemma no_made_kept T h tr j c evs w' (k : nat) : jinv h tr j -> wrun T (j_world j) evs w' -> (forall k, ~ made evs k) ->
  made_by_calls (tr ++ [(c, evs)]) k -> In k (owned j) \/ closed_in w' k.
Proof.
  intros J R F (c' & evs' & IN & MK). apply in_app_or in IN as [IN|[E|[]]].
  - eapply inv_made_kept; [exact J|exact R|]. now exists c', evs'.
  - injection E as -> ->. now apply F in MK.
Qed.
Lemma closed_by_close T w k w' : wstep T w (WClose k) w' -> closed_in w' k.
Proof. intros S. apply close_inv in S as (s & H & _ & ->). exists (with_end s Closed). split; [now apply set_end_same|reflexivity]. Qed.
Lemma set_nth_same {A} (l : list A) i x : nth_error l i = Some x -> set_nth i x l = l.
Proof. revert i. induction l as [|y l IH]; intros i; destruct i; cbn; try discriminate; intros H; [congruence|]. now rewrite IH. Qed.

Lemma jinv_add_receiver T h tr j i r w' : jinv h tr j -> wrun T (j_world j) (call_events h j (CAddReceiver i r)) w' ->
  jinv h (tr ++ [(Some (CAddReceiver i r), call_events h j (CAddReceiver i r))])
    {| j_process := do_call (j_process j) (CAddReceiver i r); j_world := w'; j_instances := j_instances j; j_listeners := j_listeners j |}.
Proof.
  intros J R. pose proof J as [O I L N M]. cbn [call_events] in *. destruct (socket_numbers j i) as [[a b]|] eqn:SN.
  - destruct (slot_lookup_r _ _ _ _ _ _ _ I SN) as (v & G & NI & (q & A) & B & C & D). cbn [do_call]. rewrite G.
    assert (K : forall k, k <> a -> Forall (fun e => ~ touches k e) [WAddReceiver a]) by (intros; repeat constructor; cbn; congruence).
    assert (AB : a <> b) by (destruct B as (q' & B); congruence).
    assert (OA : In a (numbers (Some (a, b)))) by (cbn; auto).
    constructor; cbn.
    + exact O.
    + rewrite <- (set_nth_same _ _ _ NI). eapply Forall2_set_nth; [exact I| |].
      * rewrite events_of_app. cbn. destruct B as (q' & B). destruct (kept_run _ _ _ _ R _ _ B) as ([h1 a1 e1] & B' & E1 & E2 & E3); [apply K; congruence|].
        cbn in E1, E2, E3. subst. destruct e1; try contradiction.
        apply wrun_cons_inv in R as (w1 & S & R). apply wrun_nil_inv in R as ->. inversion S as [| | |? ? s0 n0 q0 H1 H2| | | | | | |]; subst.
        rewrite A in H1. injection H1 as <-. injection H2 as <- <-.
        repeat split; try (apply in_or_app; auto).
        -- exists q. erewrite set_end_same by exact A. unfold with_end. cbn. rewrite app_length. cbn. now rewrite Nat.add_1_r.
        -- eauto.
      * intros x o n NE X Y Z. rewrite events_of_app. cbn. eapply inst_ok_kept; [exact Z|exact R|]. intros k Ik. apply K. intros ->.
        eapply (numbers_apart j i (Some (a, b)) x n a N); eauto.
    + rewrite events_of_app. cbn. eapply Forall2_impl_nth; [exact L|]. intros x li k X Y Z. eapply lis_ok_kept; [exact Z|exact R|]. apply K. intros ->.
      eapply (instance_listener_apart j i (Some (a, b)) a a N NI OA); [eapply nth_error_In; exact Y|reflexivity].
    + exact N.
    + intros k MK. eapply (no_made_kept T h tr j); [exact J|exact R| |exact MK]. intros k0. made_none.
  - cbn [do_call]. rewrite (no_slot _ _ _ _ _ I SN). apply wrun_nil_inv in R as ->.
    apply (inv_untouched T); [exact J|constructor|intros; constructor|]. intros k c' _. made_none.
Qed.

Lemma jinv_add_community (T : topology) h tr j i c : jinv h tr j ->
  jinv h (tr ++ [(Some (CAddCommunity i c), [])])
    {| j_process := do_call (j_process j) (CAddCommunity i c); j_world := j_world j; j_instances := j_instances j; j_listeners := j_listeners j |}.
Proof.
  intros J. pose proof (inv_untouched T h tr j (Some (CAddCommunity i c)) [] (j_world j) J (wrun_nil _ _) (fun _ _ => Forall_nil _)) as [O I L N M].
  { intros k c' _. made_none. }
  cbn in O, I, L, N, M. cbn [do_call]. destruct (get_instance (j_process j) i) as [v|] eqn:G.
  - destruct (slot_lookup _ _ _ _ _ _ I G) as (a & b & NI & _ & K). constructor; cbn -[events_of]; try assumption.
    rewrite <- (set_nth_same _ _ _ NI). eapply Forall2_set_nth; [exact I|exact K|]. auto.
  - constructor; assumption.
Qed.

Lemma split_at {A} (l : list A) i x : nth_error l i = Some x -> exists l1 l2, l = l1 ++ x :: l2 /\ forall y, set_nth i y l = l1 ++ y :: l2.
Proof.
  revert i. induction l as [|z l IH]; intros i; destruct i; cbn; try discriminate.
  - intros H. injection H as ->. exists [], l. auto.
  - intros H. destruct (IH _ H) as (l1 & l2 & -> & E). exists (z :: l1), l2. split; [reflexivity|]. intros y. now rewrite E.
Qed.

Lemma jinv_drop T h tr j i w' : jinv h tr j -> wrun T (j_world j) (call_events h j (CDrop i)) w' ->
  jinv h (tr ++ [(Some (CDrop i), call_events h j (CDrop i))])
    {| j_process := do_call (j_process j) (CDrop i); j_world := w'; j_instances := set_nth i None (j_instances j); j_listeners := j_listeners j |}.
Proof.
  intros J R. pose proof J as [O I L N M]. cbn [call_events] in *. destruct (socket_numbers j i) as [[a b]|] eqn:SN.
  - destruct (slot_lookup_r _ _ _ _ _ _ _ I SN) as (v & G & NI & _). cbn [do_call].
    assert (K : forall k, k <> a -> k <> b -> Forall (fun e => ~ touches k e) [WClose a; WClose b]) by (intros; repeat constructor; cbn; congruence).
    destruct (split_at _ _ _ NI) as (l1 & l2 & E & SE).
    assert (P : Permutation (owned j) (a :: b :: (flat_map numbers (l1 ++ None :: l2) ++ j_listeners j))).
    { unfold owned. rewrite E, !flat_map_app. cbn [flat_map numbers app]. rewrite <- !app_assoc. cbn.
      rewrite <- !Permutation_middle. reflexivity. }
    constructor; cbn.
    + exact O.
    + eapply Forall2_set_nth; [exact I|exact Logic.I|]. intros x o n NE X Y Z. rewrite events_of_app. cbn. eapply inst_ok_kept; [exact Z|exact R|].
      intros k Ik. apply K; intros ->; [eapply (numbers_apart j i (Some (a, b)) x n a N)|eapply (numbers_apart j i (Some (a, b)) x n b N)]; eauto; cbn; auto.
    + rewrite events_of_app. cbn. eapply Forall2_impl_nth; [exact L|]. intros x li k X Y Z. eapply lis_ok_kept; [exact Z|exact R|]. apply nth_error_In in Y.
      apply K; intros ->; [eapply (instance_listener_apart j i (Some (a, b)) a a N NI)|eapply (instance_listener_apart j i (Some (a, b)) b b N NI)]; cbn; auto.
    + unfold owned. cbn. rewrite SE. apply (Permutation_NoDup P) in N. inversion N as [|? ? _ N1]; subst. now inversion N1.
    + intros k MK. assert (NM : In k (owned j) \/ closed_in w' k) by (eapply no_made_kept; [exact J|exact R| |exact MK]; intros k0; made_none).
      destruct NM as [A|A]; [|now right].
      apply (Permutation_in _ P) in A. destruct A as [<-|[<-|A]].
      * right. apply wrun_cons_inv in R as (w1 & S & R). apply closed_by_close in S as (s & S1 & S2). eapply closed_kept_run; eassumption.
      * right. apply wrun_cons_inv in R as (w1 & S & R). apply wrun_cons_inv in R as (w2 & S' & R). apply wrun_nil_inv in R as ->.
        now apply closed_by_close in S'.
      * left. unfold owned. cbn. now rewrite SE.
  - assert (X : set_nth i None (j_instances j) = j_instances j).
    { apply set_nth_none. intros x F. unfold socket_numbers in SN. rewrite F in SN. discriminate. }
    assert (Y : do_call (j_process j) (CDrop i) = j_process j).
    { cbn. rewrite set_nth_none; [now destruct (j_process j)|]. intros x F. pose proof (no_slot _ _ _ _ _ I SN) as G.
      unfold get_instance in G. rewrite F in G. discriminate. }
    rewrite X, Y. apply wrun_nil_inv in R as ->.
    apply (inv_untouched T); [exact J|constructor|intros; constructor|]. intros k c' _. made_none.
Qed.

Lemma jinv_start T h tr j i w' : jinv h tr j -> wrun T (j_world j) (call_events h j (CStart i)) w' ->
  jinv h (tr ++ [(Some (CStart i), call_events h j (CStart i))])
    {| j_process := do_call (j_process j) (CStart i); j_world := w'; j_instances := set_nth i None (j_instances j);
       j_listeners := call_listeners j (CStart i) |}.
Proof.
  intros J R. pose proof J as [O I L N M]. cbn [call_events call_listeners] in *. destruct (socket_numbers j i) as [[a b]|] eqn:SN.
  - destruct (slot_lookup_r _ _ _ _ _ _ _ I SN) as (v & G & NI & (q & A) & B & C & D). cbn [do_call]. rewrite G in *.
    assert (K : forall k, k <> a -> k <> b -> Forall (fun e => ~ touches k e) [WStart a (iv_config v); WClose b]) by (intros; repeat constructor; cbn; congruence).
    assert (AB : a <> b) by (destruct B as (q' & B); congruence).
    destruct (split_at _ _ _ NI) as (l1 & l2 & E & SE).
    assert (P : Permutation (owned j) (b :: (flat_map numbers (l1 ++ None :: l2) ++ j_listeners j ++ [a]))).
    { unfold owned. rewrite E, !flat_map_app. cbn [flat_map numbers app]. rewrite (app_assoc _ (j_listeners j) [a]).
      rewrite <- (Permutation_cons_append _ a). rewrite <- !app_assoc. cbn.
      rewrite <- !Permutation_middle. apply perm_swap. }
    constructor; cbn -[is_open events_of].
    + exact O.
    + eapply Forall2_set_nth; [exact I|exact Logic.I|]. intros x o n NE X Y Z. rewrite events_of_app. cbn. eapply inst_ok_kept; [exact Z|exact R|].
      intros k Ik. apply K; intros ->; [eapply (numbers_apart j i (Some (a, b)) x n a N)|eapply (numbers_apart j i (Some (a, b)) x n b N)]; eauto; cbn; auto.
    + apply Forall2_app.
      * rewrite events_of_app. cbn. eapply Forall2_impl_nth; [exact L|]. intros x li k X Y Z. eapply lis_ok_kept; [exact Z|exact R|]. apply nth_error_In in Y.
        apply K; intros ->; [eapply (instance_listener_apart j i (Some (a, b)) a a N NI)|eapply (instance_listener_apart j i (Some (a, b)) b b N NI)]; cbn; auto.
      * constructor; [|constructor]. rewrite events_of_app. cbn -[is_open].
        apply wrun_cons_inv in R as (w1 & S & R). inversion S as [| | | |? ? s0 n0 q0 cfg0 H1 H2| | | | | |]; subst. rewrite A in H1. injection H1 as <-. injection H2 as <- <-.
        destruct (kept_run _ _ _ _ R _ _ (set_end_same _ _ _ _ A)) as ([h1 a1 e1] & A' & E1 & E2 & E3); [repeat constructor; cbn; congruence|].
        cbn -[is_open] in E1, E2, E3. subst. destruct e1 as [| |c1 s1|]; try contradiction. destruct E3 as [<- E3].
        repeat split; try (apply in_or_app; cbn; auto). exists s1. split; [exact A'|]. exact (eq_sym E3).
    + unfold owned. cbn. rewrite SE. apply (Permutation_NoDup P) in N. now inversion N.
    + intros k MK. assert (NM : In k (owned j) \/ closed_in w' k) by (eapply no_made_kept; [exact J|exact R| |exact MK]; intros k0; made_none).
      destruct NM as [X|X]; [|now right].
      apply (Permutation_in _ P) in X. destruct X as [<-|X].
      * right. apply wrun_cons_inv in R as (w1 & S & R). apply wrun_cons_inv in R as (w2 & S' & R). apply wrun_nil_inv in R as ->.
        now apply closed_by_close in S'.
      * left. unfold owned. cbn. now rewrite SE.
  - assert (X : set_nth i None (j_instances j) = j_instances j).
    { apply set_nth_none. intros x F. unfold socket_numbers in SN. rewrite F in SN. discriminate. }
    cbn [do_call]. rewrite (no_slot _ _ _ _ _ I SN), X. apply wrun_nil_inv in R as ->.
    apply (inv_untouched T); [exact J|constructor|intros; constructor|]. intros k c' _. made_none.
Qed.

Lemma listener_inv T w k l w' : wstep T w (WListener k l) w' -> exists s c n n', nth_error (w_sockets w) k = Some s /\
  sk_end s = Listening c n /\ step c n l n' /\ w' = set_end w k s (Listening c n').
Proof. intros S. inversion S; subst. exists s, c, n, n'. auto. Qed.

Lemma jinv_listener T h tr j i k l w' s : jinv h tr j -> nth_error (j_listeners j) i = Some k -> wstep T (j_world j) (WListener k l) w' ->
  nth_error (w_sockets w') k = Some s -> is_open (sk_end s) = true ->
  jinv h (tr ++ [(None, [WListener k l])]) {| j_process := j_process j; j_world := w'; j_instances := j_instances j; j_listeners := j_listeners j |}.
Proof.
  intros J NI S H OP. pose proof J as [O I L N M]. pose proof (wrun_one _ _ _ _ S) as R.
  assert (K : forall m, m <> k -> Forall (fun e => ~ touches m e) [WListener k l]) by (intros; repeat constructor; cbn; congruence).
  destruct (Forall2_nth_r _ _ _ _ _ L NI) as (li & NL & (s0 & A & _) & B & C).
  constructor; cbn -[is_open].
  - exact O.
  - rewrite events_of_app. cbn. eapply Forall2_impl_nth; [exact I|]. intros x o n X Y Z. eapply inst_ok_kept; [exact Z|exact R|]. intros m Im. apply K.
    eapply (instance_listener_apart j x n k m N Y Im). eapply nth_error_In; exact NI.
  - rewrite <- (set_nth_same _ _ _ NI), <- (set_nth_same _ _ _ NL). eapply Forall2_set_nth; [exact L| |].
    + rewrite events_of_app. repeat split; try (apply in_or_app; auto).
      apply listener_inv in S as (s1 & c & n & n' & H1 & H2 & H3 & ->). rewrite A in H1. injection H1 as <-. injection H2 as <- <-.
      erewrite set_end_same in H by exact A. injection H as <-. exists n'. split; [|exact OP]. erewrite set_end_same by exact A. reflexivity.
    + intros x li' k' NE X Y Z. rewrite events_of_app. cbn. eapply lis_ok_kept; [exact Z|exact R|]. apply K.
      eapply (listeners_apart j i k x k' N NI Y NE).
  - exact N.
  - intros m MK. eapply (no_made_kept T h tr j); [exact J|exact R| |exact MK]. intros k0. made_none.
Qed.

Lemma Forall2_remove_nth {A B} (R R' : A -> B -> Prop) l l' i : Forall2 R l l' ->
  (forall j u v, j <> i -> nth_error l j = Some u -> nth_error l' j = Some v -> R u v -> R' u v) ->
  Forall2 R' (firstn i l ++ skipn (S i) l) (firstn i l' ++ skipn (S i) l').
Proof.
  intros F. revert i. induction F as [|u v l l' H F IH]; intros i K; [destruct i; constructor|].
  destruct i; cbn.
  - eapply Forall2_impl_nth; [exact F|]. intros j u0 v0. apply (K (S j)). discriminate.
  - constructor; [now apply (K 0)|]. apply (IH i). intros j u0 v0 NE. apply (K (S j)). congruence.
Qed.

Lemma jinv_listener_ends T h tr j i k l w' s : jinv h tr j -> nth_error (j_listeners j) i = Some k -> wstep T (j_world j) (WListener k l) w' ->
  nth_error (w_sockets w') k = Some s -> is_open (sk_end s) = false ->
  jinv h (tr ++ [(Some (CListenerEnds i), [WListener k l])])
    {| j_process := do_call (j_process j) (CListenerEnds i); j_world := w'; j_instances := j_instances j;
       j_listeners := firstn i (j_listeners j) ++ skipn (S i) (j_listeners j) |}.
Proof.
  intros J NI S H OP. pose proof J as [O I L N M]. pose proof (wrun_one _ _ _ _ S) as R.
  assert (K : forall m, m <> k -> Forall (fun e => ~ touches m e) [WListener k l]) by (intros; repeat constructor; cbn; congruence).
  destruct (remove_nth_split _ _ _ NI) as (l1 & l2 & E1 & E2).
  assert (P : Permutation (owned j) (k :: (flat_map numbers (j_instances j) ++ l1 ++ l2))).
  { unfold owned. rewrite E1, !app_assoc. rewrite <- Permutation_middle. reflexivity. }
  constructor; cbn -[is_open firstn skipn].
  - exact O.
  - rewrite events_of_app. cbn. eapply Forall2_impl_nth; [exact I|]. intros x o n X Y Z. eapply inst_ok_kept; [exact Z|exact R|]. intros m Im. apply K.
    eapply (instance_listener_apart j x n k m N Y Im). eapply nth_error_In; exact NI.
  - eapply Forall2_remove_nth; [exact L|]. intros x li' k' NE X Y Z. rewrite events_of_app. cbn. eapply lis_ok_kept; [exact Z|exact R|]. apply K.
    eapply (listeners_apart j i k x k' N NI Y NE).
  - unfold owned. cbn -[firstn skipn]. rewrite E2. apply (Permutation_NoDup P) in N. now inversion N.
  - intros m MK. assert (NM : In m (owned j) \/ closed_in w' m) by (eapply no_made_kept; [exact J|exact R| |exact MK]; intros k0; made_none).
    destruct NM as [X|X]; [|now right]. apply (Permutation_in _ P) in X. destruct X as [<-|X].
    + right. exists s. auto.
    + left. unfold owned. cbn -[firstn skipn]. now rewrite E2.
Qed.

Lemma jinv_elsewhere T h tr j e w' : jinv h tr j -> elsewhere j e -> wstep T (j_world j) e w' ->
  jinv h (tr ++ [(None, [e])]) {| j_process := j_process j; j_world := w'; j_instances := j_instances j; j_listeners := j_listeners j |}.
Proof.
  intros J EL S. apply (inv_untouched T); [exact J|now apply wrun_one| |discriminate].
  intros mm Km. repeat constructor. intros X. destruct e; cbn in EL, X; try contradiction; subst; contradiction.
Qed.

Lemma jinv_run T h tr j : jrun T h tr j -> jinv h tr j.
Proof.
  induction 1 as [|tr j c evs j' R IH S].
  - constructor; cbn; [reflexivity|constructor|constructor|constructor|]. intros k (c & evs & [] & _).
  - destruct S as [j c w' NC W|j i k l w' s NI S H OP|j i k l w' s NI S H OP|j e w' EL S].
    + destruct c; [now apply (jinv_new T)|now apply (jinv_add_receiver T)| |now apply (jinv_start T)|now apply (jinv_drop T)|now destruct (NC i)].
      apply wrun_nil_inv in W as ->. now apply jinv_add_community.
    + eapply jinv_listener; eassumption.
    + eapply jinv_listener_ends; eassumption.
    + eapply jinv_elsewhere; eassumption.
Qed.

(** ** Where instances and listeners come from *)
Lemma receivers_added_app k a b : receivers_added k (a ++ b) = receivers_added k a ++ receivers_added k b.
Proof. induction a as [|c a IH]; [reflexivity|]. destruct c; cbn; rewrite ?IH; try reflexivity. now destruct (_ =? _). Qed.
Lemma after_snoc others l c : after others (l ++ [c]) = do_call (after others l) c.
Proof. unfold after. now rewrite do_calls_app. Qed.

Lemma instance_origin others l i v : get_instance (after others l) i = Some v ->
  exists pre env mid inst, l = pre ++ CNew env (iv_config v) :: mid /\ i = length (pr_instances (after others pre)) /\
    snd (ipv8_new env (iv_config v) (after others pre)) = Ok inst /\
    iv_receiver_socket v = iv_receiver_socket inst /\ iv_sender_socket v = iv_sender_socket inst /\
    iv_receivers v = receivers_added i mid /\ ~ In (CStart i) mid /\ ~ In (CDrop i) mid.
Proof.
  revert i v. induction l as [|c l IH] using rev_ind; intros i v G.
  - unfold after, get_instance in G. cbn in G. destruct i; discriminate.
  - rewrite after_snoc in G.
    assert (OLD : forall u, get_instance (after others l) i = Some u -> c <> CStart i -> c <> CDrop i ->
        iv_config v = iv_config u -> iv_receiver_socket v = iv_receiver_socket u -> iv_sender_socket v = iv_sender_socket u ->
        iv_receivers v = iv_receivers u ++ receivers_added i [c] ->
        exists pre env mid inst, l ++ [c] = pre ++ CNew env (iv_config v) :: mid /\ i = length (pr_instances (after others pre)) /\
          snd (ipv8_new env (iv_config v) (after others pre)) = Ok inst /\
          iv_receiver_socket v = iv_receiver_socket inst /\ iv_sender_socket v = iv_sender_socket inst /\
          iv_receivers v = receivers_added i mid /\ ~ In (CStart i) mid /\ ~ In (CDrop i) mid).
    { intros u Gu NS ND E1 E2 E3 E4. destruct (IH _ _ Gu) as (pre & env & mid & inst & -> & -> & A1 & A2 & A3 & A4 & A5 & A6).
      exists pre, env, (mid ++ [c]), inst. rewrite E1, E2, E3, E4, receivers_added_app, <- A4, <- app_assoc. repeat split; auto.
      - intros X. apply in_app_or in X as [X|[X|[]]]; [now apply A5|congruence].
      - intros X. apply in_app_or in X as [X|[X|[]]]; [now apply A6|congruence]. }
    destruct c as [env cfg|m r|m c|m|m|m]; cbn [do_call] in G.
    + destruct (new_events_cases 0 0 env cfg (after others l)) as (_ & _ & [(inst & RE & IE & CI & RI & _)|(e & RE & IE & _)]).
      * unfold get_instance in G. rewrite IE in G. destruct (Nat.lt_ge_cases i (length (pr_instances (after others l)))) as [L|L].
        -- rewrite nth_error_app1 in G by exact L. apply (OLD v); try discriminate; try reflexivity; [exact G|]. cbn. now rewrite app_nil_r.
        -- rewrite nth_error_app2 in G by exact L. destruct (i - length (pr_instances (after others l))) as [|x] eqn:E; [|destruct x; discriminate].
           cbn in G. injection G as <-. exists l, env, [], inst. rewrite CI, RI. repeat split; auto. lia.
      * unfold get_instance in G. rewrite IE in G. apply (OLD v); try discriminate; try reflexivity; [exact G|]. cbn. now rewrite app_nil_r.
    + destruct (get_instance (after others l) m) as [u|] eqn:Gm.
      * erewrite get_with_instances in G by reflexivity. destruct (Nat.eqb_spec m i) as [->|NE]; cbn [andb] in G.
        -- pose proof (get_lt _ _ _ Gm) as L. apply Nat.ltb_lt in L. rewrite L in G. injection G as <-.
           apply (OLD u); try discriminate; try reflexivity; [exact Gm|]. cbn. now rewrite Nat.eqb_refl.
        -- apply (OLD v); try discriminate; try reflexivity; [exact G|]. cbn. apply Nat.eqb_neq in NE. rewrite NE. now rewrite app_nil_r.
      * apply (OLD v); try discriminate; try reflexivity; [exact G|]. cbn. destruct (Nat.eqb_spec m i) as [->|NE]; [congruence|now rewrite app_nil_r].
    + destruct (get_instance (after others l) m) as [u|] eqn:Gm.
      * erewrite get_with_instances in G by reflexivity. destruct (Nat.eqb_spec m i) as [->|NE]; cbn [andb] in G.
        -- pose proof (get_lt _ _ _ Gm) as L. apply Nat.ltb_lt in L. rewrite L in G. injection G as <-.
           apply (OLD u); try discriminate; try reflexivity; [exact Gm|]. cbn. now rewrite app_nil_r.
        -- apply (OLD v); try discriminate; try reflexivity; [exact G|]. cbn. now rewrite app_nil_r.
      * apply (OLD v); try discriminate; try reflexivity; [exact G|]. cbn. now rewrite app_nil_r.
    + destruct (get_instance (after others l) m) as [u|] eqn:Gm.
      * unfold get_instance in G. cbn [pr_instances] in G. rewrite nth_error_set_nth in G. destruct (Nat.eqb_spec m i) as [->|NE]; cbn [andb] in G.
        -- pose proof (get_lt _ _ _ Gm) as L. apply Nat.ltb_lt in L. rewrite L in G. discriminate.
        -- apply (OLD v); try congruence; try reflexivity; try exact G; cbn; now rewrite app_nil_r.
      * apply (OLD v); try congruence; try reflexivity; cbn; now rewrite app_nil_r.
    + erewrite get_with_instances in G by reflexivity. destruct (Nat.eqb_spec m i) as [->|NE]; cbn [andb] in G.
      * destruct (i <? length (pr_instances (after others l))) eqn:L; [discriminate|]. apply get_lt in G. apply Nat.ltb_ge in L. lia.
      * apply (OLD v); try congruence; try reflexivity; try exact G; cbn; now rewrite app_nil_r.
    + apply (OLD v); try discriminate; try reflexivity; [exact G|]. cbn. now rewrite app_nil_r.
Qed.

Lemma listener_origin others l li : In li (pr_listeners (after others l)) ->
  exists pre env mid i post inst, l = pre ++ CNew env (li_config li) :: mid ++ CStart i :: post /\
    i = length (pr_instances (after others pre)) /\
    snd (ipv8_new env (li_config li) (after others pre)) = Ok inst /\ li_socket li = iv_receiver_socket inst /\
    li_receivers li = receivers_added i mid.
Proof.
  induction l as [|c l IH] using rev_ind; [contradiction|]. rewrite after_snoc. intros I.
  assert (OLD : In li (pr_listeners (after others l)) ->
    exists pre env mid i post inst, l ++ [c] = pre ++ CNew env (li_config li) :: mid ++ CStart i :: post /\
    i = length (pr_instances (after others pre)) /\
    snd (ipv8_new env (li_config li) (after others pre)) = Ok inst /\ li_socket li = iv_receiver_socket inst /\
    li_receivers li = receivers_added i mid).
  { intros X. destruct (IH X) as (pre & env & mid & i & post & inst & -> & A). exists pre, env, mid, i, (post ++ [c]), inst.
    split; [|exact A]. rewrite <- app_assoc. cbn. now rewrite <- app_assoc. }
  destruct c as [env cfg|m r|m c|m|m|m]; cbn [do_call] in I.
  - destruct (new_events_cases 0 0 env cfg (after others l)) as (LE & _). rewrite LE in I. auto.
  - destruct (get_instance _ m); auto.
  - destruct (get_instance _ m); auto.
  - destruct (get_instance (after others l) m) as [u|] eqn:G; [|auto]. cbn in I. apply in_app_or in I as [I|[<-|[]]]; [auto|].
    destruct (instance_origin _ _ _ _ G) as (pre & env & mid & inst & -> & A1 & A2 & A3 & A4 & A5 & _).
    exists pre, env, mid, m, [], inst. cbn. rewrite <- app_assoc. auto.
  - auto.
  - cbn in I. apply OLD. apply in_app_or in I as [I|I].
    + rewrite <- (firstn_skipn m (pr_listeners (after others l))). apply in_or_app. auto.
    + rewrite <- (firstn_skipn (S m) (pr_listeners (after others l))). apply in_or_app. auto.
Qed.

(** * C137 *)
(** C137. Both views are views of the same execution: to every execution of the whole belongs one of the process alone (Ipv8.v, so C54-C57, C64
    and C65 hold for it) and one of the sockets alone (World.v, so C85-C90 and C109 hold for it). *)
Lemma p_C137_two_views :
  forall (T : topology) (h : nat) (tr : list (option call * list event)) (j : joint),
    jrun T h tr j ->
    j_process j = after [] (calls_of tr) /\ wrun T world_init (events_of tr) (j_world j).
Proof.
  intros T h tr j R. induction R as [|tr j c evs j' R [IH1 IH2] S]; [split; [reflexivity|constructor]|].
  rewrite calls_of_app, events_of_app. cbn [calls_of events_of flat_map fst snd]. rewrite app_nil_r.
  destruct S as [j c w' NC W|j i k l w' s NI S H OP|j i k l w' s NI S H OP|j e w' EL S]; cbn [j_process j_world].
  - cbn [app]. rewrite after_snoc, IH1. split; [reflexivity|]. rewrite app_nil_r. eapply wrun_app; eassumption.
  - rewrite !app_nil_r. split; [exact IH1|]. econstructor; eassumption.
  - cbn [app]. rewrite after_snoc, IH1. split; [reflexivity|]. econstructor; eassumption.
  - rewrite !app_nil_r. split; [exact IH1|]. econstructor; eassumption.
Qed.

(** C137. The sockets the process believes to own are exactly its open sockets, at the same addresses; none is counted twice. *)
Lemma p_C137_sockets_agree :
  forall (T : topology) (h : nat) (tr : list (option call * list event)) (j : joint),
    jrun T h tr j ->
    NoDup (owned j) /\
    exists l : list (nat * address),
      map fst l = owned j /\ map snd l = open_sockets (j_process j) /\
      forall k a, In (k, a) l -> open_at (j_world j) k h a.
Proof.
  intros T h tr j R. destruct (jinv_run _ _ _ _ R) as [O I L N _]. split; [exact N|].
  set (l1 := flat_map (fun x => match x with (Some v, Some (a, b)) => [(a, iv_receiver_socket v); (b, iv_sender_socket v)] | _ => [] end)
               (combine (pr_instances (j_process j)) (j_instances j))).
  set (l2 := combine (j_listeners j) (map li_socket (pr_listeners (j_process j)))).
  assert (A : map fst l1 = flat_map numbers (j_instances j) /\ map snd l1 = flat_map sockets_of (pr_instances (j_process j)) /\
              forall k a, In (k, a) l1 -> open_at (j_world j) k h a).
  { subst l1. revert I. generalize (events_of tr) as evs. intros evs I. induction I as [|o n lo ln H I (A1 & A2 & A3)]; [split; [reflexivity|]; split; [reflexivity|]; intros k a []|].
    destruct o as [v|], n as [[a b]|]; cbn in H; try contradiction.
    - cbn. rewrite A1, A2. split; [reflexivity|]. split; [reflexivity|]. destruct H as ((q & Ha) & (q' & Hb) & _).
      intros k x [E|[E|E]]; [injection E as <- <-; eexists; split; [exact Ha|reflexivity]|injection E as <- <-; eexists; split; [exact Hb|reflexivity]|auto].
    - exact (conj A1 (conj A2 A3)). }
  assert (B : map fst l2 = j_listeners j /\ map snd l2 = map li_socket (pr_listeners (j_process j)) /\
              forall k a, In (k, a) l2 -> open_at (j_world j) k h a).
  { subst l2. revert L. generalize (events_of tr) as evs. intros evs L. induction L as [|li k lo ln H I' (A1 & A2 & A3)]; [split; [reflexivity|]; split; [reflexivity|]; intros k a []|].
    cbn. rewrite A1, A2. split; [reflexivity|]. split; [reflexivity|]. destruct H as ((s & Ha & Ho) & _).
    intros m x [E|E]; [injection E as <- <-; eexists; split; [exact Ha|exact Ho]|auto]. }
  exists (l1 ++ l2). rewrite !map_app. destruct A as (A1 & A2 & A3), B as (B1 & B2 & B3). rewrite open_sockets_eq, O, app_nil_r.
  split; [unfold owned; congruence|]. split; [congruence|]. intros k a X. apply in_app_or in X as [X|X]; auto.
Qed.

(** C137. Nothing leaks: every socket an [IPv8::new] of the process ever bound - also one that failed afterwards - belongs to a live
    instance or a running listener, or is closed. *)
Lemma p_C137_no_leaks :
  forall (T : topology) (h : nat) (tr : list (option call * list event)) (j : joint) (c : call) (evs : list event) (k h' : nat) (a b : address),
    jrun T h tr j -> In (Some c, evs) tr -> In (WBindReceiver k h' a b) evs \/ In (WBindSender k h' a b) evs ->
    In k (owned j) \/ forall x y, ~ open_at (j_world j) k x y.
Proof.
  intros T h tr j c evs k h' a b R I B. destruct (ji_made _ _ _ (jinv_run _ _ _ _ R) k) as [X|(s & X1 & X2)].
  - exists c, evs. split; [exact I|]. exists h', a, b. exact B.
  - now left.
  - right. intros x y (e & E & OP). rewrite X1 in E. injection E as ->. cbn in X2. congruence.
Qed.

(** C137. A live instance has its two sockets open, of the right kind: the receiving one waits, with as many receivers as were added, the sending one
    can send; both were bound as the configuration of the instance says. *)
Lemma p_C137_instances :
  forall (T : topology) (h : nat) (tr : list (option call * list event)) (j : joint) (i : nat) (v : ipv8),
    jrun T h tr j -> get_instance (j_process j) i = Some v ->
    exists a b qa qb,
      nth_error (j_instances j) i = Some (Some (a, b)) /\
      nth_error (w_sockets (j_world j)) a =
        Some {| sk_host := h; sk_address := iv_receiver_socket v; sk_end := Waiting (length (iv_receivers v)) qa |} /\
      nth_error (w_sockets (j_world j)) b = Some {| sk_host := h; sk_address := iv_sender_socket v; sk_end := Sending qb |} /\
      In (WBindReceiver a h (cf_receiving_address (iv_config v)) (iv_receiver_socket v)) (events_of tr) /\
      In (WBindSender b h (cf_sending_address (iv_config v)) (iv_sender_socket v)) (events_of tr).
Proof.
  intros T h tr j i v R G. destruct (slot_lookup _ _ _ _ _ _ (ji_instances _ _ _ (jinv_run _ _ _ _ R)) G) as (a & b & N & _ & (q & A) & (q' & B) & C & D).
  exists a, b, q, q'. auto.
Qed.

(** C137. A running listener is the listener of World.v on its socket: with the buffer size and poll interval of its instance's configuration, calling as
    many receivers as the instance had; and these, and no others, have been called with exactly the datagrams delivered to that socket and
    received so far, in order, each cut to the buffer size. *)
Lemma p_C137_listeners :
  forall (T : topology) (h : nat) (tr : list (option call * list event)) (j : joint) (i : nat) (li : listener),
    jrun T h tr j -> nth_error (pr_listeners (j_process j)) i = Some li ->
    exists (k : nat) (s : net_state),
      nth_error (j_listeners j) i = Some k /\
      nth_error (w_sockets (j_world j)) k =
        Some {| sk_host := h; sk_address := li_socket li; sk_end := Listening (net_config_of li) s |} /\
      (forall r, ns_pc s <> Stopped r) /\
      In (WBindReceiver k h (cf_receiving_address (li_config li)) (li_socket li)) (events_of tr) /\
      In (WStart k (li_config li)) (events_of tr) /\
      (forall r, r < length (li_receivers li) -> between_datagrams s ->
         calls r (trace_at k (events_of tr)) =
         map (fun d => (firstn (cf_buffersize (li_config li)) (fst d), snd d))
             (firstn (recvs (trace_at k (events_of tr))) (delivered k (events_of tr)))) /\
      (forall r, length (li_receivers li) <= r -> calls r (trace_at k (events_of tr)) = []).
Proof.
  intros T h tr j i li R G. destruct (Forall2_nth _ _ _ _ _ (ji_listeners _ _ _ (jinv_run _ _ _ _ R)) G) as (k & N & (s & A & OP) & B & C).
  exists k, s. split; [exact N|]. split; [exact A|].
  split; [intros r E; cbn in OP; rewrite E in OP; discriminate|]. split; [exact B|]. split; [exact C|].
  destruct (p_C137_two_views _ _ _ _ R) as (_ & W). destruct (world_inv_run _ _ _ W) as (_ & J & _). specialize (J k _ A). cbn in J.
  destruct J as (J1 & _). pose proof (arrivals_trace_at _ _ _ k W) as AT. split; intros r Hr; destruct (p_C48_exactly_once_in_order _ _ _ _ r J1) as [X Y].
  - intros BD. destruct (X Hr) as (missing & X1 & _ & X2). rewrite (X2 BD), app_nil_r in X1. rewrite <- X1. unfold received. cbn [app]. now rewrite AT.
  - exact (Y Hr).
Qed.

(** C137. Where a listener comes from: an instance made by [new] with its configuration, and started later; its receivers are exactly those added in between, in order. *)
Lemma p_C137_listener_origin :
  forall (others : list address) (l : list call) (li : listener),
    In li (pr_listeners (after others l)) ->
    exists (pre : list call) (env : environment) (between : list call) (i : nat) (post : list call) (inst : ipv8),
      l = pre ++ CNew env (li_config li) :: between ++ CStart i :: post /\
      i = length (pr_instances (after others pre)) /\
      snd (ipv8_new env (li_config li) (after others pre)) = Ok inst /\ li_socket li = iv_receiver_socket inst /\
      li_receivers li = receivers_added i between.
Proof. exact listener_origin. Qed.

Lemma bindable_from_os env h j requested actual bound w :
  sees_the_host env h j -> os_bind env bound requested = Ok actual ->
  (forall s, In s (w_sockets w) -> sk_host s = h -> is_open (sk_end s) = true -> In (sk_address s) bound \/
     exists k, ~ In k (owned j) /\ open_at (j_world j) k h (sk_address s)) ->
  bindable w h requested actual.
Proof.
  intros SH OB C. destruct (SH _ _ _ OB) as (P & U). unfold os_bind in OB.
  destruct (env_refuse env requested); [discriminate|]. destruct (existsb _ bound) eqn:X; [discriminate|]. injection OB as <-.
  split; [|split; [|split; [exact P|]]].
  - destruct (addr_port requested =? 0)%N; [|reflexivity]. destruct requested; reflexivity.
  - intros NZ. apply N.eqb_neq in NZ. now rewrite NZ.
  - intros s I H OP. destruct (C s I H OP) as [IB|(k & NO & OA)]; [|now apply (U k)].
    destruct (conflict _ (sk_address s)) eqn:E; [|reflexivity]. assert (existsb (conflict (if (addr_port requested =? 0)%N then with_port requested (env_ephemeral env bound requested) else requested)) bound = true)
      by (apply existsb_exists; eauto). congruence.
Qed.
Lemma known_sockets T h tr j s : jrun T h tr j -> In s (w_sockets (j_world j)) -> sk_host s = h -> is_open (sk_end s) = true ->
  In (sk_address s) (open_sockets (j_process j)) \/ exists k, ~ In k (owned j) /\ open_at (j_world j) k h (sk_address s).
Proof.
  intros R I H OP. apply In_nth_error in I as (k & I). destruct (in_dec Nat.eq_dec k (owned j)) as [IO|NO].
  - left. destruct (p_C137_sockets_agree _ _ _ _ R) as (_ & l & L1 & L2 & L3). rewrite <- L1 in IO. apply in_map_iff in IO as ([k' a] & E & IL).
    cbn in E. subst k'. destruct (L3 _ _ IL) as (e & X & _). rewrite I in X. injection X as ->. rewrite <- L2. apply in_map_iff. now exists (k, a).
  - right. exists k. split; [exact NO|]. destruct s as [h0 a0 e0]. cbn in *. subst. now exists e0.
Qed.

Lemma open_end_close T w k s : nth_error (w_sockets w) k = Some s -> is_open (sk_end s) = true -> wstep T w (WClose k) (set_end w k s Closed).
Proof. apply wstep_close. Qed.

(** C137. Nothing is held back: in every reachable state every call can be made (for [new]: whatever answers the operating system gives
    that fit the sockets of the other processes of the host), and whatever a listener of the process, or anybody else, can do can happen. *)
Lemma p_C137_calls_can_be_made :
  forall (T : topology) (h : nat) (tr : list (option call * list event)) (j : joint) (c : call),
    jrun T h tr j -> (forall i, c <> CListenerEnds i) -> (forall env cfg, c = CNew env cfg -> sees_the_host env h j) ->
    exists evs j', jstep T h j (Some c) evs j'.
Proof.
  intros T h tr j c R NC SH.
  assert (G : exists w', wrun T (j_world j) (call_events h j c) w'); [|destruct G as (w' & G); eexists _, _; exact (jstep_call T h j c w' NC G)].
  pose proof (jinv_run _ _ _ _ R) as [O I L N M].
  destruct c as [env cfg|i r|i c|i|i|i]; cbn [call_events].
  - specialize (SH env cfg eq_refl). set (n := length (w_sockets (j_world j))).
    assert (B1 : forall r, os_bind env (open_sockets (j_process j)) (cf_receiving_address cfg) = Ok r ->
       bindable (j_world j) h (cf_receiving_address cfg) r).
    { intros r E. eapply bindable_from_os; [exact SH|exact E|]. intros s. now apply (known_sockets T h tr). }
    destruct (new_events_cases h n env cfg (j_process j)) as (_ & _ & [(i & _ & _ & _ & _ & E1 & E2 & ->)|(e & _ & _ & [->|[(a & e' & ->)|(r & e' & E1 & ->)]])]).
    + eexists. eapply (wrun_app T _ [_] _ [_]); apply wrun_one; [apply wstep_bind_receiver; now apply B1|].
      replace (S n) with (length (w_sockets (add_socket (j_world j) h (iv_receiver_socket i) (Waiting 0 [])))) by (cbn; rewrite app_length; cbn; fold n; lia).
      apply wstep_bind_sender. eapply bindable_from_os; [exact SH|exact E2|]. cbn. intros s IS HS OS. apply in_app_or in IS as [IS|[<-|[]]].
      * destruct (known_sockets _ _ _ _ _ R IS HS OS) as [X|X]; auto.
      * left. cbn. auto.
    + eexists. constructor.
    + eexists. apply wrun_one. constructor.
    + eexists. eapply (wrun_app T _ [_] _ [_; _]); [apply wrun_one, wstep_bind_receiver; now apply B1|].
      eapply (wrun_app T _ [_] _ [_]); apply wrun_one; [constructor|]. eapply open_end_close; [unfold n; cbn; apply nth_app_last|reflexivity].
  - destruct (socket_numbers j i) as [[a b]|] eqn:SN; [|eexists; constructor].
    destruct (slot_lookup_r _ _ _ _ _ _ _ I SN) as (v & _ & _ & (q & A) & _). eexists. apply wrun_one. eapply wstep_add_receiver; [exact A|reflexivity].
  - eexists. constructor.
  - destruct (socket_numbers j i) as [[a b]|] eqn:SN; [|eexists; constructor].
    destruct (slot_lookup_r _ _ _ _ _ _ _ I SN) as (v & -> & _ & (q & A) & (q' & B) & _). eexists. eapply (wrun_app T _ [_] _ [_]); apply wrun_one.
    + eapply wstep_start; [exact A|reflexivity].
    + eapply open_end_close with (s := {| sk_host := h; sk_address := iv_sender_socket v; sk_end := Sending q' |}); [|reflexivity].
      cbn. rewrite nth_error_set_nth. destruct (Nat.eqb_spec a b) as [->|NE]; [congruence|exact B].
  - destruct (socket_numbers j i) as [[a b]|] eqn:SN; [|eexists; constructor].
    destruct (slot_lookup_r _ _ _ _ _ _ _ I SN) as (v & _ & _ & (q & A) & (q' & B) & _). eexists. eapply (wrun_app T _ [_] _ [_]); apply wrun_one.
    + eapply open_end_close; [exact A|reflexivity].
    + eapply open_end_close with (s := {| sk_host := h; sk_address := iv_sender_socket v; sk_end := Sending q' |}); [|reflexivity].
      cbn. rewrite nth_error_set_nth. destruct (Nat.eqb_spec a b) as [->|NE]; [congruence|exact B].
  - now destruct (NC i).
Qed.
Lemma p_C137_listeners_not_held_back :
  forall (T : topology) (h : nat) (tr : list (option call * list event)) (j : joint) (e : event) (w' : world),
    jrun T h tr j -> wstep T (j_world j) e w' ->
    (exists k l, e = WListener k l /\ In k (j_listeners j)) \/ elsewhere j e ->
    exists c j', jstep T h j c [e] j' /\ j_world j' = w'.
Proof.
  intros T h tr j e w' R S [(k & l & -> & I)|EL].
  - apply In_nth_error in I as (i & I). destruct (listener_inv _ _ _ _ _ S) as (s & c & n & n' & H & _ & _ & E).
    assert (H' : nth_error (w_sockets w') k = Some (with_end s (Listening c n'))) by (rewrite E; now apply set_end_same).
    destruct (is_open (sk_end (with_end s (Listening c n')))) eqn:OP.
    + eexists _, _. split; [eapply jstep_listener; eassumption|reflexivity].
    + eexists _, _. split; [eapply jstep_listener_ends; eassumption|reflexivity].
  - eexists _, _. split; [eapply jstep_elsewhere; eassumption|reflexivity].
Qed.

(** ** A concrete execution *)
Inductive jsteps (T : topology) (h : nat) : joint -> list (option call * list event) -> joint -> Prop :=
| js_nil j : jsteps T h j [] j
| js_cons j c evs j' tr j'' : jstep T h j c evs j' -> jsteps T h j' tr j'' -> jsteps T h j ((c, evs) :: tr) j''.
Lemma jrun_steps T h tr j tr' j' : jrun T h tr j -> jsteps T h j tr' j' -> jrun T h (tr ++ tr') j'.
Proof.
  intros R S. revert tr R. induction S as [j|j c evs j' tr' j'' S1 S IH]; intros tr R; [now rewrite app_nil_r|].
  change ((c, evs) :: tr') with ([(c, evs)] ++ tr'). rewrite app_assoc. apply IH. econstructor; eassumption.
Qed.
Lemma js_call T h j c evs w' tr j'' : evs = call_events h j c -> (forall i, c <> CListenerEnds i) -> wrun T (j_world j) evs w' ->
  jsteps T h {| j_process := do_call (j_process j) c; j_world := w'; j_instances := call_instances j c; j_listeners := call_listeners j c |} tr j'' ->
  jsteps T h j ((Some c, evs) :: tr) j''.
Proof. intros -> N W S. eapply js_cons; [|exact S]. now apply jstep_call. Qed.

Definition other_config : config := {|
  cf_queuesize := 100; cf_buffersize := 4; cf_pollinterval := None; cf_threadcount := 0; cf_default_hosts := [];
  cf_sending_address := v4 0 0 0 0 8000; cf_receiving_address := v4 0 0 0 0 9001 |}.
(** On host 1: an instance; a second one fails at its first socket, a third one at its second socket; a receiver is added; a datagram from host 0 arrives
    before the start; start; the receiver is called. *)
Definition ex_joint : list (option call * list event) :=
  [(Some (CNew ex_env small_config), [WBindReceiver 0 1 (v4 0 0 0 0 9000) (v4 0 0 0 0 9000); WBindSender 1 1 (v4 0 0 0 0 8000) (v4 0 0 0 0 8000)]);
   (Some (CNew ex_env small_config), [WBindFails 1 (v4 0 0 0 0 9000) EAddrInUse]);
   (Some (CNew ex_env other_config), [WBindReceiver 2 1 (v4 0 0 0 0 9001) (v4 0 0 0 0 9001); WBindFails 1 (v4 0 0 0 0 8000) EAddrInUse; WClose 2]);
   (Some (CAddReceiver 0 7), [WAddReceiver 0]);
   (None, [WBindSender 3 0 (v4 0 0 0 0 8000) (v4 0 0 0 0 8000)]);
   (None, [WSend 3 (Packet [x01; x02]) hello]);
   (None, [WDeliver 0 hello]);
   (Some (CStart 0), [WStart 0 small_config; WClose 1]);
   (None, [WListener 0 (LPoll 1)]);
   (None, [WListener 0 LRecv]);
   (None, [WListener 0 (LCall 0 [x01; x02] (v4 10 0 0 1 8000))]);
   (None, [WListener 0 (LReturn 0)]);
   (None, [WListener 0 LScopeEnd])].
(** Afterwards: an instance that uses the free port again; the listener fails and ends; its port can be used, too. *)
Definition ex_joint_end : list (option call * list event) :=
  [(Some (CNew ex_env other_config), [WBindReceiver 4 1 (v4 0 0 0 0 9001) (v4 0 0 0 0 9001); WBindSender 5 1 (v4 0 0 0 0 8000) (v4 0 0 0 0 8000)]);
   (None, [WListener 0 LNext]);
   (Some (CListenerEnds 0), [WListener 0 (LPollError EIo)]);
   (Some (CDrop 1), [WClose 4; WClose 5]);
   (Some (CNew ex_env small_config), [WBindReceiver 6 1 (v4 0 0 0 0 9000) (v4 0 0 0 0 9000); WBindSender 7 1 (v4 0 0 0 0 8000) (v4 0 0 0 0 8000)])].

Ltac bind_free := repeat split; [discriminate|]; let s := fresh in intros s H_; cbn in H_;
  repeat (destruct H_ as [<-|H_]; [cbn; try discriminate; try reflexivity|]); try contradiction.
Ltac norm_joint := match goal with |- jsteps ?T ?h ?j ?tr ?j2 => let j' := eval cbv in j in change (jsteps T h j' tr j2) end.
Ltac joint_call := norm_joint; eapply js_call; [reflexivity|discriminate| |].
Ltac joint_other := norm_joint; eapply js_cons; [apply jstep_elsewhere; [exact I|]|].
Tactic Notation "joint_listen" tactic3(tac) := norm_joint; eapply js_cons; [eapply (jstep_listener _ _ _ 0 0);
  [reflexivity|eapply wstep_listener; [reflexivity|reflexivity|tac; reflexivity|discriminate]|reflexivity|reflexivity]|].

Lemma jsteps_app T h j a j' b j'' : jsteps T h j a j' -> jsteps T h j' b j'' -> jsteps T h j (a ++ b) j''.
Proof. induction 1; cbn; eauto using jsteps. Qed.
Lemma ex_joint_steps : exists j, jsteps two_hosts 1 joint_init ex_joint j /\ owned j = [0] /\
  exists j', jsteps two_hosts 1 j ex_joint_end j' /\ owned j' = [6; 7].
Proof.
  unfold ex_joint. eexists. split; [|split].
  { joint_call.
  { eapply wrun_cons; [apply (wstep_bind_receiver two_hosts world_init 1); bind_free|]. eapply wrun_cons; [|constructor].
    match goal with |- wstep _ ?w _ _ => apply (wstep_bind_sender two_hosts w 1) end. bind_free. }
  joint_call. { eapply wrun_cons; [constructor|constructor]. }
  joint_call.
  { eapply wrun_cons; [match goal with |- wstep _ ?w _ _ => apply (wstep_bind_receiver two_hosts w 1) end; bind_free|].
    eapply wrun_cons; [constructor|]. eapply wrun_cons; [|constructor]. eapply wstep_close; reflexivity. }
  joint_call. { eapply wrun_cons; [|constructor]. eapply wstep_add_receiver; reflexivity. }
  joint_other.
  { match goal with |- wstep _ (j_world ?j) _ _ => apply (wstep_bind_sender two_hosts (j_world j) 0) end. bind_free. }
  joint_other.
  { eapply (wstep_send two_hosts _ 3 _ [] (fun _ _ => Ok 2) 2); try reflexivity; [right; reflexivity|left; split; reflexivity]. }
  joint_other.
  { eapply wstep_deliver; [reflexivity|reflexivity|left; reflexivity|]. split; [reflexivity|]. split; [reflexivity|right; reflexivity]. }
  joint_call. { eapply wrun_cons; [eapply wstep_start; reflexivity|]. eapply wrun_cons; [|constructor]. eapply wstep_close; reflexivity. }
  joint_listen (apply step_poll_ready).
  joint_listen (eapply step_recv).
  joint_listen (eapply (step_call _ _ _ _ _ [] 0 [])).
  joint_listen (eapply (step_return _ _ _ _ _ _ [] 0 [])).
  joint_listen (eapply step_scope_end).
  norm_joint. apply js_nil. }
  { reflexivity. }
  unfold ex_joint_end. eexists. split.
  { joint_call.
  { eapply wrun_cons; [match goal with |- wstep _ ?w _ _ => apply (wstep_bind_receiver two_hosts w 1) end; bind_free|]. eapply wrun_cons; [|constructor].
    match goal with |- wstep _ ?w _ _ => apply (wstep_bind_sender two_hosts w 1) end. bind_free. }
  joint_listen (eapply step_next).
  norm_joint. eapply js_cons; [eapply (jstep_listener_ends _ _ _ 0 0); [reflexivity|eapply wstep_listener; [reflexivity|reflexivity|eapply step_poll_error; reflexivity|discriminate]|reflexivity|reflexivity]|].
  joint_call. { eapply wrun_cons; [eapply wstep_close; reflexivity|]. eapply wrun_cons; [|constructor]. eapply wstep_close; reflexivity. }
  joint_call.
  { eapply wrun_cons; [match goal with |- wstep _ ?w _ _ => apply (wstep_bind_receiver two_hosts w 1) end; bind_free|]. eapply wrun_cons; [|constructor].
    match goal with |- wstep _ ?w _ _ => apply (wstep_bind_sender two_hosts w 1) end. bind_free. }
  norm_joint. apply js_nil. }
  reflexivity.
Qed.

(** the hypotheses of [C137_listeners] are met: a running listener; the datagram arrived before the start *)
Example ex_C137_listener :
  exists j, jrun two_hosts 1 ex_joint j /\ owned j = [0] /\
    nth_error (pr_listeners (j_process j)) 0 = Some {| li_socket := v4 0 0 0 0 9000; li_receivers := [7]; li_config := small_config |} /\
    delivered 0 (events_of ex_joint) = [([x01; x02], v4 10 0 0 1 8000)] /\
    calls 0 (trace_at 0 (events_of ex_joint)) = [([x01; x02], v4 10 0 0 1 8000)].
Proof.
  destruct ex_joint_steps as (j & S & O & _). exists j. assert (R : jrun two_hosts 1 ex_joint j) by exact (jrun_steps _ _ [] _ _ _ (jrun_nil _ _) S).
  split; [exact R|]. split; [exact O|]. destruct (p_C137_two_views _ _ _ _ R) as (-> & _). split; [vm_compute; reflexivity|]. split; vm_compute; reflexivity.
Qed.
(** ... and a live instance, after two calls of [new] that failed (the second left a closed socket), a drop and the end of a listener; the environment knows
    the host *)
Example ex_C137_history :
  exists j, jrun two_hosts 1 (ex_joint ++ ex_joint_end) j /\ owned j = [6; 7] /\
    (exists v, get_instance (j_process j) 2 = Some v /\ iv_receiver_socket v = v4 0 0 0 0 9000) /\
    open_sockets (j_process j) = [v4 0 0 0 0 9000; v4 0 0 0 0 8000].
Proof.
  destruct ex_joint_steps as (j & S & _ & j' & S' & O). exists j'.
  assert (R : jrun two_hosts 1 (ex_joint ++ ex_joint_end) j') by exact (jrun_steps _ _ [] _ _ _ (jrun_nil _ _) (jsteps_app _ _ _ _ _ _ _ S S')).
  split; [exact R|]. split; [exact O|]. destruct (p_C137_two_views _ _ _ _ R) as (-> & _).
  split; [eexists; split; [vm_compute; reflexivity|reflexivity]|vm_compute; reflexivity].
Qed.
Example ex_C137_environment : sees_the_host ex_env 1 joint_init.
Proof.
  intros bound req act H. split.
  - assert (P : forall b x, addr_port (with_port x (env_ephemeral ex_env b x)) <> 0%N).
    { intros b x. assert (Q : forall n, (50000 + N.of_nat n)%N <> 0%N) by (intros; lia). destruct x; exact (Q (length b)). }
    unfold os_bind in H. change (env_refuse ex_env req) with (@None error) in H. cbv iota in H. destruct (existsb _ bound); [discriminate|].
    assert (act = if (addr_port req =? 0)%N then with_port req (env_ephemeral ex_env bound req) else req) as -> by congruence.
    destruct (addr_port req =? 0)%N eqn:E; [apply P|now apply N.eqb_neq].
  - intros k a (e & E & _). destruct k; discriminate.
Qed.
