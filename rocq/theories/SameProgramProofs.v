(** * SameProgramProofs *)
From Coq Require Import Permutation.
From Verif Require Import Base Codec Network NetSpec NetworkProofs Ipv8 Ipv8Spec Ipv8Proofs World WorldSpec WorldProofs Compose ComposeProofs.
From Verif Require Import Parts PartsSpec PartsProofs SameProgramSpec.
Open Scope nat_scope.

(** ** The values in the slots *)
Lemma values_at is ns i v a b : nth_error is i = Some (Some v) -> nth_error ns i = Some (Some (a, b)) ->
  exists r1 r2, values is ns = r1 ++ Value (iv_config v) a b :: r2 /\
    (forall v', values (set_nth i (Some v') is) ns = r1 ++ Value (iv_config v') a b :: r2) /\
    values (set_nth i None is) (set_nth i None ns) = r1 ++ r2.
Proof.
  revert is ns. induction i as [|i IH]; intros [|x is] [|y ns] A B; try discriminate; cbn in A, B.
  - injection A as ->. injection B as ->. exists [], (values is ns). cbn. auto.
  - destruct (IH _ _ A B) as (r1 & r2 & E & F & G).
    destruct x as [x|], y as [[c d]|]; cbn; [exists (Value (iv_config x) c d :: r1), r2|exists r1, r2|exists r1, r2|exists r1, r2];
      rewrite E, G; (split; [reflexivity|]; split; [|reflexivity]); intros v'; now rewrite F.
Qed.
Lemma values_app is ns is' ns' : length is = length ns -> values (is ++ is') (ns ++ ns') = values is ns ++ values is' ns'.
Proof.
  revert ns. induction is as [|x is IH]; intros [|y ns] E; try discriminate; [reflexivity|]. cbn in E. injection E as E.
  destruct x as [x|], y as [[c d]|]; cbn; rewrite (IH _ E); reflexivity.
Qed.
Lemma values_sockets is ns k : In k (flat_map sockets_in (values is ns)) -> In k (flat_map numbers ns).
Proof.
  revert ns. induction is as [|x is IH]; intros [|y ns]; cbn; try contradiction; [destruct x; contradiction|].
  destruct x as [x|], y as [[c d]|]; cbn; intuition.
Qed.
Lemma listeners_sockets l : flat_map sockets_in (map Listener l) = l.
Proof. induction l as [|x l IH]; cbn; [reflexivity|]. now rewrite IH. Qed.
Lemma values_in is ns i v a b : nth_error is i = Some (Some v) -> nth_error ns i = Some (Some (a, b)) -> In (Value (iv_config v) a b) (values is ns).
Proof. intros A B. destruct (values_at _ _ _ _ _ _ A B) as (r1 & r2 & -> & _). apply in_app_iff. right. now left. Qed.

Lemma same_length {A B} (R : A -> B -> Prop) l l' : Forall2 R l l' -> length l = length l'.
Proof. induction 1; cbn; congruence. Qed.

(** ** One step *)
Record same (j : joint) (p : program) : Prop := {
  sm_world : pp_world p = j_world j;
  sm_holds : Permutation (pp_holds p) (holdings_of j);
  sm_once : pp_once p = pr_once (j_process j);
  sm_pools : pr_pools (j_process j) = [] \/ exists n, pr_pools (j_process j) = [n] /\ pp_pool p = Some n;
  sm_before : pr_once (j_process j) = false -> pr_pools (j_process j) = [] /\ pp_pool p = None /\ j_instances j = [] /\ j_listeners j = [] }.

Definition news_of_call (c : option call) : list config := match c with Some (CNew _ cfg) => [cfg] | _ => [] end.
Definition news_of_label (l : plabel) : list config := match l with PNew cfg _ => [cfg] | _ => [] end.

(** what a step is matched by *)
Definition matched (T : topology) (h : nat) (p : program) (c : option call) (evs : list event) (j' : joint) : Prop :=
  (evs = [] /\ news_of_call c = [] /\ same j' p) \/
  (exists l p', parts_step T h p l evs p' /\ (news_of_label l = news_of_call c /\ only_methods l) /\ same j' p').

Lemma same_sockets j p k : same j p -> In k (flat_map sockets_in (pp_holds p)) -> In k (owned j).
Proof.
  intros S I. assert (I' : In k (flat_map sockets_in (holdings_of j))).
  { apply in_flat_map in I as (x & X & Y). apply in_flat_map. exists x. split; [eapply Permutation_in; [apply S|exact X]|exact Y]. }
  unfold holdings_of in I'. rewrite flat_map_app in I'. unfold owned. apply in_app_iff in I' as [I'|I']; apply in_app_iff.
  - left. eapply values_sockets, I'.
  - right. now rewrite listeners_sockets in I'.
Qed.

(** the process and the parts agree on the pool *)
Lemma setup_same env cfg j p : same j p ->
  (exists p1, setup_pool env cfg (j_process j) = (p1, Err EPoolError) /\ set_up cfg (pp_once p) (pp_pool p) (Err EPoolError) (pp_pool p) /\
     pr_once p1 = true /\ pr_pools p1 = pr_pools (j_process j)) \/
  (exists p1 pool', setup_pool env cfg (j_process j) = (p1, Ok tt) /\ set_up cfg (pp_once p) (pp_pool p) (Ok tt) pool' /\
     pr_once p1 = true /\ (pr_pools p1 = [] \/ exists n, pr_pools p1 = [n] /\ pool' = Some n)).
Proof.
  intros [SW SH SO SP SB]. unfold setup_pool. rewrite SO. destruct (pr_once (j_process j)) eqn:O.
  - right. eexists _, (pp_pool p). split; [reflexivity|]. split; [constructor|]. split; [exact O|exact SP].
  - destruct (SB eq_refl) as (PN & PP & _). rewrite PP. destruct (env_pool_ok env); cbv zeta.
    + right. eexists _, _. split; [reflexivity|]. split; [constructor|]. split; [reflexivity|]. cbn. rewrite PN. cbn. right. eauto.
    + left. eexists. split; [reflexivity|]. split; [constructor|]. split; reflexivity.
Qed.
Lemma os_bind_error env bound a e : os_bind env bound a = Err e -> (forall x, env_refuse env x <> Some EPoolError) -> e <> EPoolError.
Proof.
  unfold os_bind. destruct (env_refuse env a) eqn:R.
  - intros E H ->. injection E as ->. exact (H a R).
  - destruct (existsb _ _); [|discriminate]. intros E _ ->. discriminate.
Qed.

Lemma setup_rest env cfg p p1 o : setup_pool env cfg p = (p1, o) ->
  open_sockets p1 = open_sockets p /\ pr_listeners p1 = pr_listeners p /\ pr_instances p1 = pr_instances p.
Proof.
  unfold setup_pool. destruct (pr_once p); [intros E; injection E as <- <-; auto|]. destruct (env_pool_ok env); cbv zeta; intros E; injection E as <- <-; auto.
Qed.

Lemma match_new T h tr j p env cfg w' : jinv h tr j -> same j p -> (forall x, env_refuse env x <> Some EPoolError) ->
  wrun T (j_world j) (call_events h j (CNew env cfg)) w' ->
  matched T h p (Some (CNew env cfg)) (call_events h j (CNew env cfg))
    {| j_process := do_call (j_process j) (CNew env cfg); j_world := w';
       j_instances := call_instances j (CNew env cfg); j_listeners := call_listeners j (CNew env cfg) |}.
Proof.
  intros J S NE W. right. cbn [call_events call_instances call_listeners do_call] in *. unfold new_events, ipv8_new in *.
  assert (LEN : length (pr_instances (j_process j)) = length (j_instances j)) by (eapply same_length, J).
  destruct (setup_same env cfg j p S) as [(p1 & E & SU & O1 & P1)|(p1 & pool' & E & SU & O1 & P1)]; rewrite E in *;
    destruct (setup_rest _ _ _ _ _ E) as (OS & LS & IS).
  - apply wrun_nil_inv in W as ->. eexists _, _. split; [eapply parts_new_no_pool; exact SU|]. split; [split; cbn; auto|].
    destruct S as [SW SH SO SP SB]. constructor; cbn; [exact SW| |now rewrite O1|rewrite P1; exact SP|congruence].
    unfold holdings_of in *. cbn. rewrite IS. exact SH.
  - pose proof S as [SW SH SO SP SB]. rewrite <- SW in *.
    destruct (os_bind_total env (open_sockets p1) (cf_receiving_address cfg)) as (r & [R|(e & R)]); rewrite R in *.
    + destruct (os_bind_total env (r :: open_sockets p1) (cf_sending_address cfg)) as (s & [Q|(e & Q)]); rewrite Q in *.
      * eexists _, _. split; [eapply parts_new; [exact SU|apply bind_both_ok|exact W]|]. split; [split; cbn; auto|].
        constructor; cbn; [reflexivity| |now rewrite O1|exact P1|congruence].
        unfold holdings_of. cbn. rewrite IS, (values_app _ _ _ _ LEN). cbn. rewrite <- app_assoc.
        eapply Permutation_trans; [apply perm_skip, SH|]. unfold holdings_of. cbn. apply Permutation_middle.
      * eexists _, _. split; [eapply parts_new; [exact SU|apply bind_both_no_sender; eapply os_bind_error; eassumption|exact W]|]. split; [split; cbn; auto|].
        constructor; cbn; [reflexivity| |now rewrite O1|exact P1|congruence]. unfold holdings_of in *. cbn. rewrite IS. exact SH.
    + eexists _, _. split; [eapply parts_new; [exact SU|apply bind_both_no_receiver; eapply os_bind_error; eassumption|exact W]|]. split; [split; cbn; auto|].
      constructor; cbn; [reflexivity| |now rewrite O1|exact P1|congruence]. unfold holdings_of in *. cbn. rewrite IS. exact SH.
Qed.

Lemma same_holds j p x rest : same j p -> Permutation (holdings_of j) (x :: rest) -> Permutation (pp_holds p) ([x] ++ rest).
Proof. intros S P. eapply Permutation_trans; [apply S|exact P]. Qed.

Lemma match_call T h tr j p c w' : jinv h tr j -> same j p -> (forall i, c <> CListenerEnds i) ->
  (forall env cfg, c = CNew env cfg -> forall x, env_refuse env x <> Some EPoolError) ->
  wrun T (j_world j) (call_events h j c) w' ->
  matched T h p (Some c) (call_events h j c)
    {| j_process := do_call (j_process j) c; j_world := w'; j_instances := call_instances j c; j_listeners := call_listeners j c |}.
Proof.
  intros J S NC NE W. destruct c as [env cfg|i r|i c|i|i|i]; [now apply (match_new T h tr); [| |exact (NE _ _ eq_refl)|]| | | | |now destruct (NC i)];
    cbn [call_events call_instances call_listeners] in *; pose proof (ji_instances _ _ _ J) as I; pose proof S as [SW SH SO SP SB].
  - (* add_receiver *) destruct (socket_numbers j i) as [[a b]|] eqn:SN.
    + destruct (slot_lookup_r _ _ _ _ _ _ _ I SN) as (v & G & NI & _). cbn [do_call]. rewrite G. pose proof (get_nth _ _ _ G) as GN.
      destruct (values_at _ _ _ _ _ _ GN NI) as (r1 & r2 & E & F & _).
      right. eexists (PAddReceiver a), _. split.
      { eapply (parts_uses T h p _ [Value (iv_config v) a b] _ _ ((r1 ++ r2) ++ map Listener (j_listeners j))); [apply uses_add_receiver_value| |rewrite SW; exact W].
        eapply same_holds; [exact S|]. unfold holdings_of. rewrite E, <- !app_assoc. cbn. symmetry. apply Permutation_middle. }
      split; [split; cbn; eauto|]. constructor; cbn; [reflexivity| |exact SO|exact SP|exact SB].
      unfold holdings_of. cbn. rewrite F, <- !app_assoc. cbn. apply Permutation_middle.
    + left. apply wrun_nil_inv in W as ->. cbn [do_call]. rewrite (no_slot _ _ _ _ _ I SN). split; [reflexivity|]. split; [reflexivity|]. now constructor.
  - (* add_community *) left. apply wrun_nil_inv in W as ->. split; [reflexivity|]. split; [reflexivity|]. cbn [do_call].
    destruct (get_instance (j_process j) i) as [v|] eqn:G; [|now constructor].
    destruct (slot_lookup _ _ _ _ _ _ I G) as (a & b & NI & _). pose proof (get_nth _ _ _ G) as GN.
    destruct (values_at _ _ _ _ _ _ GN NI) as (r1 & r2 & E & F & _).
    constructor; cbn; [exact SW| |exact SO|exact SP|exact SB]. unfold holdings_of in *. cbn. rewrite F. cbn. rewrite <- E. exact SH.
  - (* start *) destruct (socket_numbers j i) as [[a b]|] eqn:SN.
    + destruct (slot_lookup_r _ _ _ _ _ _ _ I SN) as (v & G & NI & _). cbn [do_call]. rewrite G in *. pose proof (get_nth _ _ _ G) as GN.
      destruct (values_at _ _ _ _ _ _ GN NI) as (r1 & r2 & E & _ & F).
      right. eexists (PStart (iv_config v) a b), _. split.
      { eapply (parts_uses T h p _ [Value (iv_config v) a b] _ _ ((r1 ++ r2) ++ map Listener (j_listeners j))); [apply uses_start| |rewrite SW; exact W].
        eapply same_holds; [exact S|]. unfold holdings_of. rewrite E, <- !app_assoc. cbn. symmetry. apply Permutation_middle. }
      split; [split; cbn; eauto|]. constructor; cbn; [reflexivity| |exact SO|exact SP|].
      * unfold holdings_of. cbn. rewrite F, map_app. cbn. rewrite app_assoc. apply Permutation_cons_append.
      * intros OF. destruct (SB OF) as (_ & _ & X & _). rewrite X in NI. destruct i; discriminate.
    + left. apply wrun_nil_inv in W as ->. cbn [do_call]. rewrite (no_slot _ _ _ _ _ I SN). split; [reflexivity|]. split; [reflexivity|].
      rewrite (set_nth_none (j_instances j)); [now constructor|]. intros x X. unfold socket_numbers in SN. rewrite X in SN. discriminate.
  - (* drop *) destruct (socket_numbers j i) as [[a b]|] eqn:SN.
    + destruct (slot_lookup_r _ _ _ _ _ _ _ I SN) as (v & G & NI & _). cbn [do_call]. pose proof (get_nth _ _ _ G) as GN.
      destruct (values_at _ _ _ _ _ _ GN NI) as (r1 & r2 & E & _ & F).
      right. eexists (PDrop (Value (iv_config v) a b)), _. split.
      { eapply (parts_uses T h p _ [Value (iv_config v) a b] _ _ ((r1 ++ r2) ++ map Listener (j_listeners j))); [apply (uses_drop _ _ (Value (iv_config v) a b)); discriminate| |rewrite SW; exact W].
        eapply same_holds; [exact S|]. unfold holdings_of. rewrite E, <- !app_assoc. cbn. symmetry. apply Permutation_middle. }
      split; [split; cbn; eauto|]. constructor; cbn; [reflexivity| |exact SO|exact SP|].
      2: { intros OF. destruct (SB OF) as (_ & _ & X & _). rewrite X in NI. destruct i; discriminate. }
      unfold holdings_of. cbn. rewrite F. reflexivity.
    + left. apply wrun_nil_inv in W as ->. cbn [do_call]. split; [reflexivity|]. split; [reflexivity|].
      assert (NP : set_nth i None (pr_instances (j_process j)) = pr_instances (j_process j)).
      { apply set_nth_none. intros x X. pose proof (no_slot _ _ _ _ _ I SN) as NS. unfold get_instance in NS. rewrite X in NS. discriminate. }
      rewrite (set_nth_none (j_instances j)) by (intros x X; unfold socket_numbers in SN; rewrite X in SN; discriminate).
      constructor; cbn; [exact SW| |exact SO|exact SP|exact SB]. unfold holdings_of in *. cbn. rewrite NP. exact SH.
Qed.

Lemma match_listener T h tr j p i k l w' s : jinv h tr j -> same j p -> nth_error (j_listeners j) i = Some k ->
  wstep T (j_world j) (WListener k l) w' -> nth_error (w_sockets w') k = Some s ->
  exists l1 l2 pool', j_listeners j = l1 ++ k :: l2 /\ firstn i (j_listeners j) ++ skipn (S i) (j_listeners j) = l1 ++ l2 /\
    (pool' = pp_pool p \/ pr_pools (j_process j) = []) /\ pr_once (j_process j) = true /\
    parts_step T h p (PListener k) [WListener k l]
      {| pp_world := w'; pp_holds := (if is_open (sk_end s) then [Listener k] else []) ++ values (pr_instances (j_process j)) (j_instances j) ++ map Listener (l1 ++ l2);
         pp_once := pp_once p; pp_pool := pool' |}.
Proof.
  intros J [SW SH SO SP SB] NI S H. destruct (remove_nth_split _ _ _ NI) as (l1 & l2 & E1 & E2). exists l1, l2.
  assert (O : pr_once (j_process j) = true).
  { destruct (pr_once (j_process j)); [reflexivity|]. destruct (SB eq_refl) as (_ & _ & _ & X). rewrite X in NI. destruct i; discriminate. }
  assert (PE : Permutation (pp_holds p) (Listener k :: values (pr_instances (j_process j)) (j_instances j) ++ map Listener (l1 ++ l2))).
  { eapply Permutation_trans; [exact SH|]. unfold holdings_of. rewrite E1, !map_app. cbn. rewrite !app_assoc. symmetry. apply Permutation_middle. }
  rewrite <- SW in S.
  assert (D : exists pool', dispatches l 1 (pp_pool p) pool' /\ (pool' = pp_pool p \/ pr_pools (j_process j) = [])).
  { destruct (pp_pool p) as [n|] eqn:PP; [exists (Some n); split; [constructor|auto]|].
    assert (X : pr_pools (j_process j) = []) by (destruct SP as [X|(n & _ & X)]; [exact X|congruence]).
    destruct l; try (exists None; split; [constructor; discriminate|auto]). exists (Some 1). split; [now constructor|auto]. }
  destruct D as (pool' & D & X). exists pool'. repeat split; auto.
  eapply parts_listener; eassumption.
Qed.

Lemma match_elsewhere T h tr j p e w' : jinv h tr j -> same j p -> Compose.elsewhere j e -> wstep T (j_world j) e w' ->
  matched T h p None [e] {| j_process := j_process j; j_world := w'; j_instances := j_instances j; j_listeners := j_listeners j |}.
Proof.
  intros J S EL W. right. pose proof S as [SW SH SO SP SB]. rewrite <- SW in W.
  assert (OT : Parts.elsewhere (pp_holds p) e ->
    exists l p', parts_step T h p l [e] p' /\ (news_of_label l = [] /\ only_methods l) /\
      same {| j_process := j_process j; j_world := w'; j_instances := j_instances j; j_listeners := j_listeners j |} p').
  { intros X. eexists POther, _. split; [eapply parts_other; eassumption|]. split; [split; cbn; eauto|]. constructor; cbn; auto. }
  assert (NO : forall k, ~ In k (owned j) -> ~ In k (flat_map sockets_in (pp_holds p)))
    by (intros k X Y; apply X; eapply same_sockets; eauto).
  (* a sender of the process sends *)
  assert (SE : forall k q sk, nth_error (w_sockets (j_world j)) k = Some sk -> sk_end sk = Sending q -> In k (owned j) ->
    exists cfg r rest, Permutation (pp_holds p) ([Value cfg r k] ++ rest)).
  { intros k q sk NK EK OW. apply in_app_iff in OW as [OW|OW].
    - apply in_flat_map in OW as (x & X & Y). destruct x as [[a b]|]; [|contradiction]. apply In_nth_error in X as (i & X).
      destruct (Forall2_nth_r _ _ _ _ _ (ji_instances _ _ _ J) X) as ([v|] & GN & IO); [|contradiction].
      cbn in Y. destruct Y as [<-|[<-|[]]].
      + destruct IO as ((q' & A) & _). rewrite A in NK. injection NK as <-. discriminate.
      + destruct (values_at _ _ _ _ _ _ GN X) as (r1 & r2 & E & _). exists (iv_config v), a, ((r1 ++ r2) ++ map Listener (j_listeners j)).
        eapply same_holds; [exact S|]. unfold holdings_of. rewrite E, <- !app_assoc. cbn. symmetry. apply Permutation_middle.
    - apply In_nth_error in OW as (i & X). destruct (Forall2_nth_r _ _ _ _ _ (ji_listeners _ _ _ J) X) as (li & _ & (s0 & A & _) & _).
      rewrite A in NK. injection NK as <-. discriminate. }
  rewrite <- SW in SE.
  destruct e as [h' a a'|h' a a'|h' a a'|k|k cfg|k|k pk m|k pk dst e|m|k m|k l]; try (apply OT; exact Logic.I); try (apply OT, NO; exact EL).
  all: destruct (in_dec Nat.eq_dec k (owned j)) as [OW|OW]; [|apply OT, NO; exact OW].
  - assert (X : exists sk q, nth_error (w_sockets (pp_world p)) k = Some sk /\ sk_end sk = Sending q) by (inversion W; subst; eauto).
    destruct X as (sk & q & A & B). destruct (SE _ _ _ A B OW) as (cfg & r & rest & PE).
    eexists (PSend k), _. split; [eapply parts_uses; [apply uses_send_value|exact PE|apply wrun_one; exact W]|]. split; [split; cbn; auto|].
    constructor; cbn; auto. eapply Permutation_trans; [symmetry; exact PE|exact SH].
  - assert (X : exists sk q, nth_error (w_sockets (pp_world p)) k = Some sk /\ sk_end sk = Sending q) by (inversion W; subst; eauto).
    destruct X as (sk & q & A & B). destruct (SE _ _ _ A B OW) as (cfg & r & rest & PE).
    eexists (PSend k), _. split; [eapply parts_uses; [apply uses_send_value_fails|exact PE|apply wrun_one; exact W]|]. split; [split; cbn; auto|].
    constructor; cbn; auto. eapply Permutation_trans; [symmetry; exact PE|exact SH].
Qed.

Lemma match_step T h tr j p c evs j' : jinv h tr j -> same j p ->
  (forall env cfg, c = Some (CNew env cfg) -> forall x, env_refuse env x <> Some EPoolError) ->
  jstep T h j c evs j' -> matched T h p c evs j'.
Proof.
  intros J S NE ST. destruct ST as [j c w' NC W|j i k l w' s NI W H OP|j i k l w' s NI W H OP|j e w' EL W].
  - apply (match_call T h tr); auto. intros env cfg ->. exact (NE _ _ eq_refl).
  - destruct (match_listener _ _ _ _ _ _ _ _ _ _ J S NI W H) as (l1 & l2 & pool' & E & _ & PO & O & PS). rewrite OP in PS.
    right. eexists _, _. split; [exact PS|]. split; [split; cbn; auto|]. pose proof S as [SW SH SO SP SB].
    constructor; cbn; [reflexivity| |exact SO| |congruence].
    + unfold holdings_of. cbn. rewrite E, !map_app. cbn. rewrite !app_assoc. apply Permutation_middle.
    + destruct PO as [->|PO]; auto.
  - destruct (match_listener _ _ _ _ _ _ _ _ _ _ J S NI W H) as (l1 & l2 & pool' & E & E2 & PO & O & PS). rewrite OP in PS.
    right. eexists _, _. split; [exact PS|]. split; [split; cbn; auto|]. pose proof S as [SW SH SO SP SB].
    constructor; cbn -[firstn skipn]; [reflexivity| |exact SO| |congruence].
    + unfold holdings_of. cbn -[firstn skipn]. rewrite E2. reflexivity.
    + destruct PO as [->|PO]; auto.
  - eapply match_elsewhere; eauto.
Qed.

(** C144. Two models of the same program. A program that makes, uses, starts and drops [IPv8] values only with their methods is a program of parts that never takes one
    apart: whatever it does in the first model it also does in the second, event by event, with the same calls of [new], the same values, listeners, pool and world. *)
Lemma p_C144_same_program :
  forall (T : topology) (h : nat) (tr : list (option call * list event)) (j : joint),
    jrun T h tr j -> refuses_like_an_os tr ->
    exists (tr' : list (plabel * list event)) (p : program),
      parts_run T h program_init tr' p /\
      parts_events tr' = events_of tr /\ news_of_labels tr' = news_of_calls tr /\ (forall l evs, In (l, evs) tr' -> only_methods l) /\
      pp_world p = j_world j /\ Permutation (pp_holds p) (holdings_of j) /\
      pp_once p = pr_once (j_process j) /\
      (forall n, In n (pr_pools (j_process j)) -> pp_pool p = Some n).
Proof.
  intros T h tr j R NE.
  assert (X : exists tr' p, parts_run T h program_init tr' p /\ parts_events tr' = events_of tr /\ news_of_labels tr' = news_of_calls tr /\
    (forall l evs, In (l, evs) tr' -> only_methods l) /\ same j p).
  { induction R as [|tr j c evs j' R IH S].
    - exists [], program_init. split; [constructor|]. split; [reflexivity|]. split; [reflexivity|]. split; [intros l evs []|]. constructor; cbn; auto.
    - destruct IH as (tr' & p & A & B & C & OM & D); [intros env cfg evs' a X; eapply NE, in_app_iff; left; exact X|].
      assert (NE' : forall env cfg, c = Some (CNew env cfg) -> forall x, env_refuse env x <> Some EPoolError).
      { intros env cfg -> x. eapply (NE env cfg evs x), in_app_iff. right. now left. }
      destruct (match_step _ _ _ _ _ _ _ _ (jinv_run _ _ _ _ R) D NE' S) as [(-> & N & D')|(l & p' & ST & (N & ML) & D')].
      + exists tr', p. split; [exact A|]. rewrite events_of_app. unfold news_of_calls in *. rewrite flat_map_app. cbn. 
        unfold news_of_call in N. rewrite N, !app_nil_r. auto.
      + exists (tr' ++ [(l, evs)]), p'. split; [econstructor; eassumption|]. rewrite events_of_app. unfold news_of_calls, news_of_labels, parts_events in *.
        rewrite !flat_map_app, B, C. cbn. rewrite !app_nil_r. split; [reflexivity|]. split; [f_equal; exact N|]. split; [|exact D'].
        intros l' evs' X. apply in_app_iff in X as [X|[X|[]]]; [exact (OM _ _ X)|]. injection X as <- _. exact ML. }
  destruct X as (tr' & p & A & B & C & OM & [SW SH SO SP SB]). exists tr', p. split; [exact A|]. split; [exact B|]. split; [exact C|]. split; [exact OM|]. split; [exact SW|]. split; [exact SH|]. split; [exact SO|].
  intros n I. destruct SP as [SP|(m & SP & PP)]; rewrite SP in I; [contradiction|]. destruct I as [<-|[]]. exact PP.
Qed.

(** the hypotheses are met: two calls of [new] fail, one value is started, another dropped, a third lives; a listener ran and ended *)
Example ex_C144_history :
  exists j, jrun two_hosts 1 (ex_joint ++ ex_joint_end) j /\ refuses_like_an_os (ex_joint ++ ex_joint_end) /\
    holdings_of j = [Value small_config 6 7] /\ pr_pools (j_process j) = [cf_threadcount small_config] /\
    length (news_of_calls (ex_joint ++ ex_joint_end)) = 5.
Proof.
  destruct ex_joint_steps as (j & S & _ & j' & S' & O). exists j'.
  assert (R : jrun two_hosts 1 (ex_joint ++ ex_joint_end) j') by exact (jrun_steps _ _ [] _ _ _ (jrun_nil _ _) (jsteps_app _ _ _ _ _ _ _ S S')).
  split; [exact R|]. split.
  { intros env cfg evs a X. cbn in X. repeat (destruct X as [X|X]; [try discriminate; injection X as <- _ _; discriminate|]). contradiction. }
  pose proof (jinv_run _ _ _ _ R) as J. pose proof (ji_instances _ _ _ J) as I.
  destruct (p_C137_two_views _ _ _ _ R) as (E & _). 
  assert (IN : exists v, pr_instances (j_process j') = [None; None; Some v] /\ iv_config v = small_config) by (rewrite E; eexists; split; [vm_compute; reflexivity|reflexivity]).
  assert (LI : pr_listeners (j_process j') = []) by (rewrite E; vm_compute; reflexivity).
  destruct IN as (v & IN & CF). rewrite IN in I. pose proof (ji_listeners _ _ _ J) as L. rewrite LI in L. inversion L as [L' HL|]; subst.
  inversion I as [|? n1 ? ns1 I1 F1 E1 E1']; subst. inversion F1 as [|? n2 ? ns2 I2 F2 E2 E2']; subst. inversion F2 as [|? n3 ? ns3 I3 F3 E3 E3']; subst. inversion F3; subst.
  destruct n1; [contradiction|]. destruct n2; [contradiction|]. destruct n3 as [[a b]|]; [|contradiction].
  split; [|split; [rewrite E; vm_compute; reflexivity|reflexivity]].
  unfold holdings_of. rewrite IN. unfold owned in O. rewrite <- HL in O |- *. rewrite <- E1' in O |- *. cbn in O |- *. injection O as -> ->. now rewrite CF.
Qed.
