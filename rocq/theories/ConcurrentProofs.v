(** * ConcurrentProofs: C79-C82 *)
From Coq Require Import Strings.String Sorting.Permutation.
From Verif Require Import Base Serde Codec Universe Packet Community Network Ipv8 Ipv8Spec Spec NetSpec Ipv8Proofs.
From Verif Require Import Concurrent ConcurrentSpec.
Open Scope nat_scope.

(** ** runs *)
Lemma run_app s h1 s1 h2 s2 : run s h1 s1 -> run s1 h2 s2 -> run s (h1 ++ h2) s2.
Proof. induction 1; cbn; eauto using run. Qed.
Lemma run_split h1 h2 s s2 : run s (h1 ++ h2) s2 -> exists s1, run s h1 s1 /\ run s1 h2 s2.
Proof.
  revert s. induction h1 as [|l h1 IH]; cbn; intros s R; [eauto using run|].
  inversion R; subst. edestruct IH as (s1' & A & B); [eassumption|]. eauto using run.
Qed.
Lemma run_one s l s' : step s l s' -> run s [l] s'.
Proof. eauto using run. Qed.
Lemma run_ind_right (P : list label -> state -> Prop) s0 :
  P [] s0 -> (forall h s l s', run s0 h s -> P h s -> step s l s' -> P (h ++ [l]) s') ->
  forall h s, run s0 h s -> P h s.
Proof.
  intros B S h. induction h as [|l h IH] using rev_ind; intros s R; [inversion R; subst; exact B|].
  apply run_split in R as (s1 & R1 & R2). inversion R2 as [|? ? ? ? ? X Y]; subst. inversion Y; subst.
  eapply S; eauto.
Qed.

Lemma at_same s t p : st_threads (at_point s t p) t = p.
Proof. cbn. now rewrite Nat.eqb_refl. Qed.
Lemma at_other s t p u : u <> t -> st_threads (at_point s t p) u = st_threads s u.
Proof. cbn. intros H. apply Nat.eqb_neq in H. now rewrite H. Qed.
Ltac point u t := destruct (Nat.eq_dec u t) as [->|];
  [rewrite ?at_same in *|rewrite ?at_other in * by assumption].

(** ** The Once *)
Definition before_once (p : program_point) : Prop := match p with Outside | AtOnce _ => True | _ => False end.
Definition in_closure (p : program_point) : Prop := match p with InClosure _ | ClosureDone _ _ => True | _ => False end.
Definition built (p : program_point) : nat := match p with ClosureDone _ _ => 1 | _ => 0 end.

Definition once_inv (h : list label) (s : state) : Prop :=
  match st_once s with
  | OnceIncomplete => (forall t, before_once (st_threads s t)) /\ count is_build h = 0
  | OnceRunning => exists t, in_closure (st_threads s t) /\
                     (forall u, u <> t -> before_once (st_threads s u)) /\
                     count is_build h = built (st_threads s t)
  | OnceComplete => (forall t, ~ in_closure (st_threads s t)) /\ count is_build h = 1 /\
                    exists t, In (LOnceLeave t) h
  end.

Lemma count_app f a b : count f (a ++ b) = count f a + count f b.
Proof. unfold count. now rewrite filter_app, app_length. Qed.

Lemma once_inv_holds h s : run initial h s -> once_inv h s.
Proof.
  revert h s. apply run_ind_right; [cbn; auto|].
  intros h s l s' _ I S. unfold once_inv in *.
  destruct S; rewrite count_app;
    cbn [st_once at_point with_once with_pool with_owners open_socket close_socket] in *;
    destruct (st_once s) eqn:O; try congruence;
    (match type of I with
     | ex _ => destruct I as (w & A & B & C)
     | _ /\ _ /\ _ => destruct I as (A & B & q & C)
     | _ => destruct I as [A B]
     end);
    try (match goal with H : st_threads _ ?t = _ |- _ => pose proof (A t) as AT; rewrite H in AT; now cbn in AT end);
    try (exfalso; destruct (Nat.eq_dec w t) as [->|];
         [match goal with H : st_threads _ _ = _ |- _ => rewrite H in A; now cbn in A end
         |pose proof (B t ltac:(congruence)) as BT;
          match goal with H : st_threads _ _ = _ |- _ => rewrite H in BT; now cbn in BT end]);
    try (match goal with |- context[count is_build [?x]] =>
           change (count is_build [x]) with 0; rewrite Nat.add_0_r end);
    cbn [st_threads with_once with_pool with_owners open_socket close_socket] in *;
    try (split; [|assumption]; intros u; cbn; auto; destruct (u =? t) eqn:X; cbn; auto; fail);
    try (split; [|split; [assumption|exists q; apply in_or_app; auto]]; intros u; cbn; auto;
         destruct (u =? t) eqn:X; cbn; auto; fail);
    try (exists w; repeat split; assumption).
  - exists w. destruct (Nat.eq_dec w t) as [->|N]; [rewrite H in A; now cbn in A|].
    rewrite at_other by assumption. repeat split; auto.
    intros u M. destruct (Nat.eq_dec u t) as [->|]; [rewrite at_same; exact Logic.I|rewrite at_other by assumption; auto].
  - exists t. rewrite at_same. repeat split; auto.
    intros u M. rewrite at_other by assumption. apply A.
  - destruct (Nat.eq_dec w t) as [->|N].
    + exists t. rewrite at_same. rewrite H in C. cbn in C. rewrite C. repeat split; auto.
      intros u M. rewrite at_other by assumption. cbn. auto.
    + specialize (B t ltac:(congruence)). rewrite H in B. now cbn in B.
  - destruct (Nat.eq_dec w t) as [->|N].
    + exists t. rewrite at_same. rewrite H in C. cbn in C. rewrite C. repeat split; auto.
      intros u M. rewrite at_other by assumption. cbn. auto.
    + specialize (B t ltac:(congruence)). rewrite H in B. now cbn in B.
  - destruct (Nat.eq_dec w t) as [->|N].
    + rewrite H in C. cbn in C. split; [|split; [assumption|exists t; apply in_or_app; right; now left]].
      intros u. destruct (Nat.eq_dec u t) as [->|M]; [rewrite at_same; auto|rewrite at_other by assumption].
      cbn. specialize (B u M). destruct (st_threads s u); cbn in *; auto.
    + specialize (B t ltac:(congruence)). rewrite H in B. now cbn in B.
Qed.

(** ** What a thread inside [new] has done since the call *)
Definition config_of (p : program_point) : option config :=
  match p with
  | AtOnce c | InClosure c | ClosureDone c _ | AfterOnce c _ | BindingReceiver c | BindingSender c _ => Some c
  | Returning (Ok i) => Some (in_config i)
  | _ => None
  end.
Definition built_result (p : program_point) : option bool :=
  match p with ClosureDone _ ok => Some ok | AfterOnce _ o => o | _ => None end.

(** the last thing thread [t] started was a call with [cfg]; [mine] is what has happened since *)
Definition called (h : list label) (t : nat) (cfg : config) (mine : list label) : Prop :=
  exists h1, h = h1 ++ LCall t cfg :: mine /\ count (is_return_of t) mine = 0.

Definition thread_inv (h : list label) (s : state) : Prop :=
  forall t, st_threads s t = Outside \/
    exists cfg mine, called h t cfg mine /\
      (forall c, config_of (st_threads s t) = Some c -> c = cfg) /\
      (forall ok, built_result (st_threads s t) = Some ok -> In (LBuild t ok) mine).

Lemma called_snoc h t cfg mine l : called h t cfg mine -> is_return_of t l = false -> called (h ++ [l]) t cfg (mine ++ [l]).
Proof.
  intros (h1 & -> & Z) E. exists h1. split; [now rewrite <- app_assoc|]. rewrite count_app, Z. unfold count. cbn. now rewrite E.
Qed.

Lemma step_frame s l s' t : step s l s' -> is_step_of t l = false -> st_threads s' t = st_threads s t.
Proof.
  unfold is_step_of. intros S E. destruct S; cbn in E |- *; try reflexivity; rewrite Nat.eqb_sym in E; now rewrite E.
Qed.

Lemma not_step_not_return t l : is_step_of t l = false -> is_return_of t l = false.
Proof. destruct l; cbn; auto. Qed.

Lemma thread_inv_holds h s : run initial h s -> thread_inv h s.
Proof.
  revert h s. apply run_ind_right; [intros t; now left|].
  intros h s l s' _ I S t. destruct (is_step_of t l) eqn:E.
  2:{ rewrite (step_frame _ _ _ _ S E). destruct (I t) as [O|(cfg & mine & C & D & F)]; [now left|right].
      exists cfg, (mine ++ [l]). split; [apply called_snoc; auto using not_step_not_return|].
      split; [exact D|]. intros ok B. apply in_or_app. left. now apply F. }
  specialize (I t).
  destruct S; unfold is_step_of in E; cbn [thread_of] in E; try discriminate; apply Nat.eqb_eq in E; subst t0;
    rewrite at_same; try (now left); right;
    try (destruct I as [I|(c & mine & C & D & F)]; [congruence|]; rewrite H in *; cbn in D, F;
         exists c; eexists; split; [apply called_snoc; [eassumption|reflexivity]|];
         split; [cbn; try discriminate; intros ? Q; apply D; congruence|]; cbn; try discriminate; intros ok' Q;
         apply in_or_app; first [left; apply F; congruence | right; left; congruence]).
  - exists cfg, []. split; [exists h; auto|]. split; cbn; [congruence|discriminate].
Qed.
(** ** C79 *)

(** C79. However many threads call [IPv8::new] at once: the global pool is built at most once. *)
Lemma p_C79_pool_built_once :
  forall h s, run initial h s -> count is_build h <= 1.
Proof.
  intros h s R. apply once_inv_holds in R. unfold once_inv in R.
  destruct (st_once s); [lia|destruct R as (t & _ & _ & ->); destruct (st_threads s t); cbn; lia|lia].
Qed.

(** C79. No call opens a socket before the attempt to build the pool is over, whichever thread makes it. *)
Lemma p_C79_pool_before_sockets :
  forall h l rest s, run initial (h ++ l :: rest) s -> is_bind l = true ->
    count is_build h = 1 /\ exists t, In (LOnceLeave t) h.
Proof.
  intros h l rest s R B. apply run_split in R as (s1 & R1 & R2). inversion R2 as [|? ? s2 ? ? S _]; subst.
  apply once_inv_holds in R1. unfold once_inv in R1.
  assert (exists t, st_threads s1 t <> Outside /\ ~ before_once (st_threads s1 t) /\ ~ in_closure (st_threads s1 t)) as (t & N & P & Q).
  { destruct S; try discriminate; exists t; rewrite H; cbn; repeat split; auto; discriminate. }
  destruct (st_once s1).
  - destruct R1 as [A _]. now destruct (P (A t)).
  - destruct R1 as (w & A & C & _). destruct (Nat.eq_dec t w) as [->|M]; [contradiction|]. now destruct (P (C t M)).
  - destruct R1 as (_ & A & C). auto.
Qed.

(** C79. There is never a second pool: in any history it comes into being at most once, by a call of [new] or by the rest of the program, and then it stays. So when the rest of the
    program was first, the one call that tries to build it fails. *)
Lemma p_C79_one_pool :
  forall h s, run initial h s ->
    count sets_pool h <= 1 /\ (st_pool s = None <-> count sets_pool h = 0) /\
    (forall h' s' n, run s h' s' -> st_pool s = Some n -> st_pool s' = Some n) /\
    (forall before n mid t ok rest, h = before ++ LInitPool n :: mid ++ LBuild t ok :: rest -> ok = false).
Proof.
  assert (K : forall h s, run initial h s -> match st_pool s with None => count sets_pool h = 0 | Some _ => count sets_pool h = 1 end).
  { intros h s R. pattern h, s. revert h s R. apply run_ind_right; [reflexivity|]. intros h s l s' _ IH S. rewrite count_app.
    destruct S; cbn in *; rewrite ?Nat.add_0_r; try exact IH; match goal with Q : st_pool _ = None |- _ => rewrite Q in IH; lia end. }
  intros h s R. split; [|split; [|split]].
  - specialize (K h s R). destruct (st_pool s); lia.
  - specialize (K h s R). destruct (st_pool s); split; congruence || lia.
  - intros h' s' n R'. clear R. induction R' as [|s1 l s2 ls s3 S R' IH]; [auto|]. intros P. apply IH. destruct S; cbn; congruence.
  - intros before n mid t [|] rest ->; [|reflexivity]. specialize (K _ s R). change (before ++ LInitPool n :: mid ++ LBuild t true :: rest) with (before ++ [LInitPool n] ++ mid ++ [LBuild t true] ++ rest) in K.
    rewrite !count_app in K. change (count sets_pool [LInitPool n]) with 1 in K. change (count sets_pool [LBuild t true]) with 1 in K.
    destruct (st_pool s); lia.
Qed.

(** C79. The pool has the thread count of the configuration of the call that built it, unless the rest of the program
    had set it up before. *)
Lemma p_C79_pool_size :
  forall h s n, run initial h s -> st_pool s = Some n ->
    In (LInitPool n) h \/
    exists t cfg h1 mine h2,
      h = h1 ++ LCall t cfg :: mine ++ LBuild t true :: h2 /\
      count (is_return_of t) mine = 0 /\ n = cf_threadcount cfg.
Proof.
  intros h s n R. revert n. pattern h, s. revert h s R. apply run_ind_right; [discriminate|].
  intros h s l s' R IH S n P.
  assert (D : st_pool s = Some n \/ l = LInitPool n \/ exists t cfg, l = LBuild t true /\ st_threads s t = InClosure cfg /\ n = cf_threadcount cfg).
  { destruct S; cbn in P; auto; [right; right; exists t, cfg; repeat split; congruence|right; left; congruence]. }
  destruct D as [D|[->|(t & cfg & -> & T & ->)]].
  - destruct (IH n D) as [I|(t & cfg & h1 & mine & h2 & -> & Z & Q)].
    + left. apply in_or_app. auto.
    + right. exists t, cfg, h1, mine, (h2 ++ [l]). repeat split; auto. cbn. rewrite <- !app_assoc. cbn. now rewrite <- app_assoc.
  - left. apply in_or_app. right. now left.
  - right. destruct (thread_inv_holds _ _ R t) as [X|(c & mine & (h1 & -> & Z) & C & _)]; [congruence|].
    exists t, cfg, h1, mine, []. rewrite T in C. rewrite (C cfg eq_refl). repeat split; auto. now rewrite <- app_assoc.
Qed.

Definition pool_failed (p : program_point) : Prop :=
  match p with ClosureDone _ false | AfterOnce _ (Some false) | Returning (Err EPoolError) => True | _ => False end.
Definition never_pool_error (p : program_point) : Prop :=
  match p with DroppingReceiver _ EPoolError => False | _ => True end.

Lemma os_bind_err env b a e : os_bind env b a = Err e -> env_refuse env a = Some e \/
  (env_refuse env a = None /\ e = EAddrInUse).
Proof.
  unfold os_bind. destruct (env_refuse env a); [intros H; left; congruence|].
  destruct (existsb _ _); intros H; [right; split; congruence|discriminate].
Qed.

Definition fail_inv (h : list label) (s : state) : Prop :=
  (forall t u, pool_failed (st_threads s t) -> pool_failed (st_threads s u) -> t = u) /\
  (forall t, pool_failed (st_threads s t) -> count is_pool_error h = 0) /\
  count is_pool_error h <= count is_build h /\
  (forall t, pool_failed (st_threads s t) -> count is_build h = 1 /\
     exists cfg mine, called h t cfg mine /\ In (LBuild t false) mine) /\
  (forall t, never_pool_error (st_threads s t)).

Lemma fail_inv_holds h s : run initial h s -> Forall honest h -> fail_inv h s.
Proof.
  intros R. pattern h, s. revert h s R. apply run_ind_right.
  { intros _. repeat split; cbn; try lia; try contradiction; auto. }
  intros h s l s' R IH S F. apply Forall_app in F as [F1 F2]. inversion F2 as [|? ? HL _]; subst. specialize (IH F1).
  destruct IH as (A & B & C & D & E).
  pose proof (once_inv_holds _ _ R) as O. pose proof (p_C79_pool_built_once _ _ (run_app _ _ _ _ _ R (run_one _ _ _ S))) as U.
  (* either the step changes no thread's failure status, or it is one of the three that do *)
  assert (K : (count is_pool_error [l] = 0 /\ (forall t, pool_failed (st_threads s' t) -> pool_failed (st_threads s t) /\ is_return_of t l = false)) \/
              (exists t, l = LBuild t false) \/ (exists t, l = LReturn t (Err EPoolError) /\ st_threads s t = Returning (Err EPoolError))).
  { destruct S; try (right; left; now eauto); try (left; split; [reflexivity|]; intros u; cbn; destruct (u =? t) eqn:X; cbn; [apply Nat.eqb_eq in X; subst; rewrite ?H; cbn; tauto|tauto]); try (left; split; [reflexivity|]; cbn; tauto).
    - left. split; [reflexivity|]. intros u; cbn; destruct (u =? t) eqn:X; cbn; [|tauto].
      cbn in HL. apply os_bind_err in H0 as [Q|[_ ->]]; [|tauto]. specialize (HL (cf_receiving_address cfg)).
      destruct e; tauto.
    - left. split; [reflexivity|]. intros u; cbn; destruct (u =? t) eqn:X; cbn; [|tauto].
      specialize (E t). rewrite H in E. destruct e; cbn in E; tauto.
    - destruct r as [i|e|q].
      + left. split; [reflexivity|]. intros u; cbn; destruct (u =? t) eqn:X; cbn; [tauto|].
        intros Q. split; auto. now rewrite Nat.eqb_sym.
      + assert (G : e = EPoolError \/ is_pool_error (LReturn t (Err e)) = false) by (destruct e; cbn; auto).
        destruct G as [->|G]; [right; right; eauto|]. left. split; [unfold count; cbn [filter]; now rewrite G|].
        intros u; cbn; destruct (u =? t) eqn:X; cbn; [tauto|]. intros Q. split; auto. now rewrite Nat.eqb_sym.
      + left. split; [reflexivity|]. intros u; cbn; destruct (u =? t) eqn:X; cbn; [tauto|].
        intros Q. split; auto. now rewrite Nat.eqb_sym. }
  assert (E' : forall t, never_pool_error (st_threads s' t)).
  { intros u. specialize (E u). destruct S; cbn; try exact E; destruct (u =? t) eqn:X; try exact E; try exact Logic.I.
    cbn in HL |- *. apply os_bind_err in H0 as [Q|[_ ->]]; [|exact Logic.I]. specialize (HL (cf_sending_address cfg)).
    destruct e; tauto. }
  rewrite count_app in U.
  destruct K as [[K1 K2]|[(t & ->)|(t & -> & T)]].
  - unfold fail_inv. rewrite !count_app, K1. split; [intros; apply A; now apply K2|].
    split; [intros t P; rewrite (B t); [reflexivity|now apply K2]|].
    split; [lia|]. split; [|exact E'].
    intros t P. apply K2 in P as [P Q]. destruct (D t P) as (Z & cfg & mine & W & V). split; [lia|].
    exists cfg, (mine ++ [l]). split; [now apply called_snoc|]. apply in_or_app. auto.
  - change (count is_build [LBuild t false]) with 1 in U.
    assert (NF : forall u, ~ pool_failed (st_threads s u)) by (intros u P; destruct (D u P); lia).
    inversion S as [| | | |? ? cfg T| | | | | | | | | | | | | | |]; subst.
    assert (G : forall u, pool_failed (st_threads (at_point s t (ClosureDone cfg false)) u) -> u = t).
    { intros u P. destruct (Nat.eq_dec u t); [assumption|]. rewrite at_other in P by assumption. now apply NF in P. }
    unfold fail_inv. rewrite !count_app. change (count is_build [LBuild t false]) with 1.
    change (count is_pool_error [LBuild t false]) with 0.
    split; [intros u v P Q; rewrite (G u P), (G v Q); reflexivity|].
    split; [intros; lia|]. split; [lia|]. split; [|exact E'].
    intros u P. apply G in P. subst u. split; [lia|].
    destruct (thread_inv_holds _ _ R t) as [X|(c & mine & W & _)]; [congruence|].
    exists c, (mine ++ [LBuild t false]). split; [apply called_snoc; auto|]. apply in_or_app. right. now left.
  - assert (P : pool_failed (st_threads s t)) by (rewrite T; exact Logic.I).
    destruct (D t P) as (Z & _). pose proof (B t P) as Z'.
    assert (G : forall u, ~ pool_failed (st_threads s' u)).
    { inversion S; subst. intros u Q. destruct (Nat.eq_dec u t) as [->|N]; [now rewrite at_same in Q|].
      rewrite at_other in Q by assumption. cbn in Q. apply N. now apply A. }
    unfold fail_inv. rewrite !count_app.
    change (count is_build [LReturn t (Err EPoolError)]) with 0.
    change (count is_pool_error [LReturn t (Err EPoolError)]) with 1.
    split; [intros u v Q _; now apply G in Q|]. split; [intros u Q; now apply G in Q|]. split; [lia|].
    split; [intros u Q; now apply G in Q|exact E'].
Qed.

(** C79. A failure to build the pool is reported to one caller, and to the one whose call tried to build it. *)
Lemma p_C79_failure_reported_to_builder :
  forall h s, run initial h s -> Forall honest h ->
    count is_pool_error h <= 1 /\
    (forall before t rest, h = before ++ LReturn t (Err EPoolError) :: rest ->
       exists h1 cfg mine, before = h1 ++ LCall t cfg :: mine /\
         count (is_return_of t) mine = 0 /\ In (LBuild t false) mine) /\
    (forall before t mid r rest, h = before ++ LBuild t false :: mid ++ LReturn t r :: rest ->
       count (is_return_of t) mid = 0 -> r = Err EPoolError).
Proof.
  intros h s R F. split; [|split].
  - pose proof (fail_inv_holds _ _ R F) as (_ & _ & A & _). pose proof (p_C79_pool_built_once _ _ R). lia.
  - intros before t rest ->. apply run_split in R as (s1 & R1 & R2). inversion R2 as [|? ? ? ? ? S _]; subst.
    apply Forall_app in F as [F _]. destruct (fail_inv_holds _ _ R1 F) as (_ & _ & _ & D & _).
    inversion S; subst. destruct (D t) as (_ & cfg & mine & (h1 & -> & Z) & I).
    { match goal with H : st_threads s1 t = _ |- _ => now rewrite H end. }
    exists h1, cfg, mine. auto.
  - intros before t mid r rest ->.
    change (LBuild t false :: mid ++ LReturn t r :: rest) with ([LBuild t false] ++ mid ++ LReturn t r :: rest) in R.
    apply run_split in R as (s1 & R1 & R2). apply run_split in R2 as (s2 & R2 & R3).
    apply run_split in R3 as (s3 & R3 & R4).
    inversion R2 as [|? ? ? ? ? S X]; subst. inversion X; subst. clear X R2.
    inversion R4 as [|? ? ? ? ? S4 _]; subst.
    intros Z.
    assert (J : exists cfg, st_threads s2 t = ClosureDone cfg false).
    { inversion S; subst. exists cfg. apply at_same. }
    assert (P : pool_failed (st_threads s3 t)).
    { assert (P : pool_failed (st_threads s2 t)) by (destruct J as (c & ->); exact Logic.I).
      clear - R3 Z P. revert Z P. induction R3 as [s|s l s' ls s'' S R IH]; intros Z P; [assumption|].
      unfold count in Z. cbn [filter] in Z. destruct (is_return_of t l) eqn:Q; [discriminate|].
      apply IH; [exact Z|]. clear IH R. destruct (is_step_of t l) eqn:E; [|now rewrite (step_frame _ _ _ _ S E)].
      destruct S; unfold is_step_of in E; cbn [thread_of] in E; try discriminate; apply Nat.eqb_eq in E; subst t0;
        rewrite at_same; rewrite H in P; cbn in P |- *; try contradiction; auto.
      - destruct started as [[]|]; try contradiction.
      - cbn in Q; now rewrite Nat.eqb_refl in Q. }
    inversion S4; subst. match goal with H : st_threads s3 t = _ |- _ => rewrite H in P end.
    destruct r as [| e|]; try contradiction. destruct e; try contradiction. reflexivity.
Qed.
(** ** Who owns which socket *)
Definition instance_fds (i : instance) : list nat := [in_receiver i; in_sender i].
Definition owned (s : state) : list nat :=
  flat_map instance_fds (st_instances s) ++ st_listeners s ++ st_others s.
Definition holding (s : state) (t : nat) : list nat := held (st_threads s t).

Record book (own : list nat) (hold : nat -> list nat) (fds : list nat) (next : nat) : Prop := {
  bk_nodup : NoDup fds;
  bk_lt : forall fd, In fd fds -> fd < next;
  bk_own : NoDup own;
  bk_hold : forall t, NoDup (hold t);
  bk_apart : forall t u fd, In fd (hold t) -> In fd (hold u) -> t = u;
  bk_sep : forall t fd, In fd (hold t) -> ~ In fd own;
  bk_open : forall fd, In fd fds <-> In fd own \/ exists t, In fd (hold t) }.

Lemma book_ext own own' hold hold' fds next :
  book own hold fds next -> Permutation own own' -> (forall t, hold' t = hold t) -> book own' hold' fds next.
Proof.
  intros [A B C D E F G] P H. constructor; auto.
  - eapply Permutation_NoDup; eassumption.
  - intros t. rewrite H. apply D.
  - intros t u fd. rewrite !H. apply E.
  - intros t fd. rewrite H. intros I J. apply (F t fd I). eapply Permutation_in; [apply Permutation_sym|]; eassumption.
  - intros fd. rewrite G. split; intros [I|[t I]].
    + left. eapply Permutation_in; eassumption.
    + right. exists t. now rewrite H.
    + left. eapply Permutation_in; [apply Permutation_sym|]; eassumption.
    + right. exists t. now rewrite <- H.
Qed.

Lemma book_fresh own hold fds next : book own hold fds next ->
  ~ In next fds /\ ~ In next own /\ forall t, ~ In next (hold t).
Proof.
  intros [A B C D E F G]. assert (X : ~ In next fds) by (intros I; apply B in I; lia).
  split; [assumption|]. split; [intros I; apply X, G; auto|intros t I; apply X, G; eauto].
Qed.

Lemma book_open_held own hold hold' fds next t :
  book own hold fds next -> (forall u, u <> t -> hold' u = hold u) -> Permutation (hold' t) (next :: hold t) ->
  book own hold' (next :: fds) (S next).
Proof.
  intros K H P. pose proof (book_fresh _ _ _ _ K) as (X & Y & Z). destruct K as [A B C D E F G].
  assert (Q : forall u fd, In fd (hold' u) -> In fd (hold u) \/ (u = t /\ fd = next)).
  { intros u fd I. destruct (Nat.eq_dec u t) as [->|N]; [|rewrite H in I by assumption; auto].
    apply (Permutation_in _ P) in I. destruct I as [->|I]; auto. }
  assert (Q' : forall u fd, In fd (hold u) -> In fd (hold' u)).
  { intros u fd I. destruct (Nat.eq_dec u t) as [->|N]; [|now rewrite H].
    apply (Permutation_in _ (Permutation_sym P)). now right. }
  constructor; auto.
  - constructor; auto.
  - intros fd [->|I]; [lia|]. apply B in I. lia.
  - intros u. destruct (Nat.eq_dec u t) as [->|N]; [|rewrite H by assumption; auto].
    eapply Permutation_NoDup; [apply Permutation_sym, P|]. constructor; auto.
  - intros u v fd I J. apply Q in I as [I|[-> ->]]; apply Q in J as [J|[-> W]]; subst; eauto.
    + edestruct Z; eassumption.
    + edestruct Z; eassumption.
  - intros u fd I J. apply Q in I as [I|[-> ->]]; [now apply (F u fd)|contradiction].
  - intros fd. cbn. rewrite G. split.
    + intros [<-|[I|[u I]]]; [right; exists t; apply (Permutation_in _ (Permutation_sym P)); now left|auto|right; eauto].
    + intros [I|[u I]]; [auto|]. apply Q in I as [I|[-> ->]]; eauto.
Qed.

Lemma book_open_owned own own' hold fds next :
  book own hold fds next -> Permutation own' (next :: own) -> book own' hold (next :: fds) (S next).
Proof.
  intros K P. pose proof (book_fresh _ _ _ _ K) as (X & Y & Z). destruct K as [A B C D E F G].
  constructor; auto.
  - constructor; auto.
  - intros fd [->|I]; [lia|]. apply B in I. lia.
  - eapply Permutation_NoDup; [apply Permutation_sym, P|]. constructor; auto.
  - intros t fd I J. apply (Permutation_in _ P) in J as [<-|J]; [now apply (Z t)|now apply (F t fd)].
  - intros fd. cbn. rewrite G. split.
    + intros [<-|[I|[u I]]]; [left; apply (Permutation_in _ (Permutation_sym P)); now left
        |left; apply (Permutation_in _ (Permutation_sym P)); now right|right; eauto].
    + intros [I|[u I]]; [|eauto]. apply (Permutation_in _ P) in I as [<-|I]; auto.
Qed.

Lemma book_give own own' hold hold' fds next t :
  book own hold fds next -> (forall u, u <> t -> hold' u = hold u) -> hold' t = [] ->
  Permutation own' (hold t ++ own) -> book own' hold' fds next.
Proof.
  intros [A B C D E F G] H N P. constructor; auto.
  - eapply Permutation_NoDup; [apply Permutation_sym, P|].
    specialize (D t). specialize (F t). clear - C D F. induction (hold t) as [|x l IH]; cbn; [assumption|].
    inversion D; subst. constructor.
    + rewrite in_app_iff. intros [I|I]; [contradiction|]. apply (F x); [now left|assumption].
    + apply IH; [assumption|]. intros fd I. apply F. now right.
  - intros u. destruct (Nat.eq_dec u t) as [->|M]; [rewrite N; constructor|rewrite H by assumption; auto].
  - intros u v fd I J. destruct (Nat.eq_dec u t) as [->|M]; [rewrite N in I; contradiction|].
    destruct (Nat.eq_dec v t) as [->|M']; [rewrite N in J; contradiction|]. rewrite H in I, J by assumption. eauto.
  - intros u fd I J. destruct (Nat.eq_dec u t) as [->|M]; [rewrite N in I; contradiction|]. rewrite H in I by assumption.
    apply (Permutation_in _ P), in_app_iff in J as [J|J]; [apply M; eauto|eapply F; eauto].
  - intros fd. rewrite G. split.
    + intros [I|[u I]]; [left; apply (Permutation_in _ (Permutation_sym P)), in_app_iff; auto|].
      destruct (Nat.eq_dec u t) as [->|M]; [left; apply (Permutation_in _ (Permutation_sym P)), in_app_iff; auto|].
      right. exists u. now rewrite H.
    + intros [I|[u I]]; [apply (Permutation_in _ P), in_app_iff in I as [I|I]; eauto|].
      destruct (Nat.eq_dec u t) as [->|M]; [rewrite N in I; contradiction|]. rewrite H in I by assumption. eauto.
Qed.

Lemma filter_fd fd (l : list (nat * address)) x :
  In x (map fst (filter (fun y => negb (fst y =? fd)) l)) <-> In x (map fst l) /\ x <> fd.
Proof.
  rewrite !in_map_iff. split.
  - intros ([a b] & <- & I). apply filter_In in I as [I E]. cbn in *. apply negb_true_iff, Nat.eqb_neq in E. split; [exists (a, b); auto|assumption].
  - intros [([a b] & <- & I) N]. exists (a, b). split; [reflexivity|]. apply filter_In. split; [assumption|]. cbn in *.
    now apply negb_true_iff, Nat.eqb_neq.
Qed.
Lemma NoDup_filter_fst (f : nat * address -> bool) l : NoDup (map fst l) -> NoDup (map fst (filter f l)).
Proof.
  induction l as [|x l IH]; cbn; [auto|]. intros N. inversion N; subst. destruct (f x); cbn; auto. constructor; auto.
  rewrite in_map_iff. intros (y & E & I). apply filter_In in I as [I _]. apply H1. rewrite <- E. now apply in_map.
Qed.

Lemma book_close_owned own own' hold (l : list (nat * address)) next fd :
  book own hold (map fst l) next -> Permutation own (fd :: own') ->
  book own' hold (map fst (filter (fun y => negb (fst y =? fd)) l)) next.
Proof.
  intros [A B C D E F G] P.
  assert (ND : NoDup (fd :: own')) by (eapply Permutation_NoDup; eassumption). inversion ND as [|? ? X Y]; subst.
  constructor; auto.
  - now apply NoDup_filter_fst.
  - intros x I. apply filter_fd in I as [I _]. auto.
  - intros t x I J. apply (F t x I). apply (Permutation_in _ (Permutation_sym P)). now right.
  - intros x. rewrite filter_fd, G. split.
    + intros [[I|I] N]; [|auto]. apply (Permutation_in _ P) in I as [->|I]; [congruence|auto].
    + intros [I|[t I]].
      * split; [left; apply (Permutation_in _ (Permutation_sym P)); now right|]. intros ->. contradiction.
      * split; [eauto|]. intros ->. apply (F t fd I). apply (Permutation_in _ (Permutation_sym P)). now left.
Qed.

Lemma book_close_held own hold hold' (l : list (nat * address)) next fd t :
  book own hold (map fst l) next -> hold t = [fd] -> hold' t = [] -> (forall u, u <> t -> hold' u = hold u) ->
  book own hold' (map fst (filter (fun y => negb (fst y =? fd)) l)) next.
Proof.
  intros K T N H. apply book_close_owned with (own := fd :: own); [|apply Permutation_refl].
  eapply book_give; [eassumption|eassumption|assumption|]. rewrite T. apply Permutation_refl.
Qed.

Lemma Permutation_mid {A} (x : A) a b c : Permutation (a ++ (x :: b) ++ c) (x :: a ++ b ++ c).
Proof. cbn. apply Permutation_sym, Permutation_middle. Qed.

Lemma hold_same s t p : held (st_threads s t) = [] -> held p = [] -> forall u, holding (at_point s t p) u = holding s u.
Proof.
  intros A B u. unfold holding. destruct (Nat.eq_dec u t) as [->|N]; [rewrite at_same; congruence|now rewrite at_other].
Qed.
Lemma hold_other s s1 t p u : st_threads s1 = st_threads s -> u <> t -> holding (at_point s1 t p) u = holding s u.
Proof. intros E N. unfold holding. rewrite at_other by assumption. now rewrite E. Qed.

Definition books (s : state) : Prop := book (owned s) (holding s) (open_fds s) (st_next s).

Lemma step_books s l s' : step s l s' -> books s -> books s'.
Proof.
  intros S K. unfold books in *.
  destruct S; try exact K;
    try (eapply book_ext; [exact K|apply Permutation_refl|];
         intros u; apply (hold_same s); [now rewrite H|reflexivity]).
  - (* the receiver's socket is opened *)
    apply (book_open_held _ (holding s) _ _ _ t); [exact K|intros u N; now apply hold_other|].
    unfold holding. rewrite at_same, H. apply Permutation_refl.
  - (* the sender's *)
    apply (book_open_held _ (holding s) _ _ _ t); [exact K|intros u N; now apply hold_other|].
    unfold holding. rewrite at_same, H. cbn. apply perm_swap.
  - eapply book_ext; [exact K|apply Permutation_refl|].
    intros u. unfold holding. destruct (Nat.eq_dec u t) as [->|N]; [rewrite at_same, H; reflexivity|now rewrite at_other].
  - eapply book_close_held; [exact K|unfold holding; rewrite H; reflexivity|unfold holding; now rewrite at_same|].
    intros u N. now apply hold_other.
  - apply (book_give (owned s) _ (holding s) _ _ _ t); [exact K|intros u N; now apply hold_other|unfold holding; now rewrite at_same|].
    unfold holding. rewrite H. unfold owned. cbn [st_instances st_listeners st_others at_point with_owners].
    rewrite flat_map_app, <- app_assoc. apply Permutation_sym. etransitivity; [|apply Permutation_app_swap_app].
    apply Permutation_app_tail. destruct r; cbn; try apply Permutation_refl.
  - eapply book_close_owned; [exact K|]. unfold owned. cbn [st_instances st_listeners st_others with_owners].
    rewrite H, !flat_map_app. cbn. rewrite <- !app_assoc. cbn.
    etransitivity; [apply Permutation_sym, Permutation_middle|].
    etransitivity; [apply perm_skip, Permutation_sym, Permutation_middle|].
    etransitivity; [apply perm_swap|]. apply perm_skip.
    rewrite flat_map_app, (app_assoc (flat_map _ before) _ (st_listeners s ++ st_others s)). apply Permutation_middle.
  - unfold open_fds, close_socket. cbn [st_sockets].
    eapply book_close_owned; [eapply book_close_owned; [exact K|]|].
    + unfold owned. rewrite H, !flat_map_app. cbn. rewrite <- !app_assoc. cbn.
      etransitivity; [apply Permutation_sym, Permutation_middle|].
      etransitivity; [apply perm_skip, Permutation_sym, Permutation_middle|].
      apply perm_swap.
    + unfold owned. cbn [st_instances st_listeners st_others with_owners close_socket]. rewrite flat_map_app, <- app_assoc.
      apply Permutation_refl.
  - eapply book_close_owned; [exact K|]. unfold owned. cbn [st_instances st_listeners st_others with_owners close_socket].
    rewrite H. rewrite <- app_assoc. cbn. rewrite <- app_assoc.
    etransitivity; [|apply Permutation_sym, Permutation_middle].
    apply Permutation_app_head. apply Permutation_sym, Permutation_middle.
  - apply book_open_owned with (own := owned s); [exact K|].
    unfold owned. cbn. rewrite !app_assoc. apply Permutation_sym, Permutation_middle.
  - eapply book_close_owned; [exact K|]. unfold owned. cbn [st_instances st_listeners st_others with_owners close_socket].
    rewrite H. rewrite !app_assoc. apply Permutation_sym, Permutation_middle.
Qed.

Lemma books_hold s : reachable s -> books s.
Proof.
  intros [h R]. pattern h, s. revert h s R. apply run_ind_right; [|intros; eapply step_books; eassumption].
  constructor; cbn; try constructor; try contradiction; try tauto. intros [[]|[_ []]].
Qed.
(** ** C80 *)
Lemma NoDup_nth {A} (l : list A) i j x : NoDup l -> nth_error l i = Some x -> nth_error l j = Some x -> i = j.
Proof.
  intros N P Q. apply (proj1 (NoDup_nth_error l) N); [apply nth_error_Some; congruence|congruence].
Qed.
Lemma NoDup_app_parts {A} (a b : list A) : NoDup (a ++ b) -> NoDup a /\ NoDup b /\ forall x, In x a -> In x b -> False.
Proof.
  induction a as [|y a IH]; cbn; intros N; [repeat split; auto; constructor|]. inversion N; subst.
  destruct (IH H2) as (X & Y & Z). split; [|split].
  - constructor; auto. intros I. apply H1, in_or_app. auto.
  - assumption.
  - intros x [->|I] J; [apply H1, in_or_app; auto|eauto].
Qed.
Lemma flat_map_instances_unique (l : list instance) j k i i' fd :
  NoDup (flat_map instance_fds l) -> nth_error l j = Some i -> nth_error l k = Some i' ->
  In fd (instance_fds i) -> In fd (instance_fds i') -> j = k.
Proof.
  revert j k. induction l as [|x l IH]; intros j k N P Q I J; [destruct j; discriminate|].
  cbn [flat_map] in N. apply NoDup_app_parts in N as (N1 & N2 & N3).
  assert (M : forall n y, nth_error l n = Some y -> In fd (instance_fds y) -> In fd (flat_map instance_fds l)).
  { intros n y E F. apply in_flat_map. exists y. split; [eapply nth_error_In; eassumption|assumption]. }
  destruct j as [|j], k as [|k]; cbn in P, Q.
  - reflexivity.
  - inversion P; subst. destruct (N3 fd I (M _ _ Q J)).
  - inversion Q; subst. destruct (N3 fd J (M _ _ P I)).
  - f_equal. eapply IH; eassumption.
Qed.

(** C80. At every moment of every interleaving: the open sockets are exactly those somebody owns (a call of
    [new] in progress, a live value, a listening thread, or the rest of the program), and nobody shares one. *)
Lemma p_C80_one_owner :
  forall s, reachable s ->
    (forall fd, In fd (open_fds s) <-> exists o, owns s o fd) /\
    (forall o o' fd, owns s o fd -> owns s o' fd -> o = o') /\
    (forall i, In i (st_instances s) -> in_receiver i <> in_sender i).
Proof.
  intros s R. apply books_hold in R. destruct R as [A B C D E F G].
  unfold owned in *. apply NoDup_app_parts in C as (C1 & C2 & C3). apply NoDup_app_parts in C2 as (C2 & C4 & C5).
  assert (X : forall o fd, owns s o fd ->
    match o with
    | ByCall t => In fd (holding s t)
    | ByInstance _ => In fd (flat_map instance_fds (st_instances s))
    | ByListener _ => In fd (st_listeners s)
    | ByOther _ => In fd (st_others s)
    end).
  { intros [t|k|k|k] fd; cbn; auto; try apply nth_error_In.
    intros (i & P & Q). apply in_flat_map. exists i. split; [eapply nth_error_In; eassumption|exact Q]. }
  split; [|split].
  - intros fd. rewrite G, !in_app_iff. split.
    + intros [[I|[I|I]]|[t I]].
      * apply in_flat_map in I as (i & I & J). apply In_nth_error in I as [k I]. exists (ByInstance k), i. auto.
      * apply In_nth_error in I as [k I]. now exists (ByListener k).
      * apply In_nth_error in I as [k I]. now exists (ByOther k).
      * now exists (ByCall t).
    + intros [o I]. apply X in I. destruct o; eauto.
  - intros o o' fd O O'. pose proof (X _ _ O) as P. pose proof (X _ _ O') as P'.
    assert (Y : forall u, In fd (holding s u) -> In fd (flat_map instance_fds (st_instances s)) \/ In fd (st_listeners s) \/ In fd (st_others s) -> False)
      by (intros u U V; apply (F u fd U); rewrite !in_app_iff; exact V).
    assert (Z : forall x, In x (flat_map instance_fds (st_instances s)) -> In x (st_listeners s) \/ In x (st_others s) -> False)
      by (intros x U V; apply (C3 x U), in_or_app; exact V).
    destruct o as [t|k|k|k], o' as [t'|k'|k'|k']; try (exfalso; eauto; fail); f_equal.
    + eauto.
    + destruct O as (i & O1 & O2), O' as (i' & O1' & O2'). eapply flat_map_instances_unique; eassumption.
    + eapply NoDup_nth; [exact C2| |]; eassumption.
    + eapply NoDup_nth; [exact C4| |]; eassumption.
  - intros i I. apply in_split in I as (l1 & l2 & I). rewrite I, flat_map_app in C1. cbn in C1.
    apply NoDup_app_parts in C1 as (_ & C1 & _). inversion C1; subst. intros Q. apply H1. left. auto.
Qed.

(** C80. When no call is in progress nothing has leaked: the open sockets are two for every live value, one for every
    listening thread, and those of the rest of the program; so failed calls leave none, and dropped values,
    started senders and stopped listeners have closed theirs. *)
Lemma p_C80_no_leak :
  forall s, reachable s -> idle s ->
    Permutation (open_fds s)
      (flat_map (fun i => [in_receiver i; in_sender i]) (st_instances s) ++ st_listeners s ++ st_others s).
Proof.
  intros s R I. apply books_hold in R. destruct R as [A B C D E F G]. apply NoDup_Permutation; [assumption|exact C|].
  intros fd. rewrite G. split; [|auto]. intros [J|[t J]]; [exact J|]. unfold holding in J. rewrite I in J. contradiction.
Qed.

Lemma disjoint_filter fd (l : list (nat * address)) :
  disjoint (map snd l) -> disjoint (map snd (filter (fun y => negb (fst y =? fd)) l)).
Proof.
  unfold disjoint. induction l as [|x l IH]; cbn; [auto|]. intros D. inversion D as [|? ? P Q]; subst.
  destruct (negb (fst x =? fd)); cbn; [|now apply IH]. constructor; [|now apply IH].
  rewrite Forall_forall in *. intros y J. apply P. apply in_map_iff in J as (z & <- & J).
  apply filter_In in J as [J _]. now apply in_map.
Qed.

(** C80. No two sockets open at the same time clash. *)
Lemma p_C80_no_clash :
  forall s, reachable s -> disjoint (bound s).
Proof.
  intros s [h R]. pattern h, s. revert h s R. apply run_ind_right; [constructor|].
  intros h s l s' _ IH S. unfold bound in *.
  destruct S; cbn [st_sockets at_point with_once with_pool with_owners open_socket close_socket] in *; auto;
    try (cbn; constructor; [eapply os_bind_disjoint; eassumption|assumption]); auto using disjoint_filter.
Qed.

(** addresses of sockets *)
Lemma step_address s l s' fd r : step s l s' ->
  In (fd, r) (st_sockets s) -> In fd (open_fds s') -> In (fd, r) (st_sockets s').
Proof.
  unfold open_fds. intros S I J.
  destruct S; cbn [st_sockets at_point with_once with_pool with_owners open_socket close_socket] in *; auto;
    try (now right); rewrite ?filter_fd in J; rewrite ?filter_In; cbn [fst];
    repeat split; auto; rewrite negb_true_iff, Nat.eqb_neq; tauto.
Qed.

Definition socket_for (s : state) (fd : nat) (a : address) : Prop :=
  exists r, address_of s fd r /\ bound_as a r.
Definition sockets_inv (s : state) : Prop :=
  (forall t cfg fd, st_threads s t = BindingSender cfg fd -> socket_for s fd (cf_receiving_address cfg)) /\
  (forall i, In i (st_instances s) \/ (exists t, st_threads s t = Returning (Ok i)) ->
     socket_for s (in_receiver i) (cf_receiving_address (in_config i)) /\
     socket_for s (in_sender i) (cf_sending_address (in_config i))).

Lemma os_bind_as env b a r : os_bind env b a = Ok r -> bound_as a r.
Proof.
  unfold os_bind. destruct (env_refuse env a); [discriminate|]. destruct (existsb _ _); [discriminate|].
  intros H. injection H as <-. destruct (addr_port a =? 0)%N eqn:E; [|now left]. apply N.eqb_eq in E. right. eauto.
Qed.

Lemma step_reachable s l s' : reachable s -> step s l s' -> reachable s'.
Proof. intros [h R] S. exists (h ++ [l]). eapply run_app; [eassumption|now apply run_one]. Qed.
Lemma run_reachable s h s' : reachable s -> run s h s' -> reachable s'.
Proof. intros [h0 R] S. exists (h0 ++ h). eapply run_app; eassumption. Qed.

Lemma in_open_of_instance s i : books s -> In i (st_instances s) ->
  In (in_receiver i) (open_fds s) /\ In (in_sender i) (open_fds s).
Proof.
  intros K I. split; apply (bk_open _ _ _ _ K); left; unfold owned; apply in_or_app; left; apply in_flat_map;
    exists i; split; auto; [now left|right; now left].
Qed.
Lemma in_open_of_thread s t fd : books s -> In fd (held (st_threads s t)) -> In fd (open_fds s).
Proof. intros K I. apply (bk_open _ _ _ _ K). right. now exists t. Qed.

Lemma sockets_inv_holds s : reachable s -> sockets_inv s.
Proof.
  intros [h R]. pattern h, s. revert h s R. apply run_ind_right.
  { split; [discriminate|]. intros i [[]|(t & E)]. discriminate. }
  intros h s l s' R [A B] S.
  assert (K : reachable s) by (exists h; assumption).
  assert (K' : books s') by (apply books_hold; eapply step_reachable; eassumption).
  assert (FR : forall fd a, socket_for s fd a -> In fd (open_fds s') -> socket_for s' fd a).
  { intros fd a (r & P & Q) I. exists r. split; [|assumption]. eapply step_address; eassumption. }
  split.
  - intros t cfg fd T.
    assert (O : In fd (open_fds s')) by (apply (in_open_of_thread _ t); [assumption|rewrite T; now left]).
    destruct (is_step_of t l) eqn:E; [|rewrite (step_frame _ _ _ _ S E) in T; eauto].
    destruct S; unfold is_step_of in E; cbn [thread_of] in E; try discriminate; apply Nat.eqb_eq in E; subst t0;
      rewrite at_same in T; try discriminate.
    inversion T; subst. exists a. split; [left; reflexivity|eapply os_bind_as; eassumption].
  - intros i I.
    assert (O : In (in_receiver i) (open_fds s') /\ In (in_sender i) (open_fds s')).
    { destruct I as [I|(t & T)]; [now apply in_open_of_instance|].
      split; apply (in_open_of_thread _ t); auto; rewrite T; [now left|right; now left]. }
    assert (D : (In i (st_instances s) \/ (exists t, st_threads s t = Returning (Ok i))) \/
                exists t env cfg fd a, l = LBindSender t env /\ st_threads s t = BindingSender cfg fd /\
                  st_threads s' t = Returning (Ok i) /\ i = {| in_config := cfg; in_receiver := fd; in_sender := st_next s |} /\
                  bound_as (cf_sending_address cfg) a /\ st_sockets s' = (st_next s, a) :: st_sockets s).
    { destruct I as [I|(t & T)].
      - left. destruct S; cbn in I; auto; try (left; rewrite H; apply in_app_iff in I as [I|I]; apply in_or_app; cbn; auto; fail).
        apply in_app_iff in I as [I|I]; [auto|]. right. destruct r; try contradiction. destruct I as [<-|[]]. eauto.
      - destruct (is_step_of t l) eqn:E; [|rewrite (step_frame _ _ _ _ S E) in T; left; eauto].
        destruct S; unfold is_step_of in E; cbn [thread_of] in E; try discriminate; apply Nat.eqb_eq in E; subst t0;
          pose proof T as T'; rewrite at_same in T; try discriminate.
        right. inversion T; subst. exists t, env, cfg, fd, a. repeat split; auto. eapply os_bind_as; eassumption. }
    destruct D as [D|(t & env & cfg & fd & a & -> & T & _ & -> & Q & W)].
    + destruct (B i D) as [P Q]. split; apply FR; tauto.
    + cbn [in_receiver in_sender in_config]. split; [apply FR; [eauto|tauto]|].
      exists a. split; [|exact Q]. unfold address_of. rewrite W. now left.
Qed.

(** C80. Every live value has both its sockets open, on the configured addresses (or, for port 0, on the port the OS
    chose). *)
Lemma p_C80_live_values_have_sockets :
  forall s i, reachable s -> In i (st_instances s) ->
    (exists r, address_of s (in_receiver i) r /\ bound_as (cf_receiving_address (in_config i)) r) /\
    (exists r, address_of s (in_sender i) r /\ bound_as (cf_sending_address (in_config i)) r).
Proof. intros s i R I. exact (proj2 (sockets_inv_holds s R) i (or_introl I)). Qed.

Lemma disjoint_in l (a b : nat * address) : disjoint (map snd l) -> In a l -> In b l -> fst a <> fst b -> ~ clash (snd a) (snd b).
Proof.
  unfold disjoint. induction l as [|x l IH]; cbn; [contradiction|]. intros D I J N. inversion D as [|? ? P Q]; subst.
  rewrite Forall_forall in P. destruct I as [->|I], J as [->|J].
  - congruence.
  - apply P. now apply in_map.
  - intros C. apply clash_sym in C. revert C. apply P. now apply in_map.
  - now apply IH.
Qed.

(** ** C81 *)

(** C81. Two live values never use clashing fixed addresses, in whatever interleaving they were created: for one
    address there is at most one live instance. *)
Lemma p_C81_one_instance_per_address :
  forall s j k i i' a b, reachable s -> j <> k ->
    nth_error (st_instances s) j = Some i -> nth_error (st_instances s) k = Some i' ->
    In a (addresses (in_config i)) -> In b (addresses (in_config i')) ->
    addr_port a <> 0%N -> addr_port b <> 0%N -> ~ clash a b.
Proof.
  intros s j k i i' a b R N P Q I J X Y.
  assert (G : forall k i a, nth_error (st_instances s) k = Some i -> In a (addresses (in_config i)) -> addr_port a <> 0%N ->
    exists fd, owns s (ByInstance k) fd /\ address_of s fd a).
  { clear - R. intros k i a P I X. pose proof (nth_error_In _ _ P) as L.
    destruct (p_C80_live_values_have_sockets s i R L) as [(r & A & B) (w & C & D)].
    destruct I as [<-|[<-|[]]].
    - exists (in_receiver i). split; [exists i; split; [assumption|now left]|].
      destruct B as [->|[B _]]; [assumption|contradiction].
    - exists (in_sender i). split; [exists i; split; [assumption|right; now left]|].
      destruct D as [->|[D _]]; [assumption|contradiction]. }
  destruct (G _ _ _ P I X) as (fd & O & A). destruct (G _ _ _ Q J Y) as (fd' & O' & A').
  apply (disjoint_in (st_sockets s) (fd, a) (fd', b)); auto; [now apply p_C80_no_clash|].
  cbn. intros ->. apply N. pose proof (proj1 (proj2 (p_C80_one_owner s R)) _ _ _ O O') as E. congruence.
Qed.

Lemma os_bind_in_use env open a : os_bind env open a = Err EAddrInUse -> env_refuse env a <> Some EAddrInUse ->
  addr_port a <> 0%N -> exists b, In b open /\ clash a b.
Proof.
  unfold os_bind. intros H N P. apply N.eqb_neq in P. rewrite P in H. destruct (env_refuse env a) as [e|]; [congruence|].
  destruct (existsb (conflict a) open) eqn:X; [|discriminate]. apply existsb_exists in X as (b & I & C).
  apply conflict_spec in C. eauto.
Qed.

(** C81. "Address in use" is only reported when, at the moment of the bind, a socket on a clashing address is open and
    somebody other than this call owns it; for the sending address it can also be the call's own receiving socket. *)
Lemma p_C81_address_in_use_is_true :
  forall s t env s', reachable s ->
    (forall cfg, st_threads s t = BindingReceiver cfg -> addr_port (cf_receiving_address cfg) <> 0%N ->
       env_refuse env (cf_receiving_address cfg) <> Some EAddrInUse ->
       step s (LBindReceiver t env) s' -> st_threads s' t = Returning (Err EAddrInUse) ->
       exists o fd b, o <> ByCall t /\ owns s o fd /\ address_of s fd b /\ clash (cf_receiving_address cfg) b) /\
    (forall cfg own e, st_threads s t = BindingSender cfg own -> addr_port (cf_sending_address cfg) <> 0%N ->
       env_refuse env (cf_sending_address cfg) <> Some EAddrInUse ->
       step s (LBindSender t env) s' -> st_threads s' t = DroppingReceiver own e -> e = EAddrInUse ->
       exists o fd b, (o = ByCall t -> fd = own) /\ owns s o fd /\ address_of s fd b /\ clash (cf_sending_address cfg) b).
Proof.
  intros s t env s' R.
  assert (G : forall b, In b (bound s) -> exists o fd, owns s o fd /\ address_of s fd b).
  { intros b I. apply in_map_iff in I as ([fd b'] & <- & I).
    assert (J : In fd (open_fds s)) by (unfold open_fds; apply in_map_iff; exists (fd, b'); auto).
    apply (proj1 (p_C80_one_owner s R)) in J as [o O]. exists o, fd. auto. }
  split.
  - intros cfg T P N S T'.
    assert (E : os_bind env (bound s) (cf_receiving_address cfg) = Err EAddrInUse).
    { inversion S; subst; rewrite at_same in T'; try discriminate. injection T' as ->. congruence. }
    apply os_bind_in_use in E as (b & I & C); auto. destruct (G b I) as (o & fd & O & A). exists o, fd, b.
    split; [|split; [|split]]; auto. intros ->. cbn in O. rewrite T in O. contradiction.
  - intros cfg own e T P N S T' ->.
    assert (E : os_bind env (bound s) (cf_sending_address cfg) = Err EAddrInUse).
    { inversion S; subst; rewrite at_same in T'; try discriminate. injection T' as _ ->. congruence. }
    apply os_bind_in_use in E as (b & I & C); auto. destruct (G b I) as (o & fd & O & A). exists o, fd, b.
    split; [|split; [|split]]; auto. intros ->. cbn in O. rewrite T in O. destruct O as [<-|[]]. reflexivity.
Qed.
(** *** the race for one sending address *)
Definition won (p : program_point) : Prop := match p with Returning (Ok _) => True | _ => False end.
Definition lost (p : program_point) : Prop := match p with DroppingReceiver _ _ | Returning (Err _) => True | _ => False end.
Definition fair_point (A : address) (p : program_point) : Prop :=
  (forall c, config_of p = Some c -> cf_sending_address c = A /\ addr_port (cf_receiving_address c) = 0%N) /\
  match p with
  | ClosureDone _ ok => ok = true
  | AfterOnce _ o => o <> Some false
  | DroppingReceiver _ e => e = EAddrInUse
  | Returning (Err e) => e = EAddrInUse
  | Returning (Panic _) => False
  | _ => True
  end.

Definition returned (h : list label) (t : nat) : Prop := exists r, In (LReturn t r) h.
Definition race_inv (A : address) (h : list label) (s : state) : Prop :=
  (forall t, fair_point A (st_threads s t)) /\
  (forall t cfg, In (LCall t cfg) h -> st_threads s t <> Outside \/ returned h t) /\
  (forall t e, In (LReturn t (Err e)) h -> e = EAddrInUse) /\
  st_listeners s = [] /\
  ((st_instances s = [] /\ count is_success h = 0 /\ (forall t, ~ won (st_threads s t)) /\ (forall t, ~ lost (st_threads s t)) /\
    (forall t, ~ returned h t) /\ Forall (fun b => ~ clash A b) (bound s)) \/
   (st_instances s = [] /\ count is_success h = 0 /\ exists t, won (st_threads s t) /\ forall u, won (st_threads s u) -> u = t) \/
   (exists i, st_instances s = [i] /\ in_config i = in_config i /\ cf_sending_address (in_config i) = A /\
      count is_success h = 1 /\ forall u, ~ won (st_threads s u))).

(** somebody holds the address *)
Lemma winner_holds A s : reachable s -> addr_port A <> 0%N -> (forall t, fair_point A (st_threads s t)) ->
  ((exists t, won (st_threads s t)) \/ exists i, In i (st_instances s) /\ cf_sending_address (in_config i) = A) -> In A (bound s).
Proof.
  intros R P F W. destruct (sockets_inv_holds s R) as [_ B].
  assert (exists i, (In i (st_instances s) \/ exists t, st_threads s t = Returning (Ok i)) /\ cf_sending_address (in_config i) = A) as (i & I & E).
  { destruct W as [(t & W)|(i & I & E)]; [|eauto]. specialize (F t). destruct (st_threads s t) as [| | | | | | | |[i|e|q]] eqn:T; try contradiction.
    exists i. split; [eauto|]. apply F. reflexivity. }
  destruct (B i I) as (_ & r & X & Y). rewrite E in Y. destruct Y as [->|[Y _]]; [|contradiction].
  unfold bound. apply in_map_iff. eexists. split; [|exact X]. reflexivity.
Qed.

Lemma returned_app h l t : returned h t -> returned (h ++ [l]) t.
Proof. intros [r I]. exists r. apply in_or_app. auto. Qed.

Lemma race_inv_holds A h s : addr_port A <> 0%N -> run initial h s -> Forall (racing A) h -> race_inv A h s.
Proof.
  intros PA R. pattern h, s. revert h s R. apply run_ind_right.
  { intros _. split; [split; cbn; [discriminate|exact Logic.I]|]. split; [contradiction|]. split; [contradiction|].
    split; [reflexivity|]. left. cbn. repeat split; auto. intros t [r []]. }
  intros h s l s' R IH S F. apply Forall_app in F as [F1 F2]. inversion F2 as [|? ? HL _]; subst. specialize (IH F1).
  destruct IH as (A1 & A2 & A3 & A4 & A5).
  assert (RE : reachable s) by (exists h; assumption).
  assert (T : exists t, thread_of l = Some t /\ forall u, u <> t -> st_threads s' u = st_threads s u).
  { destruct l; cbn in HL; try congruence; eexists; (split; [reflexivity|]); intros u N; eapply step_frame; try eassumption;
      unfold is_step_of; cbn; apply Nat.eqb_neq; congruence. }
  destruct T as (t & T & FRM).
  (* the thread's own new point is fair *)
  assert (B1 : fair_point A (st_threads s' t)).
  { specialize (A1 t). destruct S; cbn in T, HL; try discriminate; inversion T; subst t0; rewrite at_same; rewrite H in A1;
      destruct A1 as [C D]; (split; [cbn in *; try discriminate; auto|cbn; cbn in D; auto]).
    - intros c [= <-]. exact HL.
    - discriminate.
    - congruence.
    - exfalso. now apply D.
    - destruct (C cfg eq_refl) as [C1 C2]. apply os_bind_err in H0 as [Q|[_ ->]]; [|reflexivity].
      destruct HL as [HL _]. rewrite HL in Q. discriminate.
    - destruct (C cfg eq_refl) as [C1 C2]. apply os_bind_err in H0 as [Q|[_ ->]]; [|reflexivity].
      destruct HL as [HL _]. rewrite HL in Q. discriminate. }
  assert (B1' : forall u, fair_point A (st_threads s' u)).
  { intros u. destruct (Nat.eq_dec u t) as [->|N]; [assumption|rewrite FRM by assumption; auto]. }
  split; [assumption|]. split.
  { intros u cfg I. apply in_app_iff in I as [I|[->|[]]].
    - destruct (A2 u cfg I) as [O|O]; [|right; now apply returned_app].
      destruct (Nat.eq_dec u t) as [->|N]; [|left; now rewrite FRM].
      destruct S; cbn in T, HL; try discriminate; inversion T; subst t0; rewrite at_same; try (left; discriminate).
      right. exists r. apply in_or_app. right. now left.
    - inversion S; subst. left. rewrite at_same. discriminate. }
  split.
  { intros u e I. apply in_app_iff in I as [I|[->|[]]]; [eauto|]. inversion S; subst.
    match goal with H : st_threads s u = _ |- _ => specialize (A1 u); rewrite H in A1; exact (proj2 A1) end. }
  split; [destruct S; cbn in T; try discriminate; exact A4|].
  (* who has won *)
  assert (NR : forall u, returned (h ++ [l]) u -> returned h u \/ exists r, l = LReturn u r).
  { intros u [r I]. apply in_app_iff in I as [I|[->|[]]]; [left; now exists r|right; eauto]. }
  assert (CS : forall x, is_success l = x -> count is_success (h ++ [l]) = count is_success h + (if x then 1 else 0)).
  { intros x <-. rewrite count_app. unfold count at 2. cbn. now destruct (is_success l). }
  (* steps that bind nothing for the sender and return nothing: nothing changes *)
  assert (QUIET : is_success l = false -> (forall r, l <> LReturn t r) -> st_instances s' = st_instances s ->
    (won (st_threads s' t) <-> won (st_threads s t)) -> (lost (st_threads s' t) -> lost (st_threads s t)) ->
    (forall b, In b (bound s') -> In b (bound s) \/ ~ clash A b) ->
    ((st_instances s' = [] /\ count is_success (h ++ [l]) = 0 /\ (forall u, ~ won (st_threads s' u)) /\ (forall u, ~ lost (st_threads s' u)) /\
      (forall u, ~ returned (h ++ [l]) u) /\ Forall (fun b => ~ clash A b) (bound s')) \/
     (st_instances s' = [] /\ count is_success (h ++ [l]) = 0 /\ exists u, won (st_threads s' u) /\ forall v, won (st_threads s' v) -> v = u) \/
     (exists i, st_instances s' = [i] /\ in_config i = in_config i /\ cf_sending_address (in_config i) = A /\
        count is_success (h ++ [l]) = 1 /\ forall u, ~ won (st_threads s' u)))).
  { intros Q1 Q2 Q3 Q4 Q5 Q6. rewrite (CS _ Q1), Nat.add_0_r, Q3.
    assert (WW : forall u, won (st_threads s' u) <-> won (st_threads s u)).
    { intros u. destruct (Nat.eq_dec u t) as [->|N]; [assumption|now rewrite FRM]. }
    destruct A5 as [(I & C & W & L & N & B)|[(I & C & w & W & U)|(i & I & E & G & C & W)]].
    - left. repeat split; auto.
      + intros u V. now apply WW, W in V.
      + intros u V. destruct (Nat.eq_dec u t) as [->|M]; [now apply Q5, L in V|rewrite FRM in V by assumption; now apply L in V].
      + intros u V. apply NR in V as [V|(r & ->)]; [now apply N in V|]. cbn in T. inversion T; subst. now apply (Q2 r).
      + rewrite Forall_forall in *. intros b X. apply Q6 in X as [X|X]; auto.
    - right. left. repeat split; auto. exists w. split; [now apply WW|]. intros v V. apply U. now apply WW.
    - right. right. exists i. repeat split; auto. intros u V. now apply WW, W in V. }
  pose proof (A1 t) as FT.
  destruct S; cbn in T, HL; try discriminate; inversion T; subst t0;
    try (apply QUIET; [reflexivity|discriminate|reflexivity|rewrite at_same, H; reflexivity
      |rewrite at_same; cbn; contradiction|auto]; fail).
  - exfalso. rewrite H in FT. now apply (proj2 FT).
  - (* the receiver's socket does not touch A *)
    apply QUIET; [reflexivity|discriminate|reflexivity|rewrite at_same, H; reflexivity|rewrite at_same; cbn; contradiction|].
    intros b [<-|I]; [right|left; exact I]. rewrite H in FT. destruct FT as [C _]. destruct (C cfg eq_refl) as [_ Z].
    destruct HL as [HL1 HL2]. specialize (HL2 (bound s) _ Z). unfold os_bind in H0. rewrite Z, HL1 in H0. cbn in H0.
    destruct (existsb _ _); [discriminate|]. injection H0 as <-. inversion HL2; subst. intros K. apply clash_sym in K. contradiction.
  - (* it cannot fail *)
    exfalso. rewrite H in FT. destruct FT as [C _]. destruct (C cfg eq_refl) as [_ Z].
    destruct HL as [HL1 HL2]. specialize (HL2 (bound s) _ Z). unfold os_bind in H0. rewrite Z, HL1 in H0. cbn in H0.
    destruct (existsb _ _) eqn:X; [|discriminate]. apply existsb_exists in X as (b & I & K). apply conflict_spec in K.
    inversion HL2 as [|? ? _ Y]; subst. rewrite Forall_forall in Y. now apply (Y b).
  - (* the first sender *)
    rewrite H in FT. destruct FT as [C _]. destruct (C cfg eq_refl) as [C1 _].
    rewrite C1 in H0. apply os_bind_ok in H0 as (-> & _ & NC); [|assumption].
    assert (NB : ~ In A (bound s)) by (intros I; rewrite Forall_forall in NC; apply (NC A I); repeat split; auto).
    destruct A5 as [(I & CT & W & _)|[(I & _ & w & W & U)|(i & I & E & G & _ & W)]].
    + right. left. rewrite (CS false eq_refl), CT. cbn. repeat split; auto. exists t. rewrite Nat.eqb_refl. cbn. split; auto.
      intros v. destruct (v =? t) eqn:X; [intros _; now apply Nat.eqb_eq|]. intros V. now apply W in V.
    + exfalso. apply NB, winner_holds; eauto.
    + exfalso. apply NB, winner_holds; auto. right. exists i. rewrite I. split; [now left|assumption].
  - (* a later sender fails *)
    rewrite H in FT. destruct FT as [C _]. destruct (C cfg eq_refl) as [C1 _].
    destruct A5 as [(I & CT & W & L & N & B)|[(I & CT & w & W & U)|(i & I & E & G & CT & W)]].
    + exfalso. assert (K : os_bind env (bound s) (cf_sending_address cfg) = Ok A).
      { rewrite C1. apply os_bind_ok; auto. split; [reflexivity|]. split; [apply HL|assumption]. }
      congruence.
    + right. left. rewrite (CS false eq_refl), CT. cbn. repeat split; auto. exists w.
      destruct (w =? t) eqn:X; [apply Nat.eqb_eq in X; subst; rewrite H in W; contradiction|]. split; auto.
      intros v. destruct (v =? t) eqn:Y; [contradiction|apply U].
    + right. right. exists i. rewrite (CS false eq_refl), CT. cbn. repeat split; auto.
      intros v. destruct (v =? t) eqn:Y; [auto|apply W].
  - apply QUIET; [reflexivity|discriminate|reflexivity|rewrite at_same, H; reflexivity|rewrite at_same, H; cbn; auto|].
    intros b I. left. unfold bound in *. apply in_map_iff in I as (x & <- & I). cbn in I. apply filter_In in I as [I _].
    now apply in_map.
  - (* return *)
    cbn [st_instances at_point with_owners].
    assert (WT : forall u, won (st_threads (at_point (with_owners s (st_instances s ++ return_value r) (st_listeners s) (st_others s)) t Outside) u) <-> u <> t /\ won (st_threads s u)).
    { intros u. destruct (Nat.eq_dec u t) as [->|N]; [rewrite at_same; cbn; tauto|rewrite at_other by assumption; cbn; tauto]. }
    destruct r as [v|e|q].
    + rewrite (CS true eq_refl).
      destruct A5 as [(I & CT & W & L & N & B)|[(I & CT & w & W & U)|(i & I & E & G & CT & W)]].
      * exfalso. apply (W t). rewrite H. exact Logic.I.
      * right. right. exists v. rewrite I, CT. cbn [app return_value]. repeat split; auto.
        { rewrite H in FT. now apply (proj1 FT). }
        intros u V. apply WT in V as [V1 V2]. apply V1. rewrite (U u V2). symmetry. apply U. rewrite H. exact Logic.I.
      * exfalso. apply (W t). rewrite H. exact Logic.I.
    + rewrite (CS false eq_refl), Nat.add_0_r. cbn [return_value]. rewrite app_nil_r.
      destruct A5 as [(I & CT & W & L & N & B)|[(I & CT & w & W & U)|(i & I & E & G & CT & W)]].
      * exfalso. apply (L t). rewrite H. exact Logic.I.
      * right. left. repeat split; auto. exists w. split.
        { apply WT. split; [|assumption]. intros ->. rewrite H in W. contradiction. }
        intros v V. apply WT in V as [_ V]. auto.
      * right. right. exists i. repeat split; auto. intros u V. apply WT in V as [_ V]. now apply W in V.
    + exfalso. rewrite H in FT. exact (proj2 FT).
Qed.

(** C81. However many threads race to create an instance sending from the same address, exactly one wins: when all calls
    have returned there is one live value, one call returned it, and every other call returned "address in use". *)
Lemma p_C81_race_has_one_winner :
  forall A h s, addr_port A <> 0%N -> run initial h s -> Forall (racing A) h -> idle s -> 1 <= count is_call h ->
    (exists i, st_instances s = [i]) /\
    count is_success h = 1 /\
    (forall t e, In (LReturn t (Err e)) h -> e = EAddrInUse).
Proof.
  intros A h s P R F I C. destruct (race_inv_holds A h s P R F) as (A1 & A2 & A3 & A4 & A5).
  destruct A5 as [(E & CT & W & L & N & B)|[(E & CT & w & W & U)|(i & E & _ & G & CT & W)]].
  - exfalso. assert (exists t cfg, In (LCall t cfg) h) as (t & cfg & J).
    { unfold count in C. destruct (filter is_call h) as [|l r] eqn:X; [cbn in C; lia|].
      assert (J : In l (filter is_call h)) by (rewrite X; now left). apply filter_In in J as [J K].
      destruct l; try discriminate. eauto. }
    destruct (A2 t cfg J) as [O|O]; [now apply O, I|now apply N in O].
  - exfalso. rewrite I in W. contradiction.
  - eauto.
Qed.
(** *** a call nobody interferes with *)
Definition agrees (s : state) (r : outcome instance) (x : outcome (address * address)) : Prop :=
  match r, x with
  | Ok i, Ok (a, b) => address_of s (in_receiver i) a /\ address_of s (in_sender i) b
  | Err e, Err e' => e = e'
  | _, _ => False
  end.
Definition bind_both (env : environment) (open : list address) (cfg : config) : outcome (address * address) :=
  let* r := os_bind env open (cf_receiving_address cfg) in
  let* w := os_bind env (r :: open) (cf_sending_address cfg) in
  Ok (r, w).

Ltac own_step S AL t :=
  destruct AL as (AL1 & AL2 & AL3 & AL4);
  inversion S; subst; unfold is_step_of in AL1; cbn [thread_of] in AL1; try discriminate;
  apply Nat.eqb_eq in AL1; subst; cbn [is_return_of is_call] in AL2, AL3; rewrite ?Nat.eqb_refl in AL2;
  repeat match goal with H : st_threads (at_point _ ?u _) ?u = _ |- _ => rewrite at_same in H end;
  try discriminate; try congruence.

Lemma alone_returning s t x env mid r s' : st_threads s t = Returning x -> Forall (alone t env) mid ->
  run s (mid ++ [LReturn t r]) s' -> r = x /\ st_sockets s' = st_sockets s.
Proof.
  intros T F R. destruct mid as [|l mid]; cbn in R.
  - inversion R as [|? ? ? ? ? S Q]; subst. inversion Q; subst. inversion S; subst. split; [congruence|reflexivity].
  - inversion F as [|? ? AL _]; subst. inversion R as [|? ? ? ? ? S Q]; subst. own_step S AL t.
Qed.

(** split off the first step *)
Lemma alone_first s t env mid r s' : (forall x, st_threads s t <> Returning x) -> Forall (alone t env) mid ->
  run s (mid ++ [LReturn t r]) s' ->
  exists l mid' s1, mid = l :: mid' /\ step s l s1 /\ alone t env l /\ Forall (alone t env) mid' /\ run s1 (mid' ++ [LReturn t r]) s'.
Proof.
  intros N F R. destruct mid as [|l mid]; cbn in R.
  - inversion R as [|? ? ? ? ? S _]; subst. inversion S; subst. edestruct N; eassumption.
  - inversion F; subst. inversion R; subst. eauto 10.
Qed.

Lemma alone_dropping s t fd e env mid r s' : st_threads s t = DroppingReceiver fd e -> Forall (alone t env) mid ->
  run s (mid ++ [LReturn t r]) s' -> r = Err e.
Proof.
  intros T F R. apply (alone_first _ _ env) in R as (l & mid' & s1 & -> & S & AL & F' & R); [|congruence|assumption].
  own_step S AL t. destruct (alone_returning _ _ _ _ _ _ _ (at_same _ _ _) F' R) as [-> _].
  congruence.
Qed.

Lemma alone_sender s t cfg fd a env mid r s' : st_threads s t = BindingSender cfg fd -> address_of s fd a ->
  Forall (alone t env) mid -> run s (mid ++ [LReturn t r]) s' ->
  agrees s' r (let* w := os_bind env (bound s) (cf_sending_address cfg) in Ok (a, w)).
Proof.
  intros T A F R. apply (alone_first _ _ env) in R as (l & mid' & s1 & -> & S & AL & F' & R); [|congruence|assumption].
  own_step S AL t.
  - assert (cfg0 = cfg /\ fd0 = fd) as [-> ->] by (split; congruence).
    destruct (alone_returning _ _ _ _ _ _ _ (at_same _ _ _) F' R) as [-> E].
    match goal with H : os_bind _ _ _ = _ |- _ => rewrite H end. cbn. unfold address_of in *. rewrite E. cbn. auto.
  - assert (cfg0 = cfg /\ fd0 = fd) as [-> ->] by (split; congruence).
    rewrite (alone_dropping _ _ _ _ _ _ _ _ (at_same _ _ _) F' R).
    match goal with H : os_bind _ _ _ = _ |- _ => rewrite H end. reflexivity.
Qed.

Lemma alone_receiver s t cfg env mid r s' : st_threads s t = BindingReceiver cfg ->
  Forall (alone t env) mid -> run s (mid ++ [LReturn t r]) s' -> agrees s' r (bind_both env (bound s) cfg).
Proof.
  intros T F R. apply (alone_first _ _ env) in R as (l & mid' & s1 & -> & S & AL & F' & R); [|congruence|assumption].
  unfold bind_both. own_step S AL t.
  - assert (cfg0 = cfg) as -> by congruence. match goal with H : os_bind _ _ _ = _ |- _ => rewrite H end. cbn [bind].
    refine (alone_sender _ _ _ _ a _ _ _ _ (at_same _ _ _) _ F' R). left. reflexivity.
  - assert (cfg0 = cfg) as -> by congruence. match goal with H : os_bind _ _ _ = _ |- _ => rewrite H end. cbn [bind].
    destruct (alone_returning _ _ _ _ _ _ _ (at_same _ _ _) F' R) as [-> _]. reflexivity.
Qed.

Lemma alone_after s t cfg o env mid r s' : st_threads s t = AfterOnce cfg o ->
  Forall (alone t env) mid -> run s (mid ++ [LReturn t r]) s' ->
  agrees s' r (match o with Some false => Err EPoolError | _ => bind_both env (bound s) cfg end).
Proof.
  intros T F R. apply (alone_first _ _ env) in R as (l & mid' & s1 & -> & S & AL & F' & R); [|congruence|assumption].
  own_step S AL t.
  - assert (cfg0 = cfg /\ started = o) as [-> ->] by (split; congruence).
    pose proof (alone_receiver _ _ _ _ _ _ _ (at_same _ _ _) F' R) as X. clear R; rename X into R. destruct o as [[]|]; [exact R|congruence|exact R].
  - assert (o = Some false) as -> by congruence.
    destruct (alone_returning _ _ _ _ _ _ _ (at_same _ _ _) F' R) as [-> _]. reflexivity.
Qed.

Lemma alone_call s t cfg env mid r s' :
  st_threads s t = Outside -> run s (LCall t cfg :: mid ++ [LReturn t r]) s' -> Forall (alone t env) mid ->
  agrees s' r
    (match st_once s with
     | OnceComplete => bind_both env (bound s) cfg
     | _ => if env_pool_ok env then bind_both env (bound s) cfg else Err EPoolError
     end).
Proof.
  intros T R F. inversion R as [|? ? ? ? ? S0 R0]; subst. inversion S0; subst. clear R S0.
  apply (alone_first _ _ env) in R0 as (l & mid' & s1 & -> & S & AL & F' & R); [|rewrite at_same; discriminate|assumption].
  own_step S AL t.
  - match goal with H : AtOnce _ = _ |- _ => injection H as -> | H : InClosure _ = _ |- _ => injection H as -> end.
    match goal with H : st_once (at_point _ _ _) = _ |- _ => cbn in H; rewrite H end.
    apply (alone_first _ _ env) in R as (l & mid & s2 & -> & S' & AL & F2 & R); [|rewrite at_same; discriminate|assumption].
    clear S AL2 AL3 AL4. own_step S' AL t; cbn in AL4; rename AL4 into AL4'.
    + match goal with H : AtOnce _ = _ |- _ => injection H as -> | H : InClosure _ = _ |- _ => injection H as -> end.
      apply (alone_first _ _ env) in R as (l & mid1 & s3 & -> & S'' & AL & F'' & R); [|rewrite at_same; discriminate|assumption].
      clear AL2 AL3. own_step S'' AL t.
      match goal with H : ClosureDone _ _ = _ |- _ => injection H as -> <- end.
      pose proof (alone_after _ _ _ _ _ _ _ _ (at_same _ _ _) F'' R) as X. rewrite <- AL4'. exact X.
    + match goal with H : AtOnce _ = _ |- _ => injection H as -> | H : InClosure _ = _ |- _ => injection H as -> end.
      apply (alone_first _ _ env) in R as (l & mid1 & s3 & -> & S'' & AL & F'' & R); [|rewrite at_same; discriminate|assumption].
      clear AL2 AL3. own_step S'' AL t.
      match goal with H : ClosureDone _ _ = _ |- _ => injection H as -> <- end.
      pose proof (alone_after _ _ _ _ _ _ _ _ (at_same _ _ _) F'' R) as X. rewrite <- AL4'. exact X.
  - match goal with H : AtOnce _ = _ |- _ => injection H as -> | H : InClosure _ = _ |- _ => injection H as -> end.
    match goal with H : st_once (at_point _ _ _) = _ |- _ => cbn in H; rewrite H end.
    exact (alone_after _ _ _ _ _ _ _ _ (at_same _ _ _) F' R).
Qed.

(** C83. A call of [new] whose steps nobody interrupts does what the sequential model of Ipv8.v says: same error, or the
    same two addresses bound. *)
Lemma p_C83_uninterrupted_call_is_sequential :
  forall s t cfg env mid r s' p,
    st_threads s t = Outside -> run s (LCall t cfg :: mid ++ [LReturn t r]) s' -> Forall (alone t env) mid ->
    open_sockets p = bound s -> (pr_once p = true <-> st_once s = OnceComplete) ->
    match r, snd (ipv8_new env cfg p) with
    | Ok i, Ok v => address_of s' (in_receiver i) (iv_receiver_socket v) /\
                    address_of s' (in_sender i) (iv_sender_socket v)
    | Err e, Err e' => e = e'
    | _, _ => False
    end.
Proof.
  intros s t cfg env mid r s' p T R F O C. pose proof (alone_call _ _ _ _ _ _ _ T R F) as G.
  assert (X : forall q, open_sockets q = bound s ->
    match bind_both env (bound s) cfg, 
          snd (match os_bind env (open_sockets q) (cf_receiving_address cfg) with
      | Err e => (q, Err e)
      | Panic z => (q, Panic z)
      | Ok r =>
          match os_bind env (r :: open_sockets q) (cf_sending_address cfg) with
          | Err e => (q, Err e)
          | Panic z => (q, Panic z)
          | Ok s =>
              let i := {| iv_config := cfg; iv_receiver_socket := r; iv_receivers := [];
                          iv_sender_socket := s; iv_communities := registry_default |} in
              ({| pr_once := pr_once q; pr_pools := pr_pools q;
                  pr_instances := pr_instances q ++ [Some i];
                  pr_listeners := pr_listeners q; pr_other_sockets := pr_other_sockets q |},
               Ok i)
          end
      end) with
    | Ok (a, b), Ok v => iv_receiver_socket v = a /\ iv_sender_socket v = b
    | Err e, Err e' => e = e'
    | Panic x, Panic y => x = y
    | _, _ => False
    end).
  { intros q E. rewrite E. unfold bind_both. destruct (os_bind env (bound s) _) as [x|x|x]; cbn; auto.
    destruct (os_bind env (x :: bound s) _) as [y|y|y]; cbn; auto. }
  unfold ipv8_new, setup_pool.
  destruct (pr_once p) eqn:P.
  - rewrite (proj1 C eq_refl) in G. specialize (X p O).
    destruct (bind_both env (bound s) cfg) as [[a b]|e|z]; [| |destruct r; contradiction];
    destruct (snd _) as [v|e'|z']; try contradiction; destruct r; cbn in G; try contradiction.
    + destruct X as [-> ->]. exact G.
    + congruence.
  - assert (G' : agrees s' r (if env_pool_ok env then bind_both env (bound s) cfg else Err EPoolError)).
    { destruct (st_once s); [exact G|exact G|]. pose proof (proj2 C eq_refl); congruence. }
    clear G. destruct (env_pool_ok env).
    + match goal with |- context[open_sockets ?q] => specialize (X q O) end.
      destruct (bind_both env (bound s) cfg) as [[a b]|e|z]; [| |destruct r; contradiction];
      destruct (snd _) as [v|e'|z']; try contradiction; destruct r; cbn in G'; try contradiction.
      * destruct X as [-> ->]. exact G'.
      * congruence.
    + cbn. destruct r; try contradiction. exact G'.
Qed.

(** *** and one somebody does interfere with *)
Definition env_calm : environment :=
  {| env_pool_ok := true; env_refuse := fun _ => None;
     env_ephemeral := fun open _ => (1 + fold_right N.max 49151 (map addr_port open))%N |}.
Definition cfg_ports (recv send : N) : config := {|
  cf_queuesize := 100; cf_buffersize := 2048; cf_pollinterval := None; cf_threadcount := 0; cf_default_hosts := [];
  cf_sending_address := v4 127 0 0 1 send; cf_receiving_address := v4 127 0 0 1 recv |}.

Definition crossing : list label := [
  LCall 0 (cfg_ports 5000 5001); LCall 1 (cfg_ports 5001 5000);
  LOnceEnter 1; LBuild 1 true; LOnceLeave 1; LOncePass 0; LCheckPool 1; LCheckPool 0;
  LBindReceiver 0 env_calm; LBindReceiver 1 env_calm; LBindSender 1 env_calm; LBindSender 0 env_calm;
  LDropReceiver 0; LDropReceiver 1; LReturn 1 (Err EAddrInUse); LReturn 0 (Err EAddrInUse)].

Ltac go c := eapply run_cons; [eapply c; try reflexivity; try discriminate|].

(** C84. Calls of [new] are not atomic. There are two configurations which can be created one after the other's failure: run
    one after the other, in either order, the first call succeeds. Run at the same time, both calls can fail
    with "address in use", each because of the other's half-made instance, and nothing is left open. *)
Lemma p_C84_new_is_atomic_refuted :
  exists cfg1 cfg2 env,
    (forall cfg, cfg = cfg1 \/ cfg = cfg2 -> exists i, snd (ipv8_new env cfg (process_init [])) = Ok i) /\
    exists h s, run initial h s /\
      filter is_call h = [LCall 0 cfg1; LCall 1 cfg2] /\
      (forall l, In l h -> match l with
                           | LBindReceiver _ e | LBindSender _ e => e = env
                           | LBuild _ ok => ok = true
                           | _ => thread_of l <> None
                           end) /\
      idle s /\ st_instances s = [] /\ open_fds s = [] /\
      In (LReturn 0 (Err EAddrInUse)) h /\ In (LReturn 1 (Err EAddrInUse)) h.
Proof.
  exists (cfg_ports 5000 5001), (cfg_ports 5001 5000), env_calm. split.
  { intros cfg [-> | ->]; eexists; vm_compute; reflexivity. }
  exists crossing. eexists. split.
  { unfold crossing.
    go step_call. go step_call. go step_once_enter. go step_build_ok. go step_once_leave. go step_once_pass.
    go step_check_ok. go step_check_ok. go step_bind_receiver. go step_bind_receiver.
    go step_bind_sender_fails. go step_bind_sender_fails. go step_drop_receiver. go step_drop_receiver.
    go step_return. go step_return. apply run_nil. }
  split; [reflexivity|]. split.
  { intros l I. repeat (destruct I as [<-|I]; [first [reflexivity|discriminate]|]). destruct I. }
  split; [intros t; cbn; destruct t as [|[|t]]; reflexivity|].
  split; [reflexivity|]. split; [reflexivity|]. split; repeat (first [left; reflexivity|right]).
Qed.

(** ** C82 *)
Lemma can_do s t l s' : step s l s' -> thread_of l = Some t -> is_call l = false -> can_step s t.
Proof. intros S T C. exists l, s'. auto. Qed.

(** C82. No deadlock: in every reachable state every call in progress can take its next step, except one that waits for another
    thread to finish building the pool; and that thread can take its next step. *)
Lemma p_C82_no_deadlock :
  forall s t, reachable s -> st_threads s t <> Outside ->
    can_step s t \/
    (exists cfg u, st_threads s t = AtOnce cfg /\ u <> t /\
       exists l s', (l = LBuild u true \/ l = LBuild u false \/ l = LOnceLeave u) /\ step s l s').
Proof.
  intros s t [h R] N. destruct (st_threads s t) as [|cfg|cfg|cfg ok|cfg o|cfg|cfg fd|fd e|r] eqn:T.
  - congruence.
  - pose proof (once_inv_holds _ _ R) as O. unfold once_inv in O. destruct (st_once s) eqn:E.
    + left. eapply can_do; [eapply step_once_enter; eassumption|reflexivity|reflexivity].
    + right. destruct O as (w & W & _). exists cfg, w. split; [reflexivity|]. split; [intros ->; rewrite T in W; contradiction|].
      destruct (st_threads s w) as [| |c|c k| | | | |] eqn:TW; try contradiction.
      * eexists. eexists. split; [|eapply step_build_fails; eassumption]. auto.
      * eexists. eexists. split; [|eapply step_once_leave; eassumption]. auto.
    + left. eapply can_do; [eapply step_once_pass; eassumption|reflexivity|reflexivity].
  - left. eapply can_do; [eapply step_build_fails; eassumption|reflexivity|reflexivity].
  - left. eapply can_do; [eapply step_once_leave; eassumption|reflexivity|reflexivity].
  - left. destruct o as [[]|].
    + eapply can_do; [eapply step_check_ok; [eassumption|discriminate]|reflexivity|reflexivity].
    + eapply can_do; [eapply step_check_fails; eassumption|reflexivity|reflexivity].
    + eapply can_do; [eapply step_check_ok; [eassumption|discriminate]|reflexivity|reflexivity].
  - left. destruct (os_bind_total env_calm (bound s) (cf_receiving_address cfg)) as (a & [X|(e & X)]).
    + eapply can_do; [eapply step_bind_receiver; eassumption|reflexivity|reflexivity].
    + eapply can_do; [eapply step_bind_receiver_fails; eassumption|reflexivity|reflexivity].
  - left. destruct (os_bind_total env_calm (bound s) (cf_sending_address cfg)) as (a & [X|(e & X)]).
    + eapply can_do; [eapply step_bind_sender; eassumption|reflexivity|reflexivity].
    + eapply can_do; [eapply step_bind_sender_fails; eassumption|reflexivity|reflexivity].
  - left. eapply can_do; [eapply step_drop_receiver; eassumption|reflexivity|reflexivity].
  - left. eapply can_do; [eapply step_return; eassumption|reflexivity|reflexivity].
Qed.

Definition rank (p : program_point) : nat :=
  match p with
  | Outside => 0 | AtOnce _ => 8 | InClosure _ => 7 | ClosureDone _ _ => 6 | AfterOnce _ _ => 5
  | BindingReceiver _ => 4 | BindingSender _ _ => 3 | DroppingReceiver _ _ => 2 | Returning _ => 1
  end.
Lemma rank_step s l s' t : step s l s' -> thread_of l = Some t -> is_call l = false ->
  rank (st_threads s' t) < rank (st_threads s t).
Proof.
  intros S T C. destruct S; cbn in T, C; try discriminate; inversion T; subst; rewrite at_same, H; cbn; lia.
Qed.
Lemma rank_positive s l s' t : step s l s' -> is_step_of t l = true -> is_return_of t l = false -> 1 <= rank (st_threads s' t).
Proof.
  intros S T C. destruct S; unfold is_step_of in T; cbn in T, C; try discriminate; apply Nat.eqb_eq in T; subst; rewrite ?at_same;
    try (cbn; lia). now rewrite Nat.eqb_refl in C.
Qed.

(** C82. A call takes at most eight steps of its own before it returns, however long it waits for others. *)
Lemma p_C82_call_is_short :
  forall s h s' t, run s h s' -> st_threads s t = Outside -> count (is_return_of t) h = 0 ->
    count (is_step_of t) h <= 8.
Proof.
  assert (G : forall s h s' t, run s h s' -> st_threads s t <> Outside -> count (is_return_of t) h = 0 ->
    count (is_step_of t) h + rank (st_threads s' t) <= rank (st_threads s t) /\ st_threads s' t <> Outside).
  { intros s h s' t R. induction R as [s|s l s1 h s2 S R IH]; intros N Z; [cbn; split; [lia|assumption]|].
    unfold count in *. cbn [filter] in *. destruct (is_return_of t l) eqn:E; [discriminate|].
    destruct (is_step_of t l) eqn:F.
    - cbn [length]. assert (C : is_call l = false).
      { destruct S; try reflexivity. unfold is_step_of in F. cbn in F. apply Nat.eqb_eq in F. congruence. }
      assert (T : thread_of l = Some t).
      { unfold is_step_of in F. destruct (thread_of l); [|discriminate]. apply Nat.eqb_eq in F. congruence. }
      pose proof (rank_step _ _ _ _ S T C). pose proof (rank_positive _ _ _ _ S F E).
      destruct IH as [IH1 IH2]; [|exact Z|split; [lia|assumption]]. intros Q. rewrite Q in H0. cbn in H0. lia.
    - rewrite <- (step_frame _ _ _ _ S F) in N |- *. now apply IH. }
  intros s h s' t R. induction R as [s|s l s1 h s2 S R IH]; intros N Z; [cbn; lia|].
  destruct (is_step_of t l) eqn:F.
  - assert (Q : exists cfg, st_threads s1 t = AtOnce cfg).
    { destruct S; unfold is_step_of in F; cbn in F; try discriminate; apply Nat.eqb_eq in F; subst; try congruence.
      exists cfg. apply at_same. }
    destruct Q as [cfg Q]. unfold count in *. cbn [filter] in *. destruct (is_return_of t l); [discriminate|]. rewrite F.
    destruct (G _ _ _ t R) as [G1 G2]; [congruence|exact Z|]. rewrite Q in G1. cbn [rank length] in *.
    assert (1 <= rank (st_threads s2 t)) by (destruct (st_threads s2 t); cbn; lia || congruence).
    unfold count in G1. lia.
  - unfold count in *. cbn [filter] in *. rewrite F. destruct (is_return_of t l); [discriminate|]. apply IH; auto.
    now rewrite (step_frame _ _ _ _ S F).
Qed.

Definition total (n : nat) (s : state) : nat := list_sum (map (fun t => rank (st_threads s t)) (seq 0 n)).
Lemma sum_lt (f g : nat -> nat) l t : In t l -> NoDup l -> f t < g t -> (forall u, u <> t -> f u = g u) ->
  list_sum (map f l) < list_sum (map g l).
Proof.
  intros I N L E. induction l as [|x l IH]; [contradiction|]. cbn. inversion N; subst.
  destruct (Nat.eq_dec x t) as [->|M].
  - assert (list_sum (map f l) = list_sum (map g l)); [|unfold list_sum in *; cbn in *; lia].
    f_equal. apply map_ext_in. intros u J. apply E. intros ->. contradiction.
  - destruct I as [->|I]; [congruence|]. specialize (IH I H2). rewrite (E x M). unfold list_sum in *. lia.
Qed.

(** C82. No livelock: with calls in progress on [n] threads, at most [8 * n] steps of calls are possible in a row; and when
    no call can take a step any more, no call is in progress. So every schedule that keeps running the calls
    ends, after at most that many steps, with all of them returned. *)
Lemma p_C82_all_calls_return :
  forall n s h s', reachable s -> at_most_threads n s -> run s h s' -> Forall (fun l => is_call_step l = true) h ->
    length h <= 8 * n /\ ((forall t, ~ can_step s' t) -> idle s').
Proof.
  intros n s h s' RE B R F. split.
  - assert (G : length h + total n s' <= total n s).
    { clear RE. revert B F. induction R as [s|s l s1 h s2 S R IH]; intros B F; [cbn; lia|].
      inversion F as [|? ? C F']; subst.
      assert (exists t, thread_of l = Some t /\ is_call l = false) as (t & T & C').
      { unfold is_call_step in C. destruct (thread_of l) as [t|]; [|discriminate]. apply negb_true_iff in C. eauto. }
      pose proof (rank_step _ _ _ _ S T C') as L.
      assert (TN : t < n).
      { destruct (Nat.lt_ge_cases t n) as [|G]; [assumption|]. rewrite (B t G) in L. cbn in L. lia. }
      assert (FRM : forall u, u <> t -> st_threads s1 u = st_threads s u).
      { intros u M. eapply step_frame; [eassumption|]. unfold is_step_of. rewrite T. apply Nat.eqb_neq. congruence. }
      assert (B1 : at_most_threads n s1) by (intros u G; rewrite FRM by lia; auto).
      specialize (IH B1 F'). cbn [length].
      assert (total n s1 < total n s); [|lia].
      unfold total. apply sum_lt with (t := t); auto.
      - apply in_seq. lia.
      - apply seq_NoDup.
      - intros u M. now rewrite FRM. }
    assert (U : total n s <= 8 * n).
    { unfold total. rewrite <- (seq_length n 0) at 2. induction (seq 0 n) as [|x l IH]; cbn; [lia|].
      assert (rank (st_threads s x) <= 8) by (destruct (st_threads s x); cbn; lia). unfold list_sum in IH. lia. }
    lia.
  - intros ST t. destruct (st_threads s' t) eqn:T; [reflexivity| | | | | | | |];
      (destruct (p_C82_no_deadlock s' t) as [Q|(cfg' & u & _ & _ & l & s2 & L & S)];
        [eapply run_reachable; eassumption|congruence|now destruct (ST t)|];
       destruct (ST u); exists l, s2; destruct L as [->|[->| ->]]; repeat split; auto).
Qed.

(** ** Examples *)

(** three threads race for the default address; thread 2 builds the pool, thread 1 wins *)
Definition race_history : list label := [
  LCall 0 config_default; LCall 1 config_default; LCall 2 config_default;
  LOnceEnter 2; LBuild 2 true; LOnceLeave 2; LOncePass 0; LOncePass 1;
  LCheckPool 0; LCheckPool 1; LCheckPool 2;
  LBindReceiver 2 env_calm; LBindReceiver 0 env_calm; LBindReceiver 1 env_calm;
  LBindSender 1 env_calm; LBindSender 0 env_calm; LDropReceiver 0; LReturn 0 (Err EAddrInUse);
  LBindSender 2 env_calm; LReturn 1 (Ok {| in_config := config_default; in_receiver := 2; in_sender := 3 |});
  LDropReceiver 2; LReturn 2 (Err EAddrInUse)].

Lemma race_runs : exists s, run initial race_history s /\ idle s /\
  st_pool s = Some 0 /\ st_sockets s = [(3, v4 0 0 0 0 8000); (2, v4 0 0 0 0 49154)] /\
  st_instances s = [{| in_config := config_default; in_receiver := 2; in_sender := 3 |}].
Proof.
  eexists. split.
  { unfold race_history.
    go step_call. go step_call. go step_call. go step_once_enter. go step_build_ok. go step_once_leave.
    go step_once_pass. go step_once_pass. go step_check_ok. go step_check_ok. go step_check_ok.
    go step_bind_receiver. go step_bind_receiver. go step_bind_receiver.
    go step_bind_sender. go step_bind_sender_fails. go step_drop_receiver. go step_return.
    go step_bind_sender_fails. go step_return. go step_drop_receiver. go step_return. apply run_nil. }
  split; [intros t; cbn; destruct t as [|[|[|t]]]; reflexivity|]. repeat split.
Qed.

(** the hypotheses of the race theorem are met by three threads and the default configuration *)
Lemma max_ge l : (fold_right N.max 49151 l >= 49151)%N /\ forall p, In p l -> (p <= fold_right N.max 49151 l)%N.
Proof.
  induction l as [|x l [A B]]; cbn; [split; [lia|contradiction]|]. split; [lia|]. intros p [->|I]; [lia|].
  specialize (B p I). lia.
Qed.
Lemma port_with_port a p : addr_port (with_port a p) = p.
Proof. now destruct a. Qed.
Lemma calm_free A : (addr_port A <= 49151)%N -> free_ports A env_calm.
Proof.
  intros L. split; [reflexivity|]. intros open a _. destruct (max_ge (map addr_port open)) as [X Y].
  apply Forall_forall. intros b I (E & _). rewrite port_with_port in E. unfold env_calm in E. cbn [env_ephemeral] in E.
  destruct I as [<-|I]; [lia|]. specialize (Y (addr_port b) (in_map _ _ _ I)). lia.
Qed.

Example ex_C81_race :
  Forall (racing (v4 0 0 0 0 8000)) race_history /\ count is_call race_history = 3 /\
  exists s, run initial race_history s /\ idle s.
Proof.
  split; [|split; [reflexivity|destruct race_runs as (s & R & I & _); eauto]].
  repeat (apply Forall_cons || apply Forall_nil); cbn; auto; try discriminate; apply calm_free; cbn; lia.
Qed.

Example ex_C79_pool_fails :
  exists h s, run initial h s /\ Forall honest h /\ count is_pool_error h = 1 /\ length (st_instances s) = 1 /\ st_pool s = None.
Proof.
  exists [LCall 0 config_default; LCall 1 config_default; LOnceEnter 0; LBuild 0 false; LOnceLeave 0; LOncePass 1;
    LCheckPool 1; LBindReceiver 1 env_calm; LBindSender 1 env_calm;
    LReturn 1 (Ok {| in_config := config_default; in_receiver := 0; in_sender := 1 |}); LCheckPool 0; LReturn 0 (Err EPoolError)].
  eexists. split.
  { go step_call. go step_call. go step_once_enter. go step_build_fails. go step_once_leave. go step_once_pass.
    go step_check_ok. go step_bind_receiver. go step_bind_sender. go step_return. go step_check_fails. go step_return. apply run_nil. }
  split; [repeat (apply Forall_cons || apply Forall_nil); cbn; auto; discriminate|]. repeat split.
Qed.

(** the rest of the program sets the pool up while a call is inside the closure: the call's own attempt then fails *)
Example ex_C79_one_pool :
  exists s, run initial [LCall 0 config_default; LOnceEnter 0; LInitPool 3; LBuild 0 false; LOnceLeave 0] s /\ st_pool s = Some 3.
Proof.
  eexists. split; [|shelve]. go step_call. go step_once_enter. go step_init_pool. go step_build_fails. go step_once_leave. apply run_nil.
  Unshelve. reflexivity.
Qed.

Example ex_C80_all_owners :
  exists h s, run initial h s /\ open_fds s = [4; 3; 2; 0] /\
    owns s (ByListener 0) 0 /\ owns s (ByOther 0) 2 /\ owns s (ByInstance 0) 3 /\ owns s (ByInstance 0) 4.
Proof.
  exists [LCall 0 config_default; LOnceEnter 0; LBuild 0 true; LOnceLeave 0; LCheckPool 0;
    LBindReceiver 0 env_calm; LBindSender 0 env_calm;
    LReturn 0 (Ok {| in_config := config_default; in_receiver := 0; in_sender := 1 |}); LStart 0;
    LOpen env_calm (v4 10 0 0 1 53);
    LCall 0 config_default; LOncePass 0; LCheckPool 0; LBindReceiver 0 env_calm; LBindSender 0 env_calm;
    LReturn 0 (Ok {| in_config := config_default; in_receiver := 3; in_sender := 4 |})].
  eexists. split.
  { go step_call. go step_once_enter. go step_build_ok. go step_once_leave. go step_check_ok.
    go step_bind_receiver. go step_bind_sender. go step_return.
    eapply run_cons; [eapply (step_start _ []); reflexivity|].
    go step_open. go step_call. go step_once_pass. go step_check_ok. go step_bind_receiver. go step_bind_sender. go step_return.
    apply run_nil. }
  split; [reflexivity|]. cbn. repeat split; auto; eexists; (split; [reflexivity|]); cbn; auto.
Qed.

Example ex_C82_blocked :
  exists h s, run initial h s /\ st_threads s 1 = AtOnce config_default /\ ~ can_step s 1 /\ can_step s 0.
Proof.
  exists [LCall 0 config_default; LCall 1 config_default; LOnceEnter 0]. eexists. split.
  { go step_call. go step_call. go step_once_enter. apply run_nil. }
  split; [reflexivity|]. split.
  - intros (l & s' & T & C & S). inversion S; subst; cbn in *; try discriminate; inversion T; subst; discriminate.
  - eexists. eexists. split; [|split; [|eapply (step_build_fails _ 0); reflexivity]]; reflexivity.
Qed.

(** an uninterrupted call, from the beginning of the process *)
Example ex_C83_uninterrupted :
  exists mid r s', st_threads initial 0 = Outside /\ run initial (LCall 0 config_default :: mid ++ [LReturn 0 r]) s' /\ Forall (alone 0 env_calm) mid /\
    open_sockets (process_init []) = bound initial /\ (pr_once (process_init []) = true <-> st_once initial = OnceComplete) /\ exists i, r = Ok i.
Proof.
  exists [LOnceEnter 0; LBuild 0 true; LOnceLeave 0; LCheckPool 0; LBindReceiver 0 env_calm; LBindSender 0 env_calm], (Ok {| in_config := config_default; in_receiver := 0; in_sender := 1 |}).
  eexists. split; [reflexivity|]. split.
  { cbn [app]. go step_call. go step_once_enter. go step_build_ok. go step_once_leave. go step_check_ok. go step_bind_receiver. go step_bind_sender. go step_return. apply run_nil. }
  split; [repeat constructor|]. split; [reflexivity|]. split; [split; intros H; discriminate H|eauto].
Qed.
