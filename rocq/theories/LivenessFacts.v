(** * LivenessFacts: C99 for a listener that is observed inside a larger system

    [sa n] is the listener's state at time [n], [la n] what it does in the step from [n] to [n + 1], if anything. *)
From Coq Require Import ConstructiveEpsilon.
From Verif Require Import Base Codec Network NetSpec NetworkProofs LivenessSpec LivenessProofs.
Open Scope nat_scope.

(** the labels from time [a] to time [a + n] *)
Definition labels_from (la : nat -> option label) (a n : nat) : list label :=
  flat_map (fun i => match la i with Some l => [l] | None => [] end) (seq a n).
Lemma labels_from_S la a n : labels_from la a (S n) = labels_from la a n ++ match la (a + n) with Some l => [l] | None => [] end.
Proof. unfold labels_from. rewrite seq_S, flat_map_app. cbn. now rewrite app_nil_r. Qed.

Section observed.
  Context (c : net_config) (q0 : list datagram) (a0 : nat) (sa : nat -> net_state) (la : nat -> option label).
  Context (START : sa a0 = net_init c q0)
          (STEP : forall n, a0 <= n -> match la n with Some l => step c (sa n) l (sa (S n)) | None => sa (S n) = sa n end)
          (NF : forall n l, la n = Some l -> ~ is_failure l)
          (GO : forall n, exists m d, n <= m /\ la m = Some (LArrive d))
          (FA : forall n, exists m, n <= m /\ (~ can_go_on c (sa m) \/ exists l, la m = Some l /\ ~ is_arrival l))
          (PP : forall n, a0 <= n -> ns_edge (sa n) = true -> la n <> Some (LPoll 0)).

  Definition here (n : nat) : Prop := la n <> None.
  Lemma here_dec n : {here n} + {~ here n}.
  Proof. unfold here. destruct (la n); [left; discriminate|right; auto]. Qed.
  Lemma next_exists n : exists m, n <= m /\ here m.
  Proof. destruct (GO n) as (m & d & H & E). exists m. split; [exact H|]. unfold here. rewrite E. discriminate. Qed.
  Lemma next_dec n m : {n <= m /\ here m} + {~ (n <= m /\ here m)}.
  Proof. destruct (le_dec n m), (here_dec m); (left; tauto) || (right; tauto). Qed.
  Definition next (n : nat) : nat := proj1_sig (epsilon_smallest _ (next_dec n) (next_exists n)).
  Lemma next_spec n : n <= next n /\ here (next n) /\ forall m, n <= m < next n -> ~ here m.
  Proof.
    unfold next. destruct (epsilon_smallest _ _ _) as [m [[H1 H2] H3]]. cbn. split; [exact H1|]. split; [exact H2|].
    intros i [Hi Hm] Hh. specialize (H3 i). assert (m <= i) by (apply H3; auto). lia.
  Qed.
  Lemma quiet_between n m : a0 <= n -> n <= m -> (forall i, n <= i < m -> ~ here i) -> sa m = sa n /\
    labels_from la a0 (m - a0) = labels_from la a0 (n - a0).
  Proof.
    intros Hn. induction 1 as [|m H IH]; intros Q; [auto|].
    destruct IH as [E1 E2]; [intros; apply Q; lia|].
    pose proof (STEP m ltac:(lia)) as M. assert (N : ~ here m) by (apply Q; lia). unfold here in N.
    replace (S m - a0) with (S (m - a0)) by lia. rewrite labels_from_S. replace (a0 + (m - a0)) with m by lia.
    destruct (la m); [exfalso; apply N; discriminate|]. rewrite app_nil_r. split; congruence.
  Qed.

  Fixpoint time (i : nat) : nat := match i with 0 => next a0 | S i => next (S (time i)) end.
  Lemma time_here i : here (time i).
  Proof. destruct i; cbn; apply next_spec. Qed.
  Lemma time_lt i : time i < time (S i).
  Proof. cbn. destruct (next_spec (S (time i))). lia. Qed.
  Lemma time_ge i : a0 + i <= time i.
  Proof. induction i as [|i IH]; [cbn; pose proof (next_spec a0); lia|]. pose proof (time_lt i). lia. Qed.

  Definition lst (i : nat) : net_state := sa (time i).
  Definition llb (i : nat) : label := match la (time i) with Some l => l | None => LRecv end.
  Lemma llb_some i : la (time i) = Some (llb i).
  Proof. unfold llb. pose proof (time_here i) as H. unfold here in H. destruct (la (time i)); [reflexivity|congruence]. Qed.

  Lemma time_onto i n : time i <= n -> exists j, i <= j /\ n <= time j /\ (forall m, n <= m < time j -> ~ here m).
  Proof.
    induction 1 as [|n H (j & Hj & Hn & Q)]; [exists i; repeat split; auto; intros; lia|].
    destruct (Nat.eq_dec n (time j)) as [E|NE].
    - exists (S j). split; [lia|]. cbn. destruct (next_spec (S (time j))) as (A & _ & B). subst n. split; [exact A|exact B].
    - exists j. split; [lia|]. split; [lia|]. intros m Hm. apply Q. lia.
  Qed.
  Lemma time_hit i m l : time i <= m -> la m = Some l -> exists j, i <= j /\ time j = m /\ llb j = l.
  Proof.
    intros H E. destruct (time_onto i m H) as (j & Hj & Hm & Q). exists j. split; [exact Hj|].
    assert (Hh : here m) by (unfold here; rewrite E; discriminate).
    assert (Ej : time j = m) by (destruct (Nat.eq_dec m (time j)) as [->|NE]; [reflexivity|exfalso; apply (Q m); [lia|exact Hh]]).
    split; [exact Ej|]. pose proof (llb_some j) as L. rewrite Ej, E in L. congruence.
  Qed.

  Lemma observed_run : infinite_run c q0 lst llb.
  Proof.
    split.
    - unfold lst. cbn [time]. destruct (next_spec a0) as (A & _ & B).
      destruct (quiet_between a0 (next a0) ltac:(lia) A B) as [E _]. now rewrite E.
    - intros i. unfold lst. pose proof (time_ge i). pose proof (STEP (time i) ltac:(lia)) as M. rewrite llb_some in M.
      cbn [time]. destruct (next_spec (S (time i))) as (A & _ & B).
      destruct (quiet_between (S (time i)) _ ltac:(lia) A B) as [E _]. now rewrite E.
  Qed.
  Lemma observed_trace i : labels_from la a0 (time i - a0) = trace_upto llb i.
  Proof.
    induction i as [|i IH].
    - cbn [time]. destruct (next_spec a0) as (A & _ & B). destruct (quiet_between a0 (next a0) ltac:(lia) A B) as [_ E].
      rewrite E, Nat.sub_diag. reflexivity.
    - cbn [time]. destruct (next_spec (S (time i))) as (A & _ & B). pose proof (time_ge i).
      destruct (quiet_between (S (time i)) _ ltac:(lia) A B) as [_ E]. rewrite E.
      replace (S (time i) - a0) with (S (time i - a0)) by lia. rewrite labels_from_S, IH.
      replace (a0 + (time i - a0)) with (time i) by lia. rewrite llb_some. symmetry. apply trace_upto_S.
  Qed.
  Lemma observed_never : never_fails llb.
  Proof. intros i. apply (NF _ _ (llb_some i)). Qed.
  Lemma observed_traffic : traffic_goes_on llb.
  Proof.
    intros i. destruct (GO (time i)) as (m & d & H & E). destruct (time_hit i m _ H E) as (j & Hj & _ & L).
    exists j. split; [exact Hj|]. rewrite L. exact Logic.I.
  Qed.
  Lemma observed_fair : fair c lst llb.
  Proof.
    intros i. destruct (FA (time i)) as (m & H & [F|(l & E & F)]).
    - destruct (time_onto i m H) as (j & Hj & Hm & Q). exists j. split; [exact Hj|]. left.
      pose proof (time_ge i). destruct (quiet_between m (time j) ltac:(lia) Hm Q) as [Es _]. unfold lst. now rewrite Es.
    - destruct (time_hit i m _ H E) as (j & Hj & _ & L). exists j. split; [exact Hj|]. right. now rewrite L.
  Qed.
  Lemma observed_prompt : prompt_poll lst llb.
  Proof.
    intros i Hi E. pose proof (llb_some i) as L. rewrite E in L. pose proof (time_ge i). revert L. apply PP; [lia|exact Hi].
  Qed.

  Lemma labels_prefix n m : n <= m -> exists x, labels_from la a0 m = labels_from la a0 n ++ x.
  Proof.
    induction 1 as [|m H [x IH]]; [exists []; now rewrite app_nil_r|]. rewrite labels_from_S, IH, <- app_assoc. eauto.
  Qed.

  Lemma observed_served n k d r : nth_error (q0 ++ arrivals (labels_from la a0 n)) k = Some d -> r < nc_receivers c ->
    exists m, nth_error (calls r (labels_from la a0 m)) k = Some (packet_of c d).
  Proof.
    intros Hd Hr. assert (Hn : n <= time n - a0) by (pose proof (time_ge n); lia).
    destruct (labels_prefix _ _ Hn) as [x Ex]. rewrite observed_trace in Ex.
    destruct (p_C99_no_datagram_waits_forever c q0 lst llb observed_run observed_never observed_traffic observed_fair observed_prompt n k d r)
      as (m & Hm); [|exact Hr|exists (time m - a0); now rewrite observed_trace].
    rewrite Ex, arrivals_app, app_assoc, nth_error_app1; [exact Hd|]. apply nth_error_Some. congruence.
  Qed.
End observed.
