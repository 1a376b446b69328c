(** * WorldProofs: properties of programs on several hosts *)
From Verif Require Import Base Codec Network NetSpec NetworkProofs Ipv8 Ipv8Spec Ipv8Proofs World WorldSpec.
Open Scope nat_scope.

(** ** Lists of events *)
Lemma emitted_app a b : emitted (a ++ b) = emitted a ++ emitted b.
Proof. induction a as [|[] a IH]; cbn; rewrite ?IH; reflexivity. Qed.
Lemma delivered_app k a b : delivered k (a ++ b) = delivered k a ++ delivered k b.
Proof. induction a as [|[] a IH]; cbn; rewrite ?IH; try reflexivity. now destruct (_ =? _). Qed.
Lemma trace_at_app k a b : trace_at k (a ++ b) = trace_at k a ++ trace_at k b.
Proof. induction a as [|[] a IH]; cbn; rewrite ?IH; try reflexivity; now destruct (_ =? _). Qed.
Lemma added_app k a b : added k (a ++ b) = added k a + added k b.
Proof. induction a as [|[] a IH]; cbn; rewrite ?IH; try reflexivity. now destruct (_ =? _). Qed.
Lemma trace_at_listener k l : trace_at k (map (WListener k) l) = l.
Proof. induction l as [|x l IH]; cbn; [reflexivity|]. now rewrite Nat.eqb_refl, IH. Qed.

Lemma wrun_one T w e w' : wstep T w e w' -> wrun T w [e] w'.
Proof. intros H. apply (wrun_snoc T w [] w e w' (wrun_nil T w) H). Qed.
Lemma wrun_snoc_inv T w tr e w'' : wrun T w (tr ++ [e]) w'' -> exists w', wrun T w tr w' /\ wstep T w' e w''.
Proof.
  intros H. remember (tr ++ [e]) as x eqn:E. destruct H as [w|w tr' w1 e' w2 R S].
  - destruct tr; discriminate.
  - apply app_inj_tail in E as [-> ->]. eauto.
Qed.
Lemma wrun_app_inv T w a b w'' : wrun T w (a ++ b) w'' -> exists w', wrun T w a w' /\ wrun T w' b w''.
Proof.
  revert w''. induction b as [|e b IH] using rev_ind; intros w'' H.
  - rewrite app_nil_r in H. exists w''. split; [exact H|constructor].
  - rewrite app_assoc in H. apply wrun_snoc_inv in H as (w' & H & S).
    apply IH in H as (w1 & A & B). exists w1. split; [exact A|]. econstructor; eassumption.
Qed.
Lemma wrun_app T w a w' b w'' : wrun T w a w' -> wrun T w' b w'' -> wrun T w (a ++ b) w''.
Proof.
  intros A B. revert A. induction B as [w'|w' tr w1 e w2 R IH S]; intros A.
  - now rewrite app_nil_r.
  - rewrite app_assoc. econstructor; [exact (IH A)|exact S].
Qed.

(** ** One slot *)
Definition with_end (s : socket) (e : endpoint) : socket :=
  {| sk_host := sk_host s; sk_address := sk_address s; sk_end := e |}.
Definition about (k : nat) (e : event) : bool :=
  match e with
  | WBindSender j _ _ _ | WBindReceiver j _ _ _ | WAddReceiver j | WStart j _ | WClose j
  | WDeliver j _ | WListener j _ => k =? j
  | _ => false
  end.

Inductive slot_change (T : topology) (w : world) (k : nat) : event -> socket -> socket -> Prop :=
| sc_same e s : about k e = false -> slot_change T w k e s s
| sc_add s n q : sk_end s = Waiting n q ->
    slot_change T w k (WAddReceiver k) s (with_end s (Waiting (S n) q))
| sc_start s n q cfg : sk_end s = Waiting n q ->
    slot_change T w k (WStart k cfg) s
      (with_end s (Listening (listen_config cfg n) (net_init (listen_config cfg n) q)))
| sc_close s : is_open (sk_end s) = true -> slot_change T w k (WClose k) s (with_end s Closed)
| sc_deliver s m : is_open (sk_end s) = true -> In m (w_sent w) -> accepts T s m ->
    slot_change T w k (WDeliver k m) s (with_end s (arrive (sk_end s) (datagram_of m)))
| sc_listener s c n l n' : sk_end s = Listening c n -> step c n l n' -> (forall d, l <> LArrive d) ->
    slot_change T w k (WListener k l) s (with_end s (Listening c n')).

Lemma set_end_slot w j s e k s' : nth_error (w_sockets w) j = Some s ->
  nth_error (w_sockets (set_end w j s e)) k = Some s' ->
  (k = j /\ s' = with_end s e) \/ (k <> j /\ nth_error (w_sockets w) k = Some s').
Proof.
  intros H. cbn. rewrite nth_error_set_nth. destruct (Nat.eqb_spec j k) as [->|N]; cbn [andb].
  - assert (k < length (w_sockets w)) as L by (apply nth_error_Some; congruence).
    apply Nat.ltb_lt in L. rewrite L. intros E. left. split; [reflexivity|]. now injection E as <-.
  - intros E. right. auto.
Qed.
Lemma set_end_length w j s e : length (w_sockets (set_end w j s e)) = length (w_sockets w).
Proof.
  cbn. generalize {| sk_host := sk_host s; sk_address := sk_address s; sk_end := e |} as x. intros x.
  generalize (w_sockets w) as l. revert j.
  induction j as [|j IH]; intros [|y l]; cbn; auto.
Qed.

(** What one event does to the slot [k] of the world: it is created, or it existed and [slot_change] happens to it. *)
Lemma slot_step T w e w' k s' : wstep T w e w' -> nth_error (w_sockets w') k = Some s' ->
  (exists s, nth_error (w_sockets w) k = Some s /\ slot_change T w k e s s') \/
  (k = length (w_sockets w) /\ exists a, bindable w (sk_host s') a (sk_address s') /\
     ((e = WBindSender k (sk_host s') a (sk_address s') /\ sk_end s' = Sending []) \/
      (e = WBindReceiver k (sk_host s') a (sk_address s') /\ sk_end s' = Waiting 0 []))).
Proof.
  intros S H.
  assert (OLD : forall w1, k < length (w_sockets w1) -> w1 = w -> k =? length (w_sockets w) = false)
    by (intros w1 L ->; apply Nat.eqb_neq; lia).
  destruct S; try (match goal with N : nth_error (w_sockets w) ?j = Some ?s0, E : nth_error (w_sockets (set_end w ?j ?s0 _)) k = Some s' |- _ =>
      destruct (set_end_slot _ _ _ _ _ _ N E) as [[-> ->]|[NE G]];
      [left; exists s0; split; [exact N|]|left; exists s'; split; [exact G|constructor; cbn; now apply Nat.eqb_neq]] end).
  - cbn in H. destruct (Nat.lt_ge_cases k (length (w_sockets w))) as [L|L].
    + rewrite nth_error_app1 in H by exact L. left. exists s'. split; [exact H|]. constructor. cbn. apply Nat.eqb_neq. lia.
    + rewrite nth_error_app2 in H by exact L. destruct (k - length (w_sockets w)) as [|x] eqn:E; [|destruct x; discriminate].
      cbn in H. injection H as <-. right. assert (k = length (w_sockets w)) by lia. split; [assumption|]. exists a. cbn. subst k. auto.
  - cbn in H. destruct (Nat.lt_ge_cases k (length (w_sockets w))) as [L|L].
    + rewrite nth_error_app1 in H by exact L. left. exists s'. split; [exact H|]. constructor. cbn. apply Nat.eqb_neq. lia.
    + rewrite nth_error_app2 in H by exact L. destruct (k - length (w_sockets w)) as [|x] eqn:E; [|destruct x; discriminate].
      cbn in H. injection H as <-. right. assert (k = length (w_sockets w)) by lia. split; [assumption|]. exists a. cbn. subst k. auto.
  - left. exists s'. split; [exact H|now constructor].
  - eapply sc_add; eassumption.
  - eapply sc_start; eassumption.
  - eapply sc_close; eassumption.
  - left. exists s'. split; [exact H|now constructor].
  - left. exists s'. split; [exact H|now constructor].
  - left. exists s'. split; [exact H|now constructor].
  - now constructor.
  - eapply sc_listener; eassumption.
Qed.
(** Slots are never removed. *)
Lemma slot_kept T w e w' k s : wstep T w e w' -> nth_error (w_sockets w) k = Some s ->
  exists s', nth_error (w_sockets w') k = Some s'.
Proof.
  intros S H. assert (L : k < length (w_sockets w)) by (apply nth_error_Some; congruence).
  destruct (nth_error (w_sockets w') k) as [s'|] eqn:E; [eauto|]. exfalso. apply nth_error_None in E.
  destruct S; rewrite ?set_end_length in E; cbn in E; rewrite ?app_length in E; cbn in E; lia.
Qed.
Lemma sockets_grow T w e w' : wstep T w e w' -> length (w_sockets w) <= length (w_sockets w').
Proof. intros S. destruct S; rewrite ?set_end_length; cbn; rewrite ?app_length; cbn; lia. Qed.

(** Events about a slot happen only to slots that exist afterwards. *)
Lemma about_exists T w e w' k : wstep T w e w' -> about k e = true -> k < length (w_sockets w').
Proof.
  intros S A. destruct S; cbn in A; try discriminate; apply Nat.eqb_eq in A; subst k; rewrite ?set_end_length;
    try (apply nth_error_Some; congruence); cbn; rewrite app_length; cbn; lia.
Qed.

(** ** What the history says about a slot *)
Definition slot_inv (tr : list event) (k : nat) (s : socket) : Prop :=
  match sk_end s with
  | Sending q =>
      q = delivered k tr /\ trace_at k tr = map LArrive q /\ ~ In (WClose k) tr /\
      (forall cfg, ~ In (WStart k cfg) tr) /\ (forall l, ~ In (WListener k l) tr) /\
      exists a, In (WBindSender k (sk_host s) a (sk_address s)) tr
  | Waiting n q =>
      q = delivered k tr /\ trace_at k tr = map LArrive q /\ ~ In (WClose k) tr /\ n = added k tr /\
      (forall cfg, ~ In (WStart k cfg) tr) /\ (forall l, ~ In (WListener k l) tr) /\
      exists a, In (WBindReceiver k (sk_host s) a (sk_address s)) tr
  | Listening c n =>
      run c (net_init c []) (trace_at k tr) n /\ ~ In (WClose k) tr /\
      (exists a, In (WBindReceiver k (sk_host s) a (sk_address s)) tr) /\
      exists cfg, c = listen_config cfg (added k tr) /\ In (WStart k cfg) tr /\ forall cfg', In (WStart k cfg') tr -> cfg' = cfg
  | Closed => In (WClose k) tr
  end.

Lemma arrivals_run c q : run c (net_init c []) (map LArrive q) (net_init c q).
Proof.
  induction q as [|d q IH] using rev_ind; [constructor|]. rewrite map_app. cbn [map].
  econstructor; [exact IH|]. replace (net_init c (q ++ [d])) with
    {| ns_queue := ns_queue (net_init c q) ++ [d]; ns_edge := true; ns_buffer := ns_buffer (net_init c q); ns_pc := ns_pc (net_init c q) |};
    [apply step_arrive|]. unfold net_init. cbn. f_equal. destruct q; reflexivity.
Qed.

Lemma about_false k e : about k e = false ->
  trace_at k [e] = [] /\ delivered k [e] = [] /\ added k [e] = 0 /\
  (forall cfg, e <> WStart k cfg) /\ e <> WClose k /\ (forall l, e <> WListener k l) /\
  (forall m, e <> WDeliver k m) /\ (forall h a b, e <> WBindSender k h a b) /\ (forall h a b, e <> WBindReceiver k h a b).
Proof.
  intros A. destruct e; cbn in *; rewrite ?A; repeat split; try reflexivity; try discriminate;
    intros; intros E; injection E; intros; subst; rewrite Nat.eqb_refl in A; discriminate.
Qed.
Lemma no_in_snoc (P : event -> Prop) tr e : (forall x, P x -> ~ In x tr) -> ~ P e -> forall x, P x -> ~ In x (tr ++ [e]).
Proof. intros A B x Px I. apply in_app_or in I as [I|[->|[]]]; [exact (A x Px I)|exact (B Px)]. Qed.

Lemma slot_inv_other tr k s e : about k e = false -> slot_inv tr k s -> slot_inv (tr ++ [e]) k s.
Proof.
  intros A I. destruct (about_false k e A) as (B1 & B2 & B3 & B4 & B5 & B6 & B7 & B8).
  assert (X : forall x, x <> e -> ~ In x tr -> ~ In x (tr ++ [e])).
  { intros x N M J. apply in_app_or in J as [J|[J|[]]]; [auto|congruence]. }
  unfold slot_inv in *. rewrite trace_at_app, delivered_app, added_app, B1, B2, B3, !app_nil_r, Nat.add_0_r.
  destruct (sk_end s) as [q|n q|c n|].
  - destruct I as (I1 & I2 & I3 & I4 & I5 & a & I6). repeat split; auto; try (intros; apply X; auto; congruence).
    exists a. apply in_or_app. auto.
  - destruct I as (I1 & I2 & I3 & I4 & I5 & I6 & a & I7). repeat split; auto; try (intros; apply X; auto; congruence).
    exists a. apply in_or_app. auto.
  - destruct I as (I1 & I2 & (a & I3) & cfg & I4 & I5 & I6). split; [exact I1|]. split; [apply X; auto; congruence|].
    split; [exists a; apply in_or_app; auto|]. exists cfg. split; [exact I4|]. split; [apply in_or_app; auto|].
    intros cfg' J. apply in_app_or in J as [J|[J|[]]]; [auto|]. exfalso. eapply B4; eauto.
  - apply in_or_app. auto.
Qed.

Lemma slot_change_inv T w tr k e s s' : slot_inv tr k s -> slot_change T w k e s s' -> slot_inv (tr ++ [e]) k s'.
Proof.
  intros I C. destruct C as [e s A|s n q H|s n q cfg H|s H|s m H1 H2 H3|s c n l n' H1 H2 H3].
  - now apply slot_inv_other.
  - unfold slot_inv in *. rewrite H in I. cbn [sk_end with_end sk_host sk_address].
    rewrite trace_at_app, delivered_app, added_app. cbn [trace_at delivered added]. rewrite Nat.eqb_refl, !app_nil_r.
    destruct I as (I1 & I2 & I3 & I4 & I5 & I6 & a & I7).
    repeat split; auto; try lia; try (intros ? J; apply in_app_or in J as [J|[J|[]]]; [|discriminate]; firstorder).
    + intros J; apply in_app_or in J as [J|[J|[]]]; [auto|discriminate].
    + exists a. apply in_or_app. auto.
  - unfold slot_inv in *. rewrite H in I. cbn [sk_end with_end sk_host sk_address].
    rewrite trace_at_app, added_app. cbn [trace_at added]. rewrite app_nil_r, Nat.add_0_r.
    destruct I as (I1 & I2 & I3 & I4 & I5 & I6 & a & I7). subst n.
    split; [rewrite I2; apply arrivals_run|]. split; [intros J; apply in_app_or in J as [J|[J|[]]]; [auto|discriminate]|].
    split; [exists a; apply in_or_app; auto|]. exists cfg. split; [reflexivity|]. split; [apply in_or_app; right; now left|].
    intros cfg' J. apply in_app_or in J as [J|[J|[]]]; [exfalso; eapply I5; eauto|congruence].
  - unfold slot_inv. cbn. apply in_or_app. right. now left.
  - unfold slot_inv in *. destruct (sk_end s) as [q|n q|c n|] eqn:E; cbn [sk_end with_end sk_host sk_address arrive];
      [| | |discriminate H1]; rewrite trace_at_app, ?delivered_app, ?added_app; cbn [trace_at delivered added];
      rewrite Nat.eqb_refl, ?Nat.add_0_r.
    + destruct I as (I1 & I2 & I3 & I4 & I5 & a & I6). rewrite I2, I1, map_app.
      repeat split; auto; try (intros ? J; apply in_app_or in J as [J|[J|[]]]; [|discriminate]; firstorder).
      * intros J; apply in_app_or in J as [J|[J|[]]]; [auto|discriminate].
      * exists a. apply in_or_app. auto.
    + destruct I as (I1 & I2 & I3 & I4 & I5 & I6 & a & I7). rewrite I2, I1, map_app.
      repeat split; auto; try (intros ? J; apply in_app_or in J as [J|[J|[]]]; [|discriminate]; firstorder).
      * intros J; apply in_app_or in J as [J|[J|[]]]; [auto|discriminate].
      * exists a. apply in_or_app. auto.
    + destruct I as (I1 & I2 & (a & I3) & cfg & I4 & I5 & I6).
      split; [econstructor; [exact I1|apply step_arrive]|].
      split; [intros J; apply in_app_or in J as [J|[J|[]]]; [auto|discriminate]|].
      split; [exists a; apply in_or_app; auto|]. exists cfg. split; [exact I4|]. split; [apply in_or_app; auto|].
      intros cfg' J. apply in_app_or in J as [J|[J|[]]]; [auto|discriminate].
  - unfold slot_inv in *. rewrite H1 in I. cbn [sk_end with_end sk_host sk_address].
    rewrite trace_at_app, added_app. cbn [trace_at added]. rewrite Nat.eqb_refl, Nat.add_0_r.
    destruct I as (I1 & I2 & (a & I3) & cfg & I4 & I5 & I6).
    split; [econstructor; eassumption|].
    split; [intros J; apply in_app_or in J as [J|[J|[]]]; [auto|discriminate]|].
    split; [exists a; apply in_or_app; auto|]. exists cfg. split; [exact I4|]. split; [apply in_or_app; auto|].
    intros cfg' J. apply in_app_or in J as [J|[J|[]]]; [auto|discriminate].
Qed.

Definition world_inv (tr : list event) (w : world) : Prop :=
  w_sent w = emitted tr /\
  (forall k s, nth_error (w_sockets w) k = Some s -> slot_inv tr k s) /\
  (forall k e, In e tr -> about k e = true -> k < length (w_sockets w)).

Lemma untouched tr k : (forall e, In e tr -> about k e = false) ->
  trace_at k tr = [] /\ delivered k tr = [] /\ added k tr = 0.
Proof.
  induction tr as [|e tr IH]; intros H; [auto|].
  destruct IH as (A & B & C); [intros; apply H; now right|].
  destruct (about_false k e (H e (or_introl eq_refl))) as (D & E & F & _).
  change (e :: tr) with ([e] ++ tr). rewrite trace_at_app, delivered_app, added_app, A, B, C, D, E, F. auto.
Qed.

Lemma world_inv_run T tr w : wrun T world_init tr w -> world_inv tr w.
Proof.
  intros R. remember world_init as w0 eqn:E0. induction R as [w|w tr w' e w'' R IH S]; subst w.
  - split; [reflexivity|]. split; [intros [|k] s H; discriminate|]. intros k e [].
  - destruct (IH eq_refl) as (I1 & I2 & I3). clear IH. split; [|split].
    + rewrite emitted_app. destruct S; cbn; rewrite ?app_nil_r; rewrite ?I1; auto.
    + intros k s' H. destruct (slot_step _ _ _ _ _ _ S H) as [(s & H0 & C)|(K & a & B & C)].
      * eapply slot_change_inv; [apply I2, H0|exact C].
      * assert (U : forall x, In x tr -> about k x = false).
        { intros x Ix. destruct (about k x) eqn:Ab; [|reflexivity]. specialize (I3 k x Ix Ab). lia. }
        destruct (untouched tr k U) as (U1 & U2 & U3).
        assert (NI : forall x, about k x = true -> ~ In x tr).
        { intros x Ab J. rewrite (U x J) in Ab. discriminate. }
        assert (N1 : ~ In (WClose k) tr) by (apply NI; cbn; apply Nat.eqb_refl).
        assert (N2 : forall cfg, ~ In (WStart k cfg) tr) by (intros; apply NI; cbn; apply Nat.eqb_refl).
        assert (N3 : forall l, ~ In (WListener k l) tr) by (intros; apply NI; cbn; apply Nat.eqb_refl).
        unfold slot_inv. destruct C as [[-> E]|[-> E]]; rewrite E, trace_at_app, delivered_app, ?added_app, U1, U2, ?U3;
          cbn [trace_at delivered added app map].
        -- repeat split; auto; try (intros ? J; apply in_app_or in J as [J|[J|[]]]; [|discriminate]; firstorder).
           ++ intros J; apply in_app_or in J as [J|[J|[]]]; [auto|discriminate].
           ++ exists a. apply in_or_app. right. now left.
        -- repeat split; auto; try (intros ? J; apply in_app_or in J as [J|[J|[]]]; [|discriminate]; firstorder).
           ++ intros J; apply in_app_or in J as [J|[J|[]]]; [auto|discriminate].
           ++ exists a. apply in_or_app. right. now left.
    + intros k x J Ab. apply in_app_or in J as [J|[->|[]]].
      * specialize (I3 k x J Ab). pose proof (sockets_grow _ _ _ _ S). lia.
      * exact (about_exists _ _ _ _ _ S Ab).
Qed.

(** ** Moments of an execution *)
Lemma wrun_at T w0 a e b w : wrun T w0 (a ++ e :: b) w ->
  exists w1 w2, wrun T w0 a w1 /\ wstep T w1 e w2 /\ wrun T w0 (a ++ [e]) w2 /\ wrun T w2 b w.
Proof.
  change (a ++ e :: b) with (a ++ [e] ++ b). rewrite app_assoc. intros R.
  apply wrun_app_inv in R as (w2 & R & R2). destruct (wrun_snoc_inv _ _ _ _ _ R) as (w1 & R1 & S). eauto 8.
Qed.
Lemma in_split_event (e : event) tr : In e tr -> exists a b, tr = a ++ e :: b.
Proof. apply in_split. Qed.

Lemma in_delivered k d tr : In d (delivered k tr) -> exists m, In (WDeliver k m) tr /\ datagram_of m = d.
Proof.
  induction tr as [|e tr IH]; [intros []|]. intros H.
  destruct e; cbn in H; try (destruct (IH H) as (m' & A & B); exists m'; split; [now right|exact B]).
  destruct (Nat.eqb_spec k k0) as [->|N].
  - destruct H as [H|H]; [exists m; split; [now left|exact H]|].
    destruct (IH H) as (m' & A & B); exists m'; split; [now right|exact B].
  - destruct (IH H) as (m' & A & B); exists m'; split; [now right|exact B].
Qed.

(** Host and address of a slot never change, and a socket that is not open never is again. *)
Lemma slot_later T w b w' k s : wrun T w b w' -> nth_error (w_sockets w) k = Some s ->
  exists s', nth_error (w_sockets w') k = Some s' /\ sk_host s' = sk_host s /\ sk_address s' = sk_address s /\
    (is_open (sk_end s) = false -> is_open (sk_end s') = false /\ trace_at k b = []).
Proof.
  intros R H. induction R as [w|w tr w1 e w2 R IH S]; [exists s; auto|].
  destruct (IH H) as (s1 & H1 & E1 & E2 & D). destruct (slot_kept _ _ _ _ _ _ S H1) as (s2 & H2). exists s2. split; [exact H2|].
  destruct (slot_step _ _ _ _ _ _ S H2) as [(x & Hx & C)|(K & _)].
  2:{ exfalso. assert (k < length (w_sockets w1)) by (apply nth_error_Some; congruence). lia. }
  assert (x = s1) by congruence. subst x.
  assert (SC : sk_host s2 = sk_host s1 /\ sk_address s2 = sk_address s1 /\
    (is_open (sk_end s1) = false -> is_open (sk_end s2) = false /\ trace_at k [e] = [])).
  { destruct C as [e s1 A|s1 n q H0|s1 n q cfg H0|s1 H0|s1 m H0 H0' H0''|s1 c n l n' H0 H0' H0'']; cbn [with_end sk_host sk_address sk_end];
      (split; [reflexivity|split; [reflexivity|]]); intros O.
    - split; [exact O|]. apply (about_false k e A).
    - rewrite H0 in O. discriminate.
    - rewrite H0 in O. discriminate.
    - congruence.
    - congruence.
    - exfalso. rewrite H0 in O. cbn in O. inversion H0'; subst;
        try (match goal with E : ns_pc _ = _ |- _ => rewrite E in O; discriminate end). eapply H0''; reflexivity. }
  destruct SC as (F1 & F2 & F3). split; [congruence|]. split; [congruence|].
  intros O. destruct (D O) as [D1 D2]. destruct (F3 D1) as [D3 D4]. split; [exact D3|]. rewrite trace_at_app, D2, D4. reflexivity.
Qed.

(** the moment of a delivery: the socket is open and the datagram is for it; host and address of the socket are the same
    later *)
Lemma delivery_moment T a k m b w s' : wrun T world_init (a ++ WDeliver k m :: b) w ->
  nth_error (w_sockets w) k = Some s' ->
  exists w1 s, wrun T world_init a w1 /\ nth_error (w_sockets w1) k = Some s /\ is_open (sk_end s) = true /\
    In m (emitted a) /\ accepts T s m /\ sk_host s = sk_host s' /\ sk_address s = sk_address s' /\
    wrun T w1 (WDeliver k m :: b) w.
Proof.
  intros R H'. apply wrun_at in R as (w1 & w2 & R1 & S & _ & R2).
  destruct (world_inv_run _ _ _ R1) as (E & _).
  inversion S as [| | | | | | | | |w0 j s m0 Hs Ho Hm Ha|]; subst.
  exists w1, s. rewrite <- E.
  pose proof (wrun_app _ _ _ _ _ _ (wrun_one _ _ _ _ S) R2) as R3. cbn [app] in R3.
  destruct (slot_later _ _ _ _ _ _ R3 Hs) as (s1 & Hs1 & E1 & E2 & _).
  assert (s1 = s') by congruence. subst s1. repeat (split; [first [assumption|congruence]|]). exact R3.
Qed.

(** the slot of an event *)
Lemma event_slot T tr w e k : wrun T world_init tr w -> In e tr -> about k e = true ->
  exists s, nth_error (w_sockets w) k = Some s.
Proof.
  intros R I A. destruct (world_inv_run _ _ _ R) as (_ & _ & J). specialize (J k e I A).
  destruct (nth_error (w_sockets w) k) eqn:E; [eauto|]. apply nth_error_None in E. lia.
Qed.

Lemma arrivals_trace_at T tr w k : wrun T world_init tr w -> arrivals (trace_at k tr) = delivered k tr.
Proof.
  intros R. remember world_init as w0. induction R as [w|w tr w1 e w2 R IH S]; [reflexivity|].
  rewrite trace_at_app, delivered_app, arrivals_app, (IH Heqw0). f_equal.
  destruct S; try reflexivity; cbn [trace_at delivered]; destruct (k =? k0); try reflexivity.
  destruct l; try reflexivity. exfalso. eapply H2. reflexivity.
Qed.

(** a receiver is started at most once *)
Lemma start_fresh T a k cfg b w : wrun T world_init (a ++ WStart k cfg :: b) w -> forall cfg', ~ In (WStart k cfg') a.
Proof.
  intros R cfg'. apply wrun_at in R as (w1 & w2 & R1 & S & _ & _). inversion S as [| | | |w0 k0 s n q cfg0 H E| | | | | |]; subst.
  destruct (world_inv_run _ _ _ R1) as (_ & J & _). specialize (J k s H). unfold slot_inv in J. rewrite E in J.
  apply J.
Qed.
Lemma start_unique T tr w k c1 c2 : wrun T world_init tr w -> In (WStart k c1) tr -> In (WStart k c2) tr -> c1 = c2.
Proof.
  intros R I1 I2. apply in_split in I1 as (a & b & ->). apply in_app_or in I2 as [I2|[I2|I2]].
  - exfalso. exact (start_fresh _ _ _ _ _ _ R _ I2).
  - congruence.
  - exfalso. apply in_split in I2 as (x & y & ->).
    change (a ++ WStart k c1 :: x ++ WStart k c2 :: y) with (a ++ (WStart k c1 :: x) ++ WStart k c2 :: y) in R. rewrite app_assoc in R.
    apply (start_fresh _ _ _ _ _ _ R c1). apply in_or_app. right. now left.
Qed.

Lemma configured_listen_config cfg n : configured_as (listen_config cfg n) cfg n.
Proof.
  unfold configured_as. cbn. split; [reflexivity|]. split; [reflexivity|].
  destruct (cf_pollinterval cfg); split; intros H; congruence.
Qed.
Lemma configured_unique c cfg n : configured_as c cfg n -> c = listen_config cfg n.
Proof.
  destruct c as [b t r]. unfold configured_as, listen_config. cbn. intros (-> & -> & H). f_equal.
  destruct (cf_pollinterval cfg), t; try reflexivity; destruct H as [H1 H2].
  - apply H2. discriminate.
  - exfalso. now apply H1.
Qed.

(** ** C85 *)

(** C85. What one listener sees does not depend on anybody else: in every execution of the whole network, the arrivals at a
    started receiver's socket and the steps of its listener are an execution of that listener alone (so C48-C53 and C60-C62
    hold for it), the arrivals being what the network delivered to that socket, before or after the start. *)
Lemma p_C85_each_listener_alone :
  forall (T : topology) (tr : list event) (w : world) (k : nat) (cfg : config) (c : net_config),
    wrun T world_init tr w -> In (WStart k cfg) tr -> ~ In (WClose k) tr -> configured_as c cfg (added k tr) ->
    arrivals (trace_at k tr) = delivered k tr /\
    exists s, run c (net_init c []) (trace_at k tr) s /\
      forall r, r < added k tr -> between_datagrams s ->
        calls r (trace_at k tr) = map (packet_of c) (firstn (recvs (trace_at k tr)) (delivered k tr)).
Proof.
  intros T tr w k cfg c R I NC ->%configured_unique. pose proof (arrivals_trace_at _ _ _ k R) as A. split; [exact A|].
  destruct (event_slot _ _ _ _ k R I) as (s & H); [cbn; apply Nat.eqb_refl|].
  destruct (world_inv_run _ _ _ R) as (_ & J & _). specialize (J k s H). unfold slot_inv in J.
  destruct (sk_end s) as [q|n q|c' n|].
  - exfalso. destruct J as (_ & _ & _ & J & _). exact (J cfg I).
  - exfalso. destruct J as (_ & _ & _ & _ & J & _). exact (J cfg I).
  - destruct J as (J1 & _ & _ & cfg' & -> & _ & J2). pose proof (J2 cfg I) as <-. exists n. split; [exact J1|].
    intros r Hr B. destruct (p_C48_exactly_once_in_order _ _ _ _ r J1) as [X _].
    destruct (X Hr) as (missing & X1 & _ & X2). rewrite (X2 B), app_nil_r in X1.
    rewrite <- X1. unfold received. cbn [app]. now rewrite A.
  - contradiction.
Qed.

(** C85. The poll interval: a listener started without one never returns from polling until there is something to receive; with one it can
    always do so. *)
Lemma p_C85_poll_interval :
  forall (T : topology) (tr : list event) (w : world) (k : nat) (cfg : config),
    wrun T world_init tr w -> In (WStart k cfg) tr ->
    (cf_pollinterval cfg = None -> ~ In (WListener k (LPoll 0)) tr) /\
    (cf_pollinterval cfg <> None ->
     forall h a c s, nth_error (w_sockets w) k = Some {| sk_host := h; sk_address := a; sk_end := Listening c s |} -> ns_pc s = Polling ->
     exists w', wstep T w (WListener k (LPoll 0)) w').
Proof.
  intros T tr w k cfg R I. split.
  - intros N J. apply in_split in J as (a & b & ->). pose proof R as R0. apply wrun_at in R as (w1 & w2 & R1 & S & R12 & _).
    inversion S as [| | | | | | | | | |w0 k0 s c n l n' H E S1 NA]; subst.
    destruct (world_inv_run _ _ _ R1) as (_ & J & _). specialize (J k s H). unfold slot_inv in J. rewrite E in J.
    destruct J as (_ & _ & _ & cfg' & -> & I' & U).
    assert (cfg' = cfg) as ->.
    { eapply start_unique; [exact R0|apply in_or_app; left; exact I'|exact I]. }
    inversion S1; subst. unfold listen_config in *. cbn in *. rewrite N in *. discriminate.
  - intros N h a c s H P. destruct (world_inv_run _ _ _ R) as (_ & J & _). specialize (J k _ H). unfold slot_inv in J. cbn in J.
    destruct J as (_ & _ & _ & cfg' & -> & _ & U). rewrite <- (U cfg I) in *. eexists. eapply wstep_listener; [exact H|reflexivity| |discriminate].
    apply step_poll_timeout; [exact P|]. apply configured_listen_config. exact N.
Qed.

(** C85. A closed socket - dropped, its process ended, or its listener stopped by an error or a panic - is silent for
    ever: nothing is delivered to it, and its receivers are not called. *)
Lemma p_C85_closed_sockets_are_silent :
  forall (T : topology) (a : list event) (k : nat) (e : event) (b : list event) (w : world),
    wrun T world_init (a ++ e :: b) w ->
    e = WClose k \/ (exists l, e = WListener k l /\ is_io_error l) \/
    (exists r, In (WListener k (LPanic r)) a /\ e = WListener k LScopeEnd) ->
    trace_at k b = [] /\ forall h x, ~ open_at w k h x.
Proof.
  intros T a k e b w R K. destruct (wrun_at _ _ _ _ _ _ R) as (w1 & w2 & R1 & S & R12 & R2).
  assert (Ab : about k e = true) by (destruct K as [->|[(l & -> & _)|(r & _ & ->)]]; cbn; apply Nat.eqb_refl).
  destruct (event_slot _ _ _ e k R12) as (s & H); [apply in_or_app; right; now left|exact Ab|].
  assert (O : is_open (sk_end s) = false).
  { destruct (world_inv_run _ _ _ R12) as (_ & J & _). specialize (J k s H). unfold slot_inv in J.
    destruct (slot_step _ _ _ _ _ _ S H) as [(s1 & H1 & C)|(_ & ? & _ & C)].
    2:{ exfalso. destruct K as [->|[(l & -> & _)|(r & _ & ->)]]; destruct C as [[C _]|[C _]]; discriminate. }
    destruct K as [->|[(l & -> & L)|(r & P & ->)]].
    - destruct (sk_end s) as [q|n q|c n|]; [exfalso; apply J..|reflexivity]; apply in_or_app; right; now left.
    - inversion C as [|? ? ? ?|? ? ? ? ?|? ?|? ? ? ? ?|s0 c n l' n' E S1 N]; subst; [cbn in H0; rewrite Nat.eqb_refl in H0; discriminate|].
      cbn. inversion S1; subst; try contradiction; cbn; reflexivity.
    - inversion C as [|? ? ? ?|? ? ? ? ?|? ?|? ? ? ? ?|s0 c n l' n' E S1 N]; subst; [cbn in H0; rewrite Nat.eqb_refl in H0; discriminate|].
      cbn [with_end sk_end] in *. destruct J as (J & _).
      rewrite trace_at_app in J. cbn [trace_at] in J. rewrite Nat.eqb_refl in J.
      assert (P' : In (LPanic r) (trace_at k a)).
      { clear -P. apply in_split in P as (x & y & ->). rewrite trace_at_app. cbn. rewrite Nat.eqb_refl.
        apply in_or_app. right. now left. }
      apply in_split in P' as (x & y & P'). rewrite P' in J. rewrite <- app_assoc in J. cbn [app] in J.
      inversion S1; subst; cbn [is_open set_pc ns_pc]; [|reflexivity]. exfalso.
      assert (R0 : run c (net_init c []) (x ++ LPanic r :: y) n).
      { rewrite <- P'. destruct (world_inv_run _ _ _ R1) as (_ & J1 & _). specialize (J1 k s1 H1). unfold slot_inv in J1.
        rewrite E in J1. destruct J1 as (J1 & _). exact J1. }
      change (x ++ LPanic r :: y) with (x ++ [LPanic r] ++ y) in R0. rewrite app_assoc in R0.
      apply run_app_inv in R0 as (s2 & Ra & Rb).
      assert (exists k pkt src pe ru, ns_pc s2 = Dispatching k pkt src pe ru true) as (k' & pkt' & src' & pe & ru & E2).
      { apply run_snoc_inv in Ra as (s0 & _ & S0). inversion S0; subst. cbn. eauto 8. }
      destruct (panicking_run _ _ _ _ _ _ _ _ _ E2 Rb) as (_ & _ & _ & _ & [(pe' & ru' & D)|D] & _); congruence. }
  destruct (slot_later _ _ _ _ _ _ R2 H) as (s' & H' & _ & _ & D). destruct (D O) as [D1 D2]. split; [exact D2|].
  intros h x (en & E & O'). rewrite H' in E. injection E as ->. cbn in D1. congruence.
Qed.

(** ** C86, C87: where packets come from *)

(** sockets have the address asked for *)
Lemma bound_as_requested T tr w k h req act : wrun T world_init tr w ->
  In (WBindSender k h req act) tr \/ In (WBindReceiver k h req act) tr ->
  addr_ip act = addr_ip req /\ (addr_port req <> 0%N -> act = req).
Proof.
  intros R [H|H]; apply in_split in H as (a & b & ->);
    destruct (wrun_at _ _ _ _ _ _ R) as (w1 & w2 & _ & S & _); inversion S; subst;
    match goal with B : bindable _ _ _ _ |- _ => destruct B as (B1 & B2 & _) end; auto.
Qed.

(** C86. Nothing is invented. Whatever the network does: when a receiver behind socket [k] is called, the bytes it gets are
    those of a datagram put on the network before, cut to the buffer size, which was addressed to that socket and delivered to it,
    and the address it gets is the source written in that datagram. The socket has the address its program asked for (with
    a port of the operating system's choice if it asked for port 0). *)
Lemma p_C86_nothing_invented :
  forall (T : topology) (a b : list event) (w : world) (k r : nat) (pkt : list byte) (src : address),
    wrun T world_init (a ++ WListener k (LCall r pkt src) :: b) w ->
    exists (m : message) (cfg : config) (h : nat) (requested actual : address),
      In m (emitted a) /\ In (WDeliver k m) a /\
      m_from m = src /\ pkt = firstn (cf_buffersize cfg) (m_data m) /\
      In (WBindReceiver k h requested actual) a /\ In (WStart k cfg) a /\ r < added k a /\
      route T (m_origin m) (addr_ip (m_to m)) = Some h /\
      addr_port (m_to m) = addr_port actual /\
      (addr_ip (m_to m) = addr_ip actual \/ Forall (eq x00) (addr_ip actual)) /\
      addr_ip actual = addr_ip requested /\ (addr_port requested <> 0%N -> actual = requested).
Proof.
  intros T a b w k r pkt src R. destruct (wrun_at _ _ _ _ _ _ R) as (w1 & w2 & R1 & S & R12 & _).
  assert (Hs : exists s c n, nth_error (w_sockets w1) k = Some s /\ sk_end s = Listening c n /\
                 exists n', step c n (LCall r pkt src) n').
  { inversion S; subst; eauto 8. }
  destruct Hs as (s & c & n & H & E & n' & S1).
  destruct (world_inv_run _ _ _ R1) as (_ & J & _). specialize (J k s H). unfold slot_inv in J. rewrite E in J.
  destruct J as (J1 & _ & (req & J2) & cfg & -> & J3 & _). pose proof R1 as R12'.
  pose proof (run_snoc _ _ _ _ _ _ J1 S1) as R2.
  destruct (p_C50_one_datagram_at_a_time _ _ _ _ _ _ _ R2) as (Hr & _).
  destruct (p_C49_no_stale_bytes _ _ _ _ r pkt src R2) as (data & I & P & _); [apply in_or_app; right; now left|].
  cbn [app] in I. rewrite arrivals_app in I. cbn [arrivals] in I. rewrite app_nil_r in I.
  rewrite (arrivals_trace_at _ _ _ k R1) in I. apply in_delivered in I as (m & I & D).
  unfold datagram_of in D. injection D as D1 D2.
  assert (ID : In (WDeliver k m) a) by exact I.
  apply in_split in I as (a1 & a2 & Ea). rewrite Ea in R1.
  destruct (delivery_moment _ _ _ _ _ _ _ R1 H) as (w0 & s0 & R0 & H0 & _ & I & (A1 & A2 & A3) & E1 & E2 & _).
  exists m, cfg, (sk_host s), req, (sk_address s). rewrite <- E1, <- E2 in *.
  split; [rewrite Ea, emitted_app; apply in_or_app; now left|]. split; [exact ID|].
  split; [exact D2|]. split; [rewrite P, D1; reflexivity|]. split; [exact J2|]. split; [exact J3|].
  split; [exact Hr|]. split; [exact A1|]. split; [exact A2|].
  split; [destruct A3 as [A3|A3]; [now left|right]; now apply is_wildcard_spec|].
  exact (bound_as_requested _ _ _ _ _ _ _ R12' (or_intror J2)).
Qed.

Lemma in_emitted m tr : In m (emitted tr) -> In (WInject m) tr \/ exists i p, In (WSend i p m) tr.
Proof.
  induction tr as [|e tr IH]; [intros []|]. intros H.
  destruct e; cbn in H; try (destruct (IH H) as [X|(i' & p' & X)]; [left; now right|right; exists i', p'; now right]).
  - destruct H as [<-|H]; [right; do 2 eexists; now left|].
    destruct (IH H) as [X|(i' & p' & X)]; [left; now right|right; exists i', p'; now right].
  - destruct H as [<-|H]; [left; now left|].
    destruct (IH H) as [X|(i' & p' & X)]; [left; now right|right; exists i', p'; now right].
Qed.

(** the moment of a send *)
Lemma send_moment T a i p m b w : wrun T world_init (a ++ WSend i p m :: b) w ->
  exists w1 s q, wrun T world_init a w1 /\ wrun T w1 (WSend i p m :: b) w /\
    nth_error (w_sockets w1) i = Some s /\ sk_end s = Sending q /\
    m_data m = packet_bytes p /\ m_origin m = sk_host s /\ addr_port (m_from m) = addr_port (sk_address s) /\
    (addr_ip (m_from m) = addr_ip (sk_address s) \/ Forall (eq x00) (addr_ip (sk_address s))) /\
    source_for T (sk_host s) (addr_ip (m_to m)) (addr_ip (m_from m)).
Proof.
  intros R. apply wrun_at in R as (w1 & w2 & R1 & S & _ & R2).
  pose proof (wrun_app _ _ _ _ _ _ (wrun_one _ _ _ _ S) R2) as R3. cbn [app] in R3.
  inversion S; subst. exists w1, s, q.
  assert (m_data m = packet_bytes p).
  { match goal with X : network_send _ _ _ = _ |- _ => rewrite p_C63_send_is_exact in X; injection X; auto end. }
  repeat (split; [assumption|]). split; [|assumption].
  match goal with X : _ \/ is_wildcard _ = true |- _ => destruct X as [X|X]; [now left|right; now apply is_wildcard_spec] end.
Qed.

(** C87. If nobody but [NetworkSender::send] puts datagrams on the network, the source address a receiver is given is genuine: the
    packet was passed to [send] on a sender whose socket has this port and this (or the wildcard) IP address, which are those its program asked for (with a
    port of the operating system's choice if it asked for port 0). *)
Lemma p_C87_sources_genuine_without_forgers :
  forall (T : topology) (a b : list event) (w : world) (k r : nat) (pkt : list byte) (src : address),
    wrun T world_init (a ++ WListener k (LCall r pkt src) :: b) w -> Forall (fun e => ~ is_inject e) a ->
    exists (i h : nat) (p : packet) (m : message) (requested actual : address) (cfg : config),
      In (WSend i p m) a /\ In (WBindSender i h requested actual) a /\ In (WStart k cfg) a /\
      pkt = firstn (cf_buffersize cfg) (packet_bytes p) /\ m_from m = src /\
      addr_port src = addr_port actual /\ (addr_ip src = addr_ip actual \/ Forall (eq x00) (addr_ip actual)) /\
      addr_ip actual = addr_ip requested /\ (addr_port requested <> 0%N -> actual = requested).
Proof.
  intros T a b w k r pkt src R F.
  destruct (p_C86_nothing_invented _ _ _ _ _ _ _ _ R) as (m & cfg & h & req & act & I & ID & E1 & E2 & _ & I2 & _).
  apply in_emitted in I as [I|(i & p & I)].
  { exfalso. rewrite Forall_forall in F. exact (F _ I Logic.I). }
  pose proof I as I0. apply in_split in I as (a1 & a2 & ->). rewrite <- app_assoc in R. cbn [app] in R.
  destruct (send_moment _ _ _ _ _ _ _ R) as (w1 & s & q & R1 & _ & H & Es & D & O & Po & Ip & _).
  destruct (world_inv_run _ _ _ R1) as (_ & J & _). specialize (J i s H). unfold slot_inv in J. rewrite Es in J.
  destruct J as (_ & _ & _ & _ & _ & rq & J).
  exists i, (sk_host s), p, m, rq, (sk_address s), cfg. subst src.
  split; [exact I0|]. split; [apply in_or_app; now left|]. split; [exact I2|]. split; [now rewrite E2, D|].
  split; [reflexivity|]. split; [exact Po|]. split; [exact Ip|].
  exact (bound_as_requested _ _ _ _ _ _ _ R1 (or_introl J)).
Qed.

(** C87. Only a [NetworkSender] sends: whatever is sent, or fails to be sent, at a socket happens at one made by [NetworkSender::new] and not closed yet. *)
Lemma p_C87_only_senders_send :
  forall (T : topology) (a b : list event) (w : world) (i : nat) (e : event),
    wrun T world_init (a ++ e :: b) w ->
    (exists p m, e = WSend i p m) \/ (exists p dst err, e = WSendFails i p dst err) ->
    exists h requested actual, In (WBindSender i h requested actual) a /\ ~ In (WClose i) a.
Proof.
  intros T a b w i e R K. apply wrun_at in R as (w1 & w2 & R1 & S & _ & _).
  assert (exists s q, nth_error (w_sockets w1) i = Some s /\ sk_end s = Sending q) as (s & q & H & E).
  { destruct K as [(p & m & ->)|(p & d & er & ->)]; inversion S; subst; eauto. }
  destruct (world_inv_run _ _ _ R1) as (_ & J & _). specialize (J i s H). unfold slot_inv in J. rewrite E in J.
  destruct J as (_ & _ & NC & _ & _ & x & B). eauto 6.
Qed.

(** ** C88: replies *)
Lemma sender_stays T tr w i h req act : wrun T world_init tr w -> In (WBindSender i h req act) tr -> ~ In (WClose i) tr ->
  exists q, nth_error (w_sockets w) i = Some {| sk_host := h; sk_address := act; sk_end := Sending q |}.
Proof.
  intros R I NC. apply in_split in I as (a & b & ->). pose proof R as R0.
  apply wrun_at in R as (w1 & w2 & R1 & S & R12 & R2). inversion S; subst.
  assert (H : nth_error (w_sockets (add_socket w1 h act (Sending []))) (length (w_sockets w1))
              = Some {| sk_host := h; sk_address := act; sk_end := Sending [] |}).
  { cbn. rewrite nth_error_app2, Nat.sub_diag by lia. reflexivity. }
  destruct (slot_later _ _ _ _ _ _ R2 H) as (s' & H' & E1 & E2 & _).
  destruct (world_inv_run _ _ _ R0) as (_ & J & _). specialize (J _ _ H'). unfold slot_inv in J.
  assert (NR : forall h' rq ac, ~ In (WBindReceiver (length (w_sockets w1)) h' rq ac) (a ++ WBindSender (length (w_sockets w1)) h req act :: b)).
  { intros h' rq ac X. apply in_app_or in X as [X|[X|X]]; [|discriminate|].
    - destruct (world_inv_run _ _ _ R1) as (_ & _ & L). specialize (L (length (w_sockets w1)) _ X (Nat.eqb_refl _)). lia.
    - apply in_split in X as (b1 & b2 & ->). apply wrun_at in R2 as (w3 & w4 & R3 & S3 & _).
      inversion S3; subst.
      destruct (slot_later _ _ _ _ _ _ R3 H) as (s3 & H3 & _).
      assert (length (w_sockets w1) < length (w_sockets w3)) by (apply nth_error_Some; congruence). lia. }
  destruct s' as [h' ad e']. cbn in E1, E2, J. subst h' ad. destruct e' as [q|n q|c n|].
  - eauto.
  - exfalso. destruct J as (_ & _ & _ & _ & _ & _ & x & J). eapply NR; eauto.
  - exfalso. destruct J as (_ & _ & (x & J) & _). eapply NR; eauto.
  - contradiction.
Qed.

Lemma slot_change_open T w k e s s' : slot_change T w k e s s' -> is_open (sk_end s') = true ->
  is_open (sk_end s) = true /\ sk_host s' = sk_host s /\ sk_address s' = sk_address s.
Proof.
  intros C O. destruct C as [e s A|s n q H|s n q cfg H|s H|s m H1 H2 H3|s c n l n' H1 H2 H3]; cbn in *; auto.
  - now rewrite H.
  - now rewrite H.
  - split; [|auto]. rewrite H1. cbn. destruct (ns_pc n) eqn:E; try reflexivity.
    inversion H2; subst; try congruence. exfalso. eapply H3; reflexivity.
Qed.

Lemma sockets_disjoint T tr w : wrun T world_init tr w ->
  forall i j s t, i <> j -> nth_error (w_sockets w) i = Some s -> nth_error (w_sockets w) j = Some t ->
    is_open (sk_end s) = true -> is_open (sk_end t) = true -> sk_host s = sk_host t -> ~ clash (sk_address s) (sk_address t).
Proof.
  intros R. remember world_init as w0 eqn:E0. induction R as [w|w tr w1 e w2 R IH S]; subst w.
  - intros [|i] j s t _ H; discriminate.
  - specialize (IH eq_refl). intros i j s t N Hi Hj Oi Oj Eh.
    destruct (slot_step _ _ _ _ _ _ S Hi) as [(s1 & Hi1 & Ci)|(Ki & a & Bi & _)];
    destruct (slot_step _ _ _ _ _ _ S Hj) as [(t1 & Hj1 & Cj)|(Kj & b & Bj & _)].
    + destruct (slot_change_open _ _ _ _ _ _ Ci Oi) as (O1 & E1 & E2).
      destruct (slot_change_open _ _ _ _ _ _ Cj Oj) as (O2 & E3 & E4). rewrite E2, E4. apply (IH i j); auto; congruence.
    + destruct (slot_change_open _ _ _ _ _ _ Ci Oi) as (O1 & E1 & E2).
      destruct Bj as (_ & _ & _ & B). intros C. rewrite E2 in C. apply clash_sym in C. apply conflict_spec in C.
      rewrite (B s1) in C; [discriminate|eapply nth_error_In; eauto|congruence|exact O1].
    + destruct (slot_change_open _ _ _ _ _ _ Cj Oj) as (O1 & E1 & E2).
      destruct Bi as (_ & _ & _ & B). intros C. rewrite E2 in C. apply conflict_spec in C.
      rewrite (B t1) in C; [discriminate|eapply nth_error_In; eauto|congruence|exact O1].
    + lia.
Qed.

Definition binds (k : nat) (e : event) : bool :=
  match e with WBindSender j _ _ _ | WBindReceiver j _ _ _ => k =? j | _ => false end.
Lemma bind_unique T tr w k e1 e2 : wrun T world_init tr w -> In e1 tr -> In e2 tr ->
  binds k e1 = true -> binds k e2 = true -> e1 = e2.
Proof.
  intros R. remember world_init as w0 eqn:E0. induction R as [w|w tr w1 e w2 R IH S]; subst w; [intros []|].
  specialize (IH eq_refl). intros I1 I2 B1 B2.
  assert (L : binds k e = true -> k = length (w_sockets w1)).
  { intros B. destruct S; cbn in B; try discriminate; now apply Nat.eqb_eq in B. }
  assert (L' : forall x, In x tr -> binds k x = true -> k < length (w_sockets w1)).
  { intros x I B. destruct (world_inv_run _ _ _ R) as (_ & _ & A). apply (A k x I). destruct x; cbn in *; try discriminate; exact B. }
  apply in_app_or in I1 as [I1|[<-|[]]]; apply in_app_or in I2 as [I2|[<-|[]]].
  - auto.
  - specialize (L B2). specialize (L' _ I1 B1). lia.
  - specialize (L B1). specialize (L' _ I2 B2). lia.
  - reflexivity.
Qed.
Lemma senders_never_listen T tr w i h req act : wrun T world_init tr w -> In (WBindSender i h req act) tr ->
  forall l, ~ In (WListener i l) tr.
Proof.
  intros R I l X. pose proof R as R0. apply in_split in X as (a & b & ->).
  apply wrun_at in R as (w1 & w2 & R1 & S & _ & _).
  assert (Hs : exists s c n, nth_error (w_sockets w1) i = Some s /\ sk_end s = Listening c n) by (inversion S; subst; eauto 8).
  destruct Hs as (s & c & n & H & E).
  destruct (world_inv_run _ _ _ R1) as (_ & J & _). specialize (J i s H). unfold slot_inv in J. rewrite E in J.
  destruct J as (_ & _ & (rq & J) & _).
  assert (X : WBindSender i h req act = WBindReceiver i (sk_host s) rq (sk_address s)); [|discriminate].
  eapply bind_unique; [exact R0|exact I|apply in_or_app; now left|apply Nat.eqb_refl..].
Qed.
Lemma deliver_inv T w k m w' : wstep T w (WDeliver k m) w' ->
  exists s, nth_error (w_sockets w) k = Some s /\ is_open (sk_end s) = true /\ In m (w_sent w) /\ accepts T s m.
Proof. intros S. inversion S; subst. eauto. Qed.

(** C88 (refuted). "A receiver can answer to the address it is given." Suppose a receiver on host [h] was called with the
    source address [src], and nobody forges datagrams. Then [src] is the address of a sender's socket, which nobody
    listens on: as long as that socket is open, everything the host sends to [src] ends up there, and no receiver is ever
    called behind it. *)
Lemma p_C88_replies_reach_nobody_refuted :
  forall (T : topology) (a b : list event) (w : world) (k h r : nat) (pkt : list byte) (src x y : address),
    symmetric_routes T ->
    wrun T world_init (a ++ WListener k (LCall r pkt src) :: b) w -> Forall (fun e => ~ is_inject e) a ->
    In (WBindReceiver k h x y) a ->
    exists (i h' : nat) (requested actual : address),
      In (WBindSender i h' requested actual) a /\
      (~ In (WClose i) (a ++ b) ->
       forall j m, In (WDeliver j m) b -> m_origin m = h -> m_to m = src -> j = i) /\
      forall l, ~ In (WListener i l) (a ++ WListener k (LCall r pkt src) :: b).
Proof.
  intros T a b w k h r pkt src x y SY R F IB.
  destruct (p_C86_nothing_invented _ _ _ _ _ _ _ _ R) as (m & cfg & h1 & req & act & I & ID & E1 & E2 & IB1 & I2 & _ & RT & _).
  apply in_emitted in I as [I|(i & p & I)].
  { exfalso. rewrite Forall_forall in F. exact (F _ I Logic.I). }
  apply in_split in I as (a1 & a2 & Ea).
  assert (R' := R). rewrite Ea, <- app_assoc in R'. cbn [app] in R'.
  destruct (send_moment _ _ _ _ _ _ _ R') as (w1 & s & q & R1 & Rs & H & Es & D & O & Po & Ip & Sf). clear R'.
  destruct (world_inv_run _ _ _ R1) as (_ & J & _). specialize (J i s H). unfold slot_inv in J. rewrite Es in J.
  destruct J as (_ & _ & _ & _ & _ & rq & J).
  assert (IBS : In (WBindSender i (sk_host s) rq (sk_address s)) a) by (rewrite Ea; apply in_or_app; now left).
  (* the receiver's socket is on h *)
  assert (Eh : h1 = h).
  { destruct (wrun_at _ _ _ _ _ _ R) as (wa & _ & Ra & _).
    assert (X : WBindReceiver k h1 req act = WBindReceiver k h x y); [|congruence].
    eapply bind_unique; [exact Ra|eassumption|eassumption|apply Nat.eqb_refl..]. }
  subst h1.
  exists i, (sk_host s), rq, (sk_address s). split; [exact IBS|]. split.
  - intros NC j m' ID' O' To.
    apply in_split in ID' as (b1 & b2 & Eb).
    assert (R2 : wrun T world_init ((a ++ WListener k (LCall r pkt src) :: b1) ++ WDeliver j m' :: b2) w).
    { rewrite <- app_assoc. cbn [app]. rewrite <- Eb. exact R. }
    destruct (wrun_at _ _ _ _ _ _ R2) as (w3 & w4 & R3 & S & _ & _).
    apply deliver_inv in S as (sj & Hj & Oj & _ & A1 & A2 & A3).
    destruct (sender_stays T _ _ i _ _ _ R3 (in_or_app _ _ _ (or_introl IBS))) as (qi & Hi).
    { intros X. apply NC. apply in_app_or in X as [X|[X|X]]; [apply in_or_app; now left|discriminate|].
      apply in_or_app. right. rewrite Eb. apply in_or_app. now left. }
    destruct (Nat.eq_dec j i) as [->|N]; [reflexivity|]. exfalso.
    rewrite O', To, <- E1 in A1. rewrite To, <- E1 in A2, A3.
    assert (RB : route T h (addr_ip (m_from m)) = Some (sk_host s)).
    { eapply SY; [|exact Sf]. rewrite <- O. exact RT. }
    assert (HH : sk_host sj = sk_host s) by congruence.
    apply (sockets_disjoint _ _ _ R3 j i sj _ N Hj Hi Oj eq_refl HH). cbn [sk_address].
    split; [congruence|]. destruct A3 as [A3|A3].
    + destruct Ip as [Ip|Ip]; [left; congruence|right; right; exact Ip].
    + right. left. now apply is_wildcard_spec.
  - eapply senders_never_listen; [exact R|]. apply in_or_app. left. exact IBS.
Qed.

(** ** C89: ports *)

(** C89. At no moment of any execution do two open sockets of a host clash (same port and same or wildcard IP address) -
    whatever is created, started, dropped, and whichever listeners stop. *)
Lemma p_C89_sockets_never_clash :
  forall (T : topology) (tr : list event) (w : world) (i j h : nat) (a b : address),
    wrun T world_init tr w -> i <> j -> open_at w i h a -> open_at w j h b -> ~ clash a b.
Proof.
  intros T tr w i j h a b R N (e & H & O) (e' & H' & O').
  exact (sockets_disjoint _ _ _ R i j _ _ N H H' O O' eq_refl).
Qed.

(** C89. A socket can be created on a given address exactly when no open socket of the host clashes with it; so an
    address can be used again as soon as its socket is closed (C85), and never before. *)
Lemma p_C89_bind_iff_free :
  forall (T : topology) (w : world) (h : nat) (a : address),
    addr_port a <> 0%N ->
    ((exists k w', wstep T w (WBindReceiver k h a a) w') <-> (forall k b, open_at w k h b -> ~ clash a b)) /\
    ((exists k w', wstep T w (WBindSender k h a a) w') <-> (forall k b, open_at w k h b -> ~ clash a b)).
Proof.
  intros T w h a P.
  assert (E : bindable w h a a <-> (forall k b, open_at w k h b -> ~ clash a b)).
  { unfold bindable. split.
    - intros (_ & _ & _ & B) k b (e & H & O) C. apply conflict_spec in C.
      pose proof (B _ (nth_error_In _ _ H) eq_refl O) as X. cbn in X. congruence.
    - intros B. repeat split; auto. intros s I Eh O. destruct (conflict a (sk_address s)) eqn:C; [|reflexivity].
      exfalso. apply conflict_spec in C. apply In_nth_error in I as (k & I).
      apply (B k (sk_address s)); [|exact C]. exists (sk_end s). split; [|exact O]. rewrite I, <- Eh. now destruct s. }
  rewrite <- E. split; split; try (intros (k & w' & S); inversion S; subst; assumption);
    intros B; do 2 eexists; constructor; exact B.
Qed.

(** ** C90: packets can get there *)
Lemma set_end_get w k s e : nth_error (w_sockets w) k = Some s ->
  nth_error (w_sockets (set_end w k s e)) k = Some (with_end s e).
Proof.
  intros H. cbn. rewrite nth_error_set_nth, Nat.eqb_refl.
  assert (k < length (w_sockets w)) as L by (apply nth_error_Some; congruence).
  apply Nat.ltb_lt in L. rewrite L. reflexivity.
Qed.
Lemma lift_run T w k sk c n tr n' : nth_error (w_sockets w) k = Some sk -> sk_end sk = Listening c n ->
  run c n tr n' -> arrivals tr = [] ->
  exists w', wrun T w (map (WListener k) tr) w' /\ nth_error (w_sockets w') k = Some (with_end sk (Listening c n')).
Proof.
  intros H E R. revert E. induction R as [n|n tr n1 l n2 R IH S]; intros E A.
  - exists w. split; [constructor|]. rewrite H. destruct sk as [h a e]. cbn in E. subst e. reflexivity.
  - rewrite arrivals_app in A. apply app_eq_nil in A as [A1 A2]. destruct (IH E A1) as (w1 & R1 & H1).
    exists (set_end w1 k (with_end sk (Listening c n1)) (Listening c n2)). split.
    + rewrite map_app. econstructor; [exact R1|]. cbn. econstructor; [exact H1|reflexivity|exact S|].
      intros d ->. discriminate.
    + change (with_end sk (Listening c n2)) with (with_end (with_end sk (Listening c n1)) (Listening c n2)).
      apply set_end_get. exact H1.
Qed.

Lemma calls_serve r pkt src l : calls r (serve pkt src l) = repeat (pkt, src) (countn r l).
Proof.
  induction l as [|x l IH]; [reflexivity|]. cbn [serve calls]. rewrite countn_cons, IH.
  destruct (r =? x); reflexivity.
Qed.
(** one datagram, from an idle listener with an empty queue *)
Lemma serve_one c s d : idle s -> ns_queue s = [] -> length (ns_buffer s) = nc_buffersize c ->
  exists tr s', run c {| ns_queue := ns_queue s ++ [d]; ns_edge := true; ns_buffer := ns_buffer s; ns_pc := ns_pc s |} tr s' /\
    idle s' /\ ns_queue s' = [] /\ length (ns_buffer s') = nc_buffersize c /\ arrivals tr = [] /\
    Forall (fun l => ~ is_failure l) tr /\
    forall r, r < nc_receivers c -> calls r tr = [packet_of c d].
Proof.
  intros [I1 I2] Q B. destruct d as [data src]. rewrite Q, I1. cbn [app].
  pose proof (recv_into_ok data (ns_buffer s)) as RO.
  destruct (recv_into data (ns_buffer s)) as [buf n] eqn:RI. destruct RO as [RO1 RO2].
  set (pkt := firstn n buf) in *.
  exists ([LPoll 1; LRecv] ++ serve pkt src (seq 0 (nc_receivers c)) ++ [LNext]).
  exists {| ns_queue := []; ns_edge := false; ns_buffer := buf; ns_pc := Polling |}.
  destruct (serve_plain pkt src (seq 0 (nc_receivers c))) as (SA & SB & SC).
  split; [|split; [|split; [|split; [|split; [|split]]]]].
  - cbn [app]. eapply run_cons; [apply step_poll_ready; reflexivity|].
    eapply run_cons; [eapply (step_recv c _ 0 data src []); reflexivity|].
    cbn [ns_buffer ns_edge]. rewrite RI. eapply run_app; [eapply dispatch_run; reflexivity|].
    apply run_one. apply step_next. reflexivity.
  - split; reflexivity.
  - reflexivity.
  - cbn. congruence.
  - cbn [app arrivals]. now rewrite arrivals_app, SA.
  - cbn [app]. repeat (constructor; [intros []|]). apply Forall_app. split; [exact SC|]. repeat (constructor; [intros []|]). constructor.
  - intros r Hr. cbn [app calls]. rewrite calls_app, calls_serve, countn_seq. cbn [calls]. rewrite app_nil_r.
    apply Nat.ltb_lt in Hr. rewrite Hr. cbn. unfold packet_of. cbn. now rewrite RO2, B.
Qed.

Lemma listening_buffer T tr w k h a c s : wrun T world_init tr w ->
  nth_error (w_sockets w) k = Some {| sk_host := h; sk_address := a; sk_end := Listening c s |} ->
  length (ns_buffer s) = nc_buffersize c.
Proof.
  intros R H. destruct (world_inv_run _ _ _ R) as (_ & J & _). specialize (J k _ H). unfold slot_inv in J. cbn in J.
  destruct J as (J & _). apply inv_run in J. apply (i_buffer _ _ _ _ J).
Qed.

(** C90. Nothing in the library keeps a packet from arriving: whenever a sender has a packet for the address of a listener that
    is waiting with nothing unread, and the network brings it there, the execution can go on without any failure, and every
    receiver is called, once, with exactly the bytes of the packet (if they fit the buffer) and the sender's address. *)
Lemma p_C90_packets_can_arrive :
  forall (T : topology) (tr : list event) (w : world) (i k h : nat) (p : packet) (m : message) (x y : address)
         (q : list datagram) (c : net_config) (s : net_state),
    wrun T world_init tr w ->
    (* socket i is a sender's; m is packet p as it goes out from there *)
    nth_error (w_sockets w) i = Some {| sk_host := m_origin m; sk_address := x; sk_end := Sending q |} ->
    m_data m = packet_bytes p -> addr_port (m_from m) = addr_port x ->
    (addr_ip (m_from m) = addr_ip x \/ Forall (eq x00) (addr_ip x)) ->
    source_for T (m_origin m) (addr_ip (m_to m)) (addr_ip (m_from m)) ->
    (* socket k is a waiting listener's, and m is addressed to it *)
    nth_error (w_sockets w) k = Some {| sk_host := h; sk_address := y; sk_end := Listening c s |} ->
    idle s -> ns_queue s = [] ->
    route T (m_origin m) (addr_ip (m_to m)) = Some h -> addr_port (m_to m) = addr_port y ->
    (addr_ip (m_to m) = addr_ip y \/ Forall (eq x00) (addr_ip y)) ->
    length (packet_bytes p) <= nc_buffersize c ->
    exists (steps : list label) (w' : world),
      wrun T w (WSend i p m :: WDeliver k m :: map (WListener k) steps) w' /\
      Forall (fun l => ~ is_failure l) steps /\
      forall r, r < nc_receivers c -> calls r steps = [(packet_bytes p, m_from m)].
Proof.
  intros T tr w i k h p m x y q c s R Hi D Po Ip Sf Hk Id Q Rt Tp Ti Le.
  rewrite <- is_wildcard_spec in Ip, Ti.
  destruct (serve_one c s (datagram_of m) Id Q (listening_buffer _ _ _ _ _ _ _ _ R Hk)) as (steps & s' & Rs & _ & _ & _ & A & F & C).
  assert (S1 : wstep T w (WSend i p m) (put w m)).
  { eapply (wstep_send T w i _ q (fun _ _ => Ok 0) 0 p m Hi eq_refl); cbn [sk_host sk_address]; auto.
    rewrite p_C63_send_is_exact, D. reflexivity. }
  set (sk := {| sk_host := h; sk_address := y; sk_end := Listening c s |}) in *.
  assert (S2 : wstep T (put w m) (WDeliver k m) (set_end (put w m) k sk (arrive (sk_end sk) (datagram_of m)))).
  { constructor; [exact Hk| |cbn; apply in_or_app; right; now left|].
    - cbn. destruct Id as [-> _]. reflexivity.
    - repeat split; assumption. }
  destruct (lift_run T _ k (with_end sk (arrive (sk_end sk) (datagram_of m))) c _ steps s'
              (set_end_get (put w m) k sk _ Hk) eq_refl Rs A) as (w' & Rw & _).
  exists steps, w'. split; [|split; [exact F|]].
  - change (WSend i p m :: WDeliver k m :: map (WListener k) steps) with ([WSend i p m] ++ [WDeliver k m] ++ map (WListener k) steps).
    eapply wrun_app; [apply wrun_one, S1|]. eapply wrun_app; [apply wrun_one, S2|exact Rw].
  - intros r Hr. rewrite (C r Hr). unfold packet_of, datagram_of. cbn. rewrite D, firstn_all2 by exact Le. reflexivity.
Qed.

(** C87 (refuted). In general the source address proves nothing: anybody who can put a datagram on the network that
    reaches a listener's socket decides which source address its receivers are given. *)
Lemma p_C87_source_forging_refuted :
  forall (T : topology) (h h' : nat) (a src : address) (pkt : list byte) (cfg : config),
    addr_port a <> 0%N -> route T h (addr_ip a) = Some h' -> length pkt <= cf_buffersize cfg ->
    exists (tr : list event) (w : world),
      wrun T world_init tr w /\ In (WBindReceiver 0 h' a a) tr /\ (forall i p m, ~ In (WSend i p m) tr) /\
      calls 0 (trace_at 0 tr) = [(pkt, src)].
Proof.
  intros T h h' a src pkt cfg P Rt Le.
  set (m := {| m_origin := h; m_from := src; m_to := a; m_data := pkt |}).
  set (c := listen_config cfg 1).
  destruct (serve_one c (net_init c []) (pkt, src)) as (steps & s' & Rs & _ & _ & _ & A & F & C);
    [split; reflexivity|reflexivity|cbn; apply repeat_length|].
  set (sk0 := {| sk_host := h'; sk_address := a; sk_end := Waiting 0 [] |}).
  set (w1 := add_socket world_init h' a (Waiting 0 [])).
  set (w2 := set_end w1 0 sk0 (Waiting 1 [])).
  set (w3 := set_end w2 0 (with_end sk0 (Waiting 1 [])) (Listening c (net_init c []))).
  set (w4 := put w3 m).
  set (sk4 := with_end sk0 (Listening c (net_init c []))).
  set (w5 := set_end w4 0 sk4 (arrive (sk_end sk4) (pkt, src))).
  destruct (lift_run T w5 0 (with_end sk4 (arrive (sk_end sk4) (pkt, src))) c _ steps s' eq_refl eq_refl Rs A) as (w' & Rw & _).
  exists ([WBindReceiver 0 h' a a] ++ [WAddReceiver 0] ++ [WStart 0 cfg] ++ [WInject m] ++ [WDeliver 0 m] ++ map (WListener 0) steps), w'.
  split; [|split; [now left|split]].
  - eapply wrun_app; [apply wrun_one; apply (wstep_bind_receiver T world_init h' a a)|].
    { repeat split; auto. intros s []. }
    eapply wrun_app; [apply wrun_one; apply (wstep_add_receiver T w1 0 sk0 0 []); reflexivity|].
    eapply wrun_app; [apply wrun_one; apply (wstep_start T w2 0 (with_end sk0 (Waiting 1 [])) 1 [] cfg); reflexivity|].
    eapply wrun_app; [apply wrun_one; apply (wstep_inject T w3 m)|].
    eapply wrun_app; [apply wrun_one; apply (wstep_deliver T w4 0 sk4 m); [reflexivity|reflexivity|now left|]|exact Rw].
    split; [exact Rt|]. split; [reflexivity|]. left; reflexivity.
  - intros i p m' I. cbn [app] in I. repeat (destruct I as [I|I]; [discriminate|]). apply in_map_iff in I as (l & I & _). discriminate.
  - cbn [app trace_at Nat.eqb]. cbn [calls]. rewrite trace_at_listener, (C 0) by (cbn; lia).
    unfold packet_of. cbn. now rewrite firstn_all2 by exact Le.
Qed.

(** ** A concrete world *)
(** Hosts 0 (10.0.0.1) and 1 (10.0.0.2) reach each other. *)
Definition two_hosts : topology := {|
  route := fun _ ip => if list_eq_dec byte_eq_dec ip (addr_ip (v4 10 0 0 1 0)) then Some 0
                       else if list_eq_dec byte_eq_dec ip (addr_ip (v4 10 0 0 2 0)) then Some 1 else None;
  source_for := fun h _ src => (h = 0 /\ src = addr_ip (v4 10 0 0 1 0)) \/ (h = 1 /\ src = addr_ip (v4 10 0 0 2 0)) |}.
Lemma two_hosts_symmetric : symmetric_routes two_hosts.
Proof. intros h dst src h' _ [[-> ->]|[-> ->]]; reflexivity. Qed.

Definition hello : message := {|
  m_origin := 0; m_from := v4 10 0 0 1 8000; m_to := v4 10 0 0 2 9000; m_data := [x01; x02] |}.
Definition small_config : config := {|
  cf_queuesize := 100; cf_buffersize := 4; cf_pollinterval := None; cf_threadcount := 0; cf_default_hosts := [];
  cf_sending_address := v4 0 0 0 0 8000; cf_receiving_address := v4 0 0 0 0 9000 |}.
(** Host 0 has a sender on 0.0.0.0:8000, host 1 a listener with one receiver on 0.0.0.0:9000; the sender sends two bytes, the
    network duplicates them. *)
Definition conversation : list event :=
  [WBindSender 0 0 (v4 0 0 0 0 8000) (v4 0 0 0 0 8000); WBindReceiver 1 1 (v4 0 0 0 0 9000) (v4 0 0 0 0 9000);
   WAddReceiver 1; WStart 1 small_config; WSend 0 (Packet [x01; x02]) hello; WDeliver 1 hello; WListener 1 (LPoll 1);
   WListener 1 LRecv; WDeliver 1 hello].
Definition the_call : event := WListener 1 (LCall 0 [x01; x02] (v4 10 0 0 1 8000)).
(** Host 1 answers to the source address; its listener is dropped and the port is bound again. *)
Definition reply : message := {|
  m_origin := 1; m_from := v4 10 0 0 2 7000; m_to := v4 10 0 0 1 8000; m_data := [x03] |}.
Definition afterwards : list event := [WListener 1 (LReturn 0); WListener 1 LScopeEnd; WListener 1 LNext; WInject reply; WDeliver 0 reply; WClose 1;
   WBindReceiver 2 1 (v4 0 0 0 0 9000) (v4 0 0 0 0 9000)].

Lemma wrun_cons T w e w1 tr w2 : wstep T w e w1 -> wrun T w1 tr w2 -> wrun T w (e :: tr) w2.
Proof. intros S R. exact (wrun_app T w [e] w1 tr w2 (wrun_one T w e w1 S) R). Qed.
Lemma conversation_run : exists w, wrun two_hosts world_init (conversation ++ the_call :: afterwards) w.
Proof.
  unfold conversation, the_call, afterwards. cbn [app]. eexists.
  eapply wrun_cons.
  { apply (wstep_bind_sender two_hosts world_init 0). repeat split; [discriminate|]. intros s []. }
  eapply wrun_cons.
  { match goal with |- wstep _ ?w _ _ => apply (wstep_bind_receiver two_hosts w 1) end. repeat split; [discriminate|]. intros s [<-|[]]. discriminate. }
  eapply wrun_cons; [eapply wstep_add_receiver; reflexivity|].
  eapply wrun_cons; [eapply wstep_start; reflexivity|].
  eapply wrun_cons.
  { eapply (wstep_send two_hosts _ 0 _ [] (fun _ _ => Ok 2) 2); try reflexivity; [right; reflexivity|left; split; reflexivity]. }
  eapply wrun_cons.
  { eapply wstep_deliver; [reflexivity|reflexivity|left; reflexivity|]. split; [reflexivity|]. split; [reflexivity|right; reflexivity]. }
  eapply wrun_cons; [eapply wstep_listener; [reflexivity|reflexivity|apply step_poll_ready; reflexivity|discriminate]|].
  eapply wrun_cons; [eapply wstep_listener; [reflexivity|reflexivity|eapply step_recv; reflexivity|discriminate]|].
  eapply wrun_cons.
  { eapply wstep_deliver; [reflexivity|reflexivity|left; reflexivity|]. split; [reflexivity|]. split; [reflexivity|right; reflexivity]. }
  eapply wrun_cons; [eapply wstep_listener; [reflexivity|reflexivity|eapply (step_call _ _ _ _ _ [] 0 []); reflexivity|discriminate]|].
  eapply wrun_cons; [eapply wstep_listener; [reflexivity|reflexivity|eapply (step_return _ _ _ _ _ _ [] 0 []); reflexivity|discriminate]|].
  eapply wrun_cons; [eapply wstep_listener; [reflexivity|reflexivity|eapply step_scope_end; reflexivity|discriminate]|].
  eapply wrun_cons; [eapply wstep_listener; [reflexivity|reflexivity|eapply step_next; reflexivity|discriminate]|].
  eapply wrun_cons; [apply wstep_inject|].
  eapply wrun_cons.
  { eapply wstep_deliver; [reflexivity|reflexivity|right; left; reflexivity|]. split; [reflexivity|]. split; [reflexivity|right; reflexivity]. }
  eapply wrun_cons; [eapply wstep_close; reflexivity|].
  eapply wrun_cons; [|constructor].
  match goal with |- wstep _ ?w _ _ => apply (wstep_bind_receiver two_hosts w 1) end. repeat split; [discriminate|].
  intros s [<-|[<-|[]]]; discriminate.
Qed.
Lemma conversation_so_far : exists w, wrun two_hosts world_init (conversation ++ the_call :: firstn 3 afterwards) w.
Proof.
  destruct conversation_run as (w & R). change (the_call :: afterwards) with ((the_call :: firstn 3 afterwards) ++ skipn 3 afterwards) in R.
  rewrite app_assoc in R. apply wrun_app_inv in R as (w' & R & _). eauto.
Qed.

(** the hypotheses of C85 are met; the listener served one of the two copies *)
Example ex_C85_listener :
  let tr := conversation ++ the_call :: firstn 3 afterwards in
  (exists w, wrun two_hosts world_init tr w) /\ In (WStart 1 small_config) tr /\ ~ In (WClose 1) tr /\ added 1 tr = 1 /\
  delivered 1 tr = [([x01; x02], v4 10 0 0 1 8000); ([x01; x02], v4 10 0 0 1 8000)] /\
  recvs (trace_at 1 tr) = 1 /\ calls 0 (trace_at 1 tr) = [([x01; x02], v4 10 0 0 1 8000)].
Proof.
  split; [exact conversation_so_far|]. split; [cbn; tauto|]. split; [cbn; intuition discriminate|]. repeat split.
Qed.
(** ... and after it was closed *)
Example ex_C85_closed :
  exists a b w, wrun two_hosts world_init (a ++ WClose 1 :: b) w /\ In (WStart 1 small_config) a /\ b <> [].
Proof.
  destruct conversation_run as (w & R). change (conversation ++ the_call :: afterwards) with
    ((conversation ++ the_call :: firstn 5 afterwards) ++ WClose 1 :: [WBindReceiver 2 1 (v4 0 0 0 0 9000) (v4 0 0 0 0 9000)]) in R.
  do 3 eexists. split; [exact R|]. split; [cbn; tauto|discriminate].
Qed.
(** C86, C87, C88: no strangers, a call, and a reply that is delivered *)
Example ex_C86_call :
  exists a b w, wrun two_hosts world_init (a ++ WListener 1 (LCall 0 [x01; x02] (v4 10 0 0 1 8000)) :: b) w /\
    symmetric_routes two_hosts /\ Forall (fun e => ~ is_inject e) a /\
    In (WBindReceiver 1 1 (v4 0 0 0 0 9000) (v4 0 0 0 0 9000)) a /\
    In (WBindSender 0 0 (v4 0 0 0 0 8000) (v4 0 0 0 0 8000)) a /\ ~ In (WClose 0) (a ++ b) /\
    In (WDeliver 0 reply) b /\ m_origin reply = 1 /\ m_to reply = v4 10 0 0 1 8000.
Proof.
  destruct conversation_run as (w & R). exists conversation, afterwards, w. split; [exact R|]. split; [exact two_hosts_symmetric|].
  split; [repeat constructor; intros []|]. split; [cbn; tauto|]. split; [cbn; tauto|]. split; [cbn; intuition discriminate|].
  split; [cbn; tauto|]. split; reflexivity.
Qed.
Example ex_C87_call :
  exists a b w, wrun two_hosts world_init (a ++ WListener 1 (LCall 0 [x01; x02] (v4 10 0 0 1 8000)) :: b) w /\
    Forall (fun e => ~ is_inject e) a /\ In (WSend 0 (Packet [x01; x02]) hello) a.
Proof.
  destruct conversation_run as (w & R). exists conversation, afterwards, w. split; [exact R|].
  split; [repeat constructor; intros []|]. cbn; tauto.
Qed.
Example ex_C88_reply :
  exists a b w, wrun two_hosts world_init (a ++ WListener 1 (LCall 0 [x01; x02] (v4 10 0 0 1 8000)) :: b) w /\
    symmetric_routes two_hosts /\ Forall (fun e => ~ is_inject e) a /\ ~ In (WClose 0) (a ++ b) /\
    In (WDeliver 0 reply) b /\ m_origin reply = 1 /\ m_to reply = v4 10 0 0 1 8000.
Proof.
  destruct ex_C86_call as (a & b & w & R & A & B & _ & _ & C & D & E & F). exists a, b, w. tauto.
Qed.
(** C89: a reachable world with two open sockets on the same port of different hosts and one host's port taken *)
Example ex_C89_taken :
  exists w, wrun two_hosts world_init (firstn 4 conversation) w /\
    open_at w 0 0 (v4 0 0 0 0 8000) /\ open_at w 1 1 (v4 0 0 0 0 9000) /\
    clash (v4 10 0 0 2 9000) (v4 0 0 0 0 9000) /\ (forall k b, open_at w k 1 b -> ~ clash (v4 10 0 0 2 8000) b).
Proof.
  eexists. split; [|split; [|split; [|split]]].
  - cbn [firstn conversation]. eapply wrun_cons.
    { apply (wstep_bind_sender two_hosts world_init 0). repeat split; [discriminate|]. intros s []. }
    eapply wrun_cons.
    { match goal with |- wstep _ ?w _ _ => apply (wstep_bind_receiver two_hosts w 1) end. repeat split; [discriminate|]. intros s [<-|[]]. discriminate. }
    eapply wrun_cons; [eapply wstep_add_receiver; reflexivity|].
    eapply wrun_cons; [eapply wstep_start; reflexivity|]. constructor.
  - eexists. split; [reflexivity|]. reflexivity.
  - eexists. split; [reflexivity|]. reflexivity.
  - apply conflict_spec. reflexivity.
  - intros [|[|[|k]]] b (e & H & O) C; cbn in H; try discriminate; inversion H; subst.
    apply conflict_spec in C. discriminate.
Qed.
(** C90: the hypotheses are met in the same world *)
Example ex_C90_hello :
  exists w c s, wrun two_hosts world_init (firstn 4 conversation) w /\
    nth_error (w_sockets w) 0 = Some {| sk_host := 0; sk_address := v4 0 0 0 0 8000; sk_end := Sending [] |} /\
    nth_error (w_sockets w) 1 = Some {| sk_host := 1; sk_address := v4 0 0 0 0 9000; sk_end := Listening c s |} /\
    idle s /\ ns_queue s = [] /\ nc_receivers c = 1 /\ length [x01; x02] <= nc_buffersize c /\
    route two_hosts 0 (addr_ip (m_to hello)) = Some 1 /\ source_for two_hosts 0 (addr_ip (m_to hello)) (addr_ip (m_from hello)).
Proof.
  do 3 eexists. split.
  - cbn [firstn conversation]. eapply wrun_cons.
    { apply (wstep_bind_sender two_hosts world_init 0). repeat split; [discriminate|]. intros s []. }
    eapply wrun_cons.
    { match goal with |- wstep _ ?w _ _ => apply (wstep_bind_receiver two_hosts w 1) end. repeat split; [discriminate|]. intros s [<-|[]]. discriminate. }
    eapply wrun_cons; [eapply wstep_add_receiver; reflexivity|].
    eapply wrun_cons; [eapply wstep_start; reflexivity|]. constructor.
  - split; [reflexivity|]. split; [reflexivity|]. split; [split; reflexivity|]. split; [reflexivity|].
    split; [reflexivity|]. split; [cbn; lia|]. split; [reflexivity|]. left. split; reflexivity.
Qed.
