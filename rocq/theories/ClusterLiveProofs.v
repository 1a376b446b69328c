(** * ClusterLiveProofs: C124, from one program to a receiver on the threads of another, eventually *)
From Coq Require Import Strings.String Permutation ConstructiveEpsilon.
From Verif Require Import Base Serde Codec Universe Spec SerdeFacts CodecFacts UniverseFacts Packet Client PacketFacts HeaderProofs CodecProofs CursorProofs CryptoProofs Community CommunitySpec CommunityProofs EndToEndSpec EndToEndProofs Ed25519 Ed25519Proofs Pkcs8 LivenessSpec WorldLiveSpec WorldLiveProofs OverlayProofs OverlayLiveProofs Network NetSpec NetworkProofs Ipv8 Ipv8Proofs World WorldSpec WorldProofs Pool PoolSpec PoolProofs
  PoolLiveProofs Rayon RayonSpec RayonLiveSpec RayonProofs RayonLiveProofs RayonServedProofs Cluster ClusterSpec ClusterProofs.
Open Scope nat_scope.

Lemma cluster_upto_S ev n : cluster_upto ev (S n) = cluster_upto ev n ++ [ev n].
Proof. unfold cluster_upto. now rewrite seq_S, map_app. Qed.
Lemma cluster_prefix T st ev : infinite_cluster T st ev -> forall n, crun T cluster_init (cluster_upto ev n) (st n).
Proof.
  intros [H0 H] n. induction n as [|n IH]; [rewrite H0; constructor|]. rewrite cluster_upto_S. econstructor; eauto.
Qed.
Lemma upto_prefix ev a b : a <= b -> exists y, cluster_upto ev b = cluster_upto ev a ++ y.
Proof. induction 1 as [|b H [y IH]]; [exists []; now rewrite app_nil_r|]. rewrite cluster_upto_S, IH, <- app_assoc. eauto. Qed.
Lemma in_cluster_upto ev n e : In e (cluster_upto ev n) <-> exists i, i < n /\ ev i = e.
Proof.
  unfold cluster_upto. rewrite in_map_iff. split.
  - intros (i & E & I). apply in_seq in I. exists i. split; [lia|exact E].
  - intros (i & L & E). exists i. split; [exact E|]. apply in_seq. lia.
Qed.

Section live.
  Context (T : topology) (st : nat -> cluster) (ev : nat -> cluster_event) (RUN : infinite_cluster T st ev)
    (p i k n0 workers : nat) (cfg : config) (c0 : net_config) (q0 : list datagram)
    (W : nth_error (programs (cluster_upto ev n0)) p = Some workers) (W1 : 1 <= workers)
    (START : ev n0 = CStart p k cfg c0 q0) (ITH : nth_error (started_on p (cluster_upto ev (S n0))) i = Some k)
    (NX : never_exits p ev) (NM : starts_no_more p ev) (CB : calls_come_back p ev) (FT : scheduler_fair p st ev) (FJ : jobs_fair p st)
    (FL : listener_fair p i st ev) (NF : nothing_fails p i ev) (GO : delivered_for_ever k ev) (PP : poll_prompt p i st ev).

  Definition is_event (m : nat) : bool := match program_event p (ev m) with Some _ => true | None => false end.
  Lemma prefix n : crun T cluster_init (cluster_upto ev n) (st n).
  Proof. exact (cluster_prefix T st ev RUN n). Qed.
  Lemma no_exit n : ~ In (CExit p) (cluster_upto ev n).
  Proof. rewrite in_cluster_upto. intros (m & _ & E). exact (NX m E). Qed.
  Lemma ith n : n0 < n -> nth_error (started_on p (cluster_upto ev n)) i = Some k.
  Proof.
    intros H. destruct (upto_prefix ev (S n0) n H) as (y & ->). rewrite started_on_app, nth_error_app1; [exact ITH|]. apply nth_error_Some. congruence.
  Qed.
  Lemma w_th n : n0 <= n -> nth_error (programs (cluster_upto ev n)) p = Some workers.
  Proof.
    intros H. destruct (upto_prefix ev n0 n H) as (y & ->). rewrite programs_app, nth_error_app1; [exact W|]. apply nth_error_Some. congruence.
  Qed.
  (** the program at time [m] *)
  Definition pool (m : nat) : ry_state := match nth_error (cl_programs (st m)) p with Some a => pr_pool a | None => ry_init 0 end.
  Lemma pool_in_pool m x : pool_in (st m) p x -> pool m = x.
  Proof. intros (a & H & <-). unfold pool. now rewrite H. Qed.
  Definition begun (m : nat) : Prop := exists a, nth_error (cl_programs (st m)) p = Some a.
  Lemma begun_pool m : begun m -> pool_in (st m) p (pool m).
  Proof. intros (a & H). exists a. split; [exact H|]. unfold pool. now rewrite H. Qed.
  Lemma begun_S m : begun m -> begun (S m).
  Proof. intros (a & H). destruct (program_kept _ _ _ _ _ _ (proj2 RUN m) H) as (a' & H'). exists a'. exact H'. Qed.
  Lemma begun_le m n : m <= n -> begun m -> begun n.
  Proof. induction 1; auto using begun_S. Qed.
  Lemma begun_n0 : begun n0.
  Proof.
    unfold begun. destruct (nth_error (cl_programs (st n0)) p) as [a|] eqn:E; [eauto|exfalso]. apply nth_error_None in E.
    destruct (cluster_inv _ _ _ (prefix n0)) as (_ & L & _). rewrite L in E. apply nth_error_None in E. congruence.
  Qed.
  Lemma running m a : nth_error (cl_programs (st m)) p = Some a -> pr_running a = true.
  Proof. intros H. destruct (cluster_inv _ _ _ (prefix m)) as (_ & _ & I & _). apply (I _ _ H). apply no_exit. Qed.
  Lemma pool_step m : begun m -> match program_event p (ev m) with Some l => ry_step (pool m) l (pool (S m)) | None => pool (S m) = pool m end.
  Proof.
    intros (a & H). destruct (program_kept _ _ _ _ _ _ (proj2 RUN m) H) as (a' & H').
    destruct (program_step _ _ _ _ _ _ (proj2 RUN m) H') as [(b & Hb & C)|(n & E & _)].
    - rewrite H in Hb. injection Hb as <-. unfold pool. rewrite H, H'. destruct C as [C1 C2|l x C1 C2 C3|C1 C2].
      + now rewrite C1.
      + rewrite C2. exact C3.
      + destruct (NX _ C2).
    - exfalso. assert (p < length (cl_programs (st m))) by (apply nth_error_Some; congruence). lia.
  Qed.
  Lemma event_begun m : is_event m = true -> begun m.
  Proof.
    unfold is_event. intros H. destruct (program_event p (ev m)) as [l|] eqn:E; [|discriminate].
    unfold begun. destruct (nth_error (cl_programs (st m)) p) as [a|] eqn:Ea; [eauto|exfalso]. apply nth_error_None in Ea.
    destruct (programs_kept _ _ _ _ (proj2 RUN m)) as [_ N]. destruct (N _ Ea) as (N1 & _). congruence.
  Qed.
  Lemma pool_run m : n0 <= m -> ry_run (ry_init workers) (program_events p (cluster_upto ev m)) (pool m).
  Proof.
    intros H. destruct (begun_le n0 m H begun_n0) as (a & Ha). destruct (cluster_inv _ _ _ (prefix m)) as (_ & _ & I & _).
    destruct (I _ _ Ha) as ((w & J1 & J2) & _). rewrite w_th in J1 by exact H. injection J1 as <-. unfold pool. now rewrite Ha.
  Qed.
  Lemma pool_run_begun m : begun m -> ry_run (ry_init workers) (program_events p (cluster_upto ev m)) (pool m).
  Proof.
    intros (a & Ha). destruct (cluster_inv _ _ _ (prefix m)) as (_ & _ & I & _). destruct (I _ _ Ha) as ((w & J1 & J2) & _).
    assert (w = workers) as <-.
    { destruct (Nat.le_gt_cases n0 m) as [L|L]; [rewrite w_th in J1 by exact L; congruence|].
      pose proof W as W'. destruct (upto_prefix ev m n0 ltac:(lia)) as (y & E). rewrite E, programs_app, nth_error_app1 in W' by (apply nth_error_Some; congruence). congruence. }
    unfold pool. now rewrite Ha.
  Qed.
  (** deliveries to [k] are deliveries to its listener *)
  Lemma owner m p' i' : n0 < m -> nth_error (started_on p' (cluster_upto ev m)) i' = Some k -> p' = p /\ i' = i.
  Proof. intros H K. exact (proj1 (p_C123_the_same_listeners _ _ _ _ _ _ (prefix m) (ith m H)) _ _ K). Qed.
  Lemma event_owner m p' i' x : n0 < m -> ev m = CDeliver p' i' k x -> p' = p /\ i' = i.
  Proof.
    intros H E. pose proof (proj2 RUN m) as S. rewrite E in S. inversion S as [| | |w w' p1 ks s s' p2 i0 k0 m0 K Wd R E1 E2 E3| | |]; subst.
    apply (owner m); [exact H|]. destruct (cluster_inv _ _ _ (prefix m)) as (_ & _ & I & _). rewrite <- E1 in I.
    destruct (I _ _ (nth_error_mid _ _ _)) as (_ & J & _). cbn [pr_sockets] in J. now rewrite <- J.
  Qed.
  Lemma thread_owner m p' l : n0 < m -> ev m = CThread p' l (Some k) -> p' = p /\ exists a, acts l = Some (i, a).
  Proof.
    intros H E. pose proof (proj2 RUN m) as S. rewrite E in S. inversion S as [| | | |w w' p1 ks s s' p2 l0 i0 k0 a A K Wd R E1 E2 E3| |]; subst.
    destruct (cluster_inv _ _ _ (prefix m)) as (_ & _ & I & _). rewrite <- E1 in I.
    destruct (I _ _ (nth_error_mid _ _ _)) as (_ & J & _). cbn [pr_sockets] in J. rewrite J in K. destruct (owner m _ _ H K) as [<- <-]. eauto.
  Qed.
  Lemma infinitely_often n : exists m, (n <=? m) && is_event m = true.
  Proof.
    destruct (GO (n + S n0)) as (m & p' & i' & x & H & E). exists m. destruct (event_owner m _ _ _ ltac:(lia) E) as [-> ->].
    apply andb_true_iff. split; [apply Nat.leb_le; lia|]. unfold is_event. rewrite E. cbn. now rewrite Nat.eqb_refl.
  Qed.

  (** its own time *)
  Definition next (n : nat) : nat :=
    proj1_sig (epsilon_smallest (fun m => (n <=? m) && is_event m = true) (fun m => Bool.bool_dec _ true) (infinitely_often n)).
  Lemma next_spec n : n <= next n /\ is_event (next n) = true /\ forall m, n <= m < next n -> is_event m = false.
  Proof.
    unfold next. destruct (epsilon_smallest _ _ _) as (m & H & M). cbn. apply andb_true_iff in H as [H1 H2]. apply Nat.leb_le in H1.
    split; [exact H1|]. split; [exact H2|]. intros j Hj. destruct (is_event j) eqn:E; [|reflexivity]. exfalso.
    assert (m <= j); [|lia]. apply M. apply andb_true_iff. split; [apply Nat.leb_le; lia|exact E].
  Qed.
  Fixpoint own (j : nat) : nat := match j with 0 => next 0 | S j => next (S (own j)) end.
  Lemma own_event j : is_event (own j) = true.
  Proof. destruct j; apply next_spec. Qed.
  Lemma own_S j : own j < own (S j) /\ forall m, own j < m < own (S j) -> is_event m = false.
  Proof. destruct (next_spec (S (own j))) as (A & _ & B). cbn [own]. split; [lia|]. intros m H. apply B. lia. Qed.
  Lemma own_mono a b : a < b -> own a < own b.
  Proof. induction 1; [apply own_S|]. pose proof (proj1 (own_S m)). lia. Qed.
  Lemma own_mono' a b : own a < own b -> a < b.
  Proof. intros H. destruct (Nat.lt_ge_cases a b) as [|G]; [assumption|]. destruct (Nat.eq_dec a b) as [->|]; [lia|]. pose proof (own_mono b a ltac:(lia)). lia. Qed.
  Lemma own_ge j : j <= own j.
  Proof. induction j as [|j IH]; [lia|]. pose proof (proj1 (own_S j)). lia. Qed.
  (** from every moment on to the next own event nothing happens *)
  Lemma own_next m : exists j, m <= own j /\ forall x, m <= x < own j -> is_event x = false.
  Proof.
    assert (X : forall b, m <= own b -> exists j, m <= own j /\ forall x, m <= x < own j -> is_event x = false).
    { induction b as [|b IH]; intros H.
      - exists 0. split; [exact H|]. intros x Hx. apply (next_spec 0). cbn [own] in Hx. lia.
      - destruct (Nat.le_gt_cases m (own b)) as [L|L]; [auto|]. exists (S b). split; [exact H|]. intros x Hx. apply (own_S b). lia. }
    apply (X m). apply own_ge.
  Qed.
  Lemma own_onto m : is_event m = true -> exists j, own j = m.
  Proof.
    intros E. destruct (own_next m) as (j & H & N). exists j. destruct (Nat.eq_dec m (own j)) as [|Ne]; [auto|].
    rewrite (N m) in E by lia. discriminate.
  Qed.
  Lemma quiet_pool a b : a <= b -> begun a -> (forall x, a <= x < b -> is_event x = false) -> pool b = pool a /\ program_events p (cluster_upto ev b) = program_events p (cluster_upto ev a).
  Proof.
    induction 1 as [|b H IH]; intros B N; [auto|]. destruct IH as [I1 I2]; [exact B|intros x Hx; apply N; lia|].
    pose proof (pool_step b (begun_le _ _ H B)) as S. specialize (N b ltac:(lia)). unfold is_event in N.
    rewrite cluster_upto_S, program_events_app. cbn [program_events]. destruct (program_event p (ev b)); [discriminate|]. rewrite app_nil_r. split; congruence.
  Qed.

  Definition rst (j : nat) : ry_state := pool (own j).
  Definition rev (j : nat) : ry_label := match program_event p (ev (own j)) with Some l => l | None => RWorker 0 None end.
  Lemma rev_event j : program_event p (ev (own j)) = Some (rev j).
  Proof. unfold rev. pose proof (own_event j) as E. unfold is_event in E. destruct (program_event p (ev (own j))); [reflexivity|discriminate]. Qed.
  Lemma rst_S j : rst (S j) = pool (S (own j)).
  Proof.
    destruct (own_S j) as [H N]. refine (proj1 (quiet_pool (S (own j)) (own (S j)) H _ _)); [apply begun_S, event_begun, own_event|]. intros x Hx. apply N. lia.
  Qed.
  Lemma upto_own j : program_events p (cluster_upto ev (own j)) = ry_upto rev j.
  Proof.
    induction j as [|j IH].
    - cbn [ry_upto seq map]. assert (X : forall n, n <= own 0 -> program_events p (cluster_upto ev n) = []).
      { induction n as [|n IHn]; intros H; [reflexivity|]. rewrite cluster_upto_S, program_events_app, IHn by lia. cbn [program_events].
        pose proof (proj2 (proj2 (next_spec 0)) n) as E. cbn [own] in H. specialize (E ltac:(lia)). unfold is_event in E. now destruct (program_event p (ev n)). }
      apply X. lia.
    - destruct (own_S j) as [H N].
      destruct (quiet_pool (S (own j)) (own (S j)) H) as [_ ->]; [apply begun_S, event_begun, own_event|intros x Hx; apply N; lia|].
      rewrite cluster_upto_S, program_events_app, IH. cbn [program_events]. rewrite rev_event. symmetry. apply ry_upto_S.
  Qed.
  Lemma own_infinite : infinite_ry workers rst rev.
  Proof.
    split.
    - pose proof (pool_run_begun (own 0) (event_begun _ (own_event 0))) as R. rewrite upto_own in R. cbn [ry_upto seq map] in R. unfold rst.
      remember [] as l eqn:El. destruct R as [|s tr s1 l s2 R S]; [reflexivity|]. destruct tr; discriminate.
    - intros j. rewrite rst_S. pose proof (pool_step (own j) (event_begun _ (own_event j))) as S. rewrite rev_event in S. exact S.
  Qed.
  (** the state at any later moment is one of its own *)
  Lemma own_pool n m : own n <= m -> exists j, n <= j /\ m <= own j /\ rst j = pool m.
  Proof.
    intros H. destruct (own_next m) as (j & Hj & N). exists j. split.
    - destruct (Nat.le_gt_cases n j) as [|G]; [assumption|]. pose proof (own_mono _ _ G). lia.
    - split; [exact Hj|]. apply quiet_pool; [exact Hj| |exact N]. eapply begun_le; [exact H|]. apply event_begun, own_event.
  Qed.
  Lemma event_rev m l : program_event p (ev m) = Some l -> exists j, own j = m /\ rev j = l.
  Proof.
    intros E. destruct (own_onto m) as (j & Hj); [unfold is_event; now rewrite E|]. exists j. split; [exact Hj|].
    pose proof (rev_event j) as R. rewrite Hj in R. congruence.
  Qed.
  Lemma thread_rev m l a : ev m = CThread p l a -> exists j, own j = m /\ rev j = l.
  Proof. intros E. apply event_rev. rewrite E. cbn. now rewrite Nat.eqb_refl. Qed.
  Lemma rev_cases j : (exists k' cfg' c q, ev (own j) = CStart p k' cfg' c q /\ rev j = RListener (GStart c q)) \/
    (exists i' k' m, ev (own j) = CDeliver p i' k' m /\ rev j = RListener (GStep i' (LArrive (datagram_of m)))) \/
    (exists a, ev (own j) = CThread p (rev j) a).
  Proof.
    pose proof (rev_event j) as E. destruct (ev (own j)) as [x|x|p' k' cfg' c q|p' i' k' m|p' l a|p'] eqn:Ee; cbn in E; try discriminate;
      destruct (Nat.eqb_spec p p') as [<-|]; try discriminate; injection E as <-.
    - left. eauto 7.
    - right. left. eauto.
    - right. right. eauto.
  Qed.
  Lemma thread_no_start m l a c q : ev m = CThread p l a -> seen l <> Some (GStart c q).
  Proof.
    intros E. pose proof (proj2 RUN m) as S. rewrite E in S. inversion S; subst; [|discriminate].
    destruct l as [[|]|v [[|]|]]; cbn in *; congruence.
  Qed.
  Lemma thread_no_arrival m l a d : ev m = CThread p l a -> seen l <> Some (GStep i (LArrive d)).
  Proof.
    intros E. pose proof (proj2 RUN m) as S. rewrite E in S. inversion S as [| | | |w w' p1 ks s s' p2 l0 i0 k0 b A K Wd R E1 E2 E3| |]; subst; [|discriminate].
    destruct (slot_listener _ _ _ _ _ Wd) as (_ & _ & _ & _ & _ & _ & _ & N & _).
    destruct l as [[|]|v [[|]|]]; cbn in *; try discriminate; injection A as -> ->; intros Z; injection Z as -> ->; exact (N _ eq_refl).
  Qed.

  Lemma own_no_more : no_more_listeners rev.
  Proof.
    destruct NM as (b & H). exists b. intros n c q L E. destruct (rev_cases n) as [(k' & cfg' & c' & q' & E1 & E2)|[(i' & k' & m & E1 & E2)|(a & E1)]].
    - eapply H; [|exact E1]. pose proof (own_ge n). lia.
    - rewrite E2 in E. discriminate.
    - exact (thread_no_start _ _ _ _ _ E1 E).
  Qed.
  Lemma own_comes_back : every_call_comes_back rev.
  Proof.
    intros n w i' r pkt src E. destruct (rev_cases n) as [(k' & cfg' & c' & q' & E1 & E2)|[(i1 & k' & m & E1 & E2)|(a & E1)]]; try congruence.
    rewrite E in E1. destruct (CB _ _ _ _ _ _ _ E1) as (m & a' & L & [H|H]); destruct (thread_rev _ _ _ H) as (j & <- & Ej);
      exists j; (split; [now apply own_mono'|rewrite Ej; auto]).
  Qed.
  Lemma own_fair : fair_to_threads rst rev.
  Proof.
    intros w n. destruct (FT w (own n)) as (m & L & [(l & a & E)|H]).
    - destruct (thread_rev _ _ _ E) as (j & <- & Ej). exists j. split; [|left; eauto].
      destruct (Nat.le_gt_cases n j) as [|G]; [assumption|]. pose proof (own_mono _ _ G). lia.
    - destruct (own_pool n m L) as (j & Lj & _ & Ej). exists j. split; [exact Lj|]. right. rewrite Ej. apply H.
      apply begun_pool. eapply begun_le; [exact L|]. apply event_begun, own_event.
  Qed.
  Lemma own_jobs : fair_to_jobs rst.
  Proof.
    intros A n t I. destruct (FJ) with (n := own n) (x := rst n) (t := t) as (m & y & L & P & N).
    - intros b. destruct (A b) as (m & L & H). exists (own m), (rst m). split; [pose proof (own_ge m); lia|]. split; [|exact H].
      apply begun_pool, event_begun, own_event.
    - apply begun_pool, event_begun, own_event.
    - exact I.
    - destruct (own_pool n m L) as (j & Lj & _ & Ej). exists j. split; [exact Lj|]. rewrite Ej, (pool_in_pool _ _ P). exact N.
  Qed.
  Lemma own_listener : fair_to_listener i rst rev.
  Proof.
    intros n. destruct (FL (own n)) as (m & L & [(l & a & E)|H]).
    - destruct (thread_rev _ _ _ E) as (j & <- & Ej). exists j. split.
      + destruct (Nat.le_gt_cases n j) as [|G]; [assumption|]. pose proof (own_mono _ _ G). lia.
      + left. exists l. split; [exact Ej|]. intros X. destruct l as [d| | | | | | | | |]; try contradiction. exact (thread_no_arrival _ _ _ d E eq_refl).
    - destruct (own_pool n m L) as (j & Lj & _ & Ej). exists j. split; [exact Lj|]. right. rewrite Ej. apply H.
      apply begun_pool. eapply begun_le; [exact L|]. apply event_begun, own_event.
  Qed.
  Lemma own_no_failure : no_failure_at i rev.
  Proof.
    intros n l E. destruct (rev_cases n) as [(k' & cfg' & c' & q' & E1 & E2)|[(i1 & k' & m & E1 & E2)|(a & E1)]].
    - rewrite E2 in E. discriminate.
    - rewrite E2 in E. cbn in E. injection E as _ <-. cbn. auto.
    - eapply NF; [exact E1|]. destruct (rev n) as [[|]|v [[|]|]]; cbn in *; try discriminate; now injection E as -> ->.
  Qed.
  Lemma own_traffic : traffic_at i rev.
  Proof.
    intros n. destruct (GO (own n + S n0)) as (m & p' & i' & x & H & E). destruct (event_owner m _ _ _ ltac:(lia) E) as [-> ->].
    destruct (event_rev m (RListener (GStep i (LArrive (datagram_of x))))) as (j & <- & Ej); [rewrite E; cbn; now rewrite Nat.eqb_refl|].
    exists j, (datagram_of x). split; [|now rewrite Ej].
    destruct (Nat.le_gt_cases n j) as [|G]; [assumption|]. pose proof (own_mono _ _ G). lia.
  Qed.
  Lemma own_prompt : prompt_poll_at i rst rev.
  Proof.
    intros n c s H Ed E. destruct (rev_cases n) as [(k' & cfg' & c' & q' & E1 & E2)|[(i1 & k' & m & E1 & E2)|(a & E1)]].
    - rewrite E2 in E. discriminate.
    - rewrite E2 in E. discriminate.
    - destruct (rev n) as [l|v l] eqn:Er; cbn [seen] in E.
      + injection E as ->. eapply (PP (own n) (rst n)); eauto. apply begun_pool, event_begun, own_event.
      + subst l. pose proof (proj2 own_infinite n) as S. rewrite Er in S. inversion S.
  Qed.

  (** what happened at [k] is what listener [i] did *)
  Lemma trace_k : exists c q, configured_as c cfg (added k (world_events (cluster_upto ev n0))) /\
    forall m, n0 < m -> nth_error (started (visible (program_events p (cluster_upto ev m)))) i = Some (c, q) /\
      trace_at k (world_events (cluster_upto ev m)) = map LArrive q ++ trace_of i (visible (program_events p (cluster_upto ev m))).
  Proof.
    destruct (proj2 (p_C123_the_same_listeners _ _ _ _ _ _ (prefix (S n0)) ITH) (no_exit _)) as (cfg' & c & q & A1 & A2 & A3 & A4).
    assert (cfg' = cfg) as ->.
    { pose proof (proj1 (cluster_inv _ _ _ (prefix (S n0)))) as R. destruct (world_inv_run _ _ _ R) as (_ & J & _).
      assert (I : In (WStart k cfg) (world_events (cluster_upto ev (S n0)))).
      { rewrite cluster_upto_S, world_events_app, START. apply in_or_app. right. now left. }
      destruct (event_slot _ _ _ _ k R I) as (s & H); [cbn; apply Nat.eqb_refl|]. specialize (J _ _ H). unfold slot_inv in J.
      destruct (sk_end s) as [z|n z|c' n|].
      - exfalso. destruct J as (_ & _ & _ & J & _). exact (J _ I).
      - exfalso. destruct J as (_ & _ & _ & _ & J & _). exact (J _ I).
      - destruct J as (_ & _ & _ & g & _ & _ & J). rewrite (J _ I). now apply J.
      - exfalso. assert (X : forall n, n <= S n0 -> ~ In (WClose k) (world_events (cluster_upto ev n))); [|exact (X (S n0) (le_n _) J)].
        clear - RUN START. assert (X0 : ~ In (WClose k) (world_events (cluster_upto ev n0))).
        { pose proof (proj2 RUN n0) as S. rewrite START in S. inversion S as [| |w w' p1 ks s s' p2 k0 sk n z cfg0 H1 H2 HW HR HE| | | |]; subst.
          pose proof (proj1 (cluster_inv _ _ _ (cluster_prefix _ _ _ RUN n0))) as R. destruct (world_inv_run _ _ _ R) as (_ & J & _).
          rewrite <- HE in J. cbn [cl_world] in J. specialize (J _ _ H1). unfold slot_inv in J. rewrite H2 in J. apply J. }
        intros n L I. destruct (Nat.eq_dec n (S n0)) as [->|N].
        + rewrite cluster_upto_S, world_events_app, START in I. apply in_app_or in I as [I|[I|[]]]; [auto|discriminate].
        + destruct (upto_prefix ev n n0 ltac:(lia)) as (y & E). apply X0. rewrite E, world_events_app. apply in_or_app. now left. }
    exists c, q. split.
    { rewrite cluster_upto_S, world_events_app, START, added_app in A2. cbn in A2. now rewrite Nat.add_0_r in A2. }
    intros m H. destruct (proj2 (p_C123_the_same_listeners _ _ _ _ _ _ (prefix m) (ith m H)) (no_exit _)) as (cfg' & c' & q' & B1 & B2 & B3 & B4).
    assert (X : Some (c', q') = Some (c, q)).
    { rewrite <- B3. destruct (upto_prefix ev (S n0) m H) as (y & E). rewrite E, program_events_app, visible_app, started_app, nth_error_app1; [exact A3|].
      apply nth_error_Some. congruence. }
    injection X as -> ->. auto.
  Qed.
  Lemma delivered_arrivals n : arrivals (trace_at k (world_events (cluster_upto ev n))) = delivered k (world_events (cluster_upto ev n)).
  Proof. exact (arrivals_trace_at _ _ _ k (proj1 (cluster_inv _ _ _ (prefix n)))). Qed.

  Lemma cluster_served n j data src r : nth_error (delivered k (world_events (cluster_upto ev n))) j = Some (data, src) ->
    r < added k (world_events (cluster_upto ev n0)) ->
    exists m, nth_error (calls r (trace_at k (world_events (cluster_upto ev m)))) j = Some (firstn (cf_buffersize cfg) data, src).
  Proof.
    intros H Hr. destruct trace_k as (c & q & C & TR).
    set (N := n + S n0). assert (LN : n0 < own N) by (pose proof (own_ge N); unfold N in *; lia).
    assert (H' : nth_error (q ++ arrivals (trace_of i (visible (ry_upto rev N)))) j = Some (data, src)).
    { rewrite <- upto_own. destruct (upto_prefix ev n (own N)) as (y & E); [pose proof (own_ge N); unfold N in *; lia|].
      replace (q ++ arrivals (trace_of i (visible (program_events p (cluster_upto ev (own N)))))) with (delivered k (world_events (cluster_upto ev (own N)))).
      - rewrite E, world_events_app, delivered_app, nth_error_app1; [exact H|]. apply nth_error_Some. congruence.
      - rewrite <- delivered_arrivals. rewrite (proj2 (TR _ LN)), arrivals_app. f_equal.
        clear. induction q as [|d q IH]; cbn; congruence. }
    destruct C as (C1 & C2 & C3).
    destruct (p_C118_no_listener_is_starved workers rst rev i N c q W1 own_infinite own_no_more own_comes_back own_fair own_jobs) with (n := N) (k := j) (d := (data, src)) (r := r) as (m & Hm).
    - rewrite <- upto_own. apply TR. exact LN.
    - exact own_listener.
    - exact own_no_failure.
    - exact own_traffic.
    - exact own_prompt.
    - exact H'.
    - now rewrite C2.
    - exists (own (m + N)). rewrite (proj2 (TR (own (m + N)) ltac:(pose proof (own_ge (m + N)); unfold N in *; lia))), upto_own, calls_app.
      replace (calls r (map LArrive q)) with (@nil (list byte * address)) by (clear; induction q; cbn; auto). cbn [app].
      unfold packet_of in Hm. rewrite C1 in Hm.
      unfold ry_upto in *. rewrite seq_app, map_app, visible_app, trace_of_app, calls_app, nth_error_app1; [exact Hm|]. apply nth_error_Some. congruence.
  Qed.

  Lemma slot_before : exists sk n q, nth_error (w_sockets (cl_world (st n0))) k = Some sk /\ sk_end sk = Waiting n q.
  Proof.
    pose proof (proj2 RUN n0) as S. rewrite START in S. inversion S as [| |w w' p1 ks s s' p2 k0 sk n z cfg0 H1 H2 HW HR HE| | | |]; subst.
    cbn [cl_world]. eauto.
  Qed.
  Lemma slot_after m : n0 < m -> exists sk c y, nth_error (w_sockets (cl_world (st m))) k = Some sk /\ sk_end sk = Listening c y.
  Proof.
    intros H. destruct (begun_le n0 m ltac:(lia) begun_n0) as (a & Ha).
    destruct (link_inv _ _ _ (prefix m) _ _ Ha (running _ _ Ha)) as (ps & _ & _ & L). destruct (cluster_inv _ _ _ (prefix m)) as (_ & _ & I & _).
    destruct (I _ _ Ha) as (_ & J & _). destruct (L i k) as (c & y & sk & _ & E1 & E2); [rewrite J; now apply ith|]. eauto.
  Qed.
  Lemma before_start m : m <= n0 -> exists q, trace_at k (world_events (cluster_upto ev m)) = map LArrive q /\
    forall l, ~ In (WListener k l) (world_events (cluster_upto ev m)).
  Proof.
    intros L. destruct slot_before as (sk & n & q & E1 & E2). destruct (world_inv_run _ _ _ (proj1 (cluster_inv _ _ _ (prefix n0)))) as (_ & J & _).
    specialize (J _ _ E1). unfold slot_inv in J. rewrite E2 in J. destruct J as (_ & J1 & _ & _ & _ & J2 & _).
    destruct (upto_prefix ev m n0 L) as (y & E). rewrite E, world_events_app in *. exists (arrivals (trace_at k (world_events (cluster_upto ev m)))). split.
    - rewrite trace_at_app in J1. revert J1. generalize (trace_at k (world_events y)) as b. generalize (trace_at k (world_events (cluster_upto ev m))) as a. clear.
      intros a. revert q. induction a as [|x a IH]; intros q b H; [reflexivity|]. destruct q as [|d q]; [discriminate|]. cbn in H. injection H as -> H.
      cbn. f_equal. eapply IH. exact H.
    - intros l I. apply (J2 l). apply in_or_app. now left.
  Qed.
  Lemma calls_delivered r m : length (calls r (trace_at k (world_events (cluster_upto ev m)))) <= length (delivered k (world_events (cluster_upto ev m))).
  Proof.
    destruct (Nat.le_gt_cases m n0) as [L|L].
    - destruct (before_start m L) as (q & -> & _). replace (calls r (map LArrive q)) with (@nil (list byte * address)) by (induction q; cbn; auto). cbn. lia.
    - destruct (slot_after m L) as (sk & c & y & E1 & E2). destruct (world_inv_run _ _ _ (proj1 (cluster_inv _ _ _ (prefix m)))) as (_ & J & _).
      specialize (J _ _ E1). unfold slot_inv in J. rewrite E2 in J. destruct J as (R & _). rewrite <- delivered_arrivals.
      destruct (p_C48_exactly_once_in_order _ _ _ _ r R) as [X Y]. destruct (Nat.lt_ge_cases r (nc_receivers c)) as [Lt|Ge].
      + destruct (X Lt) as (miss & E & _). apply (f_equal (@length _)) in E. rewrite map_length, app_length in E.
        unfold received in E. rewrite firstn_length in E. cbn [app] in E. lia.
      + rewrite (Y Ge). cbn. lia.
  Qed.
  Lemma listener_late n l : In (WListener k l) (world_events [ev n]) -> n0 < n.
  Proof.
    intros I. destruct (Nat.lt_ge_cases n0 n) as [|G]; [assumption|exfalso]. destruct (Nat.eq_dec n n0) as [->|N].
    - rewrite START in I. destruct I as [I|[]]; discriminate.
    - destruct (before_start (S n) ltac:(lia)) as (_ & _ & X). apply (X l). rewrite cluster_upto_S, world_events_app. apply in_or_app. now right.
  Qed.
  Lemma call_event n r pkt src : In (WListener k (LCall r pkt src)) (world_events [ev n]) ->
    exists w, w < workers /\ ev n = CThread p (RWorker w (Some (GStep i (LCall r pkt src)))) (Some k).
  Proof.
    intros I. pose proof (listener_late _ _ I) as H. destruct (ev n) as [x|e|p' k' cfg' c' q'|p' i' k' m'|p' l [k'|]|p'] eqn:E; cbn [world_events] in I; try (now destruct I as []).
    - pose proof (proj2 RUN n) as S. rewrite E in S. inversion S as [|w ps e0 w' WS EL| | | | |]; subst. destruct I as [->|[]]. contradiction EL.
    - destruct (acts l) as [[i' a]|] eqn:A; [|destruct I as []]. destruct I as [I|[]]. injection I as -> ->.
      destruct (thread_owner n p' l H E) as (-> & a' & A'). rewrite A in A'. injection A' as -> <-.
      destruct (thread_rev _ _ _ E) as (j & Hj & Ej). pose proof (proj2 own_infinite j) as S. rewrite Ej in S.
      destruct l as [[|i1 b]|w [[|i1 b]|]]; cbn in A; try discriminate; injection A as -> ->.
      + exfalso. inversion S; subst. discriminate.
      + exists w. split; [|reflexivity]. apply worker_exists in S. rewrite (workers_run workers (ry_upto rev j)) in S; [exact S|]. apply ry_prefix. exact own_infinite.
  Qed.
End live.

(** C124. A listener whose receivers run on a work-stealing pool, shared with all other listeners of its program, in a world of other programs with other pools: while
    the network goes on delivering to it, the [j]-th datagram ever delivered to it is at some time the [j]-th packet of each of its receivers - provided its program goes on
    running, starts no more listeners, its receivers' calls come back, and scheduler and pool are fair. Nothing is assumed of other programs. *)
Lemma p_C124_no_delivery_waits_forever :
  forall (T : topology) (st : nat -> cluster) (ev : nat -> cluster_event) (p i k n0 workers : nat) (cfg : config) (c : net_config) (q : list datagram),
    infinite_cluster T st ev ->
    (* program p starts its i-th listener, on socket k *)
    nth_error (programs (cluster_upto ev n0)) p = Some workers -> 1 <= workers ->
    ev n0 = CStart p k cfg c q -> nth_error (started_on p (cluster_upto ev (S n0))) i = Some k ->
    (* the program *)
    never_exits p ev -> starts_no_more p ev -> calls_come_back p ev -> scheduler_fair p st ev -> jobs_fair p st ->
    (* the listener *)
    listener_fair p i st ev -> nothing_fails p i ev -> delivered_for_ever k ev -> poll_prompt p i st ev ->
    forall (n j : nat) (data : list byte) (src : address) (r : nat),
      nth_error (delivered k (world_events (cluster_upto ev n))) j = Some (data, src) ->
      r < added k (world_events (cluster_upto ev n0)) ->
      exists m, nth_error (calls r (trace_at k (world_events (cluster_upto ev m)))) j = Some (firstn (cf_buffersize cfg) data, src).
Proof.
  intros T st ev p i k n0 workers cfg c q RUN W W1 START ITH NX NM CB FT FJ FL NF GO PP n j data src r H Hr.
  exact (cluster_served T st ev RUN p i k n0 workers cfg c q W W1 START ITH NX NM CB FT FJ FL NF GO PP n j data src r H Hr).
Qed.

Lemma in_cluster_calls k r ev j x b m : nth_error (calls r (trace_at k (world_events (cluster_upto ev m)))) j = Some x ->
  length (calls r (trace_at k (world_events (cluster_upto ev b)))) <= j ->
  exists n, b <= n /\ In (WListener k (LCall r (fst x) (snd x))) (world_events [ev n]).
Proof.
  induction m as [|m IH]; intros H L; [destruct j; discriminate|].
  rewrite cluster_upto_S, world_events_app, trace_at_app, calls_app in H.
  destruct (Nat.lt_ge_cases j (length (calls r (trace_at k (world_events (cluster_upto ev m)))))) as [Lt|Ge].
  - rewrite nth_error_app1 in H by exact Lt. now apply IH.
  - rewrite nth_error_app2 in H by exact Ge. exists m. split.
    + destruct (Nat.le_gt_cases b m) as [|G]; [assumption|]. exfalso. destruct (upto_prefix ev (S m) b G) as (y & E).
      rewrite E, cluster_upto_S, !world_events_app, !trace_at_app, !calls_app, !app_length in L.
      assert (N : nth_error (calls r (trace_at k (world_events [ev m]))) (j - length (calls r (trace_at k (world_events (cluster_upto ev m))))) <> None) by congruence.
      apply nth_error_Some in N. lia.
    + apply nth_error_In in H. revert H. generalize (world_events [ev m]) as l. clear. induction l as [|e l IH]; cbn [trace_at]; [intros []|].
      destruct e; cbn [calls]; auto using in_cons.
      * destruct (k =? k0); cbn [calls]; auto using in_cons.
      * destruct (Nat.eqb_spec k k0) as [<-|]; cbn [calls]; auto using in_cons. destruct l0; auto using in_cons.
        destruct (Nat.eqb_spec r r0) as [<-|]; auto using in_cons. intros [<-|I]; [now left|auto using in_cons].
Qed.

(** C124. A packet sent by any program, delivered to the listener, before its start or after: after that it is handed to each receiver, on one of the threads of the
    listener's program: exactly its bytes, if they fit the buffer, with the source address of the datagram. *)
Lemma p_C124_sent_and_delivered_is_received :
  forall (T : topology) (st : nat -> cluster) (ev : nat -> cluster_event) (p i k n0 workers : nat) (cfg : config) (c : net_config) (q : list datagram),
    infinite_cluster T st ev ->
    nth_error (programs (cluster_upto ev n0)) p = Some workers -> 1 <= workers ->
    ev n0 = CStart p k cfg c q -> nth_error (started_on p (cluster_upto ev (S n0))) i = Some k ->
    never_exits p ev -> starts_no_more p ev -> calls_come_back p ev -> scheduler_fair p st ev -> jobs_fair p st ->
    listener_fair p i st ev -> nothing_fails p i ev -> delivered_for_ever k ev -> poll_prompt p i st ev ->
    forall (h a b : nat) (pkt : packet) (m : message) (r : nat),
      ev a = CWorld (WSend h pkt m) -> world_events [ev b] = [WDeliver k m] -> length (packet_bytes pkt) <= cf_buffersize cfg ->
      r < added k (world_events (cluster_upto ev n0)) ->
      exists n thread, b < n /\ thread < workers /\
        ev n = CThread p (RWorker thread (Some (GStep i (LCall r (packet_bytes pkt) (m_from m))))) (Some k).
Proof.
  intros T st ev p i k n0 workers cfg c q RUN W W1 START ITH NX NM CB FT FJ FL NF GO PP h a b pkt m r Ea Eb Le Hr.
  pose proof (cluster_prefix T st ev RUN) as PRE.
  assert (D : m_data m = packet_bytes pkt).
  { pose proof (proj2 RUN a) as S. rewrite Ea in S. inversion S as [|w ps e w' WS EL| | | | |]; subst.
    inversion WS as [| | | | | |w0 k' s0 q1 os z p' m' X1 X2 X3| | | |]; subst. rewrite p_C63_send_is_exact in X3. now injection X3. }
  set (j := length (delivered k (world_events (cluster_upto ev b)))).
  assert (Hj : nth_error (delivered k (world_events (cluster_upto ev (S b)))) j = Some (datagram_of m)).
  { rewrite cluster_upto_S, world_events_app, delivered_app, nth_error_app2, Eb by reflexivity. unfold j. rewrite Nat.sub_diag. cbn. now rewrite Nat.eqb_refl. }
  destruct (p_C124_no_delivery_waits_forever T st ev p i k n0 workers cfg c q RUN W W1 START ITH NX NM CB FT FJ FL NF GO PP _ _ _ _ r Hj Hr) as (x & Hx).
  pose proof (calls_delivered T st ev RUN p i k n0 workers cfg c q W W1 START ITH NX NM CB FT FJ FL NF PP r b) as L.
  destruct (in_cluster_calls _ _ _ _ _ _ _ Hx L) as (n & Hn & In_). cbn [fst snd] in In_. rewrite D, firstn_all2 in In_ by exact Le.
  assert (Nb : n <> b) by (intros ->; rewrite Eb in In_; destruct In_ as [X|[]]; discriminate).
  destruct (call_event T st ev RUN p i k n0 workers cfg c q W W1 START ITH NX NM CB FT FJ FL NF GO PP n r _ _ In_) as (w & Lw & E). exists n, w. split; [lia|]. auto.
Qed.

(** C124. The whole way: a packet built for community [c], signed and sent by one program, delivered to a listener of another one. Then, after the delivery, the receiver behind
    which [c] is registered is called with it on one of the threads of that program, and the handler gets a deserializer from which it can pop the header, verify (true),
    and read back all the payloads. With Ed25519 itself: nothing is assumed of the cryptography. *)
Lemma p_C124_signed_messages_are_handled :
  forall (seed ekey : list byte) (mt : byte) (l : list payload) (key : keypair ring_pkcs8) (p0 unsigned signed : packet)
         (T : topology) (st : nat -> cluster) (ev : nat -> cluster_event) (p i k n0 workers : nat) (cfg : config) (nc : net_config) (q : list datagram)
         (h a b r : nat) (m : message) (cs : list community) (c : community),
    (* the sender *)
    keypair_from_seed_unchecked ring_pkcs8 seed = Ok key -> length ekey = 32 ->
    Forall (fun x => in_range (projT1 x) (projT2 x)) l ->
    readable_sequence self_delimiting raw_at_end_only (map ptype l) = true ->
    packet_new (py_ipv8_header (c_mid c) mt) = Ok p0 ->
    add_all p0 (existT tval TBinMember (BinMember (ed_public_key seed) ekey) :: l) = Ok unsigned ->
    packet_sign unsigned key = Ok signed ->
    (* the cluster: the i-th listener of program p *)
    infinite_cluster T st ev ->
    nth_error (programs (cluster_upto ev n0)) p = Some workers -> 1 <= workers ->
    ev n0 = CStart p k cfg nc q -> nth_error (started_on p (cluster_upto ev (S n0))) i = Some k ->
    never_exits p ev -> starts_no_more p ev -> calls_come_back p ev -> scheduler_fair p st ev -> jobs_fair p st ->
    listener_fair p i st ev -> nothing_fails p i ev -> delivered_for_ever k ev -> poll_prompt p i st ev ->
    ev a = CWorld (WSend h signed m) -> world_events [ev b] = [WDeliver k m] ->
    r < added k (world_events (cluster_upto ev n0)) -> length (packet_raw signed) <= cf_buffersize cfg ->
    (* the registry *)
    is_registered c cs -> length (c_mid c) = 20 -> deprecated (N_of_byte mt) = false ->
    (forall c', In c' cs -> c_tag c' = c_tag c -> c_mid c' = c_mid c) ->
    exists n thread d d1 d2 d3,
      b < n /\ thread < workers /\
      ev n = CThread p (RWorker thread (Some (GStep i (LCall r (packet_raw signed) (m_from m))))) (Some k) /\
      handler_calls (c_tag c) (forward cs (packet_raw signed, m_from m)) = [(spec_header (c_mid c) mt, d, m_from m)] /\
      pop_header d = (d1, Ok (spec_header (c_mid c) mt)) /\
      verify_embedded ring_pkcs8 d1 = (d2, Ok true) /\
      read_all d2 (map ptype l) = (d3, Ok (map transmitted_payload l)).
Proof.
  intros seed ekey mt l key p0 unsigned signed T st ev p i k n0 workers cfg nc q h a b r m cs c K He Hr S Hp Ha Hs
    RUN W W1 START ITH NX NM CB FT FJ FL NF GO PP Ea Eb Hrc Hlen Reg Hm D Tg.
  assert (LW : ed25519_laws ring_pkcs8) by apply p_C100_ed25519_meets_the_laws.
  assert (P : public_key key = Ok (ed_public_key seed)).
  { assert (E : key = seed).
    { unfold keypair_from_seed_unchecked in K. cbn [ring_pkcs8 ring_ed25519 ring_from_seed_unchecked] in K.
      destruct (length seed =? 32)%nat; cbn [ok_or] in K; congruence. }
    subst key. exact (public_key_ok _ LW seed). }
  destruct (p_C31_signed_message_end_to_end ring_pkcs8 LW key _ ekey (c_mid c) mt l p0 unsigned signed P He Hm Hr S Hp Ha Hs)
    as (d1 & d2 & d3 & E1 & E2 & E3 & _).
  destruct (p_C124_sent_and_delivered_is_received T st ev p i k n0 workers cfg nc q RUN W W1 START ITH NX NM CB FT FJ FL NF GO PP h a b signed m r Ea Eb Hlen Hrc)
    as (n & w & Hn & Hw & En).
  exists n, w, (start_deserialize signed), d1, d2, d3. split; [exact Hn|]. split; [exact Hw|]. split; [exact En|]. split; [|auto].
  assert (Hl : exists rest, packet_bytes signed = header_layout (c_mid c) mt ++ rest).
  { unfold py_ipv8_header in Hp. rewrite packet_new_complete, byte_of_N_of_byte in Hp. injection Hp as <-.
    destruct (add_all_prefix _ _ _ Ha) as [m1 E4]. rewrite (sign_ok ring_pkcs8 LW) in Hs. injection Hs as <-.
    cbn [packet_bytes] in *. rewrite E4. rewrite <- app_assoc. eauto. }
  destruct Hl as [rest El]. exact (handled_message cs c signed (m_from m) mt rest Reg Hm Tg D El).
Qed.

(** ** An infinite execution of a cluster: two programs; the second one listens and receives, with one thread in its pool, a packet sent once by the first and delivered again and again *)
Section example.
  Context (cfg : config) (pk : packet) (FITS : length (packet_bytes pk) <= cf_buffersize cfg).
  Let c1 : net_config := listen_config cfg 1.
  Let mg : message := ex_message pk.
  Let data : list byte := packet_bytes pk.
  Let from : address := v4 10 0 0 1 8000.
  Let dg : datagram := (data, from).
  Let fresh : list byte := repeat x00 (cf_buffersize cfg).
  Let used : list byte := fst (recv_into data fresh).

  (** the listener at the socket, in a turn; [buf]: the buffer before *)
  Definition cx_listener (buf : list byte) (phase : nat) : net_state :=
    match phase with
    | 0 => {| ns_queue := []; ns_edge := false; ns_buffer := buf; ns_pc := Polling |}
    | 1 => {| ns_queue := [dg]; ns_edge := true; ns_buffer := buf; ns_pc := Polling |}
    | 2 => {| ns_queue := [dg]; ns_edge := false; ns_buffer := buf; ns_pc := Handling 1 |}
    | 3 | 4 | 5 | 6 | 7 => {| ns_queue := []; ns_edge := false; ns_buffer := used; ns_pc := Dispatching 0 data from [0] [] false |}
    | 8 => {| ns_queue := []; ns_edge := false; ns_buffer := used; ns_pc := Dispatching 0 data from [] [0] false |}
    | 9 | 10 | 11 => {| ns_queue := []; ns_edge := false; ns_buffer := used; ns_pc := Dispatching 0 data from [] [] false |}
    | _ => {| ns_queue := []; ns_edge := false; ns_buffer := used; ns_pc := Handling 0 |}
    end.
  (** ... and in the pool *)
  Definition cx_pool (ck : nat) (buf : list byte) (phase : nat) : ry_state :=
    let l := [(c1, match phase with
                   | 0 | 1 | 2 | 12 => cx_listener buf phase
                   | _ => cx_listener buf 3
                   end)] in
    match phase with
    | 3 => RY l [TaskScope 0] [[]] [] ck
    | 4 => RY l [TaskPart ck 0 [0]] [[InScope ck 0 ck false]] [] (1 + ck)
    | 5 => RY l [TaskPart ck 0 [0]] [[InScope ck 0 ck true]] [] (1 + ck)
    | 6 => RY l [] [[InPart (1 + ck) ck 0 [] (Deciding [0]); InScope ck 0 ck false]] [] (2 + ck)
    | 7 => RY l [] [[InPart (1 + ck) ck 0 [] (Looping [0]); InScope ck 0 ck false]] [] (2 + ck)
    | 8 => RY l [] [[InPart (1 + ck) ck 0 [] (Calling 0 []); InScope ck 0 ck false]] [] (2 + ck)
    | 9 => RY l [] [[InPart (1 + ck) ck 0 [] (Looping []); InScope ck 0 ck false]] [] (2 + ck)
    | 10 => RY l [] [[InPart (1 + ck) ck 0 [] (Joining false); InScope ck 0 ck false]] [] (2 + ck)
    | 11 => RY l [] [[InScope ck 0 ck false]] [] (2 + ck)
    | 12 => RY l [] [[]] [] (2 + ck)
    | _ => RY l [] [[]] [] ck
    end.
  Definition cx_cluster (ck : nat) (buf : list byte) (phase : nat) : cluster :=
    CL (ex_world (Listening c1 (cx_listener buf phase)) [mg]) [PR true [] (ry_init 2); PR true [1] (cx_pool ck buf phase)].
  Definition cx_turn (phase : nat) : cluster_event :=
    match phase with
    | 0 => CDeliver 1 0 1 mg
    | 1 => CThread 1 (RListener (GStep 0 (LPoll 1))) (Some 1)
    | 2 => CThread 1 (RListener (GStep 0 LRecv)) (Some 1)
    | 7 => CThread 1 (RWorker 0 (Some (GStep 0 (LCall 0 data from)))) (Some 1)
    | 8 => CThread 1 (RWorker 0 (Some (GStep 0 (LReturn 0)))) (Some 1)
    | 11 => CThread 1 (RWorker 0 (Some (GStep 0 LScopeEnd))) (Some 1)
    | 12 => CThread 1 (RListener (GStep 0 LNext)) (Some 1)
    | _ => CThread 1 (RWorker 0 None) None
    end.
  Definition cx_st (n : nat) : cluster :=
    match n with
    | 0 => cluster_init
    | 1 => CL world_init [PR true [] (ry_init 2)]
    | 2 => CL world_init [PR true [] (ry_init 2); PR true [] (ry_init 1)]
    | 3 => CL (add_socket world_init 0 (v4 0 0 0 0 8000) (Sending [])) [PR true [] (ry_init 2); PR true [] (ry_init 1)]
    | 4 => CL (ex_world (Waiting 0 []) []) [PR true [] (ry_init 2); PR true [] (ry_init 1)]
    | 5 => CL (ex_world (Waiting 1 []) []) [PR true [] (ry_init 2); PR true [] (ry_init 1)]
    | 6 => CL (ex_world (Waiting 1 []) [mg]) [PR true [] (ry_init 2); PR true [] (ry_init 1)]
    | S (S (S (S (S (S (S m)))))) => cx_cluster (2 * (m / 13)) (if m <? 13 then fresh else used) (m mod 13)
    end.
  Definition cx_ev (n : nat) : cluster_event :=
    match n with
    | 0 => CProgram 2
    | 1 => CProgram 1
    | 2 => CWorld (WBindSender 0 0 (v4 0 0 0 0 8000) (v4 0 0 0 0 8000))
    | 3 => CWorld (WBindReceiver 1 1 (v4 0 0 0 0 9000) (v4 0 0 0 0 9000))
    | 4 => CWorld (WAddReceiver 1)
    | 5 => CWorld (WSend 0 pk mg)
    | 6 => CStart 1 1 cfg c1 []
    | S (S (S (S (S (S (S m)))))) => cx_turn (m mod 13)
    end.

  Let prog0 : list program := [PR true [] (ry_init 2)].
  Lemma cx_seen ph ph' ck ck' buf buf' l a : acts l = Some (0, a) -> (forall d, a <> LArrive d) -> step c1 (cx_listener buf ph) a (cx_listener buf' ph') ->
    ry_step (cx_pool ck buf ph) l (cx_pool ck' buf' ph') -> cstep two_hosts (cx_cluster ck buf ph) (CThread 1 l (Some 1)) (cx_cluster ck' buf' ph').
  Proof.
    intros A N S R. eapply (cstep_seen two_hosts _ _ prog0 [1] _ _ [] l 0 1 a A eq_refl); [|exact R]. now apply ex_listener_step.
  Qed.
  Lemma cx_silent ph ph' ck buf : ry_step (cx_pool ck buf ph) (RWorker 0 None) (cx_pool ck buf ph') -> cx_listener buf ph = cx_listener buf ph' ->
    cstep two_hosts (cx_cluster ck buf ph) (CThread 1 (RWorker 0 None) None) (cx_cluster ck buf ph').
  Proof. intros R E. unfold cx_cluster. rewrite E. exact (cstep_silent two_hosts _ prog0 [1] _ _ [] 0 R). Qed.
  Lemma cx_phase ck buf ph : buf = fresh \/ buf = used -> ph < 13 ->
    cstep two_hosts (cx_cluster ck buf ph) (cx_turn ph) (if ph =? 12 then cx_cluster (2 + ck) used 0 else cx_cluster ck buf (S ph)).
  Proof.
    intros B H. destruct (ex_recv cfg pk FITS buf B) as [E1 E2]. fold data fresh in E1, E2. fold used in E1, E2.
    destruct ph as [|[|[|[|[|[|[|[|[|[|[|[|[|ph]]]]]]]]]]]]]; [..|lia]; clear H; cbn [Nat.eqb]; unfold cx_turn.
    - eapply (cstep_deliver two_hosts _ _ prog0 [1] _ _ [] 0 1 mg eq_refl).
      + apply ex_deliver_step; reflexivity.
      + apply (ry_listener [] _ _ []); [|reflexivity]. exact (step_arrive c1 (cx_listener buf 0) (datagram_of mg)).
    - apply (cx_seen 1 2 ck ck buf buf _ (LPoll 1)); [reflexivity|discriminate| |].
      + apply (step_poll_ready c1 (cx_listener buf 1)); reflexivity.
      + apply (ry_listener [] _ _ []); [|reflexivity]. apply (step_poll_ready c1 (cx_listener buf 1)); reflexivity.
    - assert (S : step c1 (cx_listener buf 2) LRecv (cx_listener buf 3)).
      { pose proof (step_recv c1 (cx_listener buf 2) 0 data from [] eq_refl eq_refl) as S. cbn [cx_listener ns_buffer ns_edge] in S.
        rewrite E1, E2 in S. exact S. }
      apply (cx_seen 2 3 ck ck buf buf _ LRecv); [reflexivity|discriminate|exact S|]. apply (ry_recv [] _ _ [] []). exact S.
    - apply (cx_silent 3 4); [|reflexivity]. eapply (ry_take_scope _ [] 0 [] [] [] [] [] ck c1); reflexivity.
    - apply (cx_silent 4 5); [|reflexivity]. apply (ry_look_scope _ _ []). left. do 2 eexists. now left.
    - apply (cx_silent 5 6); [|reflexivity]. apply (ry_take_part _ [] ck 0 [0] [] [] [InScope ck 0 ck true] []). reflexivity.
    - apply (cx_silent 6 7); [|reflexivity]. apply (ry_sequential _ _ []).
    - apply (cx_seen 7 8 ck ck buf buf _ (LCall 0 data from)); [reflexivity|discriminate| |].
      + exact (step_call c1 (cx_listener buf 7) 0 data from [] 0 [] [] false eq_refl).
      + eapply (ry_call _ _ []); reflexivity.
    - apply (cx_seen 8 9 ck ck buf buf _ (LReturn 0)); [reflexivity|discriminate| |].
      + exact (step_return c1 (cx_listener buf 8) 0 data from [] [] 0 [] false eq_refl).
      + apply (ry_return _ _ []).
    - apply (cx_silent 9 10); [|reflexivity]. apply (ry_loop_done _ _ []).
    - apply (cx_silent 10 11); [|reflexivity]. apply (ry_part_done _ _ []).
    - apply (cx_seen 11 12 ck ck buf buf _ LScopeEnd); [reflexivity|discriminate| |].
      + exact (step_scope_end c1 (cx_listener buf 11) 0 data from eq_refl).
      + eapply (ry_scope_done [] c1 (cx_listener buf 3) [] [] [] ck ck false [] [] [] (2 + ck) 0); [reflexivity|].
        intros [(x & rs & [])|(x & y & js & z & [E|[]])]; discriminate.
    - apply (cx_seen 12 0 ck (2 + ck) buf used _ LNext); [reflexivity|discriminate| |].
      + exact (step_next c1 (cx_listener buf 12) eq_refl).
      + apply (ry_listener [] _ _ []); [|reflexivity]. exact (step_next c1 (cx_listener buf 12) eq_refl).
  Qed.
  Lemma cx_step n : cstep two_hosts (cx_st n) (cx_ev n) (cx_st (S n)).
  Proof.
    destruct n as [|[|[|[|[|[|[|m]]]]]]].
    - exact (cstep_program two_hosts world_init [] 2).
    - exact (cstep_program two_hosts world_init prog0 1).
    - apply cstep_world; [|exact I]. apply (wstep_bind_sender two_hosts world_init 0). repeat split; [discriminate|]. intros s [].
    - apply cstep_world; [|exact I]. apply (wstep_bind_receiver two_hosts (add_socket world_init 0 (v4 0 0 0 0 8000) (Sending [])) 1).
      repeat split; [discriminate|]. intros s [<-|[]]. discriminate.
    - apply cstep_world; [|exact I]. exact (wstep_add_receiver two_hosts (ex_world (Waiting 0 []) []) 1 _ 0 [] eq_refl eq_refl).
    - apply cstep_world; [|exact I]. eapply (wstep_send two_hosts (ex_world (Waiting 1 []) []) 0 _ [] (fun _ _ => Ok 2) 2); try reflexivity; [right; reflexivity|left; split; reflexivity].
    - eapply (cstep_start two_hosts (ex_world (Waiting 1 []) [mg]) _ prog0 [] _ _ [] 1 _ 1 [] cfg eq_refl eq_refl).
      + exact (wstep_start two_hosts (ex_world (Waiting 1 []) [mg]) 1 _ 1 [] cfg eq_refl eq_refl).
      + apply ry_start.
    - assert (Q : exists q j, j < 13 /\ m = 13 * q + j).
      { exists (m / 13), (m mod 13). split; [apply Nat.mod_upper_bound; lia|apply Nat.div_mod; lia]. }
      destruct Q as (q & j & Hj & ->). 
      assert (D : (13 * q + j) / 13 = q /\ (13 * q + j) mod 13 = j) by (split; symmetry; [apply (Nat.div_unique _ _ q j)|apply (Nat.mod_unique _ _ q j)]; lia).
      unfold cx_ev. cbn [cx_st]. destruct D as [-> ->].
      assert (D' : S (13 * q + j) / 13 = (if j =? 12 then S q else q) /\ S (13 * q + j) mod 13 = if j =? 12 then 0 else S j).
      { destruct (Nat.eqb_spec j 12) as [->|]; split; symmetry.
        - apply (Nat.div_unique _ _ (S q) 0); lia.
        - apply (Nat.mod_unique _ _ (S q) 0); lia.
        - apply (Nat.div_unique _ _ q (S j)); lia.
        - apply (Nat.mod_unique _ _ q (S j)); lia. }
      destruct D' as [-> ->].
      assert (B : (if 13 * q + j <? 13 then fresh else used) = fresh \/ (if 13 * q + j <? 13 then fresh else used) = used) by (destruct (13 * q + j <? 13); auto).
      pose proof (cx_phase (2 * q) _ j B Hj) as P. destruct (Nat.eqb_spec j 12) as [->|N].
      + replace (S (13 * q + 12) <? 13) with false by (symmetry; apply Nat.ltb_ge; lia). replace (2 * S q) with (2 + 2 * q) by lia. exact P.
      + replace (S (13 * q + j) <? 13) with (13 * q + j <? 13); [exact P|]. destruct (Nat.ltb_spec (13 * q + j) 13), (Nat.ltb_spec (S (13 * q + j)) 13); auto; lia.
  Qed.
  Lemma cx_at q j : j < 13 -> cx_ev (7 + (13 * q + j)) = cx_turn j /\ exists buf, cx_st (7 + (13 * q + j)) = cx_cluster (2 * q) buf j.
  Proof.
    intros Hj. assert (D : (13 * q + j) / 13 = q /\ (13 * q + j) mod 13 = j) by (split; symmetry; [apply (Nat.div_unique _ _ q j)|apply (Nat.mod_unique _ _ q j)]; lia).
    unfold cx_ev. cbn [Nat.add cx_st]. destruct D as [-> ->]. eauto.
  Qed.
  Lemma cx_cases n : n < 7 \/ exists q j, j < 13 /\ n = 7 + (13 * q + j).
  Proof.
    destruct (Nat.lt_ge_cases n 7) as [|G]; [auto|right]. exists ((n - 7) / 13), ((n - 7) mod 13).
    split; [apply Nat.mod_upper_bound; lia|]. pose proof (Nat.div_mod (n - 7) 13 ltac:(lia)). lia.
  Qed.
  Lemma cx_turns (P : nat -> cluster_event -> Prop) : (forall n, n < 7 -> P n (cx_ev n)) -> (forall q j, j < 13 -> P (7 + (13 * q + j)) (cx_turn j)) -> forall n, P n (cx_ev n).
  Proof. intros A B n. destruct (cx_cases n) as [H|(q & j & Hj & ->)]; [auto|]. rewrite (proj1 (cx_at q j Hj)). auto. Qed.
  Lemma cx_conditions :
    infinite_cluster two_hosts cx_st cx_ev /\ nth_error (programs (cluster_upto cx_ev 6)) 1 = Some 1 /\ cx_ev 6 = CStart 1 1 cfg c1 [] /\
    nth_error (started_on 1 (cluster_upto cx_ev 7)) 0 = Some 1 /\
    never_exits 1 cx_ev /\ starts_no_more 1 cx_ev /\ calls_come_back 1 cx_ev /\ scheduler_fair 1 cx_st cx_ev /\ jobs_fair 1 cx_st /\
    listener_fair 1 0 cx_st cx_ev /\ nothing_fails 1 0 cx_ev /\ delivered_for_ever 1 cx_ev /\ poll_prompt 1 0 cx_st cx_ev /\
    cx_ev 5 = CWorld (WSend 0 pk mg) /\ world_events [cx_ev 7] = [WDeliver 1 mg] /\ 0 < added 1 (world_events (cluster_upto cx_ev 6)).
  Proof.
    split; [split; [reflexivity|exact cx_step]|]. split; [reflexivity|]. split; [reflexivity|]. split; [reflexivity|].
    split. { refine (cx_turns (fun _ e => e <> CExit 1) _ _); [intros n H|intros q j H].
      - do 7 (destruct n as [|n]; [discriminate|]). lia.
      - do 13 (destruct j as [|j]; [discriminate|]). lia. }
    split. { exists 7. intros n k cf c q H. revert n H. refine (cx_turns (fun n e => 7 <= n -> e <> CStart 1 k cf c q) _ _); [intros n H|intros q' j H]; intros L.
      - lia.
      - do 13 (destruct j as [|j]; [discriminate|]). lia. }
    split. { intros n w i r p s k. revert n. refine (cx_turns (fun n e => e = CThread 1 (RWorker w (Some (GStep i (LCall r p s)))) k -> exists m k', n < m /\ (cx_ev m = CThread 1 (RWorker w (Some (GStep i (LReturn r)))) k' \/ cx_ev m = CThread 1 (RWorker w (Some (GStep i (LPanic r)))) k')) _ _); [intros n H|intros q j H]; intros E.
      - do 7 (destruct n as [|n]; [discriminate|]). lia.
      - destruct (Nat.eq_dec j 7) as [->|N].
        + injection E as <- <- <- <- <- <-. exists (7 + (13 * q + 8)), (Some 1). split; [lia|]. left. now rewrite (proj1 (cx_at q 8 ltac:(lia))).
        + do 13 (destruct j as [|j]; [try discriminate; lia|]). lia. }
    split. { intros w n. exists (7 + (13 * n + 3)). split; [lia|]. destruct (cx_at n 3 ltac:(lia)) as (-> & buf & ->).
      destruct w as [|w]; [left; eexists _, _; reflexivity|]. right. intros x (a & Ha & <-). cbn in Ha. injection Ha as <-. intros (l & s' & S & _).
      apply worker_exists in S. cbn in S. lia. }
    split. { intros _ n x t _ _. destruct (cx_at n 0 ltac:(lia)) as (_ & buf & E). exists (7 + (13 * n + 0)). eexists. split; [lia|]. rewrite E. split.
      - eexists. split; reflexivity.
      - cbn. auto. }
    split. { intros n. exists (7 + (13 * n + 1)). split; [lia|]. rewrite (proj1 (cx_at n 1 ltac:(lia))). left. eexists _, _. reflexivity. }
    split. { intros n l a k. revert n. refine (cx_turns (fun n e => e = CThread 1 l k -> acts l = Some (0, a) -> ~ is_failure a) _ _); [intros n H|intros q j H]; intros E A.
      - do 7 (destruct n as [|n]; [discriminate|]). lia.
      - do 13 (destruct j as [|j]; [try discriminate; injection E as <- <-; try discriminate A; injection A as <-; cbn; auto|]). lia. }
    split. { intros n. exists (7 + (13 * n + 0)), 1, 0, mg. split; [lia|]. exact (proj1 (cx_at n 0 ltac:(lia))). }
    split. { intros n x c s at_ _ _ _. revert n. refine (cx_turns (fun n e => e <> CThread 1 (RListener (GStep 0 (LPoll 0))) at_) _ _); [intros n H|intros q j H].
      - do 7 (destruct n as [|n]; [discriminate|]). lia.
      - do 13 (destruct j as [|j]; [discriminate|]). lia. }
    split; [reflexivity|]. split; [reflexivity|]. cbn. lia.
  Qed.
End example.

(** the hypotheses of C124 are met: for every seed a signed message, in this execution *)
Example ex_C124_hypotheses :
  forall seed, length seed = 32 ->
  exists (key : keypair ring_pkcs8) p0 unsigned signed st ev c q,
    keypair_from_seed_unchecked ring_pkcs8 seed = Ok key /\
    Forall (fun x => in_range (projT1 x) (projT2 x)) example_payloads /\
    readable_sequence self_delimiting raw_at_end_only (map ptype example_payloads) = true /\
    packet_new (py_ipv8_header e2e_mid x01) = Ok p0 /\
    add_all p0 (existT tval TBinMember (BinMember (ed_public_key seed) (repeat x06 32)) :: example_payloads) = Ok unsigned /\
    packet_sign unsigned key = Ok signed /\
    infinite_cluster two_hosts st ev /\ nth_error (programs (cluster_upto ev 6)) 1 = Some 1 /\ ev 6 = CStart 1 1 overlay_config c q /\
    nth_error (started_on 1 (cluster_upto ev 7)) 0 = Some 1 /\
    never_exits 1 ev /\ starts_no_more 1 ev /\ calls_come_back 1 ev /\ scheduler_fair 1 st ev /\ jobs_fair 1 st /\
    listener_fair 1 0 st ev /\ nothing_fails 1 0 ev /\ delivered_for_ever 1 ev /\ poll_prompt 1 0 st ev /\
    ev 5 = CWorld (WSend 0 signed (ex_message signed)) /\ world_events [ev 7] = [WDeliver 1 (ex_message signed)] /\
    0 < added 1 (world_events (cluster_upto ev 6)) /\ length (packet_raw signed) <= cf_buffersize overlay_config /\
    is_registered (e2e_community 1 e2e_mid) e2e_registry /\ length e2e_mid = 20 /\ deprecated (N_of_byte x01) = false /\
    (forall c', In c' e2e_registry -> c_tag c' = 1 -> c_mid c' = e2e_mid).
Proof.
  intros seed Ls. destruct (ex_signed_message seed Ls) as (key & p0 & u & s & H1 & H2 & H3 & H4 & H5).
  assert (F : length (packet_bytes s) <= cf_buffersize overlay_config).
  { unfold packet_raw in H5. rewrite H5. cbn. lia. }
  exists key, p0, u, s, (cx_st overlay_config s), (cx_ev overlay_config s), (listen_config overlay_config 1), [].
  destruct (cx_conditions overlay_config s F) as (C1 & C2 & C3 & C4 & C5 & C6 & C7 & C8 & C9 & C10 & C11 & C12 & C13 & C14 & C15 & C16).
  split; [exact H1|]. split; [apply ex_C07_sequence|]. split; [reflexivity|]. split; [exact H2|]. split; [exact H3|]. split; [exact H4|].
  do 16 (split; [assumption|]). split; [exact F|].
  split; [exists [], [e2e_community 2 (repeat x2b 20)]; split; [reflexivity|]; constructor; [discriminate|constructor]|].
  split; [reflexivity|]. split; [reflexivity|].
  intros c' [<-|[<-|[]]]; cbn; [reflexivity|discriminate].
Qed.

(** the hypotheses of C123 are met: after fifteen events of this execution a receiver has been called by a thread of the second program's pool, and can return *)
Example ex_C123_run :
  let pk := Packet [x01; x02] in
  let ev := cx_ev small_config pk in
  let s := cx_st small_config pk 15 in
  crun two_hosts cluster_init (cluster_upto ev 15) s /\
  programs (cluster_upto ev 15) = [2; 1] /\ started_on 1 (cluster_upto ev 15) = [1] /\
  trace_at 1 (world_events (cluster_upto ev 15)) = [LArrive ([x01; x02], v4 10 0 0 1 8000); LPoll 1; LRecv; LCall 0 [x01; x02] (v4 10 0 0 1 8000)] /\
  length (program_events 1 (cluster_upto ev 15)) = 9 /\ program_events 0 (cluster_upto ev 15) = [] /\
  exists pr, nth_error (cl_programs s) 1 = Some pr /\ pr_running pr = true /\ exists x, ry_step (pr_pool pr) (RWorker 0 (Some (GStep 0 (LReturn 0)))) x.
Proof.
  intros pk ev s. assert (F : length (packet_bytes pk) <= cf_buffersize small_config) by (cbn; lia).
  split; [exact (cluster_prefix _ _ _ (proj1 (cx_conditions small_config pk F)) 15)|]. do 5 (split; [reflexivity|]).
  eexists. split; [reflexivity|]. split; [reflexivity|]. eexists. cbn. apply (ry_return _ _ []).
Qed.
