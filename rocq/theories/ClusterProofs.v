(** * ClusterProofs: C123, what happens in a cluster is what happens in the world and in the pools *)
From Coq Require Import Permutation.
From Verif Require Import Base Codec Network NetSpec NetworkProofs Ipv8 Ipv8Proofs World WorldSpec WorldProofs Pool PoolSpec PoolProofs
  PoolLiveProofs Rayon RayonSpec RayonLiveSpec RayonProofs RayonServedProofs Cluster ClusterSpec.
Open Scope nat_scope.

Lemma world_events_app a b : world_events (a ++ b) = world_events a ++ world_events b.
Proof.
  induction a as [|e a IH]; [reflexivity|]. cbn [app world_events]. destruct e as [n|e|p k cfg c q|p i k m|p l [k|]|p]; rewrite ?IH; try reflexivity.
  destruct (acts l) as [[i x]|]; reflexivity.
Qed.
Lemma program_events_app p a b : program_events p (a ++ b) = program_events p a ++ program_events p b.
Proof. induction a as [|e a IH]; cbn; [reflexivity|]. rewrite IH. now destruct (program_event p e). Qed.
Lemma programs_app a b : programs (a ++ b) = programs a ++ programs b.
Proof. induction a as [|e a IH]; cbn; [reflexivity|]. rewrite IH. now destruct e. Qed.
Lemma started_on_app p a b : started_on p (a ++ b) = started_on p a ++ started_on p b.
Proof. induction a as [|e a IH]; cbn; [reflexivity|]. rewrite IH. destruct e; try reflexivity. now destruct (p =? p0). Qed.

(** ** One step, seen from a program *)
Inductive program_change (p : nat) (e : cluster_event) (a : program) : program -> Prop :=
| pc_other : program_event p e = None -> e <> CExit p -> program_change p e a a
| pc_step l x : pr_running a = true -> program_event p e = Some l -> ry_step (pr_pool a) l x ->
    program_change p e a (PR true (pr_sockets a ++ started_on p [e]) x)
| pc_exit : pr_running a = true -> e = CExit p -> program_change p e a (PR false (pr_sockets a) (pr_pool a)).

Lemma nth_mid_cases {A} (l1 : list A) x y l2 p z : nth_error (l1 ++ y :: l2) p = Some z ->
  (p = length l1 /\ z = y) \/ (p <> length l1 /\ nth_error (l1 ++ x :: l2) p = Some z).
Proof.
  intros H. destruct (Nat.eq_dec p (length l1)) as [->|N]; [left; split; [reflexivity|]; rewrite nth_error_mid in H; congruence|].
  right. split; [exact N|]. now rewrite (nth_error_other _ x y _ _ N).
Qed.

Lemma program_step T s e s' p a' : cstep T s e s' -> nth_error (cl_programs s') p = Some a' ->
  (exists a, nth_error (cl_programs s) p = Some a /\ program_change p e a a') \/
  (exists n, p = length (cl_programs s) /\ e = CProgram n /\ a' = PR true [] (ry_init n)).
Proof.
  intros S H.
  destruct S as [w ps n|w ps e w' W EL|w w' p1 ks s s' p2 k sk n q cfg H1 H2 W R|w w' p1 ks s s' p2 i k m H1 W R|w w' p1 ks s s' p2 l i k a H1 H2 W R|w p1 ks s s' p2 v R|w p1 ks s p2];
    cbn [cl_programs] in *.
  - destruct (Nat.lt_ge_cases p (length ps)) as [L|L].
    + left. rewrite nth_error_app1 in H by exact L. exists a'. split; [exact H|]. constructor; [reflexivity|discriminate].
    + right. rewrite nth_error_app2 in H by exact L. destruct (p - length ps) as [|[|x]] eqn:D; cbn in H; try discriminate.
      injection H as <-. exists n. split; [lia|auto].
  - left. exists a'. split; [exact H|]. constructor; [reflexivity|discriminate].
  - left. destruct (nth_mid_cases p1 (PR true ks s) _ p2 _ _ H) as [[-> ->]|[N G]].
    + exists (PR true ks s). split; [apply nth_error_mid|].
      replace (ks ++ [k]) with (pr_sockets (PR true ks s) ++ started_on (length p1) [CStart (length p1) k cfg (listen_config cfg n) q])
        by (cbn; now rewrite Nat.eqb_refl).
      eapply pc_step; [reflexivity| |exact R]. cbn. now rewrite Nat.eqb_refl.
    + exists a'. split; [exact G|]. constructor; [|discriminate]. cbn. apply Nat.eqb_neq in N. now rewrite N.
  - left. destruct (nth_mid_cases p1 (PR true ks s) _ p2 _ _ H) as [[-> ->]|[N G]].
    + exists (PR true ks s). split; [apply nth_error_mid|].
      replace (PR true ks s') with (PR true (pr_sockets (PR true ks s) ++ started_on (length p1) [CDeliver (length p1) i k m]) s')
        by (cbn; now rewrite app_nil_r).
      eapply pc_step; [reflexivity| |exact R]. cbn. now rewrite Nat.eqb_refl.
    + exists a'. split; [exact G|]. constructor; [|discriminate]. cbn. apply Nat.eqb_neq in N. now rewrite N.
  - left. destruct (nth_mid_cases p1 (PR true ks s) _ p2 _ _ H) as [[-> ->]|[N G]].
    + exists (PR true ks s). split; [apply nth_error_mid|].
      replace (PR true ks s') with (PR true (pr_sockets (PR true ks s) ++ started_on (length p1) [CThread (length p1) l (Some k)]) s')
        by (cbn; now rewrite app_nil_r).
      eapply pc_step; [reflexivity| |exact R]. cbn. now rewrite Nat.eqb_refl.
    + exists a'. split; [exact G|]. constructor; [|discriminate]. cbn. apply Nat.eqb_neq in N. now rewrite N.
  - left. destruct (nth_mid_cases p1 (PR true ks s) _ p2 _ _ H) as [[-> ->]|[N G]].
    + exists (PR true ks s). split; [apply nth_error_mid|].
      replace (PR true ks s') with (PR true (pr_sockets (PR true ks s) ++ started_on (length p1) [CThread (length p1) (RWorker v None) None]) s')
        by (cbn; now rewrite app_nil_r).
      eapply pc_step; [reflexivity| |exact R]. cbn. now rewrite Nat.eqb_refl.
    + exists a'. split; [exact G|]. constructor; [|discriminate]. cbn. apply Nat.eqb_neq in N. now rewrite N.
  - left. destruct (nth_mid_cases p1 (PR true ks s) _ p2 _ _ H) as [[-> ->]|[N G]].
    + exists (PR true ks s). split; [apply nth_error_mid|]. now apply (pc_exit (length p1) (CExit (length p1)) (PR true ks s)).
    + exists a'. split; [exact G|]. constructor; [reflexivity|]. intros E. injection E as E. congruence.
Qed.
Lemma programs_kept T s e s' : cstep T s e s' ->
  length (cl_programs s') = length (cl_programs s) + length (programs [e]) /\
  forall p, length (cl_programs s) <= p -> program_event p e = None /\ e <> CExit p /\ started_on p [e] = [].
Proof.
  intros S. destruct S; cbn [cl_programs programs]; rewrite ?app_length; cbn [length]; (split; [lia|]); intros p L; cbn [program_event started_on];
    try (match goal with |- context[p =? ?j] => destruct (Nat.eqb_spec p j) as [->|Ne]; [exfalso; lia|] end);
    (split; [reflexivity|split; [|reflexivity]]); try discriminate. intros E. injection E as E. lia.
Qed.
Lemma program_kept T s e s' p a : cstep T s e s' -> nth_error (cl_programs s) p = Some a -> exists a', nth_error (cl_programs s') p = Some a'.
Proof.
  intros S H. assert (L : p < length (cl_programs s)) by (apply nth_error_Some; congruence). destruct (programs_kept _ _ _ _ S) as [E _].
  destruct (nth_error (cl_programs s') p) eqn:N; [eauto|]. apply nth_error_None in N. lia.
Qed.
Lemma world_step T s e s' : cstep T s e s' -> wrun T (cl_world s) (world_events [e]) (cl_world s').
Proof.
  intros S. destruct S as [| | | |w w' p1 ks s s' p2 l i k a H1| |]; cbn [cl_world world_events]; try constructor;
    try (change (wrun T w ([] ++ [e]) w'); econstructor; [constructor|assumption]).
  - change (wrun T w ([] ++ [WStart k cfg]) w'). econstructor; [constructor|assumption].
  - change (wrun T w ([] ++ [WDeliver k m]) w'). econstructor; [constructor|assumption].
  - rewrite H1. change (wrun T w ([] ++ [WListener k a]) w'). econstructor; [constructor|assumption].
Qed.
Lemma wrun_app T a tr b tr' c : wrun T a tr b -> wrun T b tr' c -> wrun T a (tr ++ tr') c.
Proof. intros R R'. revert R. induction R' as [w|w tr1 w1 e w2 R1 IH S]; intros R; [now rewrite app_nil_r|]. rewrite app_assoc. econstructor; eauto. Qed.

(** ** What the history says of the world and of the programs *)
Definition program_inv (tr : list cluster_event) (p : nat) (a : program) : Prop :=
  (exists workers, nth_error (programs tr) p = Some workers /\ ry_run (ry_init workers) (program_events p tr) (pr_pool a)) /\
  pr_sockets a = started_on p tr /\ (pr_running a = true <-> ~ In (CExit p) tr).
Lemma cluster_inv T tr s : crun T cluster_init tr s ->
  wrun T world_init (world_events tr) (cl_world s) /\ length (cl_programs s) = length (programs tr) /\
  (forall p a, nth_error (cl_programs s) p = Some a -> program_inv tr p a) /\
  (forall p, length (cl_programs s) <= p -> program_events p tr = [] /\ started_on p tr = [] /\ ~ In (CExit p) tr).
Proof.
  intros R. remember cluster_init as s0 eqn:E0. induction R as [s|s tr s' e s'' R IH S]; subst.
  - split; [constructor|]. split; [reflexivity|]. split; [intros [|p] a H; discriminate|]. auto.
  - destruct (IH eq_refl) as (I1 & I2 & I3 & I4). clear IH. destruct (programs_kept _ _ _ _ S) as [L N].
    split; [rewrite world_events_app; eapply wrun_app; [exact I1|now apply world_step]|].
    split; [now rewrite programs_app, app_length, L, I2|]. split.
    + intros p a' H. destruct (program_step _ _ _ _ _ _ S H) as [(a & Ha & C)|(n & -> & -> & ->)].
      * destruct (I3 _ _ Ha) as ((wk & J1 & J2) & J3 & J4). unfold program_inv. rewrite programs_app, program_events_app, started_on_app.
        assert (P : nth_error (programs tr ++ programs [e]) p = Some wk).
        { rewrite nth_error_app1; [exact J1|]. apply nth_error_Some. congruence. }
        destruct C as [C1 C2|l x C1 C2 C3|C1 ->].
        -- cbn [program_events]. rewrite C1, app_nil_r. split; [eauto|].
           split; [replace (started_on p [e]) with (@nil nat); [now rewrite app_nil_r|]|].
           { destruct e; try reflexivity. cbn in *. destruct (p =? p0); [discriminate|reflexivity]. }
           rewrite J4, in_app_iff. cbn. tauto.
        -- cbn [program_events]. rewrite C2. cbn [pr_sockets pr_pool pr_running]. split; [exists wk; split; [exact P|econstructor; eauto]|].
           split; [now rewrite J3|]. split; [intros _|reflexivity]. rewrite in_app_iff. intros [X|[->|[]]]; [now apply J4|discriminate C2].
        -- cbn [program_events program_event started_on pr_sockets pr_pool pr_running]. rewrite !app_nil_r. split; [eauto|]. split; [exact J3|].
           split; [discriminate|]. intros X. exfalso. apply X. apply in_or_app. right. now left.
      * destruct (I4 (length (cl_programs s')) (le_n _)) as (K1 & K2 & K3). unfold program_inv.
        rewrite programs_app, program_events_app, started_on_app, K1, K2. cbn [pr_sockets pr_pool pr_running programs program_events program_event started_on app].
        split; [|split; [reflexivity|split; [intros _|reflexivity]]].
        -- exists n. split; [|constructor]. rewrite I2. apply nth_error_mid.
        -- rewrite in_app_iff. intros [X|[X|[]]]; [auto|discriminate].
    + intros p H. destruct (I4 p ltac:(lia)) as (K1 & K2 & K3). destruct (N p ltac:(lia)) as (N1 & N2 & N3).
      rewrite program_events_app, started_on_app, K1, K2, N3. cbn [program_events]. rewrite N1. repeat split.
      rewrite in_app_iff. intros [X|[X|[]]]; auto.
Qed.

(** ** Whose socket is it *)
Definition owned (s : cluster) : list nat := flat_map pr_sockets (cl_programs s).
Definition taken (w : world) (k : nat) : Prop :=
  exists sk, nth_error (w_sockets w) k = Some sk /\ match sk_end sk with Listening _ _ | Closed => True | _ => False end.
Lemma taken_step T w e w' k : wstep T w e w' -> taken w k -> taken w' k.
Proof.
  intros S (sk & H & E). destruct (slot_kept _ _ _ _ _ _ S H) as (sk' & H'). exists sk'. split; [exact H'|].
  destruct (slot_step _ _ _ _ _ _ S H') as [(x & Hx & C)|(K & _)].
  - rewrite H in Hx. injection Hx as <-. destruct C as [e s A|s n q X|s n q cfg X|s X|s m X1 X2 X3|s c n l n' X1 X2 X3]; cbn [with_end sk_end]; auto.
    + rewrite X in E. exact E.
    + destruct (sk_end s); cbn; auto.
  - exfalso. assert (k < length (w_sockets w)) by (apply nth_error_Some; congruence). lia.
Qed.
Lemma owned_inv T tr s : crun T cluster_init tr s -> NoDup (owned s) /\ forall k, In k (owned s) -> taken (cl_world s) k.
Proof.
  intros R. remember cluster_init as s0 eqn:E0. induction R as [s|s tr s' e s'' R IH S]; subst.
  - split; [constructor|intros k []].
  - destruct (IH eq_refl) as [I1 I2]. clear IH. unfold owned in *.
    destruct S as [w ps n|w ps e w' W EL|w w' p1 ks s1 s' p2 k sk n q cfg H1 H2 W R1|w w' p1 ks s1 s' p2 i k m H1 W R1|w w' p1 ks s1 s' p2 l i k a H1 H2 W R1|w p1 ks s1 s' p2 v R1|w p1 ks s1 p2];
    cbn [cl_programs cl_world] in *; try (rewrite flat_map_app in *; cbn [flat_map pr_sockets] in *).
    + rewrite app_nil_r. auto.
    + split; [exact I1|]. intros k K. eapply taken_step; eauto.
    + set (A := flat_map pr_sockets p1) in *. set (B := flat_map pr_sockets p2) in *.
      assert (PM : Permutation (k :: A ++ ks ++ B) (A ++ (ks ++ [k]) ++ B)).
      { rewrite <- !app_assoc. cbn [app]. rewrite !app_assoc. apply Permutation_middle. }
      split.
      * eapply Permutation_NoDup; [exact PM|]. constructor; [|exact I1]. intros K. destruct (I2 _ K) as (sk' & K1 & K2).
        rewrite H1 in K1. injection K1 as <-. rewrite H2 in K2. exact K2.
      * intros j J. apply (Permutation_in _ (Permutation_sym PM)) in J as [<-|J].
        -- inversion W as [| | | |w0 k0 sk0 n0 q0 cfg0 X1 X2| | | | | |]; subst. rewrite H1 in X1. injection X1 as <-.
           assert (L : k < length (w_sockets w)) by (apply nth_error_Some; congruence). apply Nat.ltb_lt in L.
           eexists. split; [cbn; rewrite nth_error_set_nth, Nat.eqb_refl, L; cbn; reflexivity|exact I].
        -- eapply taken_step; [exact W|]. now apply I2.
    + split; [exact I1|]. intros j J. eapply taken_step; [exact W|]. now apply I2.
    + split; [exact I1|]. intros j J. eapply taken_step; [exact W|]. now apply I2.
    + auto.
    + auto.
Qed.
Lemma nodup_flat {A B} (f : A -> list B) (l : list A) : NoDup (flat_map f l) -> forall p q a b i j k,
  nth_error l p = Some a -> nth_error l q = Some b -> nth_error (f a) i = Some k -> nth_error (f b) j = Some k -> p = q /\ i = j.
Proof.
  induction l as [|x l IH]; intros ND p q a b i j k Hp Hq Hi Hj; [destruct p; discriminate|]. cbn in ND.
  assert (D : forall z, In z (f x) -> In z (flat_map f l) -> False).
  { clear - ND. intros z Z1 Z2. apply in_split in Z1 as (u & v & E). rewrite E, <- app_assoc in ND. cbn in ND.
    apply NoDup_remove_2 in ND. apply ND. apply in_or_app. right. apply in_or_app. now right. }
  assert (F : forall r c m, nth_error l r = Some c -> nth_error (f c) m = Some k -> In k (flat_map f l)).
  { intros r c m H1 H2. apply in_flat_map. exists c. split; eapply nth_error_In; eauto. }
  destruct p as [|p], q as [|q]; cbn in Hp, Hq.
  - split; [reflexivity|]. injection Hp as <-. injection Hq as <-. assert (X : NoDup (f x)).
    { clear - ND. induction (f x) as [|y u IH]; [constructor|]. cbn in ND. inversion ND; subst. constructor; [|auto]. intros Z. apply H1, in_or_app. now left. }
    rewrite NoDup_nth_error in X. apply X; [apply nth_error_Some; congruence|congruence].
  - exfalso. injection Hp as <-. apply (D k); [eapply nth_error_In; eauto|eapply F; eauto].
  - exfalso. injection Hq as <-. apply (D k); [eapply nth_error_In; eauto|eapply F; eauto].
  - assert (ND' : NoDup (flat_map f l)).
    { clear - ND. induction (f x) as [|y u IH]; [exact ND|]. cbn in ND. inversion ND. auto. }
    destruct (IH ND' p q a b i j k Hp Hq Hi Hj). auto.
Qed.
Lemma owner_unique T tr s p q a b i j k : crun T cluster_init tr s -> nth_error (cl_programs s) p = Some a -> nth_error (cl_programs s) q = Some b ->
  nth_error (pr_sockets a) i = Some k -> nth_error (pr_sockets b) j = Some k -> p = q /\ i = j.
Proof. intros R. destruct (owned_inv _ _ _ R) as [N _]. exact (nodup_flat _ _ N p q a b i j k). Qed.

(** ** The listener at the socket, and the listener in the pool *)
Definition same_state (y z : net_state) : Prop :=
  ns_queue y = ns_queue z /\ ns_edge y = ns_edge z /\ ns_buffer y = ns_buffer z /\
  match ns_pc y, ns_pc z with
  | Dispatching k pkt src P R pan, Dispatching k' pkt' src' P' R' pan' =>
      k = k' /\ pkt = pkt' /\ src = src' /\ pan = pan' /\ Permutation P P' /\ Permutation R R'
  | a, b => a = b
  end.
Lemma same_refl y : same_state y y.
Proof. unfold same_state. repeat (split; [reflexivity|]). destruct (ns_pc y); auto 8. Qed.
Lemma step_same c y l y1 y2 : step c y l y1 -> step c y l y2 -> same_state y1 y2.
Proof.
  intros S1 S2. destruct S1; inversion S2; subst; try apply same_refl;
    repeat match goal with E : ns_pc ?v = _, E' : ns_pc ?v = _ |- _ => rewrite E in E'; injection E'; intros; subst; clear E' end; try apply same_refl; try congruence.
  - rewrite H0 in H2. injection H2 as <- <- <-. apply same_refl.
  - unfold same_state. cbn [set_pc ns_queue ns_edge ns_buffer ns_pc]. repeat (split; [reflexivity|]).
    assert (P : Permutation (before ++ r :: after) (before0 ++ r :: after0)) by (match goal with E : _ ++ r :: _ = _ ++ r :: _ |- _ => rewrite E end; reflexivity).
    apply Permutation_app_inv in P. repeat (split; [reflexivity|]). split; [exact P|reflexivity].
  - unfold same_state. cbn [set_pc ns_queue ns_edge ns_buffer ns_pc]. repeat (split; [reflexivity|]).
    assert (P : Permutation (before ++ r :: after) (before0 ++ r :: after0)) by (match goal with E : _ ++ r :: _ = _ ++ r :: _ |- _ => rewrite E end; reflexivity).
    apply Permutation_app_inv in P. repeat (split; [reflexivity|]). exact P.
  - unfold same_state. cbn [set_pc ns_queue ns_edge ns_buffer ns_pc]. repeat (split; [reflexivity|]).
    assert (P : Permutation (before ++ r :: after) (before0 ++ r :: after0)) by (match goal with E : _ ++ r :: _ = _ ++ r :: _ |- _ => rewrite E end; reflexivity).
    apply Permutation_app_inv in P. repeat (split; [reflexivity|]). exact P.
Qed.
Lemma rel1_same ts F pn i c x y z : rel1 ts F pn i c x y -> same_state y z -> rel1 ts F pn i c x z.
Proof.
  unfold rel1, same_state. intros H (S1 & S2 & S3 & S4). destruct y as [qy ey by_ py], z as [qz ez bz pz]. cbn in *. subst.
  destruct (ns_pc x) as [| |k pkt src pe ru pa|] eqn:E.
  - destruct H as [<- H]. cbn in *. rewrite E in S4. subst pz. split; [|exact H]. now rewrite E.
  - destruct H as [<- H]. cbn in *. rewrite E in S4. subst pz. split; [|exact H]. now rewrite E.
  - destruct H as (P & R & sk & pan & H1 & H2 & H3 & H4 & H5). unfold set_pc in H1. injection H1 as -> -> -> ->.
    destruct pz as [| |k' pkt' src' P' R' pan'|]; try discriminate S4. destruct S4 as (<- & <- & <- & <- & S5 & S6).
    exists P', R', sk, pan. split; [reflexivity|]. split; [now rewrite <- S6|]. split; [now rewrite <- S5|auto].
  - destruct H as [<- H]. cbn in *. rewrite E in S4. subst pz. split; [|exact H]. now rewrite E.
Qed.

Lemma slot_other T w e w' k sk : wstep T w e w' -> nth_error (w_sockets w) k = Some sk -> about k e = false -> nth_error (w_sockets w') k = Some sk.
Proof.
  intros S H A. destruct (slot_kept _ _ _ _ _ _ S H) as (sk' & H'). rewrite H'. f_equal.
  destruct (slot_step _ _ _ _ _ _ S H') as [(x & Hx & C)|(K & _)].
  - rewrite H in Hx. injection Hx as <-. destruct C; cbn in A; rewrite ?Nat.eqb_refl in A; congruence.
  - exfalso. assert (k < length (w_sockets w)) by (apply nth_error_Some; congruence). lia.
Qed.
Lemma slot_listener T w k l w' : wstep T w (WListener k l) w' -> exists sk c y y', nth_error (w_sockets w) k = Some sk /\ sk_end sk = Listening c y /\
  step c y l y' /\ (forall d, l <> LArrive d) /\ w' = set_end w k sk (Listening c y').
Proof. intros S. inversion S; subst. eauto 9. Qed.
Lemma slot_set w k sk e : nth_error (w_sockets w) k = Some sk -> nth_error (w_sockets (set_end w k sk e)) k = Some (with_end sk e).
Proof.
  intros H. assert (L : k < length (w_sockets w)) by (apply nth_error_Some; congruence). apply Nat.ltb_lt in L.
  cbn. now rewrite nth_error_set_nth, Nat.eqb_refl, L.
Qed.

Definition linked (w : world) (ks : list nat) (ps : pool_state) : Prop :=
  length ks = length ps /\
  forall i k, nth_error ks i = Some k -> exists c y sk, nth_error ps i = Some (c, y) /\ nth_error (w_sockets w) k = Some sk /\ sk_end sk = Listening c y.
Definition link (w : world) (a : program) : Prop :=
  pr_running a = true ->
  exists ps, rel (ry_listeners (pr_pool a)) (ry_tasks (pr_pool a)) (flat (pr_pool a)) (ry_panicked (pr_pool a)) ps /\ linked w (pr_sockets a) ps.
Lemma link_other T w e w' a : wstep T w e w' -> (forall k, In k (pr_sockets a) -> about k e = false) -> link w a -> link w' a.
Proof.
  intros S A L RUN. destruct (L RUN) as (ps & X & L1 & L2). exists ps. split; [exact X|]. split; [exact L1|].
  intros i k H. destruct (L2 _ _ H) as (c & y & sk & E1 & E2 & E3). exists c, y, sk. split; [exact E1|]. split; [|exact E3].
  eapply slot_other; eauto. apply A. eapply nth_error_In; eauto.
Qed.
Lemma link_world T w e w' ps a : wstep T w e w' -> elsewhere ps e -> In a ps -> link w a -> link w' a.
Proof.
  intros S EL I L RUN. destruct (L RUN) as (qs & X & L1 & L2). exists qs. split; [exact X|]. split; [exact L1|].
  intros i k H. destruct (L2 _ _ H) as (c & y & sk & E1 & E2 & E3). exists c, y, sk. split; [exact E1|]. split; [|exact E3].
  assert (K : In k (pr_sockets a)) by (eapply nth_error_In; eauto).
  destruct (slot_kept _ _ _ _ _ _ S E2) as (sk' & H'). rewrite H'. f_equal.
  destruct (slot_step _ _ _ _ _ _ S H') as [(x & Hx & C)|(Z & _)].
  - rewrite E2 in Hx. injection Hx as <-. destruct C; try congruence; exfalso; cbn in EL; try contradiction; eapply EL; eauto.
  - exfalso. assert (k < length (w_sockets w)) by (apply nth_error_Some; congruence). lia.
Qed.

Lemma pool_run_nil_inv N ps ps' : pool_run N ps [] ps' -> ps' = ps.
Proof. intros R. remember [] as tr eqn:E. destruct R as [|ps tr ps1 l ps2]; [reflexivity|]. destruct tr; discriminate. Qed.
Lemma pool_run_one_inv N ps l ps' : pool_run N ps [l] ps' -> pool_step N ps l ps'.
Proof.
  intros R. remember [l] as tr eqn:E. destruct R as [|ps tr ps1 l' ps2 R S]; [discriminate|].
  destruct tr as [|? [|]]; try discriminate. injection E as ->. apply pool_run_nil_inv in R. now subst.
Qed.
Lemma acts_visible l i a : acts l = Some (i, a) -> visible [l] = [GStep i a].
Proof. destruct l as [[|j b]|w [[|j b]|]]; cbn; intros H; try discriminate; now injection H as -> ->. Qed.

(** one listener makes a step in both *)
Lemma link_step s l s' i a ps w ks : forest s -> calm s -> ry_step s l s' -> visible [l] = [GStep i a] ->
  rel (ry_listeners s) (ry_tasks s) (flat s) (ry_panicked s) ps -> linked w ks ps -> 
  exists p1 c y p2 y', ps = p1 ++ (c, y) :: p2 /\ length p1 = i /\ step c y a y' /\
    forall z, same_state y' z -> rel (ry_listeners s') (ry_tasks s') (flat s') (ry_panicked s') (p1 ++ (c, z) :: p2).
Proof.
  intros T C S V X L. destruct (simulate _ _ _ _ T C S X) as (ps' & P & X'). rewrite V in P. apply pool_run_one_inv in P.
  inversion P as [|p1 c y p2 a' y' St _]; subst. exists p1, c, y, p2, y'. split; [reflexivity|]. split; [reflexivity|]. split; [exact St|].
  intros z Z. destruct X' as (L1 & L2 & L3). split; [rewrite !app_length in *; exact L1|]. split; [exact L2|].
  intros j c0 s0 E. destruct (L3 _ _ _ E) as (y0 & E1 & E2). destruct (Nat.eq_dec j (length p1)) as [->|N].
  - rewrite nth_error_mid in E1. injection E1 as <- <-. exists z. split; [apply nth_error_mid|]. eapply rel1_same; eauto.
  - exists y0. split; [|exact E2]. now rewrite (nth_error_other _ (c, z) (c, y') _ _ N).
Qed.
Lemma linked_step w k sk c y p1 p2 z ks : linked w ks (p1 ++ (c, y) :: p2) -> NoDup ks -> nth_error ks (length p1) = Some k ->
  nth_error (w_sockets w) k = Some sk -> linked (set_end w k sk (Listening c z)) ks (p1 ++ (c, z) :: p2).
Proof.
  intros [L1 L2] ND K E. split; [rewrite !app_length in *; exact L1|]. intros j k' J.
  destruct (L2 _ _ J) as (c' & y' & sk' & E1 & E2 & E3). destruct (Nat.eq_dec j (length p1)) as [->|N].
  - rewrite K in J. injection J as <-. exists c, z, (with_end sk (Listening c z)). split; [apply nth_error_mid|]. split; [|reflexivity].
    apply slot_set. exact E.
  - exists c', y', sk'. split; [now rewrite (nth_error_other _ (c, z) (c, y) _ _ N)|]. split; [|exact E3].
    cbn. rewrite nth_error_set_nth. destruct (Nat.eqb_spec k k') as [<-|N2]; [|exact E2]. exfalso. apply N.
    rewrite NoDup_nth_error in ND. apply ND; [apply nth_error_Some; congruence|congruence].
Qed.
Lemma about_listener k j a : j <> k -> about j (WListener k a) = false.
Proof. intros N. cbn. now apply Nat.eqb_neq. Qed.

Lemma nodup_sockets T tr s p a : crun T cluster_init tr s -> nth_error (cl_programs s) p = Some a -> NoDup (pr_sockets a).
Proof.
  intros R H. rewrite NoDup_nth_error. intros i j Li E. destruct (nth_error (pr_sockets a) i) as [k|] eqn:Ei; [|apply nth_error_None in Ei; lia].
  eapply owner_unique; eauto.
Qed.
Lemma other_socket T tr s p q a b i k : crun T cluster_init tr s -> nth_error (cl_programs s) p = Some a -> nth_error (cl_programs s) q = Some b ->
  p <> q -> nth_error (pr_sockets a) i = Some k -> forall j, In j (pr_sockets b) -> j <> k.
Proof. intros R Ha Hb N K j J ->. apply In_nth_error in J as (m & J). apply N. exact (proj1 (owner_unique _ _ _ _ _ _ _ _ _ _ R Ha Hb K J)). Qed.

Lemma link_inv T tr s : crun T cluster_init tr s -> forall p a, nth_error (cl_programs s) p = Some a -> link (cl_world s) a.
Proof.
  intros R. remember cluster_init as s0 eqn:E0. induction R as [s|s tr s' e s'' R IH S]; subst.
  - intros [|p] a H; discriminate.
  - specialize (IH eq_refl). intros p a' H.
    assert (FC : forall q b, nth_error (cl_programs s') q = Some b -> forest (pr_pool b) /\ calm (pr_pool b)).
    { intros q b Hb. destruct (cluster_inv _ _ _ R) as (_ & _ & I & _). destruct (I _ _ Hb) as ((wk & _ & J) & _).
      split; [eapply forest_run; eauto|eapply calm_run; eauto]. }
    pose proof (fun a => nodup_sockets T tr s' p a R) as ND.
    pose proof (fun q a b i k => other_socket T tr s' q p a b i k R) as OS.
    destruct S as [w ps n|w ps e w' W EL|w w' p1 ks s1 s' p2 k sk n q cfg H1 H2 W R1|w w' p1 ks s1 s' p2 i k m H1 W R1|w w' p1 ks s1 s' p2 l i k a H1 H2 W R1|w p1 ks s1 s' p2 v R1|w p1 ks s1 p2];
      cbn [cl_programs cl_world] in *.
    + destruct (Nat.lt_ge_cases p (length ps)) as [L|L].
      * rewrite nth_error_app1 in H by exact L. eauto.
      * rewrite nth_error_app2 in H by exact L. destruct (p - length ps) as [|[|x]] eqn:D; cbn in H; try discriminate.
        injection H as <-. intros _. exists []. split; [apply rel_init|]. split; [reflexivity|]. intros [|i] k X; discriminate.
    + eapply link_world; eauto. eapply nth_error_In; eauto.
    + (* start *)
      destruct (nth_mid_cases p1 (PR true ks s1) _ p2 _ _ H) as [[-> ->]|[N G]].
      * intros _. destruct (FC _ _ (nth_error_mid _ _ _)) as [T1 C1]. destruct (IH _ _ (nth_error_mid _ _ _) eq_refl) as (qs & X & L1 & L2). cbn [pr_pool pr_sockets] in *.
        destruct (simulate _ _ _ _ T1 C1 R1 X) as (ps' & P & X'). cbn [visible] in P. apply pool_run_one_inv in P.
        inversion P; subst. eexists. split; [exact X'|]. split; [rewrite !app_length, L1; reflexivity|].
        inversion W as [| | | |w0 k0 sk0 n0 q0 cfg0 X1 X2| | | | | |]; subst. rewrite H1 in X1. injection X1 as <-. rewrite H2 in X2. injection X2 as <- <-.
        intros j k' J. destruct (Nat.lt_ge_cases j (length ks)) as [Lj|Lj].
        -- rewrite nth_error_app1 in J by exact Lj. destruct (L2 _ _ J) as (c & y & sk' & E1 & E2 & E3). exists c, y, sk'.
           split; [rewrite nth_error_app1 by lia; exact E1|]. split; [|exact E3]. cbn. rewrite nth_error_set_nth.
           destruct (Nat.eqb_spec k k') as [<-|N]; [congruence|exact E2].
        -- rewrite nth_error_app2 in J by exact Lj. destruct (j - length ks) as [|[|x]] eqn:D; cbn in J; try discriminate. injection J as <-.
           exists (listen_config cfg n), (net_init (listen_config cfg n) q), (with_end sk (Listening (listen_config cfg n) (net_init (listen_config cfg n) q))).
           split; [rewrite nth_error_app2 by lia; replace (j - length qs) with 0 by lia; reflexivity|]. split; [|reflexivity]. now apply slot_set.
      * eapply link_other; [exact W| |eapply IH; exact G]. intros j J. cbn. apply Nat.eqb_neq. intros ->.
        destruct (owned_inv _ _ _ R) as [_ O]. destruct (O k) as (sk' & O1 & O2).
        { apply in_flat_map. exists a'. split; [eapply nth_error_In; eauto|exact J]. }
        cbn [cl_world] in O1. rewrite H1 in O1. injection O1 as <-. rewrite H2 in O2. exact O2.
    + (* deliver *)
      destruct (nth_mid_cases p1 (PR true ks s1) _ p2 _ _ H) as [[-> ->]|[N G]].
      * intros _. destruct (FC _ _ (nth_error_mid _ _ _)) as [T1 C1]. destruct (IH _ _ (nth_error_mid _ _ _) eq_refl) as (qs & X & L). cbn [pr_pool pr_sockets] in *.
        destruct (link_step _ _ _ i (LArrive (datagram_of m)) _ _ _ T1 C1 R1 eq_refl X L) as (q1 & c & y & q2 & y' & -> & <- & St & Y).
        inversion W as [| | | | | | | | |w0 k0 sk0 m0 W1 W2 W3 W4|]; subst.
        destruct L as [L1 L2]. destruct (L2 _ _ H1) as (c' & y'' & sk & E1 & E2 & E3). rewrite nth_error_mid in E1. injection E1 as <- <-.
        rewrite E2 in W1. injection W1 as <-. rewrite E3. cbn [arrive]. exists (q1 ++ (c, {| ns_queue := ns_queue y ++ [datagram_of m]; ns_edge := true;
                                    ns_buffer := ns_buffer y; ns_pc := ns_pc y |}) :: q2). split.
        -- apply Y. eapply step_same; [exact St|constructor].
        -- eapply linked_step; [split; eauto| |exact H1|exact E2]. exact (ND _ (nth_error_mid _ _ _)).
      * eapply link_other; [exact W| |eapply IH; exact G]. intros j J. cbn. apply Nat.eqb_neq. eapply (OS (length p1) _ a' i k (nth_error_mid _ _ _) G); [congruence|exact H1|exact J].
    + (* a step that is seen *)
      destruct (nth_mid_cases p1 (PR true ks s1) _ p2 _ _ H) as [[-> ->]|[N G]].
      * intros _. destruct (FC _ _ (nth_error_mid _ _ _)) as [T1 C1]. destruct (IH _ _ (nth_error_mid _ _ _) eq_refl) as (qs & X & L). cbn [pr_pool pr_sockets] in *.
        destruct (link_step _ _ _ i a _ _ _ T1 C1 R1 (acts_visible _ _ _ H1) X L) as (q1 & c & y & q2 & y' & -> & <- & St & Y).
        destruct (slot_listener _ _ _ _ _ W) as (sk0 & c0 & y0 & z & W1 & W2 & W3 & W4 & ->).
        destruct L as [L1 L2]. destruct (L2 _ _ H2) as (c' & y'' & sk & E1 & E2 & E3). rewrite nth_error_mid in E1. injection E1 as <- <-.
        rewrite E2 in W1. injection W1 as <-. rewrite E3 in W2. injection W2 as <- <-. exists (q1 ++ (c, z) :: q2). split.
        -- apply Y. eapply step_same; eauto.
        -- eapply linked_step; [split; eauto| |exact H2|exact E2]. exact (ND _ (nth_error_mid _ _ _)).
      * eapply link_other; [exact W| |eapply IH; exact G]. intros j J. apply about_listener. eapply (OS (length p1) _ a' i k (nth_error_mid _ _ _) G); [congruence|exact H2|exact J].
    + destruct (nth_mid_cases p1 (PR true ks s1) _ p2 _ _ H) as [[-> ->]|[N G]]; [|eauto].
      intros _. destruct (FC _ _ (nth_error_mid _ _ _)) as [T1 C1]. destruct (IH _ _ (nth_error_mid _ _ _) eq_refl) as (qs & X & L). cbn [pr_pool pr_sockets] in *.
      destruct (simulate _ _ _ _ T1 C1 R1 X) as (ps' & P & X'). cbn [visible] in P. apply pool_run_nil_inv in P. subst. eauto.
    + destruct (nth_mid_cases p1 (PR true ks s1) _ p2 _ _ H) as [[-> ->]|[N G]]; [discriminate|eauto].
Qed.

(** ** The same happens in both *)
Lemma step_trace T tr s e s' p a i k : crun T cluster_init tr s -> cstep T s e s' -> nth_error (cl_programs s) p = Some a -> pr_running a = true ->
  nth_error (pr_sockets a) i = Some k -> trace_at k (world_events [e]) = trace_of i (visible (program_events p [e])).
Proof.
  intros R S H RUN K.
  destruct S as [w ps n|w ps e w' W EL|w w' p1 ks s1 s' p2 k' sk n q cfg H1 H2 W R1|w w' p1 ks s1 s' p2 i' k' m H1 W R1|w w' p1 ks s1 s' p2 l i' k' b H1 H2 W R1|w p1 ks s1 s' p2 v R1|w p1 ks s1 p2];
    cbn [cl_programs cl_world] in *; try reflexivity.
  - cbn [world_events program_events program_event visible trace_of]. destruct e; try reflexivity; cbn in EL; try contradiction.
    cbn [trace_at]. destruct (Nat.eqb_spec k k0) as [->|]; [|reflexivity]. exfalso. eapply EL; [eapply nth_error_In; exact H|exact RUN|eapply nth_error_In; exact K].
  - cbn. destruct (p =? length p1); reflexivity.
  - cbn [world_events program_events program_event trace_at]. destruct (Nat.eqb_spec p (length p1)) as [->|N].
    + cbn [visible trace_of]. rewrite nth_error_mid in H. injection H as <-. cbn [pr_sockets] in K.
      destruct (Nat.eqb_spec k k') as [->|N1], (Nat.eqb_spec i i') as [->|N2]; try reflexivity; exfalso.
      * apply N2. exact (proj2 (owner_unique _ _ _ _ _ _ _ _ _ _ R (nth_error_mid _ _ _) (nth_error_mid _ _ _) K H1)).
      * congruence.
    + destruct (Nat.eqb_spec k k') as [->|N1]; [|reflexivity]. exfalso. apply N. exact (proj1 (owner_unique _ _ _ _ _ _ _ _ _ _ R H (nth_error_mid _ _ _) K H1)).
  - cbn [world_events program_events program_event]. rewrite H1. cbn [trace_at]. destruct (Nat.eqb_spec p (length p1)) as [->|N].
    + rewrite (acts_visible _ _ _ H1). cbn [trace_of]. rewrite nth_error_mid in H. injection H as <-. cbn [pr_sockets] in K.
      destruct (Nat.eqb_spec k k') as [->|N1], (Nat.eqb_spec i i') as [->|N2]; try reflexivity; exfalso.
      * apply N2. exact (proj2 (owner_unique _ _ _ _ _ _ _ _ _ _ R (nth_error_mid _ _ _) (nth_error_mid _ _ _) K H2)).
      * congruence.
    + destruct (Nat.eqb_spec k k') as [->|N1]; [|reflexivity]. exfalso. apply N. exact (proj1 (owner_unique _ _ _ _ _ _ _ _ _ _ R H (nth_error_mid _ _ _) K H2)).
  - cbn [world_events program_events program_event trace_at]. now destruct (p =? length p1).
Qed.
Lemma ry_counts n tr s : ry_run (ry_init n) tr s -> length (started (visible tr)) = length (ry_listeners s) /\
  (forall i, length (ry_listeners s) <= i -> trace_of i (visible tr) = []) /\
  (forall i c q x, nth_error (started (visible tr)) i = Some (c, q) -> nth_error (ry_listeners s) i = Some x -> fst x = c).
Proof.
  intros R. destruct (simulate_run _ _ _ R) as (ps & P & L & _ & X). destruct (pool_inv _ _ _ P) as (A & B & C). split; [congruence|].
  split; [intros i H; apply B; lia|]. intros i c q [c' x] H H'. destruct (X _ _ _ H') as (y & E & _). destruct (C _ _ _ H) as (z & E' & _). cbn. congruence.
Qed.
Lemma trace_inv T tr s : crun T cluster_init tr s -> forall p a i k, nth_error (cl_programs s) p = Some a -> pr_running a = true ->
  nth_error (pr_sockets a) i = Some k ->
  exists c q, nth_error (started (visible (program_events p tr))) i = Some (c, q) /\
    trace_at k (world_events tr) = map LArrive q ++ trace_of i (visible (program_events p tr)).
Proof.
  intros R. remember cluster_init as s0 eqn:E0. induction R as [s|s tr s' e s'' R IH S]; subst.
  - intros [|p] a i k H; discriminate.
  - specialize (IH eq_refl). intros p a' i k H RUN K.
    destruct (program_step _ _ _ _ _ _ S H) as [(a & Ha & C)|(n & -> & -> & ->)]; [|destruct i; discriminate].
    assert (OLD : pr_running a = true -> nth_error (pr_sockets a) i = Some k ->
      exists c q, nth_error (started (visible (program_events p (tr ++ [e])))) i = Some (c, q) /\
        trace_at k (world_events (tr ++ [e])) = map LArrive q ++ trace_of i (visible (program_events p (tr ++ [e])))).
    { intros RA KA. destruct (IH _ _ _ _ Ha RA KA) as (c & q & I1 & I2). exists c, q.
      rewrite program_events_app, world_events_app, visible_app, started_app, trace_at_app, trace_of_app, I2, (step_trace _ _ _ _ _ _ _ _ _ R S Ha RA KA), app_assoc.
      split; [|reflexivity]. rewrite nth_error_app1; [exact I1|]. apply nth_error_Some. congruence. }
    destruct C as [C1 C2|l x C1 C2 C3|C1 ->]; [exact (OLD RUN K)| |discriminate RUN].
    cbn [pr_sockets] in K. destruct (Nat.lt_ge_cases i (length (pr_sockets a))) as [L|L]; [rewrite nth_error_app1 in K by exact L; exact (OLD C1 K)|].
    rewrite nth_error_app2 in K by exact L. clear OLD IH.
    destruct (cluster_inv _ _ _ R) as (W & _ & I & _). destruct (I _ _ Ha) as ((wk & _ & RR) & _). destruct (ry_counts _ _ _ RR) as (N1 & N2 & _).
    destruct (link_inv _ _ _ R _ _ Ha C1) as (ps & X & LK & _). assert (LL : length (ry_listeners (pr_pool a)) = length (pr_sockets a)) by (rewrite LK; symmetry; exact (proj1 X)).
    destruct S as [w ps0 n|w ps0 e w' W0 EL|w w' p1 ks s1 s' p2 k' sk n q cfg H1 H2 W0 R1|w w' p1 ks s1 s' p2 i' k' m H1 W0 R1|w w' p1 ks s1 s' p2 l0 i' k' b H1 H2 W0 R1|w p1 ks s1 s' p2 v R1|w p1 ks s1 p2];
      cbn [cl_programs cl_world started_on] in *; try (destruct (i - length (pr_sockets a)); discriminate).
    destruct (Nat.eqb_spec p (length p1)) as [->|N]; [|destruct (i - length (pr_sockets a)); discriminate].
    destruct (i - length (pr_sockets a)) as [|[|z]] eqn:D; cbn in K; try discriminate. injection K as <-.
    exists (listen_config cfg n), q. rewrite program_events_app, world_events_app, visible_app, started_app, trace_at_app, trace_of_app. cbn [program_events program_event].
    rewrite Nat.eqb_refl. cbn [visible started trace_of world_events trace_at]. rewrite !app_nil_r. split.
    + rewrite nth_error_app2 by lia. replace (i - _) with 0 by lia. reflexivity.
    + rewrite (N2 i) by lia. rewrite app_nil_r. destruct (world_inv_run _ _ _ W) as (_ & J & _). specialize (J _ _ H1). unfold slot_inv in J. rewrite H2 in J. apply J.
Qed.

(** C123. Programs on several hosts, each with its own work-stealing pool, on one network: what happens at and between the sockets is an execution of
    World.v, and what happens in each program one of Rayon.v. So all that holds for each of these two (C48-C120) holds of the same execution. *)
Lemma p_C123_world_and_pools_at_once :
  forall (T : topology) (tr : list cluster_event) (s : cluster),
    crun T cluster_init tr s ->
    wrun T world_init (world_events tr) (cl_world s) /\
    length (cl_programs s) = length (programs tr) /\
    forall (p : nat) (pr : program), nth_error (cl_programs s) p = Some pr ->
      exists workers, nth_error (programs tr) p = Some workers /\ ry_run (ry_init workers) (program_events p tr) (pr_pool pr) /\
        pr_sockets pr = started_on p tr /\ (pr_running pr = true <-> ~ In (CExit p) tr).
Proof.
  intros T tr s R. destruct (cluster_inv _ _ _ R) as (I1 & I2 & I3 & _). split; [exact I1|]. split; [exact I2|].
  intros p pr H. destruct (I3 _ _ H) as ((wk & J1 & J2) & J3 & J4). exists wk. auto.
Qed.

(** C123. The two are about the same listeners: no two listeners, of whichever programs, have the same socket; and while the program runs, its
    [i]-th listener does in the pool what the listener on that socket does in the world, with the configuration and receivers it has there, beginning with what was waiting there. *)
Lemma p_C123_the_same_listeners :
  forall (T : topology) (tr : list cluster_event) (s : cluster) (p i k : nat),
    crun T cluster_init tr s -> nth_error (started_on p tr) i = Some k ->
    (forall p' i', nth_error (started_on p' tr) i' = Some k -> p' = p /\ i' = i) /\
    (~ In (CExit p) tr ->
     exists cfg c q, In (WStart k cfg) (world_events tr) /\ configured_as c cfg (added k (world_events tr)) /\
       nth_error (started (visible (program_events p tr))) i = Some (c, q) /\
       trace_at k (world_events tr) = map LArrive q ++ trace_of i (visible (program_events p tr))).
Proof.
  intros T tr s p i k R K. destruct (cluster_inv _ _ _ R) as (I1 & I2 & I3 & I4).
  assert (EX : forall p j x, nth_error (started_on p tr) j = Some x -> exists a, nth_error (cl_programs s) p = Some a /\ pr_sockets a = started_on p tr).
  { intros p' j x H. destruct (nth_error (cl_programs s) p') as [a|] eqn:Ea.
    - exists a. split; [reflexivity|]. apply (I3 _ _ Ea).
    - apply nth_error_None in Ea. destruct (I4 _ Ea) as (_ & E & _). rewrite E in H. destruct j; discriminate. }
  destruct (EX _ _ _ K) as (a & Ha & Ea). split.
  - intros p' i' K'. destruct (EX _ _ _ K') as (b & Hb & Eb). rewrite <- Ea in K. rewrite <- Eb in K'. eapply owner_unique; eauto.
  - intros NE. destruct (I3 _ _ Ha) as ((wk & J1 & J2) & J3 & J4). rewrite <- Ea in K. apply J4 in NE.
    destruct (trace_inv _ _ _ R _ _ _ _ Ha NE K) as (c & q & E1 & E2).
    destruct (link_inv _ _ _ R _ _ Ha NE) as (ps & X & L1 & L2). destruct (L2 _ _ K) as (c' & y & sk & E3 & E4 & E5).
    assert (Y : nth_error (ry_listeners (pr_pool a)) i <> None).
    { apply nth_error_Some. rewrite <- (proj1 X). apply nth_error_Some. congruence. }
    destruct (nth_error (ry_listeners (pr_pool a)) i) as [[c0 x]|] eqn:E6; [|congruence].
    pose proof (proj2 (proj2 (ry_counts _ _ _ J2)) _ _ _ _ E1 E6) as E7. cbn in E7. subst c0.
    destruct (proj2 (proj2 X) _ _ _ E6) as (y' & E8 & _). rewrite E3 in E8. injection E8 as -> ->.
    destruct (world_inv_run _ _ _ I1) as (_ & J & _). specialize (J _ _ E4). unfold slot_inv in J. rewrite E5 in J.
    destruct J as (_ & _ & _ & cfg & -> & Z & _). exists cfg, (listen_config cfg (added k (world_events tr))), q. split; [exact Z|]. split; [apply configured_listen_config|auto].
Qed.

(** C123. Nothing else restricts the programs: whatever a thread of a running program can do according to Rayon.v, it can do in the cluster, at whatever moment; *)
Lemma p_C123_threads_go_on_as_in_the_pool :
  forall (T : topology) (tr : list cluster_event) (s : cluster) (p : nat) (pr : program) (l : ry_label) (x : ry_state),
    crun T cluster_init tr s -> nth_error (cl_programs s) p = Some pr -> pr_running pr = true ->
    ry_step (pr_pool pr) l x -> ~ is_external_here l ->
    exists at_ s', cstep T s (CThread p l at_) s' /\ pool_in s' p x.
Proof.
  intros T tr s p pr l x R H RUN S NX. destruct s as [w ps0]. cbn [cl_programs] in H. destruct (nth_error_split _ _ H) as (p1 & p2 & -> & <-).
  destruct pr as [run ks y]. cbn [pr_running pr_pool] in *. subst run.
  destruct (cluster_inv _ _ _ R) as (_ & _ & I3 & _). destruct (I3 _ _ (nth_error_mid _ _ _)) as ((wk & _ & RR) & _). cbn [pr_pool] in RR.
  destruct (link_inv _ _ _ R _ _ (nth_error_mid _ _ _) eq_refl) as (ps & X & L). cbn [pr_pool pr_sockets cl_world] in *.
  assert (CASES : (exists i a, acts l = Some (i, a) /\ (forall d, a <> LArrive d)) \/ exists v, l = RWorker v None).
  { destruct l as [[c q|i a]|v [[c q|i a]|]].
    - exfalso. apply NX. exact I.
    - left. exists i, a. split; [reflexivity|]. intros d ->. apply NX. exact I.
    - exfalso. apply NX. exact I.
    - left. exists i, a. split; [reflexivity|]. intros d ->. apply NX. exact I.
    - right. eauto. }
  destruct CASES as [(i & a & A & NA)|(v & ->)].
  - destruct (link_step _ _ _ i a _ _ _ (forest_run _ _ _ RR) (calm_run _ _ _ RR) S (acts_visible _ _ _ A) X L) as (q1 & c & z & q2 & z' & -> & <- & St & _).
    destruct L as [L1 L2]. assert (K : nth_error ks (length q1) <> None) by (apply nth_error_Some; rewrite L1, app_length; cbn; lia).
    destruct (nth_error ks (length q1)) as [k|] eqn:Ek; [|congruence]. destruct (L2 _ _ Ek) as (c' & z0 & sk & E1 & E2 & E3).
    rewrite nth_error_mid in E1. injection E1 as <- <-.
    exists (Some k). eexists. split; [eapply cstep_seen; [exact A|exact Ek|eapply wstep_listener; eauto|exact S]|].
    eexists. split; [cbn; apply nth_error_mid|reflexivity].
  - exists None. eexists. split; [apply cstep_silent; exact S|]. eexists. split; [cbn; apply nth_error_mid|reflexivity].
Qed.
(** C123. ... whatever can be delivered to a socket can be delivered to the listener there, and what waits to be started can be started by any running program. *)
Lemma p_C123_delivery_and_start_as_in_the_world :
  forall (T : topology) (tr : list cluster_event) (s : cluster) (p k : nat) (pr : program) (w' : world),
    crun T cluster_init tr s -> nth_error (cl_programs s) p = Some pr -> pr_running pr = true ->
    (forall i m, nth_error (started_on p tr) i = Some k -> wstep T (cl_world s) (WDeliver k m) w' ->
       exists s', cstep T s (CDeliver p i k m) s' /\ cl_world s' = w') /\
    (forall cfg, wstep T (cl_world s) (WStart k cfg) w' ->
       exists c q s', cstep T s (CStart p k cfg c q) s' /\ cl_world s' = w').
Proof.
  intros T tr s p k pr w' R H RUN. destruct s as [w ps0]. cbn [cl_programs cl_world] in *. destruct (nth_error_split _ _ H) as (p1 & p2 & -> & <-).
  destruct pr as [run ks y]. cbn [pr_running pr_pool] in *. subst run.
  destruct (cluster_inv _ _ _ R) as (_ & _ & I3 & _). destruct (I3 _ _ (nth_error_mid _ _ _)) as ((wk & _ & RR) & EK & _). cbn [pr_pool pr_sockets] in *.
  destruct (link_inv _ _ _ R _ _ (nth_error_mid _ _ _) eq_refl) as (ps & X & L). cbn [pr_pool pr_sockets cl_world] in *. split.
  - intros i m K W. rewrite <- EK in K. destruct L as [L1 L2].
    assert (Y : nth_error (ry_listeners y) i <> None).
    { apply nth_error_Some. rewrite <- (proj1 X), <- L1. apply nth_error_Some. congruence. }
    destruct (nth_error (ry_listeners y) i) as [[c x]|] eqn:E; [|congruence]. destruct (nth_error_split _ _ E) as (l1 & l2 & El & Li).
    destruct y as [ls ts sts pn ck]. cbn [ry_listeners] in *. subst ls i.
    eexists. split; [eapply cstep_deliver; [exact K|exact W|eapply ry_listener; [constructor|reflexivity]]|reflexivity].
  - intros cfg W. inversion W as [| | | |w0 k0 sk n q cfg0 X1 X2| | | | | |]; subst. destruct y as [ls ts sts pn ck].
    do 3 eexists. split; [eapply cstep_start; [exact X1|exact X2|exact W|constructor]|reflexivity].
Qed.
