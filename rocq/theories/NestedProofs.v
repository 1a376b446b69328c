(** * NestedProofs: receivers with locks and rayon (C131) *)
From Coq Require Import Sorted.
From Verif Require Import Base Nested NestedSpec.
Open Scope nat_scope.

Lemma frames_app a b : frames (a ++ b) = frames a ++ frames b.
Proof. unfold frames. now rewrite map_app, concat_app. Qed.
Lemma frames_at t1 w st t2 : frames (t1 ++ Thread w st :: t2) = frames t1 ++ st ++ frames t2.
Proof. rewrite frames_app. reflexivity. Qed.
Lemma in_frames f ts : In f (frames ts) <-> exists t, In t ts /\ In f (t_stack t).
Proof.
  unfold frames. rewrite in_concat. split.
  - intros (x & H & I). apply in_map_iff in H as (t & <- & H). eauto.
  - intros (t & H & I). exists (t_stack t). split; [now apply in_map|assumption].
Qed.

(** ** The number of steps *)
Definition m_frame (f : frame) : nat := length_of (f_code f) + list_sum (map (fun x => length_of (snd x)) (f_joins f)).
Definition m_listener (l : listener) : nat :=
  match l_blocked l with Some _ => 1 | None => 0 end + list_sum (map (fun c => 3 + length_of c) (l_coming l)).
Definition measure (s : state) : nat :=
  list_sum (map (fun x => 1 + length_of (snd x)) (s_available s)) + list_sum (map m_frame (frames (s_threads s))) + list_sum (map m_listener (s_listeners s)).

Ltac sums := rewrite ?frames_at, ?map_app, ?list_sum_app; cbn [map list_sum fold_right app fst snd];
  rewrite ?map_app, ?list_sum_app; cbn [map list_sum fold_right app fst snd].

Lemma measure_step s s' : step s s' -> measure s = S (measure s').
Proof.
  intros S. destruct S; unfold measure; cbn [s_available s_threads s_listeners]; sums; unfold m_frame, m_listener;
    cbn [f_code f_joins l_blocked l_coming length_of map list_sum fold_right snd]; unfold list_sum in *; cbn [map list_sum fold_right snd]; try lia.
Qed.
Lemma measure_run s n s' : run s n s' -> measure s = n + measure s'.
Proof. induction 1 as [|s n s' s'' R IH S]; [reflexivity|]. apply measure_step in S. lia. Qed.

Lemma frames_workers n : frames (repeat (Thread true []) n) = [].
Proof. unfold frames. induction n; [reflexivity|assumption]. Qed.
Lemma measure_init workers others listeners : measure (init workers others listeners) = steps_for others listeners.
Proof.
  unfold measure, init, steps_for. cbn [s_available s_threads s_listeners map list_sum fold_right]. f_equal.
  - rewrite frames_app, frames_workers. cbn [app Nat.add]. generalize 0 at 1 as i.
    induction others as [|c others IH]; intros i; [reflexivity|].
    cbn [length seq combine map]. unfold frames in *. cbn [map concat t_stack app]. cbn [map]. unfold list_sum in *. cbn [fold_right].
    rewrite IH. unfold m_frame. cbn. lia.
  - induction listeners as [|cs listeners IH]; [reflexivity|].
    cbn [map concat]. rewrite map_app, list_sum_app, <- IH. reflexivity.
Qed.

(** C131: Every execution takes at most a number of steps that is known beforehand, from the codes; so whatever the schedule, all comes to an end: either all is done or nothing can go on. *)
Lemma p_C131_no_livelock :
  forall (workers : nat) (others : list code) (listeners : list (list code)) (n : nat) (s : state),
  run (init workers others listeners) n s -> n <= steps_for others listeners.
Proof. intros workers others listeners n s R. apply measure_run in R. rewrite measure_init in R. lia. Qed.

Lemma measure_zero s : measure s = 0 -> all_done s.
Proof.
  unfold measure, all_done. intros M. 
  assert (A : forall c, 1 <= length_of c) by (induction c; cbn; lia).
  destruct s as [av ts ls n]. cbn [s_available s_threads s_listeners] in *. split; [|split].
  - destruct av; [reflexivity|]. cbn in M. lia.
  - apply Forall_forall. intros [w st] H. destruct st as [|f st]; [reflexivity|].
    assert (I : In f (frames ts)) by (apply in_frames; exists (Thread w (f :: st)); split; [assumption|now left]).
    apply in_split in I as (x & y & E). rewrite E, map_app, list_sum_app in M. cbn in M. unfold m_frame in M. specialize (A (f_code f)). lia.
  - apply Forall_forall. intros l H. apply in_split in H as (x & y & ->). rewrite map_app, list_sum_app in M. cbn in M.
    unfold m_listener in M. destruct l as [[j|] [|c cs]]; cbn in M; try lia. reflexivity.
Qed.

(** ** The invariant *)
Record inv (s : state) : Prop := {
  v_ids : NoDup (map fst (s_available s) ++ map f_job (frames (s_threads s)));
  v_lt : forall j, unfinished (s_available s) (s_threads s) j -> j < s_next s;
  v_joins : forall f j k, In f (frames (s_threads s)) -> In (j, k) (f_joins f) -> j < s_next s /\ careful [] k;
  v_careful : forall f, In f (frames (s_threads s)) -> careful (f_held f) (f_code f);
  v_available : forall j c, In (j, c) (s_available s) -> careful [] c;
  v_below : forall t f st, In t (s_threads s) -> t_stack t = f :: st -> Forall (fun g => f_code g = Return /\ f_joins g <> []) st;
  v_others : forall t f, In t (s_threads s) -> t_worker t = false -> In f (t_stack t) -> f_joins f = [] /\ no_rayon (f_code f);
  v_listeners : Forall (fun l => Forall (careful []) (l_coming l)) (s_listeners s);
  v_rank : exists rank : nat -> nat,
    (forall t, In t (s_threads s) -> StronglySorted (fun a b => rank (f_job b) < rank (f_job a)) (t_stack t)) /\
    (forall f j k, In f (frames (s_threads s)) -> In (j, k) (f_joins f) -> In j (map f_job (frames (s_threads s))) -> rank (f_job f) < rank j) }.

Lemma in_threads t (t1 t2 : list thread) x : In t (t1 ++ x :: t2) <-> t = x \/ In t (t1 ++ t2).
Proof. rewrite !in_app_iff. cbn [In]. intuition. Qed.

Lemma in_top f t1 w g st t2 : In f (frames (t1 ++ Thread w (g :: st) :: t2)) <-> f = g \/ In f (frames (t1 ++ Thread w st :: t2)).
Proof. rewrite !frames_at, !in_app_iff. cbn [app In]. intuition. Qed.

(** the code on top of a stack goes on *)
Lemma inv_top av av' t1 w f f' st t2 ls n n' :
  inv (State av (t1 ++ Thread w (f :: st) :: t2) ls n) -> f_job f' = f_job f -> careful (f_held f') (f_code f') ->
  (forall j k, In (j, k) (f_joins f') -> In (j, k) (f_joins f) \/ j = n /\ n' = S n /\ careful [] k) ->
  (w = false -> f_joins f' = [] /\ no_rayon (f_code f')) ->
  (av' = av /\ n' = n \/ exists b, av' = av ++ [(n, b)] /\ n' = S n /\ careful [] b) ->
  inv (State av' (t1 ++ Thread w (f' :: st) :: t2) ls n').
Proof.
  intros [I1 I2 I3 I4 I5 I6 I7 I8 (rank & R1 & R2)] J C JS W A. cbn [s_available s_threads s_listeners s_next] in *.
  assert (F : map f_job (frames (t1 ++ Thread w (f' :: st) :: t2)) = map f_job (frames (t1 ++ Thread w (f :: st) :: t2))).
  { rewrite !frames_at, !map_app. cbn [map app]. now rewrite J. }
  assert (NN : n <= n') by (destruct A as [[_ ->]|(b & _ & -> & _)]; lia).
  assert (FR : ~ In n (map f_job (frames (t1 ++ Thread w (f :: st) :: t2)))) by (intros H; specialize (I2 n (or_intror H)); lia).
  constructor; cbn [s_available s_threads s_listeners s_next].
  - rewrite F. destruct A as [[-> _]|(b & -> & _ & _)]; [assumption|]. rewrite map_app. cbn [map fst].
    rewrite <- app_assoc. cbn [app]. apply NoDup_Add with (a := n) (l := map fst av ++ map f_job (frames (t1 ++ Thread w (f :: st) :: t2))).
    + apply Add_app.
    + split; [assumption|]. intros H. apply in_app_iff in H as [H|H]; [specialize (I2 n (or_introl H))|specialize (I2 n (or_intror H))]; lia.
  - intros j [H|H].
    + destruct A as [[-> ->]|(b & -> & -> & _)]; [apply I2; now left|].
      rewrite map_app in H. apply in_app_iff in H as [H|[<-|[]]]; [specialize (I2 j (or_introl H)); lia|cbn; lia].
    + rewrite F in H. specialize (I2 j (or_intror H)). lia.
  - intros g j k H1 H2. apply in_top in H1 as [->|H1].
    + apply JS in H2 as [H2|(-> & -> & H2)]; [|split; [lia|assumption]].
      destruct (I3 f j k) as [X Y]; [apply in_top; now left|assumption|]. split; [lia|assumption].
    + destruct (I3 g j k) as [X Y]; [apply in_top; now right|assumption|]. split; [lia|assumption].
  - intros g H. apply in_top in H as [->|H]; [assumption|]. apply I4. apply in_top. now right.
  - intros j c H. destruct A as [[-> _]|(b & -> & _ & CB)]; [eauto|].
    apply in_app_iff in H as [H|[[= <- <-]|[]]]; [eauto|assumption].
  - intros t g r H E. apply in_threads in H as [->|H].
    + cbn [t_stack] in E. injection E as <- <-. apply (I6 (Thread w (f :: st)) f st); [apply in_threads; now left|reflexivity].
    + apply (I6 t g r); [apply in_threads; now right|assumption].
  - intros t g H T G. apply in_threads in H as [->|H].
    + cbn [t_stack t_worker] in *. destruct G as [<-|G]; [auto|]. apply (I7 (Thread w (f :: st)) g); [apply in_threads; now left|assumption|now right].
    + apply (I7 t g); [apply in_threads; now right|assumption|assumption].
  - assumption.
  - exists rank. split.
    + intros t H. apply in_threads in H as [->|H]; [|apply R1; apply in_threads; now right].
      assert (X : StronglySorted (fun a b => rank (f_job b) < rank (f_job a)) (f :: st)) by (apply (R1 (Thread w (f :: st))); apply in_threads; now left).
      inversion X as [|? ? X1 X2]; subst. constructor; [assumption|]. rewrite J. assumption.
    + rewrite F. intros g j k H1 H2 H3. apply in_top in H1 as [->|H1].
      * apply JS in H2 as [H2|(-> & _ & _)]; [|tauto]. rewrite J. apply (R2 f j k); [apply in_top; now left|assumption|assumption].
      * apply (R2 g j k); [apply in_top; now right|assumption|assumption].
Qed.

Lemma rank_bound (rank : nat -> nat) l : exists M, forall j, In j l -> rank j < M.
Proof.
  induction l as [|x l (M & H)]; [exists 0; intros j []|]. exists (S (Nat.max M (rank x))). intros j [->|I]; [lia|]. specialize (H j I). lia.
Qed.

Lemma inv_step s s' : inv s -> step s s' -> inv s'.
Proof.
  intros I S. destruct S.
  - (* inject *)
    destruct I as [I1 I2 I3 I4 I5 I6 I7 I8 I9]. cbn [s_available s_threads s_listeners s_next] in *.
    apply Forall_app in I8 as [L1 L2]. inversion L2 as [|? ? L3 L4]; subst. cbn [l_coming] in L3. inversion L3 as [|? ? L5 L6]; subst.
    constructor; cbn [s_available s_threads s_listeners s_next]; auto.
    + rewrite map_app. cbn [map fst]. rewrite <- app_assoc. cbn [app].
      apply NoDup_Add with (a := n) (l := map fst av ++ map f_job (frames ts)); [apply Add_app|].
      split; [assumption|]. intros H. apply in_app_iff in H as [H|H]; [specialize (I2 n (or_introl H))|specialize (I2 n (or_intror H))]; lia.
    + intros j [H|H]; [|specialize (I2 j (or_intror H)); lia].
      rewrite map_app in H. apply in_app_iff in H as [H|[<-|[]]]; [specialize (I2 j (or_introl H)); lia|cbn; lia].
    + intros f j k H1 H2. destruct (I3 f j k H1 H2). split; [lia|assumption].
    + intros j x H. apply in_app_iff in H as [H|[[= <- <-]|[]]]; [eauto|assumption].
    + apply Forall_app. split; [assumption|]. constructor; [assumption|assumption].
  - (* unblock *)
    destruct I as [I1 I2 I3 I4 I5 I6 I7 I8 I9]. cbn [s_available s_threads s_listeners s_next] in *.
    apply Forall_app in I8 as [L1 L2]. inversion L2 as [|? ? L3 L4]; subst. cbn [l_coming] in L3.
    constructor; cbn [s_available s_threads s_listeners s_next]; auto.
    apply Forall_app. split; [assumption|]. constructor; assumption.
  - (* take *)
    destruct I as [I1 I2 I3 I4 I5 I6 I7 I8 (rank & R1 & R2)]. cbn [s_available s_threads s_listeners s_next] in *.
    assert (NJ : ~ In j (map f_job (frames (t1 ++ Thread true st :: t2)))).
    { intros H'. rewrite map_app in I1. cbn [map fst] in I1. rewrite <- app_assoc in I1. cbn [app] in I1.
      apply NoDup_remove_2 in I1. apply I1. rewrite !in_app_iff. auto. }
    assert (FR : forall g, In g (frames (t1 ++ Thread true (Frame j c [] [] :: st) :: t2)) <-> g = Frame j c [] [] \/ In g (frames (t1 ++ Thread true st :: t2))) by (intros g; apply in_top).
    constructor; cbn [s_available s_threads s_listeners s_next]; auto.
    + rewrite map_app in *. cbn [map fst] in I1. rewrite frames_at in *. rewrite !map_app in *. cbn [map app f_job]. 
      rewrite <- !app_assoc in *. cbn [app] in *.
      apply NoDup_Add with (a := j) (l := map fst a1 ++ map fst a2 ++ map f_job (frames t1) ++ map f_job st ++ map f_job (frames t2)).
      * rewrite !app_assoc. rewrite <- (app_assoc _ (map f_job st)). apply Add_app.
      * apply NoDup_remove in I1. exact I1.
    + intros i [H'|H'].
      * apply I2. left. rewrite map_app in *. cbn [map]. apply in_app_iff in H'. apply in_app_iff. cbn [In]. tauto.
      * apply in_map_iff in H' as (g & <- & G). apply FR in G as [->|G].
        -- apply I2. left. cbn [f_job]. rewrite map_app. apply in_app_iff. right. now left.
        -- apply I2. right. now apply in_map.
    + intros f i k H1 H2. apply FR in H1 as [->|H1]; [destruct H2|]. eauto.
    + intros f H'. apply FR in H' as [->|H']; [|auto]. cbn. apply (I5 j). apply in_app_iff. right. now left.
    + intros i x H'. apply (I5 i). apply in_app_iff in H'. apply in_app_iff. cbn [In]. tauto.
    + intros t f r H' E. apply in_threads in H' as [->|H']; [|apply (I6 t f r); [apply in_threads; now right|assumption]].
      cbn [t_stack] in E. injection E as <- <-. destruct st as [|g st]; [constructor|]. constructor.
      * destruct g as [a [] [|x y] b]; try discriminate H. cbn. split; [reflexivity|discriminate].
      * apply (I6 (Thread true (g :: st)) g st); [apply in_threads; now left|reflexivity].
    + intros t f H' T G. apply in_threads in H' as [->|H']; [discriminate T|]. apply (I7 t f); [apply in_threads; now right|assumption|assumption].
    + destruct (rank_bound rank (map f_job (frames (t1 ++ Thread true st :: t2)))) as (M & HM).
      exists (fun i => if i =? j then M else rank i).
      assert (O : forall g, In g (frames (t1 ++ Thread true st :: t2)) -> (f_job g =? j) = false).
      { intros g G. apply Nat.eqb_neq. intros <-. apply NJ. now apply in_map. }
      split.
      * assert (OS : forall l, (forall g, In g l -> In g (frames (t1 ++ Thread true st :: t2))) -> StronglySorted (fun a b => rank (f_job b) < rank (f_job a)) l ->
          StronglySorted (fun a b => (if f_job b =? j then M else rank (f_job b)) < (if f_job a =? j then M else rank (f_job a))) l).
        { induction l as [|g l IH]; intros HI HS; [constructor|]. inversion HS as [|? ? HS1 HS2]; subst. constructor.
          - apply IH; [|assumption]. intros x X. apply HI. now right.
          - apply Forall_forall. intros x X. rewrite (O x) by (apply HI; now right). rewrite (O g) by (apply HI; now left).
            rewrite Forall_forall in HS2. auto. }
        intros t H'. apply in_threads in H' as [->|H'].
        -- cbn [t_stack]. constructor.
           ++ apply OS; [|apply (R1 (Thread true st)); apply in_threads; now left].
              intros g G. apply in_frames. exists (Thread true st). split; [apply in_threads; now left|assumption].
           ++ apply Forall_forall. intros x X. cbn [f_job]. rewrite Nat.eqb_refl.
              assert (XF : In x (frames (t1 ++ Thread true st :: t2))).
              { apply in_frames. exists (Thread true st). split; [apply in_threads; now left|assumption]. }
              rewrite (O x XF). apply HM. now apply in_map.
        -- apply OS; [|apply R1; apply in_threads; now right]. intros g G. apply in_frames. exists t. split; [apply in_threads; now right|assumption].
      * intros f i k H1 H2 H3. apply FR in H1 as [->|H1]; [destruct H2|]. rewrite (O f H1).
        destruct (i =? j) eqn:E.
        -- apply HM. now apply in_map.
        -- apply (R2 f i k); [assumption|assumption|]. apply in_map_iff in H3 as (g & <- & G). apply FR in G as [->|G]; [|now apply in_map].
           cbn [f_job] in E. rewrite Nat.eqb_refl in E. discriminate E.
  - (* work *)
    eapply inv_top; [exact I|reflexivity| | | |left; auto]; cbn [f_held f_code f_joins].
    + apply (v_careful _ I (Frame j (Work k) js h)). apply in_top. now left.
    + auto.
    + intros ->. apply (v_others _ I (Thread false (Frame j (Work k) js h :: st)) (Frame j (Work k) js h)); [apply in_threads; now left|reflexivity|now left].
  - (* lock *)
    eapply inv_top; [exact I|reflexivity| | | |left; auto]; cbn [f_held f_code f_joins].
    + apply (v_careful _ I (Frame j (Lock m k) js h)). apply in_top. now left.
    + auto.
    + intros ->. apply (v_others _ I (Thread false (Frame j (Lock m k) js h :: st)) (Frame j (Lock m k) js h)); [apply in_threads; now left|reflexivity|now left].
  - (* unlock *)
    eapply inv_top; [exact I|reflexivity| | | |left; auto]; cbn [f_held f_code f_joins].
    + apply (v_careful _ I (Frame j (Unlock m k) js h)). apply in_top. now left.
    + auto.
    + intros ->. apply (v_others _ I (Thread false (Frame j (Unlock m k) js h :: st)) (Frame j (Unlock m k) js h)); [apply in_threads; now left|reflexivity|now left].
  - (* join *)
    pose proof (v_careful _ I (Frame j (Join a b k) js h)) as C. destruct C as (C0 & C1 & C2 & C3); [apply in_top; now left|]. cbn [f_held] in C0. subst h.
    eapply inv_top; [exact I|reflexivity| | | |right; exists b; auto]; cbn [f_held f_code f_joins].
    + assumption.
    + intros i x [[= <- <-]|H]; auto.
    + intros ->. destruct (v_others _ I (Thread false (Frame j (Join a b k) js [] :: st)) (Frame j (Join a b k) js [])) as [_ []]; [apply in_threads; now left|reflexivity|now left].
  - (* joined *)
    pose proof (v_careful _ I (Frame j Return ((i, k) :: js) h)) as C. cbn in C. rewrite C by (apply in_top; now left).
    eapply inv_top; [exact I|reflexivity| | | |left; auto]; cbn [f_held f_code f_joins].
    + apply (v_joins _ I (Frame j Return ((i, k) :: js) h) i k); [apply in_top; now left|now left].
    + intros x y Z. left. now right.
    + intros ->. destruct (v_others _ I (Thread false (Frame j Return ((i, k) :: js) h :: st)) (Frame j Return ((i, k) :: js) h)) as [X _]; [apply in_threads; now left|reflexivity|now left|discriminate X].
  - (* finish *)
    destruct I as [I1 I2 I3 I4 I5 I6 I7 I8 (rank & R1 & R2)]. cbn [s_available s_threads s_listeners s_next] in *.
    assert (FR : forall g, In g (frames (t1 ++ Thread w st :: t2)) -> In g (frames (t1 ++ Thread w (Frame j Return [] h :: st) :: t2))) by (intros g G; apply in_top; now right).
    assert (FM : forall i, In i (map f_job (frames (t1 ++ Thread w st :: t2))) -> In i (map f_job (frames (t1 ++ Thread w (Frame j Return [] h :: st) :: t2)))).
    { intros i X. apply in_map_iff in X as (g & <- & G). apply in_map. auto. }
    constructor; cbn [s_available s_threads s_listeners s_next]; auto.
    + rewrite frames_at in *. rewrite !map_app in *. cbn [map app] in I1. rewrite app_assoc in *. apply NoDup_remove_1 in I1. assumption.
    + intros i [H|H]; apply I2; [now left|right; auto].
    + intros f i k H1 H2. eauto.
    + intros t f r H E. apply in_threads in H as [->|H]; [|apply (I6 t f r); [apply in_threads; now right|assumption]].
      cbn [t_stack] in E. subst st. assert (X : Forall (fun g => f_code g = Return /\ f_joins g <> []) (f :: r)); [|now inversion X].
      apply (I6 (Thread w (Frame j Return [] h :: f :: r)) (Frame j Return [] h)); [apply in_threads; now left|reflexivity].
    + intros t f H T G. apply in_threads in H as [->|H]; [|apply (I7 t f); [apply in_threads; now right|assumption|assumption]].
      cbn [t_worker t_stack] in *. apply (I7 (Thread w (Frame j Return [] h :: st)) f); [apply in_threads; now left|assumption|now right].
    + exists rank. split.
      * intros t H. apply in_threads in H as [->|H]; [|apply R1; apply in_threads; now right].
        assert (X : StronglySorted (fun a b => rank (f_job b) < rank (f_job a)) (Frame j Return [] h :: st)) by (apply (R1 (Thread w (Frame j Return [] h :: st))); apply in_threads; now left).
        now inversion X.
      * intros f i k H1 H2 H3. eauto.
Qed.

Lemma careful_then a b : forall held, careful held a -> careful [] b -> careful held (then_ a b).
Proof.
  induction a as [|k IH|m k IH|m k IH|x IHx y IHy k IH]; intros held; cbn [careful then_].
  - now intros ->.
  - auto.
  - intros [H1 H2] B. auto.
  - intros [H1 H2] B. auto.
  - intros (H0 & H1 & H2 & H3) B. auto.
Qed.
Lemma careful_dispatch rs d : dispatch rs d -> Forall (careful []) rs -> careful [] d.
Proof.
  induction 1 as [|r|l1 l2 a b D1 IH1 D2 IH2|l1 l2 a b D1 IH1 D2 IH2]; intros F.
  - reflexivity.
  - now inversion F.
  - apply Forall_app in F as [F1 F2]. apply careful_then; auto.
  - apply Forall_app in F as [F1 F2]. cbn. auto.
Qed.

Lemma inv_init workers others listeners :
  Forall (careful []) others -> Forall no_rayon others -> Forall (Forall careful_datagram) listeners -> inv (init workers others listeners).
Proof.
  intros HO HN HL. unfold init.
  set (ts := repeat (Thread true []) workers ++ map (fun x => Thread false [Frame (fst x) (snd x) [] []]) (combine (seq 0 (length others)) others)).
  assert (T : forall t, In t ts -> t = Thread true [] \/ exists i c, In (i, c) (combine (seq 0 (length others)) others) /\ t = Thread false [Frame i c [] []]).
  { intros t H. apply in_app_iff in H as [H|H].
    - apply repeat_spec in H. now left.
    - apply in_map_iff in H as ([i c] & <- & H). right. eauto. }
  assert (F : forall f, In f (frames ts) -> exists i c, In (i, c) (combine (seq 0 (length others)) others) /\ f = Frame i c [] []).
  { intros f H. apply in_frames in H as (t & H & X). apply T in H as [->|(i & c & I & ->)]; [destruct X|]. destruct X as [<-|[]]. eauto. }
  assert (J : map f_job (frames ts) = seq 0 (length others)).
  { unfold ts. rewrite frames_app, frames_workers. cbn [app]. generalize 0 as i. clear. induction others as [|c others IH]; intros i; [reflexivity|].
    cbn [length seq combine map]. unfold frames in *. cbn [map concat t_stack app f_job fst]. now rewrite IH. }
  constructor; cbn [s_available s_threads s_listeners s_next map app].
  - rewrite J. apply seq_NoDup.
  - intros j [[]|H]. rewrite J in H. apply in_seq in H. lia.
  - intros f j k H X. apply F in H as (i & c & _ & ->). destruct X.
  - intros f H. apply F in H as (i & c & H & ->). cbn. apply in_combine_r in H. rewrite Forall_forall in HO. auto.
  - intros j c [].
  - intros t f st H E. apply T in H as [->|(i & c & _ & ->)]; [discriminate E|]. injection E as <- <-. constructor.
  - intros t f H W X. apply T in H as [->|(i & c & H & ->)]; [discriminate W|]. destruct X as [<-|[]]. cbn. split; [reflexivity|].
    apply in_combine_r in H. rewrite Forall_forall in HN. auto.
  - apply Forall_forall. intros l H. apply in_map_iff in H as (cs & <- & H). cbn [l_coming]. rewrite Forall_forall in HL.
    apply HL in H. eapply Forall_impl; [|exact H]. cbv beta. intros c (rs & d & R & D & ->). cbn. repeat split; auto. eapply careful_dispatch; eassumption.
  - exists (fun x => x). split.
    + intros t H. apply T in H as [->|(i & c & _ & ->)]; repeat constructor.
    + intros f j k H X. apply F in H as (i & c & _ & ->). destruct X.
Qed.

Lemma inv_run s n s' : inv s -> run s n s' -> inv s'.
Proof. intros I R. revert I. induction R as [|s n s' s'' R IH S]; [auto|]. intros I. exact (inv_step _ _ (IH I) S). Qed.

(** ** Progress *)
Lemma locked_dec ts m : {locked ts m} + {~ locked ts m}.
Proof.
  unfold locked. destruct (Exists_dec (fun f => In m (f_held f)) (frames ts) (fun f => in_dec Nat.eq_dec m (f_held f))) as [E|E].
  - left. now apply Exists_exists in E.
  - right. intros X. apply E. now apply Exists_exists.
Qed.
Lemma unfinished_dec av ts j : {unfinished av ts j} + {~ unfinished av ts j}.
Proof.
  unfold unfinished. destruct (in_dec Nat.eq_dec j (map fst av)); [left; now left|].
  destruct (in_dec Nat.eq_dec j (map f_job (frames ts))); [left; now right|]. right. tauto.
Qed.

(** who locked a mutex is on top, and goes on or wants another one *)
Lemma holder_on_top s m : inv s -> locked (s_threads s) m ->
  exists t1 w f st t2, s_threads s = t1 ++ Thread w (f :: st) :: t2 /\ In m (f_held f) /\
    ((exists s', step s s') \/ exists m' k, f_code f = Lock m' k /\ m < m' /\ locked (s_threads s) m').
Proof.
  intros I (f & F & H). destruct s as [av ts ls n]. cbn [s_threads] in *. apply in_frames in F as ([w st] & T & F).
  apply in_split in T as (t1 & t2 & ->). cbn [t_stack] in F. destruct st as [|g st]; [destruct F|].
  destruct F as [->|F].
  2:{ exfalso. pose proof (v_below _ I (Thread w (g :: st)) g st) as B. cbn [s_threads t_stack] in B.
      specialize (B (proj2 (in_threads _ _ _ _) (or_introl eq_refl)) eq_refl). rewrite Forall_forall in B. destruct (B f F) as [B1 _].
      pose proof (v_careful _ I f) as C. cbn [s_threads] in C. rewrite B1 in C. cbn in C. rewrite C in H; [destruct H|].
      apply in_top. right. rewrite frames_at, !in_app_iff. auto. }
  exists t1, w, f, st, t2. split; [reflexivity|]. split; [assumption|].
  pose proof (v_careful _ I f) as C. cbn [s_threads] in C. specialize (C (proj2 (in_top _ _ _ _ _ _) (or_introl eq_refl))).
  destruct f as [j c js h]. cbn [f_code f_held] in *. destruct c as [|k|m' k|m' k|a b k]; cbn [careful] in C.
  - subst h. destruct H.
  - left. eexists. apply step_work.
  - destruct C as [C1 C2]. destruct (locked_dec (t1 ++ Thread w (Frame j (Lock m' k) js h :: st) :: t2) m') as [L|L].
    + right. exists m', k. split; [reflexivity|]. split; [|assumption]. rewrite Forall_forall in C1. auto.
    + left. eexists. apply step_lock. assumption.
  - left. eexists. apply step_unlock. tauto.
  - destruct C as [-> _]. destruct H.
Qed.

Lemma locked_progress s : inv s -> forall d m M, (forall x, locked (s_threads s) x -> x <= M) -> M - m <= d -> locked (s_threads s) m -> exists s', step s s'.
Proof.
  intros I. induction d as [|d IH]; intros m M B D L; pose proof (B m L) as B0;
    destruct (holder_on_top s m I L) as (t1 & w & f & st & t2 & E & H & [S|(m' & k & C & Lt & L')]); auto.
  - pose proof (B m' L'). lia.
  - pose proof (B m' L'). apply (IH m' M); auto. lia.
Qed.
Lemma locked_bound ts : exists M, forall x, locked ts x -> x <= M.
Proof.
  exists (list_sum (concat (map f_held (frames ts)))). intros x (f & F & H).
  assert (X : In x (concat (map f_held (frames ts)))) by (apply in_concat; exists (f_held f); split; [now apply in_map|assumption]).
  apply in_split in X as (a & b & ->). rewrite list_sum_app. cbn. lia.
Qed.
Lemma any_locked s m : inv s -> locked (s_threads s) m -> exists s', step s s'.
Proof. intros I L. destruct (locked_bound (s_threads s)) as (M & B). eapply (locked_progress s I (M - m) m M); eauto. Qed.

(** the frame on top of a stack goes on, or waits for the other half of a join *)
Lemma top_progress av t1 w f st t2 ls n : let s := State av (t1 ++ Thread w (f :: st) :: t2) ls n in
  inv s -> (exists s', step s s') \/ w = true /\ f_code f = Return /\ exists i k js, f_joins f = (i, k) :: js /\ unfinished av (t1 ++ Thread w (f :: st) :: t2) i.
Proof.
  intros s I. pose proof (v_careful _ I f (proj2 (in_top _ _ _ _ _ _) (or_introl eq_refl))) as C.
  destruct f as [j c js h]. cbn [f_code f_held f_joins] in *. destruct c as [|k|m k|m k|a b k]; cbn [careful] in C.
  - destruct js as [|[i k] js]; [left; eexists; apply step_finish|].
    destruct (unfinished_dec av (t1 ++ Thread w (Frame j Return ((i, k) :: js) h :: st) :: t2) i) as [U|U].
    + right. split; [|split; [reflexivity|]; eauto]. destruct w; [reflexivity|].
      destruct (v_others _ I (Thread false (Frame j Return ((i, k) :: js) h :: st)) (Frame j Return ((i, k) :: js) h)) as [X _]; [apply in_threads; now left|reflexivity|now left|discriminate X].
    + left. eexists. apply step_joined. assumption.
  - left. eexists. apply step_work.
  - left. destruct (locked_dec (s_threads s) m) as [L|L].
    + eapply any_locked; eassumption.
    + eexists. apply step_lock. exact L.
  - left. eexists. apply step_unlock. tauto.
  - left. eexists. apply step_join.
Qed.

Lemma max_frame (rank : nat -> nat) (l : list frame) : l <> [] -> exists f, In f l /\ forall g, In g l -> rank (f_job g) <= rank (f_job f).
Proof.
  induction l as [|x l IH]; [congruence|]. intros _. destruct l as [|y l].
  - exists x. split; [now left|]. intros g [->|[]]. lia.
  - destruct IH as (f & F & B); [discriminate|]. destruct (Nat.le_gt_cases (rank (f_job x)) (rank (f_job f))) as [L|L].
    + exists f. split; [now right|]. intros g [->|G]; auto.
    + exists x. split; [now left|]. intros g [->|G]; [lia|]. specialize (B g G). lia.
Qed.

Lemma progress s : inv s -> (exists st t1 t2, s_threads s = t1 ++ Thread true st :: t2) -> all_done s \/ exists s', step s s'.
Proof.
  intros I (st0 & t01 & t02 & W). destruct s as [av ts ls n]. cbn [s_threads] in W.
  destruct (frames ts) as [|f0 fs] eqn:EF.
  - (* nobody executes anything *)
    assert (E : Forall (fun t => t_stack t = []) ts).
    { apply Forall_forall. intros [w st] H. destruct st as [|f st]; [reflexivity|].
      assert (X : In f (frames ts)) by (apply in_frames; exists (Thread w (f :: st)); split; [assumption|now left]). rewrite EF in X. destruct X. }
    destruct av as [|[j c] av].
    + destruct (Forall_dec (fun l => l = Listener None [])) with (l := ls) as [D|D].
      * intros [[b|] [|c cs]]; (left; reflexivity) || (right; discriminate).
      * left. repeat split; assumption.
      * right. apply neg_Forall_Exists_neg in D.
        2:{ intros [[b|] [|c cs]]; (left; reflexivity) || (right; discriminate). }
        apply Exists_exists in D as (l & H & N). apply in_split in H as (l1 & l2 & ->).
        destruct l as [[b|] cs].
        -- eexists. apply step_unblock. intros [[]|X]. rewrite EF in X. destruct X.
        -- destruct cs as [|c cs]; [congruence|]. eexists. apply step_inject.
    + right. subst ts. apply Forall_app in E as [_ E]. inversion E as [|? ? E1 _]; subst. cbn in E1. subst st0.
      eexists. apply (step_take [] j c av t01 [] t02). reflexivity.
  - (* take the one pushed last *)
    right. destruct (v_rank _ I) as (rank & R1 & R2). cbn [s_threads] in *.
    destruct (max_frame rank (frames ts)) as (f & F & B); [rewrite EF; discriminate|].
    apply in_frames in F as ([w st] & T & F). cbn [t_stack] in F. pose proof (R1 _ T) as SO. cbn [t_stack] in SO.
    apply in_split in T as (t1 & t2 & ->).
    destruct st as [|g st]; [destruct F|].
    assert (GF : In g (frames (t1 ++ Thread w (g :: st) :: t2))) by (apply in_top; now left).
    destruct F as [->|F].
    2:{ inversion SO as [|? ? _ SO2]; subst. rewrite Forall_forall in SO2. specialize (SO2 f F). specialize (B g GF). lia. }
    destruct (top_progress av t1 w f st t2 ls n I) as [P|(-> & C & i & k & js & J & U)]; [assumption|].
    destruct U as [U|U].
    + apply in_map_iff in U as ([i' c] & <- & U). apply in_split in U as (a1 & a2 & ->). eexists. apply step_take.
      destruct f as [a b x y]. cbn in C, J |- *. subst b x. reflexivity.
    + exfalso. specialize (R2 f i k GF). rewrite J in R2. specialize (R2 (or_introl eq_refl) U).
      apply in_map_iff in U as (g & <- & G). specialize (B g G). lia.
Qed.

Lemma worker_step s s' : step s s' -> (exists st t1 t2, s_threads s = t1 ++ Thread true st :: t2) -> exists st t1 t2, s_threads s' = t1 ++ Thread true st :: t2.
Proof.
  intros S (st0 & t01 & t02 & E).
  assert (X : forall ts, (exists st t1 t2, ts = t1 ++ Thread true st :: t2) <-> In true (map t_worker ts)).
  { intros ts. split.
    - intros (a & b & c & ->). rewrite map_app. apply in_app_iff. right. now left.
    - intros H. apply in_map_iff in H as ([w st] & W & H). cbn in W. subst w. apply in_split in H as (a & b & ->). eauto. }
  apply X. assert (Y : In true (map t_worker (s_threads s))) by (apply X; eauto). clear X E.
  destruct S; cbn [s_threads] in *; rewrite ?map_app in *; cbn [map t_worker] in *; assumption.
Qed.
Lemma worker_run s n s' : run s n s' -> (exists st t1 t2, s_threads s = t1 ++ Thread true st :: t2) -> exists st t1 t2, s_threads s' = t1 ++ Thread true st :: t2.
Proof. intros R. induction R as [|s n s' s'' R IH S]; [auto|]. intros H. eapply worker_step; eauto. Qed.

(** C131: If receivers and other threads handle their locks with care, which for code that uses rayon includes that nothing is locked meanwhile, there is no deadlock: on a pool with at least one thread, something can go on until all is done. *)
Lemma p_C131_no_deadlock :
  forall (workers : nat) (others : list code) (listeners : list (list code)) (n : nat) (s : state),
  1 <= workers -> Forall (careful []) others -> Forall no_rayon others -> Forall (Forall careful_datagram) listeners ->
  run (init workers others listeners) n s -> all_done s \/ exists s', step s s'.
Proof.
  intros workers others listeners n s W O1 O2 L R. apply progress.
  - eapply inv_run; [|exact R]. now apply inv_init.
  - eapply worker_run; [exact R|]. cbn [init s_threads]. destruct workers as [|k]; [lia|]. cbn [repeat app].
    exists [], []. eexists. reflexivity.
Qed.

(** C131: So every execution, however the threads are scheduled, ends after exactly the known number of steps, with everything done. *)
Lemma p_C131_all_is_done :
  forall (workers : nat) (others : list code) (listeners : list (list code)) (n : nat) (s : state),
  1 <= workers -> Forall (careful []) others -> Forall no_rayon others -> Forall (Forall careful_datagram) listeners ->
  run (init workers others listeners) n s ->
  ((forall s', ~ step s s') <-> n = steps_for others listeners) /\ (n = steps_for others listeners -> all_done s).
Proof.
  intros workers others listeners n s W O1 O2 L R.
  pose proof (measure_run _ _ _ R) as M. rewrite measure_init in M.
  assert (D : n = steps_for others listeners -> all_done s) by (intros E; apply measure_zero; lia).
  split; [|assumption]. split.
  - intros N. destruct (p_C131_no_deadlock workers others listeners n s W O1 O2 L R) as [A|(s' & S)]; [|destruct (N s' S)].
    destruct A as (A1 & A2 & A3). destruct s as [av ts ls k]. cbn [s_available s_threads s_listeners] in *. subst av.
    assert (M0 : measure (State [] ts ls k) = 0); [|lia].
    unfold measure. cbn [s_available s_threads s_listeners map list_sum fold_right].
    assert (F : frames ts = []). { unfold frames. clear -A2. induction A2 as [|t ts E _ IH]; [reflexivity|]. cbn. now rewrite E. }
    rewrite F. clear -A3. cbn. induction A3 as [|l ls E _ IH]; [reflexivity|]. cbn. rewrite E. exact IH.
  - intros E s' S. apply measure_step in S. lia.
Qed.

(** ** Mutual exclusion *)
Lemma nodup_app {A} (a b : list A) : NoDup (a ++ b) <-> NoDup a /\ NoDup b /\ forall x, In x a -> ~ In x b.
Proof.
  induction a as [|y a IH]; cbn [app].
  - split; [intros H; repeat split; [constructor|assumption|intros x []]|tauto].
  - rewrite !NoDup_cons_iff, IH, in_app_iff. cbn [In]. split.
    + intros (N & H1 & H2 & H3). repeat split; try tauto. intros x [<-|X]; [tauto|auto].
    + intros ((N & H1) & H2 & H3). split; [|repeat split; auto]. intros [X|X]; [tauto|]. exact (H3 y (or_introl eq_refl) X).
Qed.
Lemma nodup_replace {A} (a h h' b : list A) : NoDup (a ++ h ++ b) -> NoDup h' -> incl h' h -> NoDup (a ++ h' ++ b).
Proof.
  rewrite !nodup_app. intros (N1 & (N2 & N3 & D1) & D2) N I. repeat split; auto.
  intros x X Y. apply (D2 x X). rewrite in_app_iff in *. destruct Y as [Y|Y]; auto.
Qed.
Lemma held_at t1 w f st t2 : concat (map f_held (frames (t1 ++ Thread w (f :: st) :: t2))) =
  concat (map f_held (frames t1)) ++ f_held f ++ concat (map f_held st) ++ concat (map f_held (frames t2)).
Proof. rewrite frames_at. cbn [app]. rewrite map_app, concat_app. cbn [map concat]. now rewrite map_app, concat_app. Qed.

Lemma nodup_remove m (h : list nat) : NoDup h -> NoDup (remove Nat.eq_dec m h).
Proof.
  induction 1 as [|x h N H IH]; [constructor|]. cbn [remove]. destruct (Nat.eq_dec m x); [assumption|]. constructor; [|assumption].
  intros X. apply in_remove in X. tauto.
Qed.

Lemma exclusive_step s s' : exclusive s -> step s s' -> exclusive s'.
Proof.
  unfold exclusive. intros E S. destruct S; cbn [s_threads] in *; try assumption.
  all: rewrite ?held_at in *; cbn [f_held app] in *; try assumption.
  - rewrite frames_at in E. rewrite !map_app, !concat_app in E. assumption.
  - assert (N : ~ In m (concat (map f_held (frames t1)) ++ h ++ concat (map f_held st) ++ concat (map f_held (frames t2)))).
    { intros X. apply H. change h with (f_held (Frame j (Lock m k) js h)) in X. rewrite <- held_at with (w := w) in X.
      apply in_concat in X as (l & L & X). apply in_map_iff in L as (f & <- & F). exists f. auto. }
    apply NoDup_Add with (a := m) (l := concat (map f_held (frames t1)) ++ h ++ concat (map f_held st) ++ concat (map f_held (frames t2))); [apply Add_app|auto].
  - eapply nodup_replace; [exact E| |].
    + apply nodup_app in E as (_ & E & _). apply nodup_app in E as (E & _). now apply nodup_remove.
    + intros x X. apply in_remove in X. tauto.
  - rewrite frames_at, !map_app, !concat_app. eapply (nodup_replace _ h []) in E; [exact E|constructor|intros x []].
Qed.

(** C131: Whatever the codes, at no moment is a mutex locked twice. *)
Lemma p_C131_mutual_exclusion :
  forall (workers : nat) (others : list code) (listeners : list (list code)) (n : nat) (s : state),
  run (init workers others listeners) n s -> exclusive s.
Proof.
  intros workers others listeners n s R. remember (init workers others listeners) as s0 eqn:E.
  induction R as [s|s n s' s'' R IH S]; subst.
  - unfold exclusive. cbn [init s_threads]. rewrite frames_app, frames_workers. cbn [app].
    assert (X : forall l : list (nat * code), concat (map f_held (frames (map (fun x => Thread false [Frame (fst x) (snd x) [] []]) l))) = []).
    { induction l as [|x l IH]; [reflexivity|]. exact IH. }
    rewrite X. constructor.
  - eapply exclusive_step; [apply IH; reflexivity|assumption].
Qed.

(** ** Nothing is left behind *)
Definition owned (others : nat) (s : state) : Prop :=
  forall j, unfinished (s_available s) (s_threads s) j ->
  exists root, part_of (s_threads s) root j /\ (root < others \/ exists l, In l (s_listeners s) /\ l_blocked l = Some root).

(** all that waits for something else than [i] still does *)
Lemma part_mono ts ts' i root x : ~ In i (map f_job (frames ts)) ->
  (forall f j k, In f (frames ts) -> In (j, k) (f_joins f) -> j = i \/ exists f' k', In f' (frames ts') /\ f_job f' = f_job f /\ In (j, k') (f_joins f')) ->
  part_of ts root x -> part_of ts' root x \/ x = i.
Proof.
  intros N E P. induction P as [|f j k F P IH J]; [left; constructor|].
  destruct (E f j k F J) as [->|(f' & k' & F' & E' & J')]; [now right|].
  destruct IH as [IH|IH]; [left; rewrite <- E' in IH; econstructor; eassumption|]. exfalso. apply N. rewrite <- IH. now apply in_map.
Qed.
(** the same if nothing stops waiting *)
Lemma part_same ts ts' root x :
  (forall f j k, In f (frames ts) -> In (j, k) (f_joins f) -> exists f' k', In f' (frames ts') /\ f_job f' = f_job f /\ In (j, k') (f_joins f')) ->
  part_of ts root x -> part_of ts' root x.
Proof.
  intros E P. induction P as [|f j k F P IH J]; [constructor|].
  destruct (E f j k F J) as (f' & k' & F' & E' & J'). rewrite <- E' in IH. econstructor; eassumption.
Qed.
Lemma part_top t1 w f f' st t2 root x : f_job f' = f_job f -> incl (map fst (f_joins f)) (map fst (f_joins f')) ->
  part_of (t1 ++ Thread w (f :: st) :: t2) root x -> part_of (t1 ++ Thread w (f' :: st) :: t2) root x.
Proof.
  intros E I. apply part_same. intros g j k G J. apply in_top in G as [->|G].
  - assert (X : In j (map fst (f_joins f'))) by (apply I; change j with (fst (j, k)); now apply in_map).
    apply in_map_iff in X as ([j' k'] & <- & X). exists f', k'. split; [apply in_top; now left|]. auto.
  - exists g, k. split; [apply in_top; now right|]. auto.
Qed.
Lemma unfinished_top av t1 w f f' st t2 j : f_job f' = f_job f ->
  unfinished av (t1 ++ Thread w (f' :: st) :: t2) j -> unfinished av (t1 ++ Thread w (f :: st) :: t2) j.
Proof. unfold unfinished. rewrite !frames_at, !map_app. cbn [map app]. now intros ->. Qed.

Lemma owned_step n s s' : owned n s -> step s s' -> owned n s'.
Proof.
  intros O S. unfold owned in *. destruct S; cbn [s_available s_threads s_listeners] in *; intros x U.
  - (* inject *)
    destruct U as [U|U].
    + rewrite map_app in U. apply in_app_iff in U as [U|[<-|[]]].
      * destruct (O x (or_introl U)) as (root & P & [R|(l & L & B)]); exists root; (split; [exact P|]); [now left|]. right.
        apply in_app_iff in L as [L|[<-|L]]; [|discriminate B|]; exists l; (split; [|assumption]); apply in_app_iff; [now left|right; now right].
      * exists n0. split; [constructor|]. right. eexists. split; [apply in_app_iff; right; left; reflexivity|reflexivity].
    + destruct (O x (or_intror U)) as (root & P & [R|(l & L & B)]); exists root; (split; [exact P|]); [now left|]. right.
      apply in_app_iff in L as [L|[<-|L]]; [|discriminate B|]; exists l; (split; [|assumption]); apply in_app_iff; [now left|right; now right].
  - (* unblock *)
    destruct (O x U) as (root & P & [R|(l & L & B)]); [exists root; split; [exact P|now left]|].
    exists root. split; [exact P|]. right. apply in_app_iff in L as [L|[<-|L]]; [exists l; split; [apply in_app_iff; now left|assumption]| |exists l; split; [apply in_app_iff; right; now right|assumption]].
    exfalso. cbn in B. injection B as <-. apply H. revert U. clear -P H. induction P as [|f x k F P IH J]; [auto|]. intros _. apply IH. right. now apply in_map.
  - (* take *)
    assert (X : unfinished (a1 ++ (j, c) :: a2) (t1 ++ Thread true st :: t2) x).
    { unfold unfinished in *. rewrite !frames_at, !map_app in *. cbn [map app f_job] in U. rewrite ?map_app in *. cbn [map fst]. rewrite !in_app_iff in *. cbn [In] in *. rewrite ?in_app_iff in *. tauto. }
    destruct (O x X) as (root & P & R). exists root. split; [|exact R].
    eapply part_same; [|exact P]. intros f i k F J. exists f, k. split; [apply in_top; now right|]. auto.
  - destruct (O x) as (root & P & R); [apply (unfinished_top _ _ _ (Frame j (Work k) js h)) in U; [exact U|reflexivity]|]. exists root. split; [|exact R].
    eapply part_top; [| |exact P]; [reflexivity|apply incl_refl].
  - destruct (O x) as (root & P & R); [apply (unfinished_top _ _ _ (Frame j (Lock m k) js h)) in U; [exact U|reflexivity]|]. exists root. split; [|exact R].
    eapply part_top; [| |exact P]; [reflexivity|apply incl_refl].
  - destruct (O x) as (root & P & R); [apply (unfinished_top _ _ _ (Frame j (Unlock m k) js h)) in U; [exact U|reflexivity]|]. exists root. split; [|exact R].
    eapply part_top; [| |exact P]; [reflexivity|apply incl_refl].
  - (* join *)
    assert (T : forall root y, part_of (t1 ++ Thread w (Frame j (Join a b k) js h :: st) :: t2) root y -> part_of (t1 ++ Thread w (Frame j a ((n0, k) :: js) h :: st) :: t2) root y).
    { intros root y. apply part_top; [reflexivity|]. intros z Z. now right. }
    assert (X : unfinished av (t1 ++ Thread w (Frame j (Join a b k) js h :: st) :: t2) x \/ x = n0).
    { unfold unfinished in *. rewrite !frames_at, !map_app in *. cbn [map app f_job fst] in *. rewrite in_app_iff in U. cbn [In] in U. intuition. }
    destruct X as [X| ->].
    + destruct (O x X) as (root & P & R). exists root. split; [|exact R]. auto.
    + destruct (O j) as (root & P & R); [right; apply in_map_iff; eexists; split; [|apply in_top; left; reflexivity]; reflexivity|].
      exists root. split; [|exact R]. apply (part_fork _ _ (Frame j a ((n0, k) :: js) h) n0 k); [apply in_top; now left|exact (T _ _ P)|now left].
  - (* joined *)
    destruct (O x) as (root & P & R); [apply (unfinished_top _ _ _ (Frame j Return ((i, k) :: js) h)) in U; [exact U|reflexivity]|]. exists root. split; [|exact R].
    assert (N : ~ In i (map f_job (frames (t1 ++ Thread w (Frame j Return ((i, k) :: js) h :: st) :: t2)))) by (intros Z; apply H; now right).
    destruct (part_mono _ (t1 ++ Thread w (Frame j k js h :: st) :: t2) i root x N) as [Q|Q]; [|exact P|exact Q|].
    + intros f y z F J. apply in_top in F as [->|F].
      * cbn [f_joins] in J. destruct J as [[= <- <-]|J]; [now left|]. right. eexists. exists z. split; [apply in_top; left; reflexivity|]. auto.
      * right. exists f, z. split; [apply in_top; now right|]. auto.
    + exfalso. subst x. apply H. eapply unfinished_top; [|exact U]. reflexivity.
  - (* finish *)
    assert (X : unfinished av (t1 ++ Thread w (Frame j Return [] h :: st) :: t2) x).
    { destruct U as [U|U]; [now left|right]. apply in_map_iff in U as (f & <- & F). apply in_map. apply in_top. now right. }
    destruct (O x X) as (root & P & R). exists root. split; [|exact R].
    eapply part_same; [|exact P]. intros f i k F J. apply in_top in F as [->|F]; [destruct J|]. exists f, k. auto.
Qed.

(** C131: Whatever the codes, every job that is not finished was forked, directly or not, by one that a listener is blocked on right now (or by one of the other threads): nothing of a datagram is left when [scope_fifo] returns. *)
Lemma p_C131_nothing_left_behind :
  forall (workers : nat) (others : list code) (listeners : list (list code)) (n : nat) (s : state) (j : nat),
  run (init workers others listeners) n s -> unfinished (s_available s) (s_threads s) j ->
  exists root, part_of (s_threads s) root j /\ (root < length others \/ exists l, In l (s_listeners s) /\ l_blocked l = Some root).
Proof.
  intros workers others listeners n s j R. revert j. change (owned (length others) s). remember (init workers others listeners) as s0 eqn:E.
  induction R as [s|s n s' s'' R IH S]; subst; [|eapply owned_step; [apply IH; reflexivity|assumption]].
  intros j [[]|U]. exists j. split; [constructor|]. left. cbn [init s_threads] in U.
  rewrite frames_app, frames_workers in U. cbn [app] in U. apply in_map_iff in U as (f & <- & F). apply in_frames in F as (t & T & F).
  apply in_map_iff in T as ([i c] & <- & T). destruct F as [<-|[]]. cbn [f_job fst]. apply in_combine_l, in_seq in T. lia.
Qed.

(** C131: In particular, without other threads the pool has nothing to do whenever no listener is blocked. *)
Lemma p_C131_pool_is_quiet :
  forall (workers : nat) (listeners : list (list code)) (n : nat) (s : state),
  run (init workers [] listeners) n s -> (forall l, In l (s_listeners s) -> l_blocked l = None) ->
  s_available s = [] /\ Forall (fun t => t_stack t = []) (s_threads s).
Proof.
  intros workers listeners n s R B.
  assert (N : forall j, ~ unfinished (s_available s) (s_threads s) j).
  { intros j U. destruct (p_C131_nothing_left_behind _ _ _ _ _ _ R U) as (root & _ & [L|(l & L & E)]); [cbn in L; lia|].
    rewrite (B l L) in E. discriminate E. }
  split.
  - destruct (s_available s) as [|[j c] av]; [reflexivity|]. exfalso. apply (N j). left. now left.
  - apply Forall_forall. intros [w st] T. destruct st as [|f st]; [reflexivity|]. exfalso. apply (N (f_job f)). right.
    apply in_map, in_frames. exists (Thread w (f :: st)). split; [assumption|now left].
Qed.

(** ** A lock held during a join *)
Definition holds_lock_during_join : code := Lock 0 (Join Return Return (Unlock 0 Return)).

Lemma run_cons s s1 n s2 : step s s1 -> run s1 n s2 -> run s (S n) s2.
Proof. intros S R. induction R as [s1|s1 n s2 s3 R IH S']; [econstructor; [constructor|assumption]|econstructor; [apply IH; assumption|assumption]]. Qed.

Lemma split_one {A} (x y : A) a b : [x] = a ++ y :: b -> a = [] /\ y = x /\ b = [].
Proof. destruct a as [|z [|]]; intros [= <-]; auto; try discriminate. Qed.

(** C131: If receivers hold a lock while they are in rayon, it is false, even if each of them uses one lock only and always releases it: on a pool of three threads one datagram for three such receivers can block the pool and the listener for ever. A thread that waits for half of a receiver's own join
    takes the job of the third receiver, which then waits for the lock that the same thread holds further down its stack. *)
Lemma p_C131_lock_during_join_refuted :
  exists (d : code) (n : nat) (s : state),
  dispatch [holds_lock_during_join; holds_lock_during_join; holds_lock_during_join] d /\
  run (init 3 [] [[scope d]]) n s /\ ~ all_done s /\ forall s', ~ step s s'.
Proof.
  set (r := holds_lock_during_join). exists (Join r (Join r r Return) Return), 12.
  set (U := Unlock 0 Return).
  exists (State [] [Thread true [Frame 3 r [] []; Frame 1 Return [(4, U); (2, Return)] [0]; Frame 0 Return [(1, Return)] []]; Thread true [Frame 2 r [(3, Return)] []]; Thread true []]
    [Listener (Some 0) []] 5).
  split; [apply (dispatch_split [r] [r; r]); [constructor|apply (dispatch_split [r] [r]); constructor]|].
  split; [|split].
  - unfold init. cbn [length seq combine map repeat app].
    eapply run_cons; [apply (step_inject [] _ [] _ [] [])|]. cbn [app].
    eapply run_cons; [apply (step_take [] 0 _ [] [] [] _); reflexivity|]. cbn [app].
    eapply run_cons; [apply (step_join [] [] true 0 Return _ Return [] [] [] _)|]. cbn [app].
    eapply run_cons; [apply (step_take [] 1 _ [] [] _ _); reflexivity|]. cbn [app].
    eapply run_cons; [apply (step_join [] [] true 1 r _ Return [] [] _ _)|]. cbn [app].
    eapply run_cons; [apply (step_take [] 2 _ [] [_] [] _); reflexivity|]. cbn [app].
    eapply run_cons; [apply (step_join [] [_] true 2 r _ Return [] [] _ _)|]. cbn [app].
    eapply run_cons; [apply (step_lock _ [] true 1 0 (Join Return Return U) _ [] _ _)|].
    { intros (f & F & H). cbn in F. repeat (destruct F as [<-|F]; [destruct H|]). destruct F. }
    cbn [app].
    eapply run_cons; [apply (step_join _ [] true 1 Return Return U _ _ _ _)|]. cbn [app].
    eapply run_cons; [apply (step_take [_] 4 _ [] [_; _] [] _); reflexivity|]. cbn [app].
    eapply run_cons; [apply (step_take [] 3 _ [] [] _ _); reflexivity|]. cbn [app].
    eapply run_cons; [apply (step_finish [] [_; _] true 4 [] [] [])|]. cbn [app]. constructor.
  - intros (_ & A & _). inversion A as [|? ? X _]. discriminate X.
  - intros s' S.
    assert (LK : locked [Thread true [Frame 3 r [] []; Frame 1 Return [(4, U); (2, Return)] [0]; Frame 0 Return [(1, Return)] []]; Thread true [Frame 2 r [(3, Return)] []]; Thread true []] 0).
    { exists (Frame 1 Return [(4, U); (2, Return)] [0]). split; [|now left]. cbn. auto. }
    assert (TH : forall t1 w f st t2, [Thread true [Frame 3 r [] []; Frame 1 Return [(4, U); (2, Return)] [0]; Frame 0 Return [(1, Return)] []]; Thread true [Frame 2 r [(3, Return)] []]; Thread true []]
      = t1 ++ Thread w (f :: st) :: t2 -> f = Frame 3 r [] [] \/ f = Frame 2 r [(3, Return)] []).
    { intros t1 w f st t2 E. destruct t1 as [|? [|? [|? [|]]]]; injection E; intros; subst; auto; discriminate. }
    match type of S with step (State _ ?ts _ _) _ => remember ts as TS eqn:ETS end.
    match type of S with step ?x _ => remember x as s0 eqn:ES end.
    destruct S; injection ES as EA ET EL EN; try (symmetry in ET; rewrite ET in TH);
      try (destruct (TH _ _ _ _ _ eq_refl) as [X|X]; discriminate X).
    + symmetry in EL. apply split_one in EL as (_ & EL & _). discriminate EL.
    + symmetry in EL. apply split_one in EL as (_ & EL & _). injection EL as -> ->. apply H. right. rewrite <- ET, ETS. cbn. auto 10.
    + symmetry in EA. destruct a1; discriminate EA.
    + apply H. destruct (TH _ _ _ _ _ eq_refl) as [X|X]; injection X as -> -> -> -> ->; rewrite ET in LK; exact LK.
Qed.

(** two receivers that share two mutexes, the first one using rayon as well, and a thread outside of the pool: the hypotheses of the theorems are met, and everything takes 59 steps (with two listeners that receive one datagram each) *)
Example ex_C131_careful :
  let r1 := Lock 1 (Lock 2 (Work (Unlock 1 (Unlock 2 (Join (Lock 1 (Unlock 1 Return)) (Work Return) (Lock 2 (Unlock 2 Return))))))) in
  let r2 := Lock 2 (Unlock 2 Return) in
  let d := scope (Join r1 r2 Return) in
  careful_datagram d /\ careful [] r2 /\ no_rayon r2 /\ ~ careful [] holds_lock_during_join /\
  steps_for [r2] [[d]; [d]] = 59.
Proof.
  cbv zeta. split; [|split; [|split; [|split]]].
  - eexists [_; _], _. split; [|split; [apply (dispatch_split [_] [_]); constructor|reflexivity]].
    apply Forall_forall. intros x [<-|[<-|[]]]; cbn; repeat split; auto; repeat constructor.
  - cbn. auto.
  - exact I.
  - intros (_ & H & _). discriminate H.
  - reflexivity.
Qed.
