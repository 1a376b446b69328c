(** * RayonSingleProofs: a pool of one thread, in rayon's order *)
From Coq Require Import Permutation.
From Verif Require Import Base Codec Network NetSpec NetworkProofs Pool PoolSpec PoolProofs Rayon RayonSpec RayonOrder RayonOrderSpec RayonProofs
  RayonLiveSpec RayonLiveProofs RayonServedProofs RayonOrderProofs.
Open Scope nat_scope.

Lemma received_by_app a b : received_by (a ++ b) = received_by a ++ received_by b.
Proof. induction a as [|[c q|i []] a IH]; cbn; rewrite ?IH; reflexivity. Qed.
Lemma finished_by_app a b : finished_by (a ++ b) = finished_by a ++ finished_by b.
Proof. induction a as [|[c q|i []] a IH]; cbn; rewrite ?IH; reflexivity. Qed.

Definition scopes_in (ts : list task) : list nat := flat_map (fun t => match t with TaskScope i => [i] | _ => [] end) ts.
Lemma scopes_in_app a b : scopes_in (a ++ b) = scopes_in a ++ scopes_in b.
Proof. apply flat_map_app. Qed.

Definition part_of (h : nat) (j : job) : Prop := match j with InPart _ _ i _ _ => i = h | InScope _ _ _ _ => False end.
(** the stack of the only thread: a scope at the bottom, and above it parts of the same listener *)
Definition shape (st : list job) (hd : list nat) : Prop :=
  (st = [] /\ hd = []) \/ exists js b h id p, st = js ++ [InScope b h id p] /\ Forall (part_of h) js /\ hd = [h].
Definition flag_ok (ts : list task) (st : list job) : Prop :=
  match st with
  | InScope _ _ id true :: _ => unfinished ts [st] id
  | InPart _ _ _ js (Joining true) :: _ => exists j js', js = j :: js' /\ unfinished ts [st] j
  | _ => True
  end.
Definition single (tr : list ry_label) (s : ry_state) : Prop :=
  exists st hd, ry_stacks s = [st] /\ shape st hd /\ flag_ok (ry_tasks s) st /\
    received_by (visible tr) = finished_by (visible tr) ++ hd ++ scopes_in (ry_tasks s).

Lemma shape_rearm st hd : shape st hd -> shape (rearm st) hd.
Proof.
  intros [[-> ->]|(js & b & h & id & p & -> & F & ->)]; [left; auto|]. right.
  destruct js as [|[b' i' id' p'|b' id' i' js' [rs|rs|r rs|p']] js]; cbn [app rearm]; inversion F as [|? ? P Q]; subst; try (now cbn in P).
  - exists [], b, h, id, false. auto.
  - exists (InPart b' id' i' js' (Deciding rs) :: js), b, h, id, p. auto.
  - exists (InPart b' id' i' js' (Looping rs) :: js), b, h, id, p. auto.
  - exists (InPart b' id' i' js' (Calling r rs) :: js), b, h, id, p. auto.
  - exists (InPart b' id' i' js' (Joining false) :: js), b, h, id, p. auto.
Qed.
Lemma shape_listener st h j : shape st [h] -> In j st -> job_listener j = h.
Proof.
  intros [[-> E]|(js & b & h' & id & p & -> & F & E)]; [discriminate|]. injection E as <-. intros I. apply in_app_iff in I as [I|[<-|[]]]; [|reflexivity].
  rewrite Forall_forall in F. specialize (F _ I). now destruct j.
Qed.
Lemma shape_nonempty st hd : shape st hd -> st <> [] -> exists h, hd = [h].
Proof. intros [[-> _]|(js & b & h & id & p & _ & _ & ->)] N; [congruence|eauto]. Qed.
Lemma shape_part_top b id i js a st hd : shape (InPart b id i js a :: st) hd -> hd = [i] /\ shape st hd.
Proof.
  intros [[E _]|(js' & b' & h & id' & p & E & F & ->)]; [discriminate|]. destruct js' as [|j js']; [discriminate|].
  cbn in E. injection E as <- ->. inversion F as [|? ? P Q]; subst. cbn in P. subst i. split; [reflexivity|]. right. exists js', b', h, id', p. auto.
Qed.
Lemma shape_add_part b id h js a st : shape st [h] -> shape (InPart b id h js a :: st) [h].
Proof.
  intros [[_ E]|(js' & b' & h' & id' & p & -> & F & E)]; [discriminate|]. injection E as <-. right.
  exists (InPart b id h js a :: js'), b', h, id', p. split; [reflexivity|]. split; [|reflexivity]. constructor; [reflexivity|exact F].
Qed.
Lemma shape_part_change b id i js a b' id' js' a' st hd : shape (InPart b id i js a :: st) hd -> shape (InPart b' id' i js' a' :: st) hd.
Proof. intros H. destruct (shape_part_top _ _ _ _ _ _ _ H) as [-> S]. now apply shape_add_part. Qed.
Lemma shape_scope_top b i id p st hd : shape (InScope b i id p :: st) hd -> hd = [i] /\ st = [].
Proof.
  intros [[E _]|(js' & b' & h & id' & p' & E & F & ->)]; [discriminate|]. destruct js' as [|j js'].
  - cbn in E. injection E as <- <- <- <- ->. auto.
  - cbn in E. injection E as <- _. inversion F as [|? ? P Q]; subst. destruct P.
Qed.
Lemma flag_ok_add ts t st : flag_ok ts st -> flag_ok (ts ++ [t]) st.
Proof.
  assert (U : forall id, unfinished ts [st] id -> unfinished (ts ++ [t]) [st] id).
  { intros id [(i & rs & I)|H]; [left; exists i, rs; apply in_app_iff; now left|now right]. }
  unfold flag_ok. destruct st as [|[b i id [|]|b id i js [rs|rs|r rs|[|]]] st]; auto. intros (j & js' & E & H). eauto.
Qed.
Lemma flag_unlooked ts st : Forall unlooked st -> flag_ok ts st.
Proof. destruct st as [|x st]; [intros; exact I|]. intros H. inversion H as [|? ? U V]; subst. destruct x as [b i id [|]|b id i js [rs|rs|r rs|[|]]]; cbn in *; try tauto; discriminate. Qed.

(** what the thread waits for is in its own deque *)
Lemma waits_in_deque ls ts st pn ck : let s := RY ls ts [st] pn ck in
  forest s -> ordered s -> flag_ok ts st -> may_take st = true -> st <> [] -> exists id i rs, In (TaskPart id i rs) ts.
Proof.
  intros s T [La Pi] Fl M NE. destruct st as [|x st]; [congruence|].
  assert (U : exists j, In j (awaits x) /\ unfinished ts [x :: st] j).
  { destruct x as [b i id [|]|b id i js [rs|rs|r rs|[|]]]; try discriminate M; cbn in Fl.
    - exists id. split; [now left|exact Fl].
    - destruct Fl as (j & js' & -> & U). exists j. split; [now left|exact U]. }
  destruct U as (j & A & [(i & rs & I)|(b & i & js & a & I)]); [eauto|exfalso].
  unfold s, flat in La. cbn [ry_stacks concat] in La. rewrite app_nil_r in La. cbn [concat] in I. rewrite app_nil_r in I.
  pose proof (La x b j i js a (or_introl eq_refl) A I) as L. cbn [ry_stacks s] in Pi. inversion Pi as [|? ? P _]; subst. destruct P as [P _].
  destruct I as [->|I]; [cbn in L; lia|]. rewrite Forall_forall in P. specialize (P _ I). cbn in P. lia.
Qed.
Lemma part_of_head ls ts st pn ck hd id i rs : forest (RY ls ts [st] pn ck) -> shape st hd -> In (TaskPart id i rs) ts -> hd = [i].
Proof.
  unfold forest, flat. cbn [ry_listeners ry_tasks ry_stacks ry_clock concat]. rewrite app_nil_r. intros T S I.
  assert (W : waiter st id i) by (apply (tr_parent _ _ _ _ T); left; eauto).
  assert (J : exists j, In j st /\ job_listener j = i).
  { destruct W as [(b & p & J)|(b & id' & js & a & J & _)]; eexists; (split; [exact J|reflexivity]). }
  destruct J as (j & J & <-). destruct (shape_nonempty _ _ S) as (h & ->); [intros ->; destruct J|]. now rewrite (shape_listener _ _ _ S J).
Qed.

Lemma one_stack {A} (w1 : list A) st w2 x : w1 ++ st :: w2 = [x] -> w1 = [] /\ w2 = [] /\ st = x.
Proof. destruct w1 as [|y [|z w1]]; cbn; try discriminate. intros E. injection E as -> ->. auto. Qed.

Lemma single_step tr s l s' : forest s -> ordered s -> below_unlooked s -> single tr s -> rayon_step s l s' -> single (tr ++ [l]) s'.
Proof.
  intros T O BU (st & hd & Est & Sh & Fl & Eq) S. unfold single. rewrite visible_app.
  rewrite received_by_app, finished_by_app, Eq.
  destruct S.
  - (* listener *)
    inversion H; subst; cbn [ry_stacks ry_tasks visible] in *.
    + exists st, hd. cbn. rewrite !app_nil_r. auto.
    + exists st, hd. rewrite (ltac:(destruct l0; try discriminate; reflexivity) : received_by [GStep (length l1) l0] = []),
        (ltac:(destruct l0; try discriminate; reflexivity) : finished_by [GStep (length l1) l0] = []), !app_nil_r. auto.
    + exists st, hd. cbn [received_by finished_by]. rewrite app_nil_r, scopes_in_app. cbn [scopes_in flat_map app]. rewrite <- !app_assoc.
      split; [exact Est|]. split; [exact Sh|]. split; [now apply flag_ok_add|reflexivity].
  - (* own *)
    cbn [ry_stacks ry_tasks visible received_by finished_by] in *. destruct (one_stack _ _ _ _ Est) as (-> & -> & ->). rewrite !app_nil_r.
    assert (hd = [i]) as -> by (eapply part_of_head; [exact T|exact Sh|apply in_elt]).
    eexists. exists [i]. split; [reflexivity|]. split; [now apply shape_add_part, shape_rearm|]. split; [exact I|]. rewrite !scopes_in_app. reflexivity.
  - (* steal *)
    exfalso. cbn [ry_stacks ry_tasks] in *. destruct (one_stack _ _ _ _ Est) as (-> & -> & ->). cbn [app] in *.
    apply (H0 id i rs (in_elt _ _ _)). destruct H1 as (st' & j & E & J & W). destruct victim as [|v]; [|destruct v; discriminate]. exists st', j. auto.
  - (* injected *)
    cbn [ry_stacks ry_tasks visible received_by finished_by] in *. destruct (one_stack _ _ _ _ Est) as (-> & -> & ->). rewrite !app_nil_r.
    assert (st = []) as ->.
    { destruct st as [|x st]; [reflexivity|exfalso]. destruct (waits_in_deque _ _ _ _ _ T O Fl H ltac:(discriminate)) as (id & j & rs & [E|I]); [discriminate|].
      exact (H1 _ _ _ I). }
    destruct Sh as [[_ ->]|(js & b & h & id & p & E & _)]; [|destruct js; discriminate].
    eexists. exists [i]. split; [reflexivity|]. split; [right; exists [], ck, i, ck, false; auto|]. split; [exact I|]. rewrite scopes_in_app. cbn. now rewrite app_nil_r.
  - (* split *)
    cbn [ry_stacks ry_tasks visible received_by finished_by] in *. destruct (one_stack _ _ _ _ Est) as (-> & -> & <-). rewrite !app_nil_r.
    eexists. exists hd. split; [reflexivity|]. split; [eapply shape_part_change; exact Sh|]. split; [exact I|]. rewrite scopes_in_app. cbn. now rewrite app_nil_r.
  - cbn [ry_stacks ry_tasks visible received_by finished_by] in *. destruct (one_stack _ _ _ _ Est) as (-> & -> & <-). rewrite !app_nil_r.
    eexists. exists hd. split; [reflexivity|]. split; [eapply shape_part_change; exact Sh|]. split; [exact I|]. reflexivity.
  - (* other *)
    assert (BT : Forall unlooked (tl st)) by (unfold below_unlooked in BU; rewrite Est in BU; now inversion BU).
    inversion H; subst; cbn [ry_stacks ry_tasks visible received_by finished_by] in *;
      destruct (one_stack _ _ _ _ Est) as (-> & -> & <-); rewrite ?app_nil_r; cbn [app] in *.
    + exfalso. apply (f_equal (fun l => length (scopes_in l))) in H0. rewrite !scopes_in_app, !app_length in H0.
      change (scopes_in (TaskScope i :: t2)) with (i :: scopes_in t2) in H0. cbn [length] in H0. cbn [scopes_in flat_map] in H0. unfold scopes_in in H0. cbn [length app] in H0. lia.
    + exfalso. apply (f_equal (@length task)) in H0. rewrite !app_length in H0. cbn in H0. lia.
    + exfalso. apply (f_equal (@length task)) in H0. rewrite !app_length in H0. cbn in H0. lia.
    + discriminate.
    + eexists. exists hd. split; [reflexivity|]. split; [eapply shape_part_change; exact Sh|]. split; [exact I|reflexivity].
    + eexists. exists hd. split; [reflexivity|]. split; [eapply shape_part_change; exact Sh|]. split; [exact I|reflexivity].
    + eexists. exists hd. split; [reflexivity|]. split; [eapply shape_part_change; exact Sh|]. split; [exact I|reflexivity].
    + eexists. exists hd. split; [reflexivity|]. split; [eapply shape_part_change; exact Sh|]. split; [exact I|reflexivity].
    + eexists. exists hd. split; [reflexivity|]. split; [eapply shape_part_change; exact Sh|]. split; [|reflexivity].
      cbn. exists j, js. split; [reflexivity|].
      match goal with UU : unfinished _ _ j |- _ => destruct UU as [U|(b' & i' & js' & a' & U)] end; [now left|]. right.
      destruct U as [E|U]; [injection E as <- <- <- <- <-; do 4 eexists; now left|]. do 4 eexists. right. exact U.
    + eexists. exists hd. split; [reflexivity|]. split; [eapply shape_part_change; exact Sh|]. split; [exact I|reflexivity].
    + eexists. exists hd. split; [reflexivity|]. split; [apply (shape_part_top _ _ _ _ _ _ _ Sh)|]. split; [now apply flag_unlooked|reflexivity].
    + eexists. exists hd. destruct (shape_scope_top _ _ _ _ _ _ Sh) as [-> ->]. split; [reflexivity|]. split; [right; exists [], b, i, id, true; auto|].
      split; [|reflexivity]. cbn. match goal with UU : unfinished _ _ id |- _ => destruct UU as [U|(b' & i' & js' & a' & U)] end; [now left|]. destruct U as [E|[]]. discriminate.
    + destruct (shape_scope_top _ _ _ _ _ _ Sh) as [-> ->]. exists [], []. split; [reflexivity|]. split; [left; auto|]. split; [exact I|].
      cbn [app]. now rewrite <- app_assoc.
Qed.
Lemma single_run tr s : rayon_run (ry_init 1) tr s -> single tr s.
Proof.
  intros R. remember (ry_init 1) as s0 eqn:E. induction R as [s0|s0 tr s1 l s2 R IH S]; subst.
  - exists [], []. repeat split; auto. left. auto.
  - pose proof (rayon_run_ry _ _ _ R) as R'.
    apply (single_step _ s1); [exact (forest_run _ _ _ R')|exact (ordered_run _ _ _ R')|exact (below_unlooked_run _ _ _ R')|auto|exact S].
Qed.
Lemma rayon_run_split a b : forall s0 s2, rayon_run s0 (a ++ b) s2 -> exists s1, rayon_run s0 a s1 /\ rayon_run s1 b s2.
Proof.
  induction b as [|l b IH] using rev_ind; intros s0 s2 R.
  - rewrite app_nil_r in R. exists s2. split; [exact R|constructor].
  - rewrite app_assoc in R. remember ((a ++ b) ++ [l]) as t eqn:Et. destruct R as [s|s tr s1 l' s3 R1 S].
    + symmetry in Et. apply app_eq_nil in Et as [_ Et]. discriminate.
    + apply app_inj_tail in Et as [-> ->]. destruct (IH _ _ R1) as (sm & A & B). exists sm. split; [exact A|]. eapply rayon_run_snoc; eassumption.
Qed.

(** C120. With a single thread, in rayon's order: datagrams are finished in the order in which they were received, whichever listeners they belong to,
    and receivers are only called for the oldest one that is not finished. *)
Lemma p_C120_single_thread_serves_in_order :
  forall (tr : list ry_label) (s : ry_state), rayon_run (ry_init 1) tr s ->
    (exists pending, received_by (visible tr) = finished_by (visible tr) ++ pending) /\
    forall (before after : list ry_label) (w i r : nat) (pkt : list byte) (src : address),
      tr = before ++ RWorker w (Some (GStep i (LCall r pkt src))) :: after ->
      nth_error (received_by (visible before)) (length (finished_by (visible before))) = Some i.
Proof.
  intros tr s R. split.
  - destruct (single_run _ _ R) as (st & hd & _ & _ & _ & E). eauto.
  - intros a b w i r pkt src ->. destruct (rayon_run_split a (RWorker w (Some (GStep i (LCall r pkt src))) :: b) _ _ R) as (s1 & Ra & Rb).
    destruct (rayon_run_split [RWorker w (Some (GStep i (LCall r pkt src)))] b _ _ Rb) as (s2 & R1 & _).
    assert (S : rayon_step s1 (RWorker w (Some (GStep i (LCall r pkt src)))) s2).
    { remember [RWorker w (Some (GStep i (LCall r pkt src)))] as t eqn:Et. destruct R1 as [|x t y l z R0 S]; [discriminate|].
      destruct t as [|? [|]]; [|discriminate|discriminate]. injection Et as ->. remember [] as t eqn:Et. destruct R0 as [|x1 t y1 l1 z1 R0 S0]; [exact S|now destruct t]. }
    destruct (single_run _ _ Ra) as (st & hd & Est & Sh & _ & Eq). rewrite Eq.
    apply rayon_step_ry in S. inversion S; subst. cbn [ry_stacks] in Est. destruct (one_stack _ _ _ _ Est) as (-> & -> & <-).
    destruct (shape_part_top _ _ _ _ _ _ _ Sh) as [-> _]. cbn [app]. apply nth_error_mid.
Qed.

(** ** Liveness *)
Definition act_work (k : nat) (a : activity) : nat :=
  match a with
  | Deciding rs => 2 * k + 4 + 9 * (length rs - 1) + 2 * length rs
  | Looping rs => 2 * k + 3 + 2 * length rs
  | Calling _ rs => 2 * k + 4 + 2 * length rs
  | Joining p => 2 * k + notyet p + 1
  end.
Definition job_work (j : job) : nat :=
  match j with InScope _ _ _ p => 1 + notyet p | InPart _ _ _ js a => act_work (length js) a end.
Definition receivers_of (ls : pool_state) (i : nat) : nat := match nth_error ls i with Some (c, _) => nc_receivers c | None => 0 end.
(** the first [m] scopes that nobody has taken yet, and all parts *)
Fixpoint task_work (ls : pool_state) (m : nat) (ts : list task) : nat :=
  match ts with
  | [] => 0
  | TaskPart _ _ rs :: t => 6 + 9 * (length rs - 1) + 2 * length rs + task_work ls m t
  | TaskScope i :: t => match m with 0 => task_work ls 0 t | S m => 10 + 11 * receivers_of ls i + task_work ls m t end
  end.
Definition jobs_work (F : list job) : nat := list_sum (map job_work F).
Lemma jobs_work_cons x F : jobs_work (x :: F) = job_work x + jobs_work F.
Proof. reflexivity. Qed.
Lemma jobs_work_rearm st : jobs_work (rearm st) <= 1 + jobs_work st.
Proof. unfold jobs_work, list_sum. destruct st as [|[b i id p|b id i js [rs|rs|r rs|p]] st]; cbn; try lia; destruct p; cbn; lia. Qed.
Lemma task_work_part ls id i rs t2 : forall t1 m, task_work ls m (t1 ++ TaskPart id i rs :: t2) = 6 + 9 * (length rs - 1) + 2 * length rs + task_work ls m (t1 ++ t2).
Proof. induction t1 as [|[j|id' j rs'] t1 IH]; intros m; cbn [app task_work]; [reflexivity|destruct m; rewrite IH; lia|rewrite IH; lia]. Qed.
Lemma task_work_scope ls i : forall ts m, m <= length (scopes_in ts) -> task_work ls m (ts ++ [TaskScope i]) = task_work ls m ts.
Proof.
  induction ts as [|[j|id j rs] ts IH]; intros m L; cbn [app task_work].
  - cbn in L. destruct m; [reflexivity|lia].
  - change (scopes_in (TaskScope j :: ts)) with (j :: scopes_in ts) in L. cbn [length] in L. destruct m; rewrite IH by lia; reflexivity.
  - now rewrite IH.
Qed.
Lemma task_work_listeners ls ls' ts : (forall i, In (TaskScope i) ts -> receivers_of ls' i = receivers_of ls i) -> forall m, task_work ls' m ts = task_work ls m ts.
Proof.
  induction ts as [|[j|id j rs] ts IH]; intros H m; cbn [task_work]; [reflexivity| |].
  - destruct m; rewrite IH by (intros; apply H; now right); [reflexivity|]. rewrite (H j) by now left. reflexivity.
  - rewrite IH by (intros; apply H; now right). reflexivity.
Qed.
Lemma receivers_of_step s l s' i : ry_step s l s' -> i < length (ry_listeners s) -> receivers_of (ry_listeners s') i = receivers_of (ry_listeners s) i.
Proof.
  intros S L. apply nth_error_Some in L. destruct (nth_error (ry_listeners s) i) as [[c x]|] eqn:E; [|congruence].
  destruct (configs_step _ _ _ _ _ _ S E) as (x' & E'). unfold receivers_of. now rewrite E, E'.
Qed.
Lemma scope_listener_exists s i : forest s -> In (TaskScope i) (ry_tasks s) -> i < length (ry_listeners s).
Proof.
  intros T I. pose proof (task_scope_in_scope _ _ _ _ _ T I) as H. destruct (in_scope_exists _ _ H) as (c & x & k & pkt & src & pe & ru & pa & E & _).
  apply nth_error_Some. congruence.
Qed.

(** work to be done until the first [K] datagrams are finished, if [f] are *)
Definition left_to_do (K f : nat) (s : ry_state) : nat :=
  task_work (ry_listeners s) (K - f - match concat (ry_stacks s) with [] => 0 | _ => 1 end) (ry_tasks s) + jobs_work (concat (ry_stacks s)).
Definition done_so_far (tr : list ry_label) : nat := length (finished_by (visible tr)).
Lemma left_to_do_step K tr s l s' : forest s -> ordered s -> single tr s -> rayon_step s l s' ->
  K <= length (received_by (visible tr)) -> done_so_far tr < K ->
  match l with
  | RListener _ => left_to_do K (done_so_far (tr ++ [l])) s' = left_to_do K (done_so_far tr) s
  | RWorker _ _ => left_to_do K (done_so_far (tr ++ [l])) s' < left_to_do K (done_so_far tr) s
  end.
Proof.
  intros T O (st & hd & Est & Sh & Fl & Eq) S HK HF. unfold left_to_do.
  pose proof (rayon_step_ry _ _ _ S) as Sr.
  assert (RC : forall m ts', (forall i, In (TaskScope i) ts' -> In (TaskScope i) (ry_tasks s)) -> task_work (ry_listeners s') m ts' = task_work (ry_listeners s) m ts').
  { intros m ts' Hin. apply task_work_listeners. intros i Hi. apply (receivers_of_step _ _ _ _ Sr). apply scope_listener_exists; auto. }
  assert (Hm : K - done_so_far tr - match concat (ry_stacks s) with [] => 0 | _ => 1 end <= length (scopes_in (ry_tasks s))).
  { rewrite Eq, !app_length in HK. unfold done_so_far. rewrite Est. cbn [concat]. rewrite app_nil_r.
    destruct Sh as [[-> ->]|(js & b & h & id & p & -> & _ & ->)]; cbn [length] in HK; [lia|]. destruct (js ++ [InScope b h id p]) eqn:Ex; [now destruct js|lia]. }
  assert (DF : done_so_far (tr ++ [l]) = done_so_far tr + length (finished_by (visible [l]))).
  { unfold done_so_far. now rewrite visible_app, finished_by_app, app_length. }
  rewrite DF. destruct S.
  - inversion H; subst; cbn [ry_stacks ry_tasks ry_listeners visible] in *.
    + cbn [finished_by length]. rewrite Nat.add_0_r, RC by auto. reflexivity.
    + rewrite (ltac:(destruct l0; try discriminate; reflexivity) : finished_by [GStep (length l1) l0] = []). cbn [length]. rewrite Nat.add_0_r, RC by auto. reflexivity.
    + cbn [finished_by length]. rewrite Nat.add_0_r, task_work_scope by exact Hm. rewrite RC by auto. reflexivity.
  - cbn [ry_stacks ry_tasks ry_listeners visible finished_by length] in *. destruct (one_stack _ _ _ _ Est) as (-> & -> & ->).
    assert (NE : st <> []). { intros ->. destruct H0 as (x & j & E & J & _). injection E as <-. destruct J. }
    rewrite task_work_part. cbn [concat app]. rewrite !app_nil_r, jobs_work_cons. cbn [job_work act_work length]. pose proof (jobs_work_rearm st). rewrite Nat.add_0_r.
    destruct st as [|x st]; [congruence|]. lia.
  - exfalso. cbn [ry_stacks ry_tasks] in *. destruct (one_stack _ _ _ _ Est) as (-> & -> & ->). cbn [app] in *.
    apply (H0 id i rs (in_elt _ _ _)). destruct H1 as (st' & j & E & J & W). destruct victim as [|v]; [|destruct v; discriminate]. exists st', j. auto.
  - cbn [ry_stacks ry_tasks ry_listeners visible finished_by length] in *. destruct (one_stack _ _ _ _ Est) as (-> & -> & ->).
    assert (st = []) as ->.
    { destruct st as [|x st]; [reflexivity|exfalso]. destruct (waits_in_deque _ _ _ _ _ T O Fl H ltac:(discriminate)) as (id & j & rs & [E|I]); [discriminate|].
      exact (H1 _ _ _ I). }
    cbn [app concat rearm] in *. rewrite task_work_part, app_nil_r, Nat.add_0_r, seq_length.
    destruct (K - done_so_far tr) as [|m] eqn:Em; [lia|]. cbn [Nat.sub]. rewrite Nat.sub_0_r. cbn [task_work]. unfold receivers_of at 1. rewrite H0.
    cbn [jobs_work map list_sum fold_right job_work notyet]. lia.
  - cbn [ry_stacks ry_tasks ry_listeners visible finished_by length] in *. destruct (one_stack _ _ _ _ Est) as (-> & -> & <-).
    rewrite task_work_part. cbn [concat app]. rewrite !app_nil_r, Nat.add_0_r, !jobs_work_cons. cbn [job_work act_work length]. rewrite app_length.
    assert (right <> []). { intros ->. rewrite app_nil_r in H. destruct left as [|x left]; [congruence|]. pose proof (Nat.div_lt (length (x :: left)) 2 ltac:(cbn; lia) ltac:(lia)). lia. }
    destruct left; [congruence|]. destruct right; [congruence|]. cbn [length]. lia.
  - cbn [ry_stacks ry_tasks ry_listeners visible finished_by length] in *. destruct (one_stack _ _ _ _ Est) as (-> & -> & <-).
    cbn [concat app]. rewrite !app_nil_r, Nat.add_0_r, !jobs_work_cons. cbn [job_work act_work]. lia.
  - inversion H; subst; cbn [ry_stacks ry_tasks ry_listeners visible finished_by length] in *;
      destruct (one_stack _ _ _ _ Est) as (-> & -> & <-); cbn [app concat] in *; rewrite ?app_nil_r, ?Nat.add_0_r, ?jobs_work_cons.
    + exfalso. apply (f_equal (fun l => length (scopes_in l))) in H0. rewrite !scopes_in_app, !app_length in H0.
      change (scopes_in (TaskScope i :: t2)) with (i :: scopes_in t2) in H0. cbn [length] in H0. unfold scopes_in in H0. cbn [flat_map length app] in H0. lia.
    + exfalso. apply (f_equal (@length task)) in H0. rewrite !app_length in H0. cbn in H0. lia.
    + exfalso. apply (f_equal (@length task)) in H0. rewrite !app_length in H0. cbn in H0. lia.
    + discriminate.
    + cbn [job_work act_work length]. lia.
    + cbn [job_work act_work length]. lia.
    + cbn [job_work act_work length]. lia.
    + cbn [job_work act_work length notyet]. lia.
    + cbn [job_work act_work length notyet]. lia.
    + cbn [job_work act_work length notyet]. destruct looked; cbn [notyet]; lia.
    + destruct (shape_part_top _ _ _ _ _ _ _ Sh) as [-> Sh']. destruct Sh' as [[_ E]|(js & b' & h & id' & p & -> & _)]; [discriminate|].
      destruct (js ++ [InScope b' h id' p]) eqn:Ex; [now destruct js|]. cbn [job_work act_work length notyet]. destruct looked; cbn [notyet]; lia.
    + cbn [job_work act_work length notyet]. lia.
    + destruct (shape_scope_top _ _ _ _ _ _ Sh) as [-> ->]. rewrite RC by auto. cbn [job_work].
      replace (K - (done_so_far tr + 1) - 0) with (K - done_so_far tr - 1) by lia. destruct looked; cbn [notyet jobs_work map list_sum fold_right]; lia.
Qed.

Section live_single.
  Context (st : nat -> ry_state) (ev : nat -> ry_label) (S0 : st 0 = ry_init 1) (SS : forall n, rayon_step (st n) (ev n) (st (S n))).
  Lemma single_infinite : infinite_ry 1 st ev.
  Proof. split; [exact S0|]. intros n. apply rayon_step_ry, SS. Qed.
  Lemma rayon_prefix n : rayon_run (ry_init 1) (ry_upto ev n) (st n).
  Proof. induction n as [|n IH]; [rewrite S0; constructor|]. rewrite ry_upto_S. econstructor; [exact IH|apply SS]. Qed.
  Lemma only_worker n : by_worker 0 (ev n) = false -> exists l, ev n = RListener l.
  Proof.
    intros E. pose proof (proj2 single_infinite n) as S. destruct (ev n) as [l|w l] eqn:El; [eauto|exfalso].
    pose proof (worker_exists _ _ _ _ S) as H. rewrite (workers_run _ _ _ (ry_prefix _ _ _ single_infinite n)) in H. cbn in E. apply Nat.eqb_neq in E. lia.
  Qed.
  Lemma received_mono n m : n <= m -> exists more, received_by (visible (ry_upto ev m)) = received_by (visible (ry_upto ev n)) ++ more.
  Proof.
    induction 1 as [|m H (more & IH)]; [exists []; now rewrite app_nil_r|]. rewrite ry_upto_S, visible_app, received_by_app, IH, <- app_assoc. eauto.
  Qed.
  Lemma left_step n K : K <= length (received_by (visible (ry_upto ev n))) -> done_so_far (ry_upto ev n) < K ->
    match ev n with
    | RListener _ => left_to_do K (done_so_far (ry_upto ev (S n))) (st (S n)) = left_to_do K (done_so_far (ry_upto ev n)) (st n)
    | RWorker _ _ => left_to_do K (done_so_far (ry_upto ev (S n))) (st (S n)) < left_to_do K (done_so_far (ry_upto ev n)) (st n)
    end.
  Proof.
    intros HK HF. rewrite ry_upto_S. pose proof (rayon_run_ry _ _ _ (rayon_prefix n)) as R.
    apply left_to_do_step; [exact (forest_run _ _ _ R)|exact (ordered_run _ _ _ R)|exact (single_run _ _ (rayon_prefix n))|apply SS|exact HK|exact HF].
  Qed.
  Lemma listener_ends_nothing n l : ev n = RListener l -> done_so_far (ry_upto ev (S n)) = done_so_far (ry_upto ev n).
  Proof.
    intros E. unfold done_so_far. rewrite ry_upto_S, visible_app, finished_by_app, app_length, E. pose proof (proj2 single_infinite n) as S. rewrite E in S.
    enough (finished_by (visible [RListener l]) = []) as -> by (cbn; lia).
    inversion S; subst; try reflexivity. destruct l0; try discriminate; reflexivity.
  Qed.
  Lemma quiet_until n m K : n <= m -> (forall k, n <= k < m -> by_worker 0 (ev k) = false) ->
    K <= length (received_by (visible (ry_upto ev n))) -> done_so_far (ry_upto ev n) < K ->
    done_so_far (ry_upto ev m) = done_so_far (ry_upto ev n) /\
    left_to_do K (done_so_far (ry_upto ev m)) (st m) = left_to_do K (done_so_far (ry_upto ev n)) (st n).
  Proof.
    intros H. induction H as [|m H IH]; intros Q HK HF; [auto|]. destruct IH as [A B]; auto. { intros; apply Q; lia. }
    destruct (only_worker m) as (l & El); [apply Q; lia|]. rewrite (listener_ends_nothing _ _ El).
    split; [exact A|]. destruct (received_mono n m H) as (more & Em).
    pose proof (left_step m K ltac:(rewrite Em, app_length; lia) ltac:(lia)) as L. rewrite El in L. rewrite (listener_ends_nothing _ _ El) in L. congruence.
  Qed.

  Context (CB : every_call_comes_back ev) (FT : fair_to_threads st ev).
  Lemma pending_tasks n K : K <= length (received_by (visible (ry_upto ev n))) -> done_so_far (ry_upto ev n) < K ->
    forall T, nth_error (ry_stacks (st n)) 0 = Some T -> may_take T = true -> thread_can_go_on (st n) 0.
  Proof.
    intros HK HF T A M. pose proof (rayon_run_ry _ _ _ (rayon_prefix n)) as R.
    pose proof (forest_run _ _ _ R) as Fo. destruct (single_run _ _ (rayon_prefix n)) as (T' & hd & Est & Sh & Fl & Eq).
    rewrite Est in A. injection A as ->. pose proof (ordered_run _ _ _ R) as Or.
    destruct (st n) as [ls ts sts pn ck] eqn:Es. cbn [ry_stacks ry_tasks] in *. subst sts.
    assert (NE : ts <> []).
    { destruct T as [|x T].
      - intros ->. destruct Sh as [[_ ->]|(js & b & h & id & p & E & _)]; [|destruct js; discriminate].
        cbn in Eq. rewrite app_nil_r in Eq. unfold done_so_far in HF. rewrite Eq in HK. lia.
      - destruct (waits_in_deque _ _ _ _ _ Fo Or Fl M ltac:(discriminate)) as (id & i & rs & I). intros ->. destruct I. }
    destruct (takes_in_order ls ts [] T [] pn ck Fo M NE) as (s' & S'). exists None, s'. split; [now apply rayon_step_ry|cbn; tauto].
  Qed.
  Lemma works n K : K <= length (received_by (visible (ry_upto ev n))) -> done_so_far (ry_upto ev n) < K ->
    exists m, n <= m /\ by_worker 0 (ev m) = true.
  Proof.
    intros HK HF. destruct (at_exists 1 st ev single_infinite n 0 ltac:(lia)) as (T & A).
    destruct (may_take T) eqn:M.
    - destruct (FT 0 n) as (m & Hm & F).
      destruct (search_first (fun k => by_worker 0 (ev k)) n (1 + m - n)) as [Q|(m' & Hm' & E & Q)]; [|exists m'; split; [lia|exact E]].
      exists m. split; [exact Hm|]. destruct F as [(l & F)|F]; [rewrite F; reflexivity|]. exfalso. apply F.
      destruct (quiet_until n m K Hm ltac:(intros; apply Q; lia) HK HF) as [D _].
      destruct (received_mono n m Hm) as (more & Em).
      apply (pending_tasks m K) with T; [rewrite Em, app_length; lia|lia| |exact M].
      apply (stay 1 st ev single_infinite n m 0 T A Hm). intros; apply Q; lia.
    - destruct T as [|x T]; [discriminate|].
      destruct (acts 1 st ev single_infinite CB FT n 0 x T A ltac:(congruence)) as (m & Hm & _ & B). eauto.
  Qed.
  Lemma gets_done W : forall n K, K <= length (received_by (visible (ry_upto ev n))) -> done_so_far (ry_upto ev n) < K ->
    left_to_do K (done_so_far (ry_upto ev n)) (st n) <= W -> exists m, n <= m /\ K <= done_so_far (ry_upto ev m).
  Proof.
    induction W as [W IH] using lt_wf_ind. intros n K HK HF HW. destruct (works n K HK HF) as (m0 & H0 & B0).
    destruct (search_first (fun k => by_worker 0 (ev k)) n (1 + m0 - n)) as [Q|(m & Hm & B & Q)].
    { rewrite Q in B0 by lia. discriminate. }
    destruct (quiet_until n m K ltac:(lia) Q HK HF) as [D L]. destruct (received_mono n m ltac:(lia)) as (more & Em).
    pose proof (left_step m K ltac:(rewrite Em, app_length; lia) ltac:(lia)) as X. destruct (ev m) as [l|w l] eqn:El; [discriminate|].
    destruct (Nat.le_gt_cases K (done_so_far (ry_upto ev (S m)))) as [G|G]; [exists (S m); split; [lia|exact G]|].
    destruct (received_mono n (S m) ltac:(lia)) as (more' & Em').
    destruct (IH (left_to_do K (done_so_far (ry_upto ev (S m))) (st (S m))) ltac:(lia) (S m) K ltac:(rewrite Em', app_length; lia) G (le_n _)) as (m2 & H2 & G2).
    exists m2. split; [lia|exact G2].
  Qed.
  Lemma end_event i k n m : n <= m -> length (finished_by (visible (ry_upto ev n))) <= k -> nth_error (finished_by (visible (ry_upto ev m))) k = Some i ->
    exists m', n <= m' < m /\ seen (ev m') = Some (GStep i LScopeEnd).
  Proof.
    intros H L. induction H as [|m H IH]; intros E.
    - apply nth_error_Some in L + (exfalso; assert (k < length (finished_by (visible (ry_upto ev n)))) by (apply nth_error_Some; congruence); lia).
    - rewrite ry_upto_S, visible_app, finished_by_app in E.
      destruct (Nat.lt_ge_cases k (length (finished_by (visible (ry_upto ev m))))) as [Lt|Ge].
      + rewrite nth_error_app1 in E by exact Lt. destruct (IH E) as (m' & Hm' & X). exists m'. split; [lia|exact X].
      + rewrite nth_error_app2 in E by exact Ge. exists m. split; [lia|].
        destruct (ev m) as [[c q|j []]|w [[c q|j []]|]]; cbn in E; try (destruct (k - _); discriminate E);
          destruct (k - _) as [|[|]]; try discriminate E; injection E as ->; reflexivity.
  Qed.
End live_single.

(** C120. On a pool of one thread, in rayon's order, nobody is starved, no matter how many listeners are started: if calls of receivers come back and the thread is
    scheduled, each datagram being dispatched is finished. (With two threads and more this is false, C118.) *)
Lemma p_C120_single_thread_starves_nobody :
  forall (st : nat -> ry_state) (ev : nat -> ry_label),
    st 0 = ry_init 1 -> (forall n, rayon_step (st n) (ev n) (st (S n))) -> every_call_comes_back ev -> fair_to_threads st ev ->
    forall (n i : nat) (c : net_config) (x : net_state),
      nth_error (ry_listeners (st n)) i = Some (c, x) -> dispatching x ->
      exists m, n <= m /\ seen (ev m) = Some (GStep i LScopeEnd).
Proof.
  intros st ev S0 SS CB FT n i c x E D. pose proof (rayon_prefix st ev S0 SS n) as R.
  destruct (single_run _ _ R) as (T & hd & Est & Sh & Fl & Eq). pose proof (forest_run _ _ _ (rayon_run_ry _ _ _ R)) as Fo.
  assert (I : In i (hd ++ scopes_in (ry_tasks (st n)))).
  { pose proof (tr_count _ _ _ _ Fo i) as C. rewrite (dispatching_in_scope _ _ _ _ E D) in C. unfold scopes, flat in C. rewrite Est in C. cbn [concat] in C. rewrite app_nil_r in C.
    apply in_app_iff. destruct (filter (is_task_scope i) (ry_tasks (st n))) as [|t l] eqn:Ft.
    - destruct (filter (is_job_scope i) T) as [|j l] eqn:Fj; [cbn in C; lia|]. left.
      assert (J : In j (filter (is_job_scope i) T)) by (rewrite Fj; now left). apply filter_In in J as [J Ej].
      destruct j as [b k id p|]; [|discriminate]. apply Nat.eqb_eq in Ej. subst k.
      destruct (shape_nonempty _ _ Sh) as (h & ->); [intros ->; destruct J|]. left. symmetry. exact (shape_listener _ _ _ Sh J).
    - right. assert (J : In t (filter (is_task_scope i) (ry_tasks (st n)))) by (rewrite Ft; now left). apply filter_In in J as [J Ej].
      destruct t as [k|]; [|discriminate]. apply Nat.eqb_eq in Ej. subst k. apply in_flat_map. exists (TaskScope i). split; [exact J|now left]. }
  apply In_nth_error in I as (k & Ik).
  set (K := length (received_by (visible (ry_upto ev n)))).
  assert (LK : done_so_far (ry_upto ev n) + k < K).
  { unfold K, done_so_far. rewrite Eq, app_length. assert (k < length (hd ++ scopes_in (ry_tasks (st n)))) by (apply nth_error_Some; congruence). lia. }
  destruct (gets_done st ev S0 SS CB FT _ n K (le_n _) ltac:(lia) (le_n _)) as (m & Hm & G).
  destruct (end_event ev i (done_so_far (ry_upto ev n) + k) n m Hm) as (m' & Hm' & X).
  - unfold done_so_far. lia.
  - destruct (single_run _ _ (rayon_prefix st ev S0 SS m)) as (T' & hd' & _ & _ & _ & Eq').
    destruct (received_mono ev n m Hm) as (more & Em).
    assert (nth_error (received_by (visible (ry_upto ev m))) (done_so_far (ry_upto ev n) + k) = Some i) as Z.
    { rewrite Em, nth_error_app1 by exact LK. rewrite Eq. rewrite nth_error_app2 by (unfold done_so_far; lia).
      replace (done_so_far (ry_upto ev n) + k - length (finished_by (visible (ry_upto ev n)))) with k by (unfold done_so_far; lia). exact Ik. }
    rewrite Eq', nth_error_app1 in Z by (unfold done_so_far in *; lia). exact Z.
  - exists m'. split; [lia|exact X].
Qed.

(** ** The execution of C118's example takes jobs in rayon's order *)
Lemma ex_rayon_phase ck p : p < 22 -> rayon_step (ex_ry_turn ck p) (ex_ry_label p) (if p =? 21 then ex_ry_turn (4 + ck) 0 else ex_ry_turn ck (S p)).
Proof.
  intros H. pose proof (ex_ry_phase ck p H) as R.
  destruct p as [|[|[|[|[|[|[|[|[|[|[|[|[|[|[|[|[|[|[|[|[|[|p]]]]]]]]]]]]]]]]]]]]]]; [..|lia]; clear H; cbn [Nat.eqb] in *;
    try (apply ro_listener; exact R); try (apply ro_other; [exact R|reflexivity|reflexivity]); clear R; unfold ex_ry_turn, ex_ry_label.
  - apply (ro_injected _ 0 [] [] [] [] [] ck ex_ry_cfg {| ns_queue := []; ns_edge := false; ns_buffer := [x00]; ns_pc := Dispatching 0 [x00] ex_ry_src [0; 1] [] false |});
      [reflexivity|reflexivity|intros id j rs []].
  - apply (ro_take_own _ [] ck 0 [0; 1] [] [] [InScope ck 0 ck true] []); [reflexivity| |intros id i rs []].
    do 2 eexists. split; [reflexivity|]. split; [now left|reflexivity].
  - apply (ro_split _ [] [] _ _ _ _ [0] [1]); [reflexivity|discriminate].
  - apply (ro_sequential _ _ []).
  - apply (ro_take_own _ [] (2 + ck) 0 [1] [] [] [InPart (1 + ck) ck 0 [2 + ck] (Joining true); InScope ck 0 ck false] []); [reflexivity| |intros id i rs []].
    do 2 eexists. split; [reflexivity|]. split; [now left|now left].
  - apply (ro_sequential _ _ []).
Qed.
Example ex_C120_run :
  ex_ry_st 0 = ry_init 1 /\ (forall n, rayon_step (ex_ry_st n) (ex_ry_ev n) (ex_ry_st (S n))) /\ every_call_comes_back ex_ry_ev /\ fair_to_threads ex_ry_st ex_ry_ev /\
  exists x, nth_error (ry_listeners (ex_ry_st 30)) 0 = Some (ex_ry_cfg, x) /\ dispatching x.
Proof.
  destruct ex_C118_run as ([S0 _] & _ & CB & FT & _). split; [exact S0|]. split; [|split; [exact CB|split; [exact FT|]]].
  - intros [|n]; [apply ro_listener, ry_start|].
    pose proof (Nat.div_mod n 22 ltac:(lia)) as D. pose proof (Nat.mod_upper_bound n 22 ltac:(lia)) as B.
    assert (E : S n mod 22 = (if n mod 22 =? 21 then 0 else S (n mod 22)) /\ S n / 22 = if n mod 22 =? 21 then S (n / 22) else n / 22).
    { destruct (Nat.eqb_spec (n mod 22) 21) as [e|ne]; split; symmetry.
      - apply (Nat.mod_unique _ _ (S (n / 22))); lia.
      - apply (Nat.div_unique _ _ _ 0); lia.
      - apply (Nat.mod_unique _ _ (n / 22)); lia.
      - apply (Nat.div_unique _ _ _ (S (n mod 22))); lia. }
    unfold ex_ry_st, ex_ry_ev. destruct E as [-> ->]. pose proof (ex_rayon_phase (4 * (n / 22)) _ B) as P.
    destruct (n mod 22 =? 21); [|exact P]. replace (4 * S (n / 22)) with (4 + 4 * (n / 22)) by lia. exact P.
  - eexists. split; [reflexivity|]. cbn. auto.
Qed.
