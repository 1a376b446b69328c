(** * RayonLiveProofs: C118 *)
From Coq Require Import Permutation.
From Verif Require Import Base Codec Network NetSpec NetworkProofs LivenessSpec LivenessProofs LivenessFacts Pool PoolSpec PoolProofs Rayon RayonSpec RayonProofs RayonLiveSpec.
Open Scope nat_scope.

(** ** What a step does to the stack of one worker *)
Definition unlooked (j : job) : Prop :=
  match j with InScope _ _ _ p | InPart _ _ _ _ (Joining p) => p = false | _ => True end.
Definition act_rank (a : activity) : nat :=
  match a with
  | Deciding rs => 3 * length rs + 3
  | Looping rs => 2 * length rs + 2
  | Calling _ rs => 2 * length rs + 3
  | Joining _ => 1
  end.
Definition rank (j : job) : nat := match j with InScope _ _ _ _ => 1 | InPart _ _ _ js a => length js + act_rank a end.
Definition next_await (j : job) : option nat :=
  match j with InScope _ _ id _ => Some id | InPart _ _ _ (j :: _) (Joining _) => Some j | _ => None end.
(** the same but for having looked *)
Definition same (x y : job) : Prop :=
  match x, y with
  | InScope b i id _, InScope b' i' id' _ => b = b' /\ i = i' /\ id = id'
  | InPart b id i js (Joining _), InPart b' id' i' js' (Joining _) => b = b' /\ i = i' /\ id = id' /\ js = js'
  | _, _ => x = y
  end.
Lemma same_refl x : same x x.
Proof. destruct x as [b i id p|b id i js [rs|rs|r rs|p]]; cbn; auto. Qed.
Lemma same_facts x y : same x y -> born y = born x /\ rank y = rank x /\ next_await y = next_await x /\ awaits y = awaits x.
Proof.
  destruct x as [b i id p|b id i js [rs|rs|r rs|p]], y as [b' i' id' p'|b' id' i' js' [rs'|rs'|r' rs'|p']]; cbn; try discriminate;
    intros H; repeat match goal with H : _ /\ _ |- _ => destruct H end; subst; auto; injection H; intros; subst; auto.
Qed.
Lemma same_trans x y z : same x y -> same y z -> same x z.
Proof.
  destruct x as [b i id p|b id i js [rs|rs|r rs|p]], y as [b' i' id' p'|b' id' i' js' [rs'|rs'|r' rs'|p']]; cbn; try discriminate; intros H;
    try (rewrite <- H; auto; fail); destruct z as [b2 i2 id2 p2|b2 id2 i2 js2 [rs2|rs2|r2 rs2|p2]]; cbn; try discriminate;
    intros K; repeat match goal with H : _ /\ _ |- _ => destruct H end; subst; auto; congruence.
Qed.

Inductive kind (s : ry_state) : list job -> list job -> Prop :=
| k_push y S : may_take S = true -> born y = ry_clock s -> kind s S (y :: rearm S)
| k_pop x S : (forall j, next_await x = Some j -> ~ unfinished (ry_tasks s) (ry_stacks s) j) -> kind s (x :: S) S
| k_progress x y S : born y = born x -> rank y < rank x -> unlooked y -> (forall j, next_await x = Some j -> ~ unfinished (ry_tasks s) (ry_stacks s) j) ->
    kind s (x :: S) (y :: S)
| k_look x y j S : unlooked x -> same x y -> ~ unlooked y -> next_await x = Some j -> unfinished (ry_tasks s) (ry_stacks s) j -> kind s (x :: S) (y :: S).

Lemma nth_error_at {A} (l1 : list A) x l2 w y : nth_error (l1 ++ x :: l2) w = Some y -> w = length l1 -> y = x.
Proof. intros E ->. rewrite nth_error_mid in E. congruence. Qed.

Definition by_worker (w : nat) (l : ry_label) : bool := match l with RWorker k _ => k =? w | _ => false end.
Lemma by_worker_iff w l : by_worker w l = true <-> exists lab, l = RWorker w lab.
Proof.
  destruct l as [l|k lab]; cbn; [split; [discriminate|intros (lab & E); discriminate]|].
  rewrite Nat.eqb_eq. split; [intros ->; eauto|]. intros (lab' & E). congruence.
Qed.
Lemma local_step s l s' w S : ry_step s l s' -> nth_error (ry_stacks s) w = Some S ->
  if by_worker w l then exists S', nth_error (ry_stacks s') w = Some S' /\ kind s S S' else nth_error (ry_stacks s') w = Some S.
Proof.
  intros St E. destruct St; cbn [ry_stacks by_worker] in *; try exact E;
    (destruct (Nat.eqb_spec (length w1) w) as [Ew|Ew];
     [|match goal with E : nth_error (?a ++ ?x :: ?b) w = _ |- nth_error (?a ++ ?y :: ?b) w = _ =>
         rewrite <- E; symmetry; apply (nth_error_other a x y b w); congruence end];
     subst w; rewrite nth_error_mid in E; injection E as <-; rewrite nth_error_mid; eexists; (split; [reflexivity|])).
  - apply k_push; [assumption|reflexivity].
  - apply k_push; [assumption|reflexivity].
  - apply k_progress; cbn; auto; [|destruct js; discriminate]. rewrite app_length. destruct right; [congruence|]. cbn [length]. lia.
  - apply k_progress; cbn; auto; [lia|destruct js; discriminate].
  - apply k_progress; cbn; auto; [lia|destruct js; discriminate].
  - apply k_progress; cbn; auto; [lia|destruct js; discriminate].
  - apply k_progress; cbn; auto; [lia|destruct js; discriminate].
  - apply k_progress; cbn; auto; [lia|destruct js; discriminate].
  - eapply k_look; cbn; auto; discriminate.
  - apply k_progress; cbn; auto. intros j0 E. injection E as <-. assumption.
  - apply k_pop; cbn; auto. destruct looked; discriminate.
  - eapply k_look; cbn; auto; discriminate.
  - apply k_pop; cbn; auto. intros j0 E. injection E as <-. assumption.
Qed.
Lemma kind_inv s S S' : kind s S S' ->
  (may_take S = true /\ exists y, S' = y :: rearm S /\ born y = ry_clock s) \/
  (exists x, S = x :: S' /\ forall j, next_await x = Some j -> ~ unfinished (ry_tasks s) (ry_stacks s) j) \/
  (exists x y T, S = x :: T /\ S' = y :: T /\ born y = born x /\ rank y < rank x /\ unlooked y /\
     forall j, next_await x = Some j -> ~ unfinished (ry_tasks s) (ry_stacks s) j) \/
  (exists x y j T, S = x :: T /\ S' = y :: T /\ unlooked x /\ same x y /\ ~ unlooked y /\ next_await x = Some j /\ unfinished (ry_tasks s) (ry_stacks s) j).
Proof.
  destruct 1; [left|right; left|right; right; left|right; right; right]; eauto 12.
Qed.

(** ** More invariants *)
Definition below_unlooked (s : ry_state) : Prop := Forall (fun st => Forall unlooked (tl st)) (ry_stacks s).
Lemma rearm_unlooked st : Forall unlooked (tl st) -> may_take st = true -> Forall unlooked (rearm st).
Proof.
  destruct st as [|[b i id p|b id i js [rs|rs|r rs|p]] st]; cbn; intros H M; try discriminate; constructor; cbn; auto.
Qed.
Lemma below_unlooked_step s l s' : below_unlooked s -> ry_step s l s' -> below_unlooked s'.
Proof.
  unfold below_unlooked. intros C S. destruct S; cbn [ry_stacks] in *; try exact C;
    (eapply Forall_mid; [exact C|]); pose proof (Forall_at _ _ _ _ C) as H9; cbn [tl] in *; try assumption;
    try (apply rearm_unlooked; assumption).
  - now destruct st; [constructor|inversion H9].
  - now destruct st; [constructor|inversion H9].
Qed.
Lemma below_unlooked_run n tr s : ry_run (ry_init n) tr s -> below_unlooked s.
Proof.
  intros R. remember (ry_init n) as s0 eqn:E. induction R; subst; [|eapply below_unlooked_step; eauto].
  unfold below_unlooked. cbn. apply Forall_forall. intros st H. apply repeat_spec in H. subst. constructor.
Qed.

Definition borns (s : ry_state) : list nat := map born (flat s).
Lemma rearm_borns st : map born (rearm st) = map born st.
Proof. destruct st as [|[b i id p|b id i js [rs|rs|r rs|p]] st]; reflexivity. Qed.
Lemma borns_stack (w1 : list (list job)) st w2 : Permutation (map born (concat (w1 ++ st :: w2))) (map born st ++ map born (concat (w1 ++ w2))).
Proof. rewrite <- map_app. apply Permutation_map, flat_stack. Qed.
Lemma borns_step s l s' : ry_step s l s' -> ry_clock s <= ry_clock s' /\
  ((Permutation (borns s') (borns s)) \/
   (Permutation (borns s') (ry_clock s :: borns s) /\ ry_clock s' = S (ry_clock s)) \/
   (exists b, Permutation (borns s) (b :: borns s'))).
Proof.
  unfold borns, flat. intros S. destruct S; cbn [ry_stacks ry_clock]; (split; [lia|]); try (left; reflexivity).
  - right. left. split; [|reflexivity]. rewrite !borns_stack. cbn [map born app]. now rewrite rearm_borns.
  - right. left. split; [|reflexivity]. rewrite !borns_stack. cbn [map born app]. now rewrite rearm_borns.
  - left. rewrite !borns_stack. reflexivity.
  - left. rewrite !borns_stack. reflexivity.
  - left. rewrite !borns_stack. reflexivity.
  - left. rewrite !borns_stack. reflexivity.
  - left. rewrite !borns_stack. reflexivity.
  - left. rewrite !borns_stack. reflexivity.
  - left. rewrite !borns_stack. reflexivity.
  - left. rewrite !borns_stack. reflexivity.
  - right. right. exists b. rewrite !borns_stack. reflexivity.
  - left. rewrite !borns_stack. reflexivity.
  - right. right. exists b. rewrite !borns_stack. reflexivity.
Qed.
Lemma borns_run n tr s : ry_run (ry_init n) tr s -> NoDup (borns s) /\ forall b, In b (borns s) -> b < ry_clock s.
Proof.
  intros R. remember (ry_init n) as s0 eqn:E. induction R as [|s0 tr s' l s'' R IH S]; subst.
  - unfold borns, flat. cbn. replace (concat (repeat [] n)) with (@nil job) by (induction n; auto). cbn. split; [constructor|intros b []].
  - destruct (IH eq_refl) as [ND B]. destruct (borns_step _ _ _ S) as [C [P|[[P C']|(b & P)]]].
    + split; [eapply Permutation_NoDup; [symmetry; exact P|exact ND]|]. intros b H. apply (Permutation_in _ P) in H. specialize (B _ H). lia.
    + split.
      * eapply Permutation_NoDup; [symmetry; exact P|]. constructor; [|exact ND]. intros H. specialize (B _ H). lia.
      * intros b H. apply (Permutation_in _ P) in H as [<-|H]; [lia|]. specialize (B _ H). lia.
    + apply (Permutation_NoDup P) in ND. inversion ND; subst. split; [assumption|].
      intros b' H. assert (In b' (borns s')) as H' by (eapply Permutation_in; [symmetry; exact P|now right]). specialize (B _ H'). lia.
Qed.

(** the jobs' numbers are unique, too *)
Definition task_id (t : task) : list nat := match t with TaskScope _ => [] | TaskPart id _ _ => [id] end.
Definition job_id (j : job) : list nat := match j with InScope _ _ _ _ => [] | InPart _ id _ _ _ => [id] end.
Definition ids (s : ry_state) : list nat := flat_map task_id (ry_tasks s) ++ flat_map job_id (flat s).
Lemma rearm_ids st : flat_map job_id (rearm st) = flat_map job_id st.
Proof. destruct st as [|[b i id p|b id i js [rs|rs|r rs|p]] st]; reflexivity. Qed.
Lemma ids_stack ts (w1 : list (list job)) st w2 :
  Permutation (flat_map task_id ts ++ flat_map job_id (concat (w1 ++ st :: w2))) (flat_map task_id ts ++ flat_map job_id st ++ flat_map job_id (concat (w1 ++ w2))).
Proof. apply Permutation_app_head. rewrite <- flat_map_app. apply Permutation_flat_map, flat_stack. Qed.
Lemma ids_step s l s' : ry_step s l s' ->
  Permutation (ids s') (ids s) \/ (Permutation (ids s') (ry_clock s :: ids s) /\ ry_clock s' = S (ry_clock s)) \/ (exists b, Permutation (ids s) (b :: ids s')).
Proof.
  unfold ids, flat. intros S. destruct S; cbn [ry_stacks ry_tasks ry_clock]; rewrite ?ids_stack; try (left; reflexivity).
  - left. rewrite flat_map_app. cbn. now rewrite app_nil_r.
  - right. left. split; [|reflexivity]. cbn [flat_map job_id app]. rewrite rearm_ids, !flat_map_app. cbn [flat_map task_id app].
    rewrite <- !app_assoc. cbn [app]. rewrite (app_assoc (flat_map task_id t1)). etransitivity; [symmetry; apply Permutation_middle|]. now rewrite <- !app_assoc.
  - left. cbn [flat_map job_id app]. rewrite rearm_ids, !flat_map_app. cbn [flat_map task_id app].
    rewrite <- !app_assoc. rewrite !(app_assoc _ (flat_map task_id t2)). cbn [app].
    etransitivity; [symmetry; apply Permutation_middle|]. rewrite <- !app_assoc. cbn [app]. apply Permutation_middle.
  - right. left. split; [|reflexivity]. rewrite flat_map_app. cbn [flat_map task_id job_id app]. rewrite <- !app_assoc. cbn [app].
    symmetry. apply Permutation_middle.
  - right. right. exists id. rewrite !ids_stack. cbn [flat_map job_id app]. symmetry. apply Permutation_middle.
Qed.
Lemma ids_run n tr s : ry_run (ry_init n) tr s -> NoDup (ids s) /\ forall b, In b (ids s) -> b < ry_clock s.
Proof.
  intros R. remember (ry_init n) as s0 eqn:E. induction R as [|s0 tr s' l s'' R IH S]; subst.
  - unfold ids, flat. cbn. replace (concat (repeat [] n)) with (@nil job) by (induction n; auto). cbn. split; [constructor|intros b []].
  - destruct (IH eq_refl) as [ND B]. destruct (borns_step _ _ _ S) as [C _]. destruct (ids_step _ _ _ S) as [P|[[P C']|(b & P)]].
    + split; [eapply Permutation_NoDup; [symmetry; exact P|exact ND]|]. intros b H. apply (Permutation_in _ P) in H. specialize (B _ H). lia.
    + split.
      * eapply Permutation_NoDup; [symmetry; exact P|]. constructor; [|exact ND]. intros H. specialize (B _ H). lia.
      * intros b H. apply (Permutation_in _ P) in H as [<-|H]; [lia|]. specialize (B _ H). lia.
    + apply (Permutation_NoDup P) in ND. inversion ND; subst. split; [assumption|].
      intros b' H. assert (In b' (ids s')) as H' by (eapply Permutation_in; [symmetry; exact P|now right]). specialize (B _ H'). lia.
Qed.
Lemma unfinished_ids s id : unfinished (ry_tasks s) (ry_stacks s) id <-> In id (ids s).
Proof.
  unfold ids. rewrite in_app_iff, !in_flat_map. split.
  - intros [(i & rs & H)|(b & i & js & a & H)]; [left|right]; (eexists; split; [exact H|now left]).
  - intros [([j|k i rs] & H & E)|([b i k p|b k i js a] & H & E)]; cbn in E; try contradiction; destruct E as [<-|[]]; [left|right]; eauto 6.
Qed.

(** ** The number of jobs being executed is bounded *)
Definition task_size (n : nat -> nat) (i : nat) (t : task) : nat :=
  match t with
  | TaskScope k => if i =? k then 1 + Nat.max 1 (n i) else 0
  | TaskPart _ k rs => if i =? k then Nat.max 1 (length rs) else 0
  end.
Definition act_size (a : activity) : nat := match a with Deciding rs => Nat.max 1 (length rs) | _ => 1 end.
Definition job_size (i : nat) (j : job) : nat :=
  match j with
  | InScope _ k _ _ => if i =? k then 1 else 0
  | InPart _ _ k _ a => if i =? k then act_size a else 0
  end.
Definition size (n : nat -> nat) (i : nat) (ts : list task) (F : list job) : nat :=
  list_sum (map (task_size n i) ts) + list_sum (map (job_size i) F).
Lemma size_stack n i ts w1 st w2 : size n i ts (concat (w1 ++ st :: w2)) = size n i ts (st ++ concat (w1 ++ w2)).
Proof. unfold size. f_equal. apply sum_perm, flat_stack. Qed.
Lemma size_task n i t1 t t2 F : size n i (t1 ++ t :: t2) F = task_size n i t + size n i (t1 ++ t2) F.
Proof.
  unfold size. rewrite (sum_perm (task_size n i) (t1 ++ t :: t2) (t :: t1 ++ t2)) by (symmetry; apply Permutation_middle). unfold list_sum. cbn. lia.
Qed.
Lemma size_job n i ts x F : size n i ts (x :: F) = job_size i x + size n i ts F.
Proof. unfold size, list_sum. cbn. lia. Qed.
Lemma size_rearm n i ts st X : size n i ts (rearm st ++ X) = size n i ts (st ++ X).
Proof. unfold size. f_equal. destruct st as [|[b k id p|b id k js [rs|rs|r rs|p]] st]; reflexivity. Qed.
Lemma outside_size n ls ts F ck i : tree ls ts F ck -> in_scope ls i = false -> size n i ts F = 0.
Proof.
  intros T O. unfold size.
  assert (A : forall ts', incl ts' ts -> list_sum (map (task_size n i) ts') = 0).
  { induction ts' as [|t ts' IH]; intros I; [reflexivity|]. unfold list_sum in *. cbn. rewrite IH by (intros z Z; apply I; now right).
    destruct t as [k|id k rs]; cbn; destruct (Nat.eqb_spec i k) as [->|]; try reflexivity; exfalso.
    - rewrite (task_scope_in_scope _ _ _ _ _ T (I _ (or_introl eq_refl))) in O. discriminate.
    - rewrite (part_in_scope _ _ _ _ id k T) in O; [discriminate|]. left. exists rs. apply I. now left. }
  assert (B : forall F', incl F' F -> list_sum (map (job_size i) F') = 0).
  { induction F' as [|j F' IH]; intros I; [reflexivity|]. unfold list_sum in *. cbn. rewrite IH by (intros z Z; apply I; now right).
    destruct j as [b k id p|b id k js a]; cbn; destruct (Nat.eqb_spec i k) as [->|]; try reflexivity; exfalso.
    - rewrite (in_scope_job _ _ _ _ _ _ _ _ T (I _ (or_introl eq_refl))) in O. discriminate.
    - rewrite (part_in_scope _ _ _ _ id k T) in O; [discriminate|]. right. exists b, js, a. apply I. now left. }
  rewrite (A ts (incl_refl _)), (B F (incl_refl _)). reflexivity.
Qed.
Lemma size_step n s l s' z : forest s -> ry_step s l s' -> (forall i c x, nth_error (ry_listeners s) i = Some (c, x) -> n i = nc_receivers c) ->
  size n z (ry_tasks s) (flat s) <= 1 + Nat.max 1 (n z) -> size n z (ry_tasks s') (flat s') <= 1 + Nat.max 1 (n z).
Proof.
  unfold forest, flat. intros T S Hn B. destruct S; cbn [ry_tasks ry_stacks ry_listeners ry_clock] in *; rewrite ?size_stack in *; try exact B.
  - rewrite size_task, app_nil_r. cbn [task_size]. destruct (Nat.eqb_spec z (length l1)) as [->|N]; [|cbn; exact B].
    erewrite outside_size; [|exact T|]; [lia|]. destruct (recv_pc _ _ _ H) as (k & pkt & src & E1 & E2). now rewrite in_scope_at, E1.
  - rewrite app_assoc, size_task, app_nil_r. cbn [app]. rewrite size_job, size_rearm. rewrite size_task in B. cbn [task_size job_size] in *.
    destruct (Nat.eqb_spec z i) as [->|N]; [|lia]. rewrite seq_length. rewrite (Hn _ _ _ H0) in *. lia.
  - cbn [app]. rewrite size_job, size_rearm. rewrite size_task in B. cbn [task_size job_size act_size] in *.
    destruct (Nat.eqb_spec z i) as [->|N]; lia.
  - rewrite size_task, app_nil_r. cbn [app] in *. rewrite size_job in *. cbn [task_size job_size act_size] in *. rewrite app_length in B.
    destruct left; [congruence|]. destruct right; [congruence|]. cbn [length] in *. destruct (Nat.eqb_spec z i) as [->|N]; lia.
  - cbn [app] in *. rewrite size_job in *. cbn [job_size act_size] in *. destruct (Nat.eqb_spec z i) as [->|N]; lia.
  - cbn [app] in *. rewrite size_job in *. lia.
  - cbn [app] in *. rewrite size_job in *. lia.
Qed.
Lemma size_run n workers tr s i : ry_run (ry_init workers) tr s ->
  (forall i c x, nth_error (ry_listeners s) i = Some (c, x) -> n i = nc_receivers c) ->
  size n i (ry_tasks s) (flat s) <= 1 + Nat.max 1 (n i).
Proof.
  intros R. remember (ry_init workers) as s0 eqn:E. induction R as [s0|s0 tr s1 l s2 R IH S]; subst; intros H.
  - unfold size, flat. cbn. replace (concat (repeat [] workers)) with (@nil job) by (induction workers; auto). cbn. lia.
  - assert (H1 : forall i c x, nth_error (ry_listeners s1) i = Some (c, x) -> n i = nc_receivers c).
    { intros i0 c x E. destruct (configs_step _ _ _ _ _ _ S E) as (x' & E'). eauto. }
    eapply size_step; [eapply forest_run; exact R|exact S|exact H1|auto].
Qed.
Lemma jobs_of_listeners L F : Forall (fun j => job_listener j < L) F ->
  length F = list_sum (map (fun i => length (filter (fun j => job_listener j =? i) F)) (seq 0 L)).
Proof.
  induction 1 as [|x F H HF IH].
  - cbn. assert (Z : forall l, list_sum (map (fun _ : nat => 0) l) = 0) by (induction l; unfold list_sum in *; cbn; auto). now rewrite Z.
  - cbn [length]. rewrite IH.
    assert (G : forall l, list_sum (map (fun i => length (filter (fun j => job_listener j =? i) (x :: F))) l) =
      countn (job_listener x) l + list_sum (map (fun i => length (filter (fun j => job_listener j =? i) F)) l)).
    { induction l as [|k l IHl]; [reflexivity|]. rewrite countn_cons. unfold list_sum in *. cbn [map fold_right]. rewrite IHl. cbn [filter].
      destruct (job_listener x =? k); cbn [length]; lia. }
    rewrite G, countn_seq. destruct (Nat.ltb_spec (job_listener x) L); lia.
Qed.
Lemma jobs_bound n workers tr s : ry_run (ry_init workers) tr s ->
  (forall i c x, nth_error (ry_listeners s) i = Some (c, x) -> n i = nc_receivers c) ->
  length (flat s) <= list_sum (map (fun i => 1 + Nat.max 1 (n i)) (seq 0 (length (ry_listeners s)))).
Proof.
  intros R Hn. pose proof (forest_run _ _ _ R) as T.
  rewrite (jobs_of_listeners (length (ry_listeners s))).
  - assert (K : forall l, list_sum (map (fun i => length (filter (fun j => job_listener j =? i) (flat s))) l) <= list_sum (map (fun i => 1 + Nat.max 1 (n i)) l)).
    { induction l as [|i l IH]; unfold list_sum in *; cbn [map fold_right]; [lia|]. apply Nat.add_le_mono; [|exact IH].
      pose proof (size_run n _ _ _ i R Hn) as B. unfold size in B.
      enough (length (filter (fun j => job_listener j =? i) (flat s)) <= list_sum (map (job_size i) (flat s))) by lia.
      clear. induction (flat s) as [|j F IH]; unfold list_sum in *; cbn [filter map fold_right length]; [lia|].
      destruct j as [b k id p|b id k js a]; cbn [job_listener job_size]; rewrite (Nat.eqb_sym k i); destruct (i =? k); cbn [length]; try lia.
      destruct a; cbn [act_size]; lia. }
    apply K.
  - apply Forall_forall. intros j Hj.
    assert (I : in_scope (ry_listeners s) (job_listener j) = true).
    { destruct j as [b k id p|b id k js a]; cbn.
      - eapply in_scope_job; [exact T|exact Hj].
      - eapply part_in_scope; [exact T|]. right. eauto. }
    unfold in_scope in I. apply nth_error_Some. destruct (nth_error (ry_listeners s) (job_listener j)); congruence.
Qed.

(** ** When a worker can go on *)
Definition calls_now (j : job) : bool := match j with InPart _ _ _ _ (Calling _ _) => true | _ => false end.
Lemma thread_goes_on s w x S : forest s -> nth_error (ry_stacks s) w = Some (x :: S) -> calls_now x = false ->
  (may_take (x :: S) = true -> forall j, next_await x = Some j -> ~ unfinished (ry_tasks s) (ry_stacks s) j) ->
  thread_can_go_on s w.
Proof.
  destruct s as [ls ts sts pn ck]. unfold forest, flat. cbn [ry_listeners ry_tasks ry_stacks ry_clock]. intros T E NC NB.
  destruct (nth_error_split _ _ E) as (w1 & w2 & -> & <-).
  destruct x as [b i id p|b id i js a].
  - assert (I : in_scope ls i = true).
    { eapply in_scope_job; [exact T|]. eapply Permutation_in; [symmetry; apply flat_top|now left]. }
    destruct (in_scope_exists _ _ I) as (c & s & k & pkt & src & pe & ru & pa & El & PC).
    destruct (nth_error_split _ _ El) as (l1 & l2 & -> & <-).
    destruct (unfinished_dec ts (w1 ++ (InScope b (length l1) id p :: S) :: w2) id) as [U|U].
    + destruct p; [exfalso; exact (NB eq_refl _ eq_refl U)|]. do 2 eexists. split; [apply ry_look_scope; exact U|cbn; tauto].
    + do 2 eexists. split; [eapply ry_scope_done; eassumption|cbn; tauto].
  - assert (I : in_scope ls i = true).
    { eapply part_in_scope; [exact T|]. right. exists b, js, a. eapply Permutation_in; [symmetry; apply flat_top|now left]. }
    destruct (in_scope_exists _ _ I) as (c & s & k & pkt & src & pe & ru & pa & El & PC).
    destruct a as [rs|[|r rs]|r rs|p].
    + do 2 eexists. split; [apply ry_sequential|cbn; tauto].
    + do 2 eexists. split; [apply ry_loop_done|cbn; tauto].
    + do 2 eexists. split; [eapply ry_call; eassumption|cbn; tauto].
    + discriminate.
    + destruct js as [|j js]; [do 2 eexists; split; [apply ry_part_done|cbn; tauto]|].
      destruct (unfinished_dec ts (w1 ++ (InPart b id i (j :: js) (Joining p) :: S) :: w2) j) as [U|U].
      * destruct p; [exfalso; exact (NB eq_refl _ eq_refl U)|]. do 2 eexists. split; [apply ry_look_join; exact U|cbn; tauto].
      * do 2 eexists. split; [apply ry_join_done; exact U|cbn; tauto].
Qed.
Lemma calling_step s l s' w b id i js r rs S : calm s -> ry_step s l s' ->
  nth_error (ry_stacks s') w = Some (InPart b id i js (Calling r rs) :: S) ->
  (by_worker w l = false /\ nth_error (ry_stacks s) w = Some (InPart b id i js (Calling r rs) :: S)) \/
  exists pkt src, l = RWorker w (Some (GStep i (LCall r pkt src))).
Proof.
  unfold calm. intros C St E. destruct St; cbn [ry_stacks by_worker] in *; try (left; split; [reflexivity|exact E]);
    (destruct (Nat.eqb_spec (length w1) w) as [Ew|Ew];
     [|left; split; [reflexivity|]; match goal with E : nth_error (?a ++ ?x :: ?b) w = _ |- nth_error (?a ++ ?y :: ?b) w = _ =>
         rewrite <- E; symmetry; apply (nth_error_other a x y b w); congruence end]);
     subst w; rewrite nth_error_mid in E; try discriminate;
     try (injection E as <- <- <- <- <- <- <-; right; eauto; fail).
  - injection E as ->. pose proof (Forall_at _ _ _ _ C) as H9. cbn in H9. inversion H9; subst. discriminate.
  - injection E as ->. pose proof (Forall_at _ _ _ _ C) as H9. cbn in H9. inversion H9; subst. discriminate.
Qed.

(** ** Infinite executions *)
Lemma ry_upto_S ev n : ry_upto ev (S n) = ry_upto ev n ++ [ev n].
Proof. unfold ry_upto. now rewrite seq_S, map_app. Qed.
Lemma ry_prefix N st ev : infinite_ry N st ev -> forall n, ry_run (ry_init N) (ry_upto ev n) (st n).
Proof.
  intros [H0 HS] n. induction n as [|n IH].
  - rewrite H0. constructor.
  - rewrite ry_upto_S. econstructor; [exact IH|apply HS].
Qed.
Lemma search_first (f : nat -> bool) n j : (forall i, n <= i < n + j -> f i = false) \/
  exists m, n <= m < n + j /\ f m = true /\ forall i, n <= i < m -> f i = false.
Proof.
  induction j as [|j IH]; [left; intros; lia|]. destruct IH as [IH|(m & Hm & H1 & H2)]; [|right; exists m; repeat split; auto; lia].
  destruct (f (n + j)) eqn:E.
  - right. exists (n + j). repeat split; try lia; auto.
  - left. intros i Hi. destruct (Nat.eq_dec i (n + j)) as [->|Ne]; [exact E|apply IH; lia].
Qed.
Definition task_eq_dec (t u : task) : {t = u} + {t <> u}.
Proof. decide equality; try apply Nat.eq_dec. apply (list_eq_dec Nat.eq_dec). Defined.
Lemma task_step s l s' t : ry_step s l s' -> In t (ry_tasks s) -> ~ In t (ry_tasks s') ->
  match t with
  | TaskScope i => exists b id p, In (InScope b i id p) (flat s')
  | TaskPart id i rs => In (InPart (ry_clock s) id i [] (Deciding rs)) (flat s')
  end.
Proof.
  unfold flat. intros St I NI. destruct St; cbn [ry_tasks ry_stacks ry_clock] in *; try contradiction.
  - exfalso. apply NI, in_app_iff. now left.
  - assert (E : t = TaskScope i).
    { apply in_app_iff in I as [I|[I|I]]; [exfalso|now symmetry|exfalso]; apply NI; rewrite !in_app_iff; tauto. }
    subst t. do 3 eexists. eapply Permutation_in; [symmetry; apply flat_top|now left].
  - assert (E : t = TaskPart id i rs).
    { apply in_app_iff in I as [I|[I|I]]; [exfalso|now symmetry|exfalso]; apply NI; rewrite !in_app_iff; tauto. }
    subst t. eapply Permutation_in; [symmetry; apply flat_top|now left].
  - exfalso. apply NI, in_app_iff. now left.
Qed.
Lemma unlooked_takes_nothing x T : unlooked x -> may_take (x :: T) = false.
Proof. destruct x as [b i id p|b id i js [rs|rs|r rs|p]]; cbn; auto; now intros ->. Qed.
Lemma not_may_take x T : may_take (x :: T) = false -> unlooked x.
Proof. destruct x as [b i id [|]|b id i js [rs|rs|r rs|[|]]]; cbn; auto; discriminate. Qed.

Lemma nodup_r {A} (a b : list A) : NoDup (a ++ b) -> NoDup b.
Proof. induction a as [|x a IH]; cbn; auto. intros H. inversion H. auto. Qed.
Lemma nodup_l {A} (a b : list A) : NoDup (a ++ b) -> NoDup a.
Proof. induction a as [|x a IH]; cbn; intros H; [constructor|]. inversion H as [|? ? NI ND]; subst. constructor; auto. intros I. apply NI, in_app_iff. now left. Qed.

Lemma exists_last_or_nil {A} (l : list A) : l = [] \/ exists l' x, l = l' ++ [x].
Proof. destruct l as [|a l]; [now left|]. right. destruct (exists_last (l := a :: l) ltac:(discriminate)) as (l' & x & E). eauto. Qed.
(** who is executed under which number *)
Definition job_pair (j : job) : list (nat * nat) := match j with InScope _ _ _ _ => [] | InPart b id _ _ _ => [(id, b)] end.
Definition pairs (s : ry_state) : list (nat * nat) := flat_map job_pair (flat s).
Lemma rearm_pairs st : flat_map job_pair (rearm st) = flat_map job_pair st.
Proof. destruct st as [|[b i id p|b id i js [rs|rs|r rs|p]] st]; reflexivity. Qed.
Lemma pairs_stack (w1 : list (list job)) st w2 :
  Permutation (flat_map job_pair (concat (w1 ++ st :: w2))) (flat_map job_pair st ++ flat_map job_pair (concat (w1 ++ w2))).
Proof. rewrite <- flat_map_app. apply Permutation_flat_map, flat_stack. Qed.
Lemma pairs_step s l s' : ry_step s l s' -> incl (pairs s) (pairs s') \/ exists p, Permutation (pairs s) (p :: pairs s') /\ Permutation (ids s) (fst p :: ids s').
Proof.
  assert (PI : forall a b : list (nat * nat), Permutation b a -> incl b a) by (intros a b P z; apply Permutation_in, P).
  unfold pairs, flat. intros S. destruct S; cbn [ry_stacks ry_tasks]; try (left; apply incl_refl);
    try (left; apply PI; rewrite !pairs_stack; reflexivity).
  - left. apply PI. rewrite !pairs_stack. cbn [flat_map job_pair app]. now rewrite rearm_pairs.
  - left. intros z Z. apply (Permutation_in _ (pairs_stack _ _ _)) in Z. eapply Permutation_in; [symmetry; apply pairs_stack|].
    cbn [flat_map job_pair app]. rewrite rearm_pairs. now right.
  - right. exists (id, b). split.
    + rewrite !pairs_stack. reflexivity.
    + unfold ids, flat. cbn [ry_tasks ry_stacks fst]. rewrite !ids_stack. cbn [flat_map job_id app]. symmetry. apply Permutation_middle.
Qed.
Lemma rearm_top x T : may_take (x :: T) = true -> exists y, rearm (x :: T) = y :: T /\ same x y.
Proof. destruct x as [b i id p|b id i js [rs|rs|r rs|p]]; cbn; try discriminate; intros _; eexists; (split; [reflexivity|cbn; auto]). Qed.
Lemma rearm_above a A : exists a', rearm (a :: A) = a' :: A.
Proof. destruct a as [b i id p|b id i js [rs|rs|r rs|p]]; cbn; eauto. Qed.

Lemma configs_stay s l s' : ry_step s l s' -> (exists c q, seen l = Some (GStart c q)) \/ map fst (ry_listeners s') = map fst (ry_listeners s).
Proof.
  intros S. destruct S; cbn [ry_listeners seen]; try (right; reflexivity); [left; eauto|right..]; now rewrite !map_app.
Qed.
Lemma scope_stays s l s' b i id p : ry_step s l s' -> In (InScope b i id p) (flat s) ->
  (exists p', In (InScope b i id p') (flat s')) \/ exists w, l = RWorker w (Some (GStep i LScopeEnd)).
Proof.
  assert (AB : forall w1 w2 st st', (In (InScope b i id p) st -> exists p', In (InScope b i id p') st') ->
    In (InScope b i id p) (concat (w1 ++ st :: w2)) -> exists p', In (InScope b i id p') (concat (w1 ++ st' :: w2))).
  { intros w1 w2 st st' H I. rewrite concat_app, in_app_iff in I. cbn [concat] in I. rewrite in_app_iff in I.
    assert (K : forall p', In (InScope b i id p') (concat w1) \/ In (InScope b i id p') st' \/ In (InScope b i id p') (concat w2) ->
      In (InScope b i id p') (concat (w1 ++ st' :: w2))).
    { intros p'. rewrite concat_app, in_app_iff. cbn [concat]. rewrite in_app_iff. auto. }
    destruct I as [I|[I|I]]; [|destruct (H I) as (p' & I')|]; eauto. }
  assert (RE : forall z st, In (InScope b i id p) st -> exists p', In (InScope b i id p') (z :: rearm st)).
  { intros z st I. destruct st as [|y st]; [contradiction|]. destruct I as [->|I]; [exists false; right; now left|]. exists p. right.
    destruct y as [b0 i0 id0 p0|b0 id0 i0 js [rs|rs|r rs|p0]]; right; exact I. }
  unfold flat. intros S I. destruct S; cbn [ry_stacks] in *; try (left; exists p; exact I);
    try (left; revert I; apply AB; intros [E|I]; [discriminate|]; exists p; now (right + idtac)).
  - left. revert I. apply AB, RE.
  - left. revert I. apply AB, RE.
  - left. revert I. apply AB. intros [E|I]; [injection E as <- <- <- <-; exists true; now left|]. exists p. now right.
  - destruct (Nat.eq_dec (length l1) i) as [<-|Ne]; [right; eauto|]. left. revert I. apply AB.
    intros [E|I]; [congruence|]. eauto.
Qed.

Section live.
  Context (N : nat) (st : nat -> ry_state) (ev : nat -> ry_label) (RUN : infinite_ry N st ev).

  Definition at_ (n w : nat) (S : list job) : Prop := nth_error (ry_stacks (st n)) w = Some S.
  Definition open (n j : nat) : Prop := unfinished (ry_tasks (st n)) (ry_stacks (st n)) j.

  Lemma stay n m w S : at_ n w S -> n <= m -> (forall k, n <= k < m -> by_worker w (ev k) = false) -> at_ m w S.
  Proof.
    intros A. induction 1 as [|m H IH]; intros Q; [exact A|].
    pose proof (local_step _ _ _ _ _ (proj2 RUN m) (IH ltac:(intros; apply Q; lia))) as L. rewrite Q in L by lia. exact L.
  Qed.
  Lemma first_act n m w S : at_ n w S -> n <= m -> by_worker w (ev m) = true ->
    exists m', n <= m' <= m /\ at_ m' w S /\ by_worker w (ev m') = true.
  Proof.
    intros A H E. destruct (search_first (fun k => by_worker w (ev k)) n (1 + m - n)) as [Q|(m' & Hm & E' & Q)].
    - rewrite Q in E by lia. discriminate.
    - exists m'. split; [lia|]. split; [|exact E']. eapply stay; [exact A|lia|exact Q].
  Qed.
  Lemma moves n w S : at_ n w S -> by_worker w (ev n) = true -> exists S', at_ (1 + n) w S' /\ kind (st n) S S'.
  Proof. intros A E. pose proof (local_step _ _ _ _ _ (proj2 RUN n) A) as L. rewrite E in L. exact L. Qed.
  Lemma at_exists n w : w < N -> exists S, at_ n w S.
  Proof.
    intros H. unfold at_. rewrite <- (workers_run _ _ _ (ry_prefix _ _ _ RUN n)) in H. apply nth_error_Some in H.
    destruct (nth_error _ w); [eauto|congruence].
  Qed.
  Lemma call_origin w b id i js r rs T : forall n, at_ n w (InPart b id i js (Calling r rs) :: T) ->
    exists n1 pkt src, n1 < n /\ ev n1 = RWorker w (Some (GStep i (LCall r pkt src))) /\ forall k, n1 < k < n -> by_worker w (ev k) = false.
  Proof.
    induction n as [|n IH]; intros A.
    - unfold at_ in A. rewrite (proj1 RUN) in A. cbn in A. apply nth_error_In, repeat_spec in A. discriminate.
    - destruct (calling_step _ _ _ _ _ _ _ _ _ _ _ (calm_run _ _ _ (ry_prefix _ _ _ RUN n)) (proj2 RUN n) A) as [[B A']|(pkt & src & E)].
      + destruct (IH A') as (n1 & pkt & src & H & E & Q). exists n1, pkt, src. split; [lia|]. split; [exact E|].
        intros k Hk. destruct (Nat.eq_dec k n) as [->|Ne]; [exact B|apply Q; lia].
      + exists n, pkt, src. split; [lia|]. split; [exact E|]. intros; lia.
  Qed.

  Context (CB : every_call_comes_back ev) (FT : fair_to_threads st ev).
  Lemma acts n w x T : at_ n w (x :: T) -> (may_take (x :: T) = true -> forall m j, n <= m -> next_await x = Some j -> ~ open m j) ->
    exists m, n <= m /\ at_ m w (x :: T) /\ by_worker w (ev m) = true.
  Proof.
    intros A NB. destruct (calls_now x) eqn:EC.
    - destruct x as [b i id p|b id i js [rs|rs|r rs|p]]; try discriminate.
      destruct (call_origin _ _ _ _ _ _ _ _ _ A) as (n1 & pkt & src & H & E & Q).
      destruct (CB _ _ _ _ _ _ E) as (m & Hm & F).
      assert (B : by_worker w (ev m) = true) by (apply by_worker_iff; destruct F; eauto).
      assert (n <= m) by (destruct (Nat.le_gt_cases n m); [assumption|rewrite Q in B by lia; discriminate]).
      destruct (first_act _ _ _ _ A H0 B) as (m' & Hm' & A' & B'). exists m'. split; [lia|auto].
    - destruct (FT w n) as (m & Hm & F).
      destruct (search_first (fun k => by_worker w (ev k)) n (1 + m - n)) as [Q|(m' & Hm' & E & Q)].
      + exfalso. destruct F as [(l & F)|F].
        * specialize (Q m ltac:(lia)). rewrite F in Q. cbn in Q. rewrite Nat.eqb_refl in Q. discriminate.
        * apply F. assert (A' : at_ m w (x :: T)) by (eapply stay; [exact A|exact Hm|intros; apply Q; lia]).
          eapply thread_goes_on; [apply (forest_run _ _ _ (ry_prefix _ _ _ RUN m))|exact A'|exact EC|].
          intros M j. apply NB; [exact M|exact Hm].
      + exists m'. split; [lia|]. split; [|exact E]. eapply stay; [exact A|lia|exact Q].
  Qed.
  Lemma looks R : forall n w S, at_ n w S -> list_sum (map rank S) <= R -> exists m S', n <= m /\ at_ m w S' /\ may_take S' = true.
  Proof.
    induction R as [R IH] using lt_wf_ind. intros n w S A HR.
    destruct (may_take S) eqn:M; [exists n, S; auto|].
    destruct S as [|x T]; [discriminate|].
    destruct (acts n w x T A) as (m & Hm & A' & B); [congruence|].
    destruct (moves _ _ _ A' B) as (S' & A2 & K).
    destruct (kind_inv _ _ _ K) as [(M' & _)|[(z & E & _)|[(z & y & T' & E & E' & _ & L & _)|(z & y & j & T' & E & E' & _ & _ & U & _)]]].
    - congruence.
    - injection E as -> ->. unfold list_sum in HR. cbn in HR. assert (1 <= rank z) by (destruct z as [|? ? ? ? []]; cbn; lia).
      destruct (IH (list_sum (map rank S')) ltac:(unfold list_sum in *; lia) (1 + m) w S' A2 (le_n _)) as (m2 & S2 & H2 & X). exists m2, S2. split; [lia|exact X].
    - injection E as -> ->. subst S'. unfold list_sum in HR. cbn in HR.
      destruct (IH (list_sum (map rank (y :: T'))) ltac:(unfold list_sum in *; cbn; lia) (1 + m) w _ A2 (le_n _)) as (m2 & S2 & H2 & X). exists m2, S2. split; [lia|exact X].
    - exists (1 + m), S'. split; [lia|]. split; [exact A2|]. subst S'. destruct (may_take (y :: T')) eqn:M'; [reflexivity|]. apply not_may_take in M'. contradiction.
  Qed.

  Context (HN : 1 <= N) (FJ : fair_to_jobs st).
  Lemma again_a_thread_looks n : exists m, n <= m /\ a_thread_looks (st m).
  Proof.
    destruct (at_exists n 0 HN) as (S & A). destruct (looks _ _ _ _ A (le_n _)) as (m & S' & Hm & A' & M).
    exists m. split; [exact Hm|]. exists S'. split; [eapply nth_error_In; exact A'|exact M].
  Qed.
  Lemma taken n t : In t (ry_tasks (st n)) -> exists m, n <= m /\
    match t with
    | TaskScope i => exists b id p, In (InScope b i id p) (flat (st (1 + m)))
    | TaskPart id i rs => In (InPart (ry_clock (st m)) id i [] (Deciding rs)) (flat (st (1 + m)))
    end.
  Proof.
    intros H. destruct (FJ again_a_thread_looks n t H) as (m & Hm & NI).
    revert NI. induction Hm as [|m Hm IH]; intros NI; [contradiction|].
    destruct (in_dec task_eq_dec t (ry_tasks (st m))) as [I|I]; [|apply IH, I].
    exists m. split; [exact Hm|]. eapply task_step; [apply (proj2 RUN m)|exact I|exact NI].
  Qed.

  (** nothing comes back *)
  Lemma clock_mono n m : n <= m -> ry_clock (st n) <= ry_clock (st m).
  Proof. induction 1 as [|m H IH]; [lia|]. destruct (borns_step _ _ _ (proj2 RUN m)) as [C _]. lia. Qed.
  Lemma no_resurrection n m b : n <= m -> b < ry_clock (st n) -> In b (borns (st m)) -> In b (borns (st n)).
  Proof.
    intros H B. induction H as [|m H IH]; intros I; [exact I|]. apply IH. clear IH. pose proof (clock_mono _ _ H).
    destruct (borns_step _ _ _ (proj2 RUN m)) as [C [P|[[P _]|(b' & P)]]].
    - eapply Permutation_in; [exact P|exact I].
    - apply (Permutation_in _ P) in I as [E|I]; [lia|exact I].
    - eapply Permutation_in; [symmetry; exact P|now right].
  Qed.
  Lemma stays_finished n m j : n <= m -> j < ry_clock (st n) -> ~ open n j -> ~ open m j.
  Proof.
    unfold open. rewrite !unfinished_ids. intros H B NI. induction H as [|m H IH]; [exact NI|]. intros I. apply IH. clear IH NI. pose proof (clock_mono _ _ H).
    destruct (ids_step _ _ _ (proj2 RUN m)) as [P|[[P _]|(b' & P)]].
    - eapply Permutation_in; [exact P|exact I].
    - apply (Permutation_in _ P) in I as [E|I]; [lia|exact I].
    - eapply Permutation_in; [symmetry; exact P|now right].
  Qed.
  Lemma live_clock n b : In b (borns (st n)) -> b < ry_clock (st n).
  Proof. apply (borns_run _ _ _ (ry_prefix _ _ _ RUN n)). Qed.
  Lemma open_clock n j : open n j -> j < ry_clock (st n).
  Proof. unfold open. rewrite unfinished_ids. apply (ids_run _ _ _ (ry_prefix _ _ _ RUN n)). Qed.
  Lemma awaited_clock n w A x T j : at_ n w (A ++ x :: T) -> next_await x = Some j -> j < ry_clock (st n).
  Proof.
    intros H E. pose proof (forest_run _ _ _ (ry_prefix _ _ _ RUN n)) as F.
    assert (I : In x (flat (st n))) by (apply in_concat; eexists; split; [eapply nth_error_In; exact H|apply in_app_iff; right; now left]).
    destruct x as [b i id p|b id i js a]; cbn in E.
    - injection E as <-. now destruct (tr_scope _ _ _ _ F _ _ _ _ I).
    - destruct (tr_job _ _ _ _ F _ _ _ _ _ I) as (_ & _ & X). destruct js as [|k js]; [destruct a; discriminate|].
      assert (k = j) as <- by (destruct a; congruence). inversion X; lia.
  Qed.

  (** [cnt n b]: the jobs at least as old as [b] *)
  Definition cnt (n b : nat) : nat := length (filter (fun y => y <=? b) (borns (st n))).
  Lemma nodup_cnt n b : NoDup (filter (fun y => y <=? b) (borns (st n))).
  Proof. apply NoDup_filter, (borns_run _ _ _ (ry_prefix _ _ _ RUN n)). Qed.
  Lemma cnt_mono n m b : n <= m -> b < ry_clock (st n) -> cnt m b <= cnt n b.
  Proof.
    intros H B. apply NoDup_incl_length; [apply nodup_cnt|]. intros y Y. apply filter_In in Y as [Y L]. apply filter_In. split; [|exact L].
    apply Nat.leb_le in L. eapply no_resurrection; [exact H| |exact Y]. lia.
  Qed.
  Lemma cnt_drop n m b : n <= m -> In b (borns (st n)) -> ~ In b (borns (st m)) -> cnt m b < cnt n b.
  Proof.
    intros H I NI. pose proof (live_clock _ _ I) as B. unfold cnt. change (length (b :: filter (fun y => y <=? b) (borns (st m))) <= cnt n b).
    apply NoDup_incl_length.
    - constructor; [|apply nodup_cnt]. intros X. apply filter_In in X as [X _]. contradiction.
    - intros y [<-|Y]; apply filter_In; [split; [exact I|apply Nat.leb_refl]|].
      apply filter_In in Y as [Y L]. split; [|exact L]. apply Nat.leb_le in L. eapply no_resurrection; [exact H| |exact Y]. lia.
  Qed.
  Lemma cnt_lt n b y : b < y -> In y (borns (st n)) -> cnt n b < cnt n y.
  Proof.
    intros L I. unfold cnt. change (length (y :: filter (fun z => z <=? b) (borns (st n))) <= cnt n y). apply NoDup_incl_length.
    - constructor; [|apply nodup_cnt]. intros X. apply filter_In in X as [_ X]. apply Nat.leb_le in X. lia.
    - intros z [<-|Z]; apply filter_In; [split; [exact I|apply Nat.leb_refl]|].
      apply filter_In in Z as [Z Lz]. split; [exact Z|]. apply Nat.leb_le in Lz. apply Nat.leb_le. lia.
  Qed.
  Lemma cnt_le_jobs n b : cnt n b <= length (flat (st n)).
  Proof. unfold cnt. rewrite <- (map_length born (flat (st n))). fold (borns (st n)). induction (borns (st n)) as [|y l IH]; cbn; [lia|]. destruct (y <=? b); cbn; lia. Qed.

  (** where a job is *)
  Lemma at_live n w A x T : at_ n w (A ++ x :: T) -> In (born x) (borns (st n)).
  Proof. intros H. apply in_map, in_concat. eexists. split; [eapply nth_error_In; exact H|apply in_app_iff; right; now left]. Qed.
  Lemma live_at n b : In b (borns (st n)) -> exists w A x T, at_ n w (A ++ x :: T) /\ born x = b.
  Proof.
    intros H. apply in_map_iff in H as (x & E & H). apply in_concat in H as (S & H & I).
    apply In_nth_error in H as [w H]. apply in_split in I as (A & T & ->). exists w, A, x, T. auto.
  Qed.
  Lemma nodup_places (L : list (list job)) w w' S S' b : NoDup (map born (concat L)) -> nth_error L w = Some S -> nth_error L w' = Some S' ->
    In b (map born S) -> In b (map born S') -> w = w'.
  Proof.
    revert w w'. induction L as [|X L IH]; intros w w' ND E E' I I'; [destruct w; discriminate|].
    cbn in ND. rewrite map_app in ND.
    assert (D : forall z, In z (map born X) -> In z (map born (concat L)) -> False).
    { clear -ND. induction (map born X) as [|y Y IHY]; intros z [] K; cbn in ND; inversion ND; subst; eauto.
      match goal with H : ~ In _ (_ ++ _) |- _ => apply H, in_app_iff; now right end. }
    assert (IN : forall k Z, nth_error L k = Some Z -> In b (map born Z) -> In b (map born (concat L))).
    { intros k Z Ek Ib. apply in_map_iff in Ib as (y & Ey & Iy). apply in_map_iff. exists y. split; [exact Ey|]. apply in_concat. exists Z. split; [eapply nth_error_In; exact Ek|exact Iy]. }
    destruct w as [|w], w' as [|w']; cbn in E, E'; auto.
    - injection E as ->. exfalso. eapply D; [exact I|eapply IN; eassumption].
    - injection E' as ->. exfalso. eapply D; [exact I'|eapply IN; eassumption].
    - f_equal. apply nodup_r in ND. eapply IH; eassumption.
  Qed.
  Lemma popped n w x T : at_ n w (x :: T) -> by_worker w (ev n) = true -> at_ (1 + n) w T -> ~ In (born x) (borns (st (1 + n))).
  Proof.
    intros A B A' I. apply live_at in I as (w' & A2 & y & T2 & H & E).
    pose proof (borns_run _ _ _ (ry_prefix _ _ _ RUN (1 + n))) as [ND _]. pose proof (borns_run _ _ _ (ry_prefix _ _ _ RUN n)) as [ND0 _].
    destruct (Nat.eq_dec w' w) as [->|Ne].
    - unfold at_ in *. rewrite A' in H. injection H as ->.
      assert (ND1 : NoDup (map born (x :: A2 ++ y :: T2))).
      { clear -ND0 A. unfold borns, flat in ND0. revert w A. induction (ry_stacks (st n)) as [|X L IH]; intros w A; [destruct w; discriminate|].
        cbn in ND0. rewrite map_app in ND0. destruct w as [|w]; cbn in A.
        - injection A as ->. eapply nodup_l; exact ND0.
        - apply nodup_r in ND0. eauto. }
      cbn in ND1. inversion ND1 as [|? ? NI _]; subst. apply NI. rewrite <- E. apply in_map, in_app_iff. right. now left.
    - assert (Q : by_worker w' (ev n) = false).
      { apply by_worker_iff in B as (l & ->). cbn. apply Nat.eqb_neq. congruence. }
      assert (exists S0, at_ n w' S0) as (S0 & H0).
      { apply at_exists. unfold at_ in H. rewrite <- (workers_run _ _ _ (ry_prefix _ _ _ RUN (1 + n))). apply nth_error_Some. congruence. }
      pose proof (local_step _ _ _ _ _ (proj2 RUN n) H0) as L. rewrite Q in L.
      assert (S0 = A2 ++ y :: T2) as -> by (unfold at_ in H; cbn [Nat.add] in H; congruence).
      apply Ne. symmetry. apply (nodup_places (ry_stacks (st n)) w w' (x :: T) (A2 ++ y :: T2) (born x) ND0 A H0); [now left|].
      rewrite <- E. apply in_map, in_app_iff. right. now left.
  Qed.

  (** what is under a job stays as it is *)
  Lemma under_step s A y T S' : kind s (A ++ y :: T) S' -> (A = [] /\ S' = T) \/ exists A' y', S' = A' ++ y' :: T /\ born y' = born y.
  Proof.
    intros K. destruct (kind_inv _ _ _ K) as [(M & z & E & _)|[(z & E & _)|[(z & y2 & T' & E & E' & B & _)|(z & y2 & j & T' & E & E' & _ & B & _)]]].
    - right. subst S'. destruct A as [|a A]; cbn [app] in *.
      + destruct y as [b i id p|b id i js [rs|rs|r rs|p]]; cbn; match goal with |- exists A' y', z :: ?v :: T = _ /\ _ => exists [z], v; auto end.
      + destruct a as [b i id p|b id i js [rs|rs|r rs|p]]; cbn; match goal with |- exists A' y', z :: ?v :: A ++ y :: T = _ /\ _ => exists (z :: v :: A), y; auto end.
    - destruct A as [|a A]; injection E as -> <-; [now left|]. right. exists A, y. auto.
    - right. subst S'. destruct A as [|a A]; injection E as -> <-; [exists [], y2; auto|]. exists (y2 :: A), y. auto.
    - right. subst S'. destruct (same_facts _ _ B) as [Eb _]. destruct A as [|a A]; injection E as -> <-; [exists [], y2; auto|]. exists (y2 :: A), y. auto.
  Qed.
  Lemma under n m w A y T : at_ n w (A ++ y :: T) -> n <= m ->
    (exists m', n < m' <= m /\ at_ m' w T) \/ exists A' y', at_ m w (A' ++ y' :: T) /\ born y' = born y.
  Proof.
    intros H. induction 1 as [|m Hm [(m' & H1 & H2)|(A' & y' & H1 & H2)]]; [right; eauto|left; exists m'; split; [lia|exact H2]|].
    destruct (by_worker w (ev m)) eqn:B.
    - destruct (moves _ _ _ H1 B) as (S' & A2 & K). destruct (under_step _ _ _ _ _ K) as [[-> ->]|(A3 & y3 & -> & E)].
      + left. exists (1 + m). split; [lia|exact A2].
      + right. exists A3, y3. split; [exact A2|congruence].
    - right. exists A', y'. split; [|exact H2]. pose proof (local_step _ _ _ _ _ (proj2 RUN m) H1) as L. rewrite B in L. exact L.
  Qed.
  Lemma below_at n w y A x T : at_ n w (y :: A ++ x :: T) -> unlooked x.
  Proof.
    intros H. pose proof (below_unlooked_run _ _ _ (ry_prefix _ _ _ RUN n)) as B. unfold below_unlooked in B. rewrite Forall_forall in B.
    specialize (B _ (nth_error_In _ _ H)). cbn in B. rewrite Forall_forall in B. apply B, in_app_iff. right. now left.
  Qed.
  Lemma above_younger n w A y x T : at_ n w (A ++ y :: x :: T) -> born x < born y.
  Proof.
    intros H. destruct (ordered_run _ _ _ (ry_prefix _ _ _ RUN n)) as [_ P]. rewrite Forall_forall in P.
    specialize (P _ (nth_error_In _ _ H)). clear H. induction A as [|a A IH]; cbn in P; [|tauto]. destruct P as [P _]. inversion P; auto.
  Qed.

  Lemma id_gone n m b id i js a : In (InPart b id i js a) (flat (st n)) -> n <= m -> ~ In b (borns (st m)) -> ~ open m id.
  Proof.
    intros I H NI. pose proof (tr_job _ _ _ _ (forest_run _ _ _ (ry_prefix _ _ _ RUN n)) _ _ _ _ _ I) as (Ck & _).
    assert (X : In (id, b) (pairs (st m)) \/ ~ open m id).
    { clear NI. induction H as [|m H [IH|IH]].
      - left. apply in_flat_map. eexists. split; [exact I|now left].
      - destruct (pairs_step _ _ _ (proj2 RUN m)) as [P|(p & P & Pi)]; [left; apply P, IH|].
        destruct (Permutation_in _ P IH) as [Ep|IH']; [right; rewrite Ep in Pi|now left]. unfold open. rewrite unfinished_ids. cbn [fst] in Pi.
        pose proof (ids_run _ _ _ (ry_prefix _ _ _ RUN m)) as [ND _]. apply (Permutation_NoDup Pi) in ND. inversion ND; assumption.
      - right. eapply stays_finished; [apply Nat.le_succ_diag_r| |exact IH]. pose proof (clock_mono _ _ H). lia. }
    destruct X as [X|X]; [exfalso|exact X]. apply NI. apply in_flat_map in X as (y & Iy & Ey). apply in_map_iff. exists y. split; [|exact Iy].
    destruct y as [? ? ? ?|? ? ? ? ?]; cbn in Ey; [contradiction|]. destruct Ey as [Ey|[]]. injection Ey as -> ->. reflexivity.
  Qed.

  Section job.
    Context (n b : nat) (D : Prop)
      (HR : forall n' y, n <= n' -> b < y -> In y (borns (st n')) -> D \/ exists m, n' <= m /\ ~ In y (borns (st m)))
      (HB : forall m, n <= m -> ~ In b (borns (st m)) -> D).

    Lemma awaited_finishes n' w A x T j : n <= n' -> at_ n' w (A ++ x :: T) -> born x = b -> next_await x = Some j ->
      D \/ exists m, n' <= m /\ ~ open m j.
    Proof.
      intros H At Bx E.
      assert (K : forall n1 b1 i js a, n' <= n1 -> b < b1 -> In (InPart b1 j i js a) (flat (st n1)) -> D \/ exists m, n' <= m /\ ~ open m j).
      { intros n1 b1 i js a H1 L I. destruct (HR n1 b1) as [d|(m & Hm & NI)]; [lia|exact L|apply (in_map born) in I; exact I|now left|].
        right. exists m. split; [lia|]. eapply id_gone; eassumption. }
      destruct (unfinished_dec (ry_tasks (st n')) (ry_stacks (st n')) j) as [U|U]; [|right; exists n'; auto].
      destruct U as [(i & rs & I)|(b1 & i & js & a & I)].
      - destruct (taken _ _ I) as (m & Hm & I'). eapply K; [|  |exact I']; [lia|].
        pose proof (live_clock _ _ (at_live _ _ _ _ _ At)). pose proof (clock_mono _ _ Hm). lia.
      - eapply K; [apply le_n| |exact I]. rewrite <- Bx. destruct (ordered_run _ _ _ (ry_prefix _ _ _ RUN n')) as [La _].
        eapply La; [|  |exact I].
        + apply in_concat. eexists. split; [eapply nth_error_In; exact At|apply in_app_iff; right; now left].
        + destruct x as [? ? ? ?|? ? ? js' a']; cbn in *; [left; congruence|]. destruct js' as [|k js']; [destruct a'; discriminate|].
          left. destruct a'; congruence.
    Qed.
    Lemma track n' w A x T : n <= n' -> at_ n' w (A ++ x :: T) -> born x = b -> forall m, n' <= m ->
      D \/ (exists m' x', n' <= m' <= m /\ at_ m' w (x' :: T) /\ born x' = b /\ rank x' < rank x) \/
      (exists A' x', at_ m w (A' ++ x' :: T) /\ same x x').
    Proof.
      intros H At Bx. induction 1 as [|m Hm [d|[(m' & x' & H1 & X)|(A' & x' & A2 & E)]]].
      - right. right. exists A, x. split; [exact At|apply same_refl].
      - now left.
      - right. left. exists m', x'. split; [lia|exact X].
      - destruct (same_facts _ _ E) as (Fb & Fr & Fn & Fa).
        destruct (by_worker w (ev m)) eqn:B.
        2:{ right. right. exists A', x'. split; [|exact E]. pose proof (local_step _ _ _ _ _ (proj2 RUN m) A2) as L. rewrite B in L. exact L. }
        destruct (moves _ _ _ A2 B) as (S' & A3 & K).
        destruct (kind_inv _ _ _ K) as [(M & z & Ez & _)|[(z & Ez & _)|[(z & y2 & T' & Ez & E' & B2 & R2 & _)|(z & y2 & j & T' & Ez & E' & _ & B2 & _)]]].
        + right. right. subst S'. destruct A' as [|a A']; cbn [app] in *.
          * destruct (rearm_top _ _ M) as (y & Er & Sy). rewrite Er in A3. exists [z], y. split; [exact A3|eapply same_trans; eassumption].
          * destruct (rearm_above a (A' ++ x' :: T)) as (a' & Er). rewrite Er in A3. exists (z :: a' :: A'), x'. split; [exact A3|exact E].
        + destruct A' as [|a A']; injection Ez as -> <-.
          * left. apply (HB (1 + m)); [lia|]. rewrite <- Bx, <- Fb. eapply popped; eassumption.
          * right. right. exists A', x'. split; [exact A3|exact E].
        + subst S'. destruct A' as [|a A']; injection Ez as -> <-.
          * right. left. exists (1 + m), y2. split; [lia|]. split; [exact A3|]. split; [congruence|lia].
          * right. right. exists (y2 :: A'), x'. split; [exact A3|exact E].
        + subst S'. destruct A' as [|a A']; injection Ez as -> <-.
          * right. right. exists [], y2. split; [exact A3|eapply same_trans; eassumption].
          * right. right. exists (y2 :: A'), x'. split; [exact A3|exact E].
    Qed.

    Section smaller.
      Context (r : nat) (IH : forall n' w A x T, n <= n' -> at_ n' w (A ++ x :: T) -> born x = b -> rank x < r -> D).
      Lemma top_unlooked n' w x T : n <= n' -> at_ n' w (x :: T) -> born x = b -> rank x <= r -> unlooked x ->
        (forall m j, n' <= m -> next_await x = Some j -> ~ open m j) -> D.
      Proof.
        intros H At Bx Rx Ux Fin. destruct (acts n' w x T At) as (m & Hm & A & B); [auto|].
        destruct (moves _ _ _ A B) as (S' & A3 & K).
        destruct (kind_inv _ _ _ K) as [(M & _)|[(z & Ez & _)|[(z & y2 & T' & Ez & E' & B2 & R2 & _)|(z & y2 & j & T' & Ez & E' & _ & _ & _ & Ej & Uj)]]].
        - rewrite unlooked_takes_nothing in M by exact Ux. discriminate.
        - injection Ez as -> ->. apply (HB (1 + m)); [lia|]. rewrite <- Bx. eapply popped; eassumption.
        - injection Ez as -> ->. subst S'. apply (IH (1 + m) w [] y2 T'); [lia|exact A3|congruence|lia].
        - injection Ez as -> ->. exfalso. exact (Fin m j Hm Ej Uj).
      Qed.
      Lemma covered n' w A y x T : n <= n' -> at_ n' w (A ++ y :: x :: T) -> born x = b -> rank x <= r ->
        (forall m j, n' <= m -> next_await x = Some j -> ~ open m j) -> D.
      Proof.
        intros H At Bx Rx Fin.
        assert (Ux : unlooked x).
        { destruct A as [|a A]; cbn in At; [exact (below_at n' w y [] x T At)|]. apply (below_at n' w a (A ++ [y]) x T). now rewrite <- app_assoc. }
        destruct (HR n' (born y) H) as [d|(m & Hm & NI)]; [rewrite <- Bx; eapply above_younger; exact At|eapply at_live; exact At|exact d|].
        destruct (under _ _ _ _ _ _ At Hm) as [(m' & H1 & A2)|(A' & y' & A2 & E)].
        - apply (top_unlooked m' w x T); [lia|exact A2|exact Bx|exact Rx|exact Ux|]. intros k j Hk. apply Fin. lia.
        - exfalso. apply NI. rewrite <- E. eapply at_live; exact A2.
      Qed.
      Lemma anywhere n' w A x T : n <= n' -> at_ n' w (A ++ x :: T) -> born x = b -> rank x <= r ->
        (forall m j, n' <= m -> next_await x = Some j -> ~ open m j) -> D.
      Proof.
        intros H At Bx Rx Fin.
        destruct (exists_last_or_nil A) as [->|(A0 & y & ->)]; [|rewrite <- app_assoc in At; exact (covered n' w A0 y x T H At Bx Rx Fin)].
        cbn [app] in At. destruct (acts n' w x T At) as (m & Hm & A & B); [auto|].
        destruct (moves _ _ _ A B) as (S' & A3 & K).
        destruct (kind_inv _ _ _ K) as [(M & z & Ez & _)|[(z & Ez & _)|[(z & y2 & T' & Ez & E' & B2 & R2 & _)|(z & y2 & j & T' & Ez & E' & _ & _ & _ & Ej & Uj)]]].
        - subst S'. destruct (rearm_top _ _ M) as (y & Er & Sy). rewrite Er in A3. destruct (same_facts _ _ Sy) as (Fb & Fr & Fn & _).
          apply (covered (1 + m) w [] z y T); [lia|exact A3|congruence|lia|]. rewrite Fn. intros k j Hk. apply Fin. lia.
        - injection Ez as -> ->. apply (HB (1 + m)); [lia|]. rewrite <- Bx. eapply popped; eassumption.
        - injection Ez as -> ->. subst S'. apply (IH (1 + m) w [] y2 T'); [lia|exact A3|congruence|lia].
        - injection Ez as -> ->. exfalso. exact (Fin m j Hm Ej Uj).
      Qed.
    End smaller.

    Lemma job_done r : forall n' w A x T, n <= n' -> at_ n' w (A ++ x :: T) -> born x = b -> rank x <= r -> D.
    Proof.
      induction r as [r IH] using lt_wf_ind. intros n' w A x T H At Bx Rx.
      assert (IH' : forall n' w A x T, n <= n' -> at_ n' w (A ++ x :: T) -> born x = b -> rank x < r -> D) by (intros; eapply IH; eauto).
      destruct (next_await x) as [j|] eqn:E.
      - assert (Ck := awaited_clock _ _ _ _ _ _ At E).
        destruct (awaited_finishes _ _ _ _ _ _ H At Bx E) as [d|(m & Hm & NO)]; [exact d|].
        destruct (track _ _ _ _ _ H At Bx m Hm) as [d|[(m' & x' & H1 & A2 & B2 & R2)|(A' & x' & A2 & S2)]]; [exact d| |].
        + apply (IH (rank x') ltac:(lia) m' w [] x' T); [lia|exact A2|exact B2|lia].
        + destruct (same_facts _ _ S2) as (Fb & Fr & Fn & _).
          apply (anywhere r IH' m w A' x' T); [lia|exact A2|congruence|lia|].
          intros k j' Hk Ej. assert (j' = j) as -> by congruence. eapply stays_finished; [exact Hk| |exact NO]. pose proof (clock_mono _ _ Hm). lia.
      - apply (anywhere r IH' n' w A x T); auto. congruence.
    Qed.
  End job.

  Section bounded.
    Context (n0 B : nat) (BD : forall m, n0 <= m -> length (flat (st m)) <= B).
    Lemma some_old_job_finishes k : forall n b, n0 <= n -> In b (borns (st n)) -> B <= cnt n b + k -> exists m, n <= m /\ cnt m b < cnt n b.
    Proof.
      induction k as [|k IH]; intros n b Hn I HB.
      - apply live_at in I as (w & A & x & T & At & Bx). eapply (job_done n b); [| |apply le_n|exact At|exact Bx|apply le_n].
        + intros n' y Hn' Hy I'.
          assert (I0 : In b (borns (st n))) by (rewrite <- Bx; eapply at_live; exact At).
          pose proof (cnt_lt _ _ _ Hy I') as L. pose proof (cnt_le_jobs n' y). pose proof (BD n' ltac:(lia)).
          left. exists n'. split; [exact Hn'|]. lia.
        + intros m Hm NI. exists m. split; [exact Hm|]. apply cnt_drop; [exact Hm|rewrite <- Bx; eapply at_live; exact At|exact NI].
      - apply live_at in I as (w & A & x & T & At & Bx).
        assert (I0 : In b (borns (st n))) by (rewrite <- Bx; eapply at_live; exact At).
        eapply (job_done n b); [| |apply le_n|exact At|exact Bx|apply le_n].
        + assert (R : forall c n' y, n <= n' -> b < y -> In y (borns (st n')) -> cnt n' y <= c ->
            (exists m, n <= m /\ cnt m b < cnt n b) \/ exists m, n' <= m /\ ~ In y (borns (st m))).
          { induction c as [c IHc] using lt_wf_ind. intros n' y Hn' Hy I' Hc.
            destruct (Nat.lt_ge_cases (cnt n' b) (cnt n b)) as [L|G]; [left; exists n'; auto|].
            pose proof (cnt_lt _ _ _ Hy I') as L.
            destruct (IH n' y ltac:(lia) I' ltac:(lia)) as (m & Hm & Dr).
            destruct (in_dec Nat.eq_dec y (borns (st m))) as [I2|NI]; [|right; exists m; auto].
            destruct (IHc (cnt m y) ltac:(lia) m y ltac:(lia) Hy I2 (le_n _)) as [d|(m2 & Hm2 & NI)]; [now left|].
            right. exists m2. split; [lia|exact NI]. }
          intros n' y Hn' Hy I'. eapply R; eauto.
        + intros m Hm NI. exists m. split; [exact Hm|]. apply cnt_drop; auto.
    Qed.
    Lemma every_job_finishes c : forall n b, n0 <= n -> cnt n b <= c -> exists m, n <= m /\ ~ In b (borns (st m)).
    Proof.
      induction c as [c IH] using lt_wf_ind. intros n b Hn Hc.
      destruct (in_dec Nat.eq_dec b (borns (st n))) as [I|NI]; [|exists n; auto].
      destruct (some_old_job_finishes B n b Hn I ltac:(lia)) as (m & Hm & L).
      destruct (IH (cnt m b) ltac:(lia) m b ltac:(lia) (le_n _)) as (m2 & Hm2 & NI). exists m2. split; [lia|exact NI].
    Qed.
  End bounded.

  Context (NM : no_more_listeners ev).
  Lemma bounded_jobs : exists n0 B, forall m, n0 <= m -> length (flat (st m)) <= B.
  Proof.
    destruct NM as (n0 & H). set (cs := map fst (ry_listeners (st n0))).
    assert (E : forall m, n0 <= m -> map fst (ry_listeners (st m)) = cs).
    { induction 1 as [|m Hm IH]; [reflexivity|].
      destruct (configs_stay _ _ _ (proj2 RUN m)) as [(c & q & E)|E]; [exfalso; exact (H m c q Hm E)|congruence]. }
    set (f := fun i => match nth_error cs i with Some c => nc_receivers c | None => 0 end).
    exists n0, (list_sum (map (fun i => 1 + Nat.max 1 (f i)) (seq 0 (length cs)))). intros m Hm.
    specialize (E m Hm).
    etransitivity; [apply (jobs_bound f _ _ _ (ry_prefix _ _ _ RUN m))|].
    - intros i c x Ei. unfold f. rewrite <- E. erewrite map_nth_error; [|exact Ei]. reflexivity.
    - rewrite <- (map_length fst (ry_listeners (st m))), E. reflexivity.
  Qed.
  Lemma each_job_finishes n b : exists m, n <= m /\ ~ In b (borns (st m)).
  Proof.
    destruct bounded_jobs as (n0 & B & BD).
    destruct (every_job_finishes n0 B BD _ (Nat.max n n0) b ltac:(lia) (le_n _)) as (m & Hm & NI). exists m. split; [lia|exact NI].
  Qed.
  Lemma scope_ends n i : in_scope (ry_listeners (st n)) i = true -> exists m w, n <= m /\ ev m = RWorker w (Some (GStep i LScopeEnd)).
  Proof.
    intros H.
    assert (K : forall n1 b id p, n <= n1 -> In (InScope b i id p) (flat (st n1)) -> exists m w, n <= m /\ ev m = RWorker w (Some (GStep i LScopeEnd))).
    { intros n1 b id p H1 I. destruct (each_job_finishes n1 b) as (m & Hm & NI).
      assert (X : (exists m w, n <= m /\ ev m = RWorker w (Some (GStep i LScopeEnd))) \/ exists p', In (InScope b i id p') (flat (st m))).
      { clear NI. induction Hm as [|m Hm [X|(p' & IH)]]; [eauto|now left|].
        destruct (scope_stays _ _ _ _ _ _ _ (proj2 RUN m) IH) as [X|(w & E)]; [now right|]. left. exists m, w. split; [lia|exact E]. }
      destruct X as [X|(p' & X)]; [exact X|]. exfalso. apply NI. exact (in_map born _ _ X). }
    pose proof (tr_count _ _ _ _ (forest_run _ _ _ (ry_prefix _ _ _ RUN n)) i) as C. rewrite H in C. unfold scopes in C.
    destruct (filter (is_task_scope i) (ry_tasks (st n))) as [|t ts] eqn:Et.
    - destruct (filter (is_job_scope i) (flat (st n))) as [|j js] eqn:Ej; [discriminate|].
      assert (I : In j (filter (is_job_scope i) (flat (st n)))) by (rewrite Ej; now left).
      apply filter_In in I as [I Is]. destruct j as [b k id p|]; [|discriminate]. cbn in Is. apply Nat.eqb_eq in Is as <-. eapply K; [apply le_n|exact I].
    - assert (I : In t (filter (is_task_scope i) (ry_tasks (st n)))) by (rewrite Et; now left).
      apply filter_In in I as [I Is]. destruct t as [k|]; [|discriminate]. cbn in Is. apply Nat.eqb_eq in Is as <-.
      destruct (taken _ _ I) as (m & Hm & b & id & p & I'). eapply K; [|exact I']. lia.
  Qed.
End live.
