(** * RayonProofs: proofs for C115-C117 *)
From Coq Require Import Permutation.
From Verif Require Import Base Codec Network NetSpec NetworkProofs Pool PoolSpec PoolProofs Rayon RayonSpec.
Open Scope nat_scope.

(** ** Runs *)
Lemma visible_app a b : visible (a ++ b) = visible a ++ visible b.
Proof. induction a as [|[l|w [l|]] a IH]; cbn; rewrite ?IH; reflexivity. Qed.
Lemma ry_run_one s l s' : ry_step s l s' -> ry_run s [l] s'.
Proof. intros S. change [l] with ([] ++ [l]). eapply ry_run_snoc; [apply ry_run_nil|exact S]. Qed.
Lemma ry_run_app s a s' b s'' : ry_run s a s' -> ry_run s' b s'' -> ry_run s (a ++ b) s''.
Proof.
  intros R1 R2. induction R2 as [|s0 b s1 l s2 R2 IH S]; [now rewrite app_nil_r|].
  rewrite app_assoc. eapply ry_run_snoc; [apply IH; exact R1|exact S].
Qed.
Lemma ry_run_cons s l s1 tr s2 : ry_step s l s1 -> ry_run s1 tr s2 -> ry_run s (l :: tr) s2.
Proof. intros S R. change (l :: tr) with ([l] ++ tr). eapply ry_run_app; [apply ry_run_one; exact S|exact R]. Qed.

(** ** Jobs and who waits for them *)
Definition part (ts : list task) (F : list job) (id i : nat) : Prop :=
  (exists rs, In (TaskPart id i rs) ts) \/ (exists b js a, In (InPart b id i js a) F).
Definition waiter (F : list job) (id i : nat) : Prop :=
  (exists b p, In (InScope b i id p) F) \/ (exists b id' js a, In (InPart b id' i js a) F /\ In id js).
Definition is_task_scope (i : nat) (t : task) : bool := match t with TaskScope j => i =? j | _ => false end.
Definition is_job_scope (i : nat) (j : job) : bool := match j with InScope _ k _ _ => i =? k | _ => false end.
Definition scopes (i : nat) (ts : list task) (F : list job) : nat :=
  length (filter (is_task_scope i) ts) + length (filter (is_job_scope i) F).
Definition in_scope (ls : pool_state) (i : nat) : bool :=
  match nth_error ls i with
  | Some (_, s) => match ns_pc s with Dispatching _ _ _ _ _ _ => true | _ => false end
  | None => false
  end.
Record tree (ls : pool_state) (ts : list task) (F : list job) (ck : nat) : Prop := {
  tr_task : forall id i rs, In (TaskPart id i rs) ts -> id < ck;
  tr_job : forall b id i js a, In (InPart b id i js a) F -> id < ck /\ b < ck /\ Forall (fun j => id < j < ck) js;
  tr_scope : forall b i id p, In (InScope b i id p) F -> b < ck /\ id < ck;
  tr_parent : forall id i, part ts F id i -> waiter F id i;
  tr_count : forall i, scopes i ts F = if in_scope ls i then 1 else 0 }.

Lemma length_filter_perm {A} (f : A -> bool) l l' : Permutation l l' -> length (filter f l) = length (filter f l').
Proof. induction 1; cbn; repeat match goal with |- context [if f ?x then _ else _] => destruct (f x) end; cbn; lia. Qed.

Lemma tree_perm ls ts ts' F F' ck : Permutation ts ts' -> Permutation F F' -> tree ls ts F ck -> tree ls ts' F' ck.
Proof.
  intros P Q [A B C D E].
  assert (PI : forall x, In x ts' -> In x ts) by (intros x; apply Permutation_in; now symmetry).
  assert (QI : forall x, In x F' -> In x F) by (intros x; apply Permutation_in; now symmetry).
  assert (QJ : forall x, In x F -> In x F') by (intros x; apply Permutation_in; exact Q).
  split; eauto.
  - intros id i [(rs & H)|(b & js & a & H)].
    + destruct (D id i) as [(b & p & W)|(b & id' & js & a & W & W')]; [left; eauto| |]; [left; eauto 8|right; eauto 10].
    + destruct (D id i) as [(b' & p & W)|(b' & id' & js' & a' & W & W')]; [right; eauto 8| |]; [left; eauto 8|right; eauto 10].
  - intros i. rewrite <- E. unfold scopes. now rewrite (length_filter_perm _ _ _ P), (length_filter_perm _ _ _ Q).
Qed.

(** every job of a listener belongs to a scope that a worker is in *)
Lemma part_root ls ts F ck id i : tree ls ts F ck -> part ts F id i ->
  exists id0 b p, part ts F id0 i /\ In (InScope b i id0 p) F.
Proof.
  intros T. induction (lt_wf id) as [id _ IH]. intros H.
  destruct (tr_parent _ _ _ _ T _ _ H) as [(b & p & W)|(b & id' & js & a & W & W')]; [eauto 8|].
  destruct (tr_job _ _ _ _ T _ _ _ _ _ W) as (_ & _ & X). rewrite Forall_forall in X. specialize (X _ W').
  apply (IH id'); [lia|]. right. eauto.
Qed.
Lemma in_scope_job ls ts F ck b i id p : tree ls ts F ck -> In (InScope b i id p) F -> in_scope ls i = true.
Proof.
  intros T H. pose proof (tr_count _ _ _ _ T i) as C. unfold scopes in C.
  assert (In (InScope b i id p) (filter (is_job_scope i) F)) as X by (apply filter_In; split; [exact H|cbn; apply Nat.eqb_refl]).
  destruct (filter (is_job_scope i) F) as [|y f]; [contradiction|]. cbn in C. destruct (in_scope ls i); [reflexivity|lia].
Qed.
Lemma part_in_scope ls ts F ck id i : tree ls ts F ck -> part ts F id i -> in_scope ls i = true.
Proof. intros T H. destruct (part_root _ _ _ _ _ _ T H) as (id0 & b & p & _ & X). eapply in_scope_job; eauto. Qed.
Lemma task_scope_in_scope ls ts F ck i : tree ls ts F ck -> In (TaskScope i) ts -> in_scope ls i = true.
Proof.
  intros T H. pose proof (tr_count _ _ _ _ T i) as C. unfold scopes in C.
  assert (In (TaskScope i) (filter (is_task_scope i) ts)) as X by (apply filter_In; split; [exact H|cbn; apply Nat.eqb_refl]).
  destruct (filter (is_task_scope i) ts) as [|y f]; [contradiction|]. cbn in C. destruct (in_scope ls i); [reflexivity|lia].
Qed.
(** when the job a scope waits for is finished, the listener has no jobs left *)
Lemma scope_last ls ts F ck b i id p : tree ls ts (InScope b i id p :: F) ck ->
  ~ (exists j, part ts (InScope b i id p :: F) id j) ->
  (forall id', ~ part ts (InScope b i id p :: F) id' i) /\ ~ In (TaskScope i) ts /\ forall b' id' p', ~ In (InScope b' i id' p') F.
Proof.
  intros T N. pose proof (tr_count _ _ _ _ T i) as C. rewrite (in_scope_job _ _ _ _ _ _ _ _ T (or_introl eq_refl)) in C.
  unfold scopes in C. cbn [filter is_job_scope] in C. rewrite Nat.eqb_refl in C. cbn [length] in C.
  assert (U : forall b' id' p', ~ In (InScope b' i id' p') F).
  { intros b' id' p' X. assert (Y : In (InScope b' i id' p') (filter (is_job_scope i) F)).
    { apply filter_In. split; [exact X|cbn; apply Nat.eqb_refl]. }
    destruct (filter (is_job_scope i) F) as [|y f]; [contradiction|]. cbn in C. lia. }
  split; [|split; [|exact U]].
  - intros id' H. destruct (part_root _ _ _ _ _ _ T H) as (id0 & b0 & p0 & X & [Y|Y]).
    + injection Y as -> -> ->. apply N. eauto.
    + exact (U _ _ _ Y).
  - intros X. assert (Y : In (TaskScope i) (filter (is_task_scope i) ts)).
    { apply filter_In. split; [exact X|cbn; apply Nat.eqb_refl]. }
    destruct (filter (is_task_scope i) ts) as [|y f]; [contradiction|]. cbn in C. lia.
Qed.

(** *** How the steps change them *)
Lemma tree_listeners ls ls' ts F ck : (forall i, in_scope ls' i = in_scope ls i) -> tree ls ts F ck -> tree ls' ts F ck.
Proof. intros H [A B C D E]. split; auto. intros i. now rewrite E, H. Qed.
Lemma tree_activity ls ts F ck b id i js a a' :
  tree ls ts (InPart b id i js a :: F) ck -> tree ls ts (InPart b id i js a' :: F) ck.
Proof.
  intros [A B C D E]. split; auto.
  - intros b0 id0 i0 js0 a0 [X|X]; [|eapply B; right; exact X]. injection X as <- <- <- <- <-. eapply B. now left.
  - intros b0 i0 id0 p [X|X]; [discriminate|]. eapply C. right. exact X.
  - intros id0 i0 H.
    assert (G : part ts (InPart b id i js a :: F) id0 i0).
    { destruct H as [H|(b0 & js0 & a0 & [H|H])]; [now left| |right; exists b0, js0, a0; now right].
      injection H as <- <- <- <- <-. right. exists b, js, a. now left. }
    destruct (D _ _ G) as [(b0 & p & [W|W])|(b0 & id' & js' & a0 & [W|W] & W')]; [discriminate|left; exists b0, p; now right| |].
    + injection W as <- <- <- <- <-. right. exists b, id, js, a'. split; [now left|exact W'].
    + right. exists b0, id', js', a0. split; [now right|exact W'].
Qed.
Lemma tree_looked ls ts F ck b i id p p' :
  tree ls ts (InScope b i id p :: F) ck -> tree ls ts (InScope b i id p' :: F) ck.
Proof.
  intros [A B C D E]. split; auto.
  - intros b0 id0 i0 js0 a0 [X|X]; [discriminate|eapply B; right; exact X].
  - intros b0 i0 id0 q [X|X]; [injection X as <- <- <- <-; eapply C; now left|]. eapply C. right. exact X.
  - intros id0 i0 H.
    assert (G : part ts (InScope b i id p :: F) id0 i0).
    { destruct H as [H|(b0 & js0 & a0 & [H|H])]; [now left|discriminate|right; exists b0, js0, a0; now right]. }
    destruct (D _ _ G) as [(b0 & q & [W|W])|(b0 & id' & js' & a0 & [W|W] & W')]; [| |discriminate|].
    + injection W as <- <- <- <-. left. exists b, p'. now left.
    + left. exists b0, q. now right.
    + right. exists b0, id', js', a0. split; [now right|exact W'].
  - intros j. rewrite <- E. unfold scopes. cbn [filter is_job_scope]. destruct (j =? i); reflexivity.
Qed.
Lemma tree_rearm ls ts st F ck : tree ls ts (st ++ F) ck -> tree ls ts (rearm st ++ F) ck.
Proof.
  destruct st as [|[b i id p|b id i js [rs|rs|r rs|p]] st]; cbn; auto; [apply tree_looked|apply tree_activity].
Qed.
Lemma scopes_cons_part i t ts F : (forall j, t <> TaskScope j) -> scopes i (t :: ts) F = scopes i ts F.
Proof. intros H. unfold scopes. destruct t as [j|]; [now destruct (H j)|reflexivity]. Qed.
Lemma tree_take_part ls ts F ck id i rs :
  tree ls (TaskPart id i rs :: ts) F ck -> tree ls ts (InPart ck id i [] (Deciding rs) :: F) (S ck).
Proof.
  intros [A B C D E]. split.
  - intros id0 i0 rs0 X. specialize (A id0 i0 rs0 (or_intror X)). lia.
  - intros b0 id0 i0 js0 a0 [X|X].
    + injection X as <- <- <- <- <-. specialize (A id i rs (or_introl eq_refl)). split; [lia|]. split; [lia|constructor].
    + destruct (B _ _ _ _ _ X) as (Y & Z & V). split; [lia|]. split; [lia|]. eapply Forall_impl; [|exact V]. cbn. lia.
  - intros b0 i0 id0 p [X|X]; [discriminate|]. destruct (C _ _ _ _ X). lia.
  - intros id0 i0 H.
    assert (G : part (TaskPart id i rs :: ts) F id0 i0).
    { destruct H as [(rs0 & H)|(b0 & js0 & a0 & [H|H])].
      - left. exists rs0. now right.
      - injection H as <- <- <- <- <-. left. exists rs. now left.
      - right. eauto. }
    destruct (D _ _ G) as [(b0 & p & W)|(b0 & id' & js' & a0 & W & W')]; [left; exists b0, p; now right|].
    right. exists b0, id', js', a0. split; [now right|exact W'].
  - intros i0. rewrite <- E. unfold scopes. reflexivity.
Qed.
Lemma tree_take_scope ls ts F ck i rs :
  tree ls (TaskScope i :: ts) F ck -> tree ls (TaskPart ck i rs :: ts) (InScope ck i ck false :: F) (S ck).
Proof.
  intros [A B C D E]. split.
  - intros id0 i0 rs0 [X|X]; [injection X as <- <- <-; lia|]. specialize (A id0 i0 rs0 (or_intror X)). lia.
  - intros b0 id0 i0 js0 a0 [X|X]; [discriminate|].
    destruct (B _ _ _ _ _ X) as (Y & Z & V). split; [lia|]. split; [lia|]. eapply Forall_impl; [|exact V]. cbn. lia.
  - intros b0 i0 id0 p [X|X]; [injection X as <- <- <- <-; lia|]. destruct (C _ _ _ _ X). lia.
  - intros id0 i0 H.
    destruct H as [(rs0 & [H|H])|(b0 & js0 & a0 & [H|H])]; [|
      |discriminate|].
    + injection H as <- <- <-. left. exists ck, false. now left.
    + destruct (D id0 i0) as [(b0 & p & W)|(b0 & id' & js' & a0 & W & W')]; [left; exists rs0; now right|left; exists b0, p; now right|].
      right. exists b0, id', js', a0. split; [now right|exact W'].
    + destruct (D id0 i0) as [(b1 & p & W)|(b1 & id' & js' & a1 & W & W')]; [right; eauto|left; exists b1, p; now right|].
      right. exists b1, id', js', a1. split; [now right|exact W'].
  - intros i0. rewrite <- E. unfold scopes. cbn [filter is_task_scope is_job_scope].
    destruct (i0 =? i); cbn [length]; lia.
Qed.
Lemma tree_split ls ts F ck b id i js rs l r :
  tree ls ts (InPart b id i js (Deciding rs) :: F) ck ->
  tree ls (TaskPart ck i r :: ts) (InPart b id i (ck :: js) (Deciding l) :: F) (S ck).
Proof.
  intros [A B C D E]. destruct (B _ _ _ _ _ (or_introl eq_refl)) as (B1 & B2 & B3). split.
  - intros id0 i0 rs0 [X|X]; [injection X as <- <- <-; lia|]. specialize (A _ _ _ X). lia.
  - intros b0 id0 i0 js0 a0 [X|X].
    + injection X as <- <- <- <- <-. split; [lia|]. split; [lia|]. constructor; [lia|]. eapply Forall_impl; [|exact B3]. cbn. lia.
    + destruct (B _ _ _ _ _ (or_intror X)) as (Y & Z & V). split; [lia|]. split; [lia|]. eapply Forall_impl; [|exact V]. cbn. lia.
  - intros b0 i0 id0 p [X|X]; [discriminate|]. destruct (C _ _ _ _ (or_intror X)). lia.
  - intros id0 i0 H.
    assert (G : (id0 = ck /\ i0 = i) \/ part ts (InPart b id i js (Deciding rs) :: F) id0 i0).
    { destruct H as [(rs0 & [H|H])|(b0 & js0 & a0 & [H|H])].
      - injection H as <- <- <-. now left.
      - right. left. eauto.
      - injection H as <- <- <- <- <-. right. right. exists b, js, (Deciding rs). now left.
      - right. right. exists b0, js0, a0. now right. }
    destruct G as [[-> ->]|G]; [right; exists b, id, (ck :: js), (Deciding l); split; now left|].
    destruct (D _ _ G) as [(b0 & p & [W|W])|(b0 & id' & js' & a0 & [W|W] & W')]; [discriminate|left; exists b0, p; now right| |].
    + injection W as <- <- <- <- <-. right. exists b, id, (ck :: js), (Deciding l). split; [now left|now right].
    + right. exists b0, id', js', a0. split; [now right|exact W'].
  - intros i0. rewrite <- E. unfold scopes. reflexivity.
Qed.
Lemma tree_join_done ls ts F ck b id i j js a :
  tree ls ts (InPart b id i (j :: js) a :: F) ck -> ~ (exists k, part ts (InPart b id i (j :: js) a :: F) j k) ->
  tree ls ts (InPart b id i js a :: F) ck.
Proof.
  intros [A B C D E] N. split; auto.
  - intros b0 id0 i0 js0 a0 [X|X]; [|eapply B; right; exact X]. injection X as <- <- <- <- <-.
    destruct (B _ _ _ _ _ (or_introl eq_refl)) as (B1 & B2 & B3). inversion B3; subst. auto.
  - intros b0 i0 id0 p [X|X]; [discriminate|]. eapply C. right. exact X.
  - intros id0 i0 H.
    assert (G : part ts (InPart b id i (j :: js) a :: F) id0 i0).
    { destruct H as [H|(b0 & js0 & a0 & [H|H])]; [now left| |right; exists b0, js0, a0; now right].
      injection H as <- <- <- <- <-. right. exists b, (j :: js), a. now left. }
    destruct (D _ _ G) as [(b0 & p & [W|W])|(b0 & id' & js' & a0 & [W|W] & W')]; [discriminate|left; exists b0, p; now right| |].
    + injection W as <- <- <- <- <-. destruct W' as [<-|W']; [exfalso; apply N; eauto|].
      right. exists b, id, js, a. split; [now left|exact W'].
    + right. exists b0, id', js', a0. split; [now right|exact W'].
Qed.
Lemma tree_part_done ls ts F ck b id i a : tree ls ts (InPart b id i [] a :: F) ck -> tree ls ts F ck.
Proof.
  intros [A B C D E]. split; auto.
  - intros b0 id0 i0 js0 a0 X. eapply B. right. exact X.
  - intros b0 i0 id0 p X. eapply C. right. exact X.
  - intros id0 i0 H.
    assert (G : part ts (InPart b id i [] a :: F) id0 i0).
    { destruct H as [H|(b0 & js0 & a0 & H)]; [now left|right; exists b0, js0, a0; now right]. }
    destruct (D _ _ G) as [(b0 & p & [W|W])|(b0 & id' & js' & a0 & [W|W] & W')]; [discriminate|left; eauto| |].
    + injection W as <- <- <- <- <-. destruct W'.
    + right. eauto 8.
Qed.
Lemma tree_scope_done ls ls' ts F ck b i id p :
  tree ls ts (InScope b i id p :: F) ck -> ~ (exists k, part ts (InScope b i id p :: F) id k) ->
  in_scope ls' i = false -> (forall j, j <> i -> in_scope ls' j = in_scope ls j) ->
  tree ls' ts F ck.
Proof.
  intros T N O1 O2. pose proof (scope_last _ _ _ _ _ _ _ _ T N) as (U & _ & _).
  pose proof (tr_count _ _ _ _ T) as E. pose proof (in_scope_job _ _ _ _ _ _ _ _ T (or_introl eq_refl)) as I. destruct T as [A B C D _]. split; auto.
  - intros b0 id0 i0 js0 a0 X. eapply B. right. exact X.
  - intros b0 i0 id0 q X. eapply C. right. exact X.
  - intros id0 i0 H.
    assert (G : part ts (InScope b i id p :: F) id0 i0).
    { destruct H as [H|(b0 & js0 & a0 & H)]; [now left|right; exists b0, js0, a0; now right]. }
    destruct (D _ _ G) as [(b0 & q & [W|W])|(b0 & id' & js' & a0 & [W|W] & W')]; [|left; eauto|discriminate|right; eauto 8].
    injection W as <- <- <- <-. exfalso. exact (U _ G).
  - intros j. specialize (E j). unfold scopes in *. cbn [filter is_job_scope] in E.
    destruct (Nat.eqb_spec j i) as [Ej|Nj]; [rewrite Ej in *|now rewrite O2 by exact Nj]. rewrite I in E. rewrite O1. cbn [length] in E. lia.
Qed.
Lemma tree_recv ls ls' ts F ck i : tree ls ts F ck -> in_scope ls i = false -> in_scope ls' i = true ->
  (forall j, j <> i -> in_scope ls' j = in_scope ls j) -> tree ls' (TaskScope i :: ts) F ck.
Proof.
  intros [A B C D E] O1 O2 O3. split; auto.
  - intros id0 i0 rs [X|X]; [discriminate|eauto].
  - intros id0 i0 [(rs & [H|H])|H]; [discriminate|apply D; left; eauto|apply D; now right].
  - intros j. specialize (E j). unfold scopes in *. cbn [filter is_task_scope].
    destruct (Nat.eqb_spec j i) as [Ej|Nj]; [rewrite Ej in *|now rewrite O3 by exact Nj]. rewrite O1 in E. rewrite O2. cbn [length]. lia.
Qed.

(** ** Every step keeps them *)
Definition flat (s : ry_state) : list job := concat (ry_stacks s).
Definition forest (s : ry_state) : Prop := tree (ry_listeners s) (ry_tasks s) (flat s) (ry_clock s).
Lemma flat_top (w1 : list (list job)) x st w2 : Permutation (concat (w1 ++ (x :: st) :: w2)) (x :: st ++ concat (w1 ++ w2)).
Proof.
  rewrite !concat_app. cbn [concat]. rewrite !app_assoc. etransitivity; [apply Permutation_app_tail, Permutation_app_comm|].
  cbn. constructor. now rewrite <- !app_assoc.
Qed.
Lemma flat_stack (w1 : list (list job)) st w2 : Permutation (concat (w1 ++ st :: w2)) (st ++ concat (w1 ++ w2)).
Proof.
  rewrite !concat_app. cbn [concat]. rewrite !app_assoc. apply Permutation_app_tail, Permutation_app_comm.
Qed.
Lemma unfinished_part ts sts id : unfinished ts sts id <-> exists i, part ts (concat sts) id i.
Proof.
  unfold unfinished, part. split.
  - intros [(i & rs & H)|(b & i & js & a & H)]; exists i; [left|right]; eauto.
  - intros (i & [(rs & H)|(b & js & a & H)]); [left|right]; eauto 6.
Qed.
Lemma part_perm ts ts' F F' id i : Permutation ts ts' -> Permutation F F' -> part ts F id i -> part ts' F' id i.
Proof.
  intros P Q [(rs & H)|(b & js & a & H)]; [left|right]; eauto 8 using Permutation_in.
Qed.
Lemma not_unfinished ts sts F id : ~ unfinished ts sts id -> Permutation F (concat sts) -> ~ exists i, part ts F id i.
Proof. intros N P (i & H). apply N, unfinished_part. exists i. eapply part_perm; [reflexivity|exact P|exact H]. Qed.

Lemma in_scope_at l1 c s l2 : in_scope (l1 ++ (c, s) :: l2) (length l1) = match ns_pc s with Dispatching _ _ _ _ _ _ => true | _ => false end.
Proof. unfold in_scope. now rewrite nth_error_mid. Qed.
Lemma in_scope_other l1 c s c' s' l2 j : j <> length l1 -> in_scope (l1 ++ (c, s) :: l2) j = in_scope (l1 ++ (c', s') :: l2) j.
Proof. intros N. unfold in_scope. now rewrite (nth_error_other l1 (c, s) (c', s') l2 j N). Qed.
Lemma in_scope_same l1 c s c' s' l2 j :
  match ns_pc s with Dispatching _ _ _ _ _ _ => true | _ => false end = match ns_pc s' with Dispatching _ _ _ _ _ _ => true | _ => false end ->
  in_scope (l1 ++ (c', s') :: l2) j = in_scope (l1 ++ (c, s) :: l2) j.
Proof.
  intros H. destruct (Nat.eq_dec j (length l1)) as [->|N]; [now rewrite !in_scope_at|now apply in_scope_other].
Qed.
Lemma own_step_pc c s l s' : step c s l s' -> listeners_own l = true ->
  match ns_pc s with Dispatching _ _ _ _ _ _ => true | _ => false end = match ns_pc s' with Dispatching _ _ _ _ _ _ => true | _ => false end /\
  (forall k pkt src pe ru pa, ns_pc s = Dispatching k pkt src pe ru pa -> ns_pc s' = ns_pc s).
Proof.
  intros S O. destruct S; cbn [listeners_own] in O; try discriminate; cbn;
    match goal with H : ns_pc s = _ |- _ => rewrite H | _ => idtac end; split; try reflexivity; intros; congruence.
Qed.
Lemma recv_pc c s s' : step c s LRecv s' -> exists k pkt src,
  ns_pc s = Handling (S k) /\ ns_pc s' = Dispatching k pkt src (seq 0 (nc_receivers c)) [] false.
Proof. intros S. inversion S; subst. destruct (recv_into _ _) as [x y]. cbn. eauto 6. Qed.

Lemma forest_step s l s' : forest s -> ry_step s l s' -> forest s'.
Proof.
  unfold forest, flat. intros T S. destruct S; cbn [ry_listeners ry_tasks ry_stacks ry_clock] in *.
  - eapply tree_listeners; [|exact T]. intros i. unfold in_scope.
    destruct (Nat.lt_ge_cases i (length ls)) as [L|L]; [now rewrite nth_error_app1 by exact L|].
    rewrite nth_error_app2 by exact L. assert (nth_error ls i = None) as -> by now apply nth_error_None.
    destruct (i - length ls) as [|[|x]]; reflexivity.
  - eapply tree_listeners; [|exact T]. intros i. apply in_scope_same. eapply own_step_pc; eauto.
  - destruct (recv_pc _ _ _ H) as (k & pkt & src & E1 & E2).
    eapply tree_perm; [apply Permutation_cons_append|reflexivity|]. eapply tree_recv; [exact T| | |].
    + rewrite in_scope_at, E1. reflexivity.
    + rewrite in_scope_at, E2. reflexivity.
    + intros j N. now apply in_scope_other.
  - eapply tree_perm; [|symmetry; apply flat_top|].
    { instantiate (1 := TaskPart ck i (seq 0 (nc_receivers c)) :: t1 ++ t2). rewrite app_assoc. apply Permutation_cons_append. }
    apply tree_take_scope. apply tree_rearm. eapply tree_perm; [|apply flat_stack|exact T]. symmetry. apply Permutation_middle.
  - eapply tree_perm; [reflexivity|symmetry; apply flat_top|]. apply tree_take_part. apply tree_rearm.
    eapply tree_perm; [|apply flat_stack|exact T]. symmetry. apply Permutation_middle.
  - eapply tree_perm; [apply Permutation_cons_append|symmetry; apply flat_top|]. eapply tree_split.
    eapply tree_perm; [reflexivity|apply flat_top|exact T].
  - eapply tree_perm; [reflexivity|symmetry; apply flat_top|]. eapply tree_activity.
    eapply tree_perm; [reflexivity|apply flat_top|exact T].
  - eapply tree_perm; [reflexivity|symmetry; apply flat_top|]. eapply tree_activity.
    eapply tree_perm; [reflexivity|apply flat_top|exact T].
  - eapply tree_perm; [reflexivity|symmetry; apply flat_top|]. eapply tree_activity.
    eapply tree_perm; [reflexivity|apply flat_top|exact T].
  - eapply tree_perm; [reflexivity|symmetry; apply flat_top|]. eapply tree_activity.
    eapply tree_perm; [reflexivity|apply flat_top|exact T].
  - eapply tree_perm; [reflexivity|symmetry; apply flat_top|]. eapply tree_activity.
    eapply tree_perm; [reflexivity|apply flat_top|exact T].
  - eapply tree_perm; [reflexivity|symmetry; apply flat_top|]. eapply tree_activity.
    eapply tree_perm; [reflexivity|apply flat_top|exact T].
  - eapply tree_perm; [reflexivity|symmetry; apply flat_top|]. eapply tree_activity. eapply tree_join_done.
    + eapply tree_perm; [reflexivity|apply flat_top|exact T].
    + eapply not_unfinished; [exact H|symmetry; apply flat_top].
  - eapply tree_perm; [reflexivity|symmetry; apply flat_stack|]. eapply tree_part_done.
    eapply tree_perm; [reflexivity|apply flat_top|exact T].
  - eapply tree_perm; [reflexivity|symmetry; apply flat_top|]. eapply tree_looked.
    eapply tree_perm; [reflexivity|apply flat_top|exact T].
  - eapply tree_perm; [reflexivity|symmetry; apply flat_stack|]. eapply tree_scope_done.
    + eapply tree_perm; [reflexivity|apply flat_top|exact T].
    + eapply not_unfinished; [exact H0|symmetry; apply flat_top].
    + rewrite in_scope_at. cbn [set_pc ns_pc]. destruct (existsb _ pn); reflexivity.
    + intros j N. now apply in_scope_other.
Qed.
Lemma forest_init n : forest (ry_init n).
Proof.
  unfold forest, flat, ry_init. cbn [ry_listeners ry_tasks ry_stacks ry_clock].
  replace (concat (repeat [] n)) with (@nil job) by (induction n; auto).
  split; try (intros; contradiction).
  - intros id i [(rs & [])|(b & js & a & [])].
  - intros i. unfold in_scope. destruct i; reflexivity.
Qed.
Lemma forest_run n tr s : ry_run (ry_init n) tr s -> forest s.
Proof.
  intros R. remember (ry_init n) as s0 eqn:E. induction R; subst; [apply forest_init|eapply forest_step; eauto].
Qed.

(** ** A worker executes one receiver at a time *)
Definition waits (j : job) : bool :=
  match j with InScope _ _ _ _ | InPart _ _ _ _ (Joining _) => true | _ => false end.
Definition calm (s : ry_state) : Prop := Forall (fun st => Forall (fun j => waits j = true) (tl st)) (ry_stacks s).
Definition calling (j : job) : bool := match j with InPart _ _ _ _ (Calling _ _) => true | _ => false end.

Lemma rearm_waits st : may_take st = true -> Forall (fun j => waits j = true) (tl st) -> Forall (fun j => waits j = true) (rearm st).
Proof.
  destruct st as [|[b i id p|b id i js [rs|rs|r rs|p]] st]; cbn; intros H F; try discriminate; constructor; auto.
Qed.
Lemma calm_init n : calm (ry_init n).
Proof. unfold calm. cbn. apply Forall_forall. intros st H. apply repeat_spec in H. subst. constructor. Qed.
Lemma Forall_mid {A} (P : A -> Prop) a x y b : Forall P (a ++ x :: b) -> P y -> Forall P (a ++ y :: b).
Proof. rewrite !Forall_app. intros [F1 F2] H. inversion F2; subst. auto. Qed.
Lemma Forall_at {A} (P : A -> Prop) a x b : Forall P (a ++ x :: b) -> P x.
Proof. rewrite Forall_app. intros [_ F]. now inversion F. Qed.
Lemma calm_step s l s' : calm s -> ry_step s l s' -> calm s'.
Proof.
  unfold calm. intros C S. destruct S; cbn [ry_stacks] in *; try exact C;
    (eapply Forall_mid; [exact C|]); pose proof (Forall_at _ _ _ _ C) as H9; cbn [tl] in *; try assumption;
    try (apply rearm_waits; assumption).
  - now destruct st; [constructor|inversion H9].
  - now destruct st; [constructor|inversion H9].
Qed.
Lemma calm_run n tr s : ry_run (ry_init n) tr s -> calm s.
Proof.
  intros R. remember (ry_init n) as s0 eqn:E. induction R; subst; [apply calm_init|eapply calm_step; eauto].
Qed.
Lemma waits_no_calling l : Forall (fun j => waits j = true) l -> filter calling l = [].
Proof. induction 1 as [|[b i id p|b id i js [rs|rs|r rs|p]] l H F IH]; cbn in *; try discriminate; auto. Qed.
Lemma callings_stacks sts : Forall (fun st => Forall (fun j => waits j = true) (tl st)) sts ->
  length (filter calling (concat sts)) <= length sts.
Proof.
  induction 1 as [|st sts H F IH]; cbn; [lia|]. rewrite filter_app, app_length.
  destruct st as [|j st]; cbn; [lia|]. cbn in H. rewrite (waits_no_calling _ H). destruct (calling j); cbn; lia.
Qed.
Lemma callings_free w1 st w2 : Forall (fun st => Forall (fun j => waits j = true) (tl st)) (w1 ++ st :: w2) ->
  match st with j :: _ => calling j = false | [] => True end ->
  length (filter calling (concat (w1 ++ st :: w2))) < length (w1 ++ st :: w2).
Proof.
  intros F H. pose proof F as F'. rewrite Forall_app in F'. destruct F' as [F1 F2]. inversion F2; subst.
  rewrite concat_app. cbn [concat]. rewrite !filter_app, !app_length. cbn [length].
  pose proof (callings_stacks _ F1). pose proof (callings_stacks _ H3).
  assert (filter calling st = []) as ->; [|cbn; lia].
  destruct st as [|j st]; [reflexivity|]. cbn in *. rewrite H. now apply waits_no_calling.
Qed.
Lemma workers_constant s l s' : ry_step s l s' -> length (ry_stacks s') = length (ry_stacks s).
Proof. intros S. destruct S; cbn [ry_stacks]; rewrite ?app_length; reflexivity. Qed.
Lemma workers_run n tr s : ry_run (ry_init n) tr s -> length (ry_stacks s) = n.
Proof.
  intros R. remember (ry_init n) as s0 eqn:E. induction R; subst; [cbn; apply repeat_length|].
  rewrite (workers_constant _ _ _ H). auto.
Qed.

(** ** The abstract pool (Pool.v) can follow *)
Definition task_pending (i n : nat) (t : task) : list nat :=
  match t with TaskScope j => if i =? j then seq 0 n else [] | TaskPart _ j rs => if i =? j then rs else [] end.
Definition act_pending (a : activity) : list nat :=
  match a with Deciding rs | Looping rs | Calling _ rs => rs | Joining _ => [] end.
Definition act_running (a : activity) : list nat := match a with Calling r _ => [r] | _ => [] end.
Definition job_pending (i : nat) (j : job) : list nat :=
  match j with InScope _ _ _ _ => [] | InPart _ _ k _ a => if i =? k then act_pending a else [] end.
Definition job_running (i : nat) (j : job) : list nat :=
  match j with InScope _ _ _ _ => [] | InPart _ _ k _ a => if i =? k then act_running a else [] end.
Definition pendings (i n : nat) (ts : list task) (F : list job) : list nat := flat_map (task_pending i n) ts ++ flat_map (job_pending i) F.
Definition runnings (i : nat) (F : list job) : list nat := flat_map (job_running i) F.

Definition rel1 (ts : list task) (F : list job) (pn : list nat) (i : nat) (c : net_config) (s s' : net_state) : Prop :=
  match ns_pc s with
  | Dispatching k pkt src _ _ _ =>
      exists P R sk pan, s' = set_pc s (Dispatching k pkt src P R pan) /\
        Permutation R (runnings i F) /\ Permutation P (pendings i (nc_receivers c) ts F ++ sk) /\
        pan = existsb (Nat.eqb i) pn /\ (pan = false -> sk = [])
  | _ => s' = s /\ existsb (Nat.eqb i) pn = false
  end.
Definition rel (ls : pool_state) (ts : list task) (F : list job) (pn : list nat) (ps : pool_state) : Prop :=
  length ps = length ls /\
  (forall i, length ls <= i -> existsb (Nat.eqb i) pn = false) /\
  forall i c s, nth_error ls i = Some (c, s) -> exists s', nth_error ps i = Some (c, s') /\ rel1 ts F pn i c s s'.

Lemma runnings_perm i F F' : Permutation F F' -> Permutation (runnings i F) (runnings i F').
Proof. intros P. unfold runnings. now apply Permutation_flat_map. Qed.
Lemma pendings_perm i n ts ts' F F' : Permutation ts ts' -> Permutation F F' -> Permutation (pendings i n ts F) (pendings i n ts' F').
Proof. intros P Q. unfold pendings. apply Permutation_app; now apply Permutation_flat_map. Qed.

Lemma rel1_change ts F pn ts' F' pn' i c s s' :
  Permutation (runnings i F) (runnings i F') -> Permutation (pendings i (nc_receivers c) ts F) (pendings i (nc_receivers c) ts' F') ->
  existsb (Nat.eqb i) pn = existsb (Nat.eqb i) pn' -> rel1 ts F pn i c s s' -> rel1 ts' F' pn' i c s s'.
Proof.
  unfold rel1. intros HR HP HE. rewrite <- HE. destruct (ns_pc s); auto.
  intros (P & R & sk & pan & E1 & E2 & E3 & E4 & E5). exists P, R, sk, pan. split; [exact E1|].
  split; [now rewrite E2|]. split; [now rewrite E3, HP|auto].
Qed.
Lemma rel_change ls ts F pn ps ts' F' :
  (forall i, Permutation (runnings i F) (runnings i F')) -> 
  (forall i c s, nth_error ls i = Some (c, s) -> Permutation (pendings i (nc_receivers c) ts F) (pendings i (nc_receivers c) ts' F')) ->
  rel ls ts F pn ps -> rel ls ts' F' pn ps.
Proof.
  intros HR HP (L & B & H). split; [exact L|]. split; [exact B|]. intros i c s E. destruct (H i c s E) as (s' & E' & X). exists s'. split; [exact E'|].
  eapply rel1_change; eauto.
Qed.

(** decomposing related processes at a listener *)
Lemma rel_split l1 c s l2 ts F pn ps : rel (l1 ++ (c, s) :: l2) ts F pn ps ->
  exists p1 s' p2, ps = p1 ++ (c, s') :: p2 /\ length p1 = length l1 /\ rel1 ts F pn (length l1) c s s'.
Proof.
  intros (L & _ & H). destruct (H _ _ _ (nth_error_mid l1 (c, s) l2)) as (s' & E & X).
  destruct (nth_error_split _ _ E) as (p1 & p2 & -> & Lp). exists p1, s', p2. auto.
Qed.
Lemma rel_update l1 c s l2 ts F pn p1 s' p2 y y' ts' F' pn' :
  rel (l1 ++ (c, s) :: l2) ts F pn (p1 ++ (c, s') :: p2) -> length p1 = length l1 ->
  rel1 ts' F' pn' (length l1) c y y' ->
  (forall i n, i <> length l1 -> Permutation (runnings i F) (runnings i F') /\ Permutation (pendings i n ts F) (pendings i n ts' F') /\
     existsb (Nat.eqb i) pn = existsb (Nat.eqb i) pn') ->
  rel (l1 ++ (c, y) :: l2) ts' F' pn' (p1 ++ (c, y') :: p2).
Proof.
  intros (L & B & H) Lp X O. split; [rewrite !app_length in *; cbn in *; lia|].
  split.
  { intros i Li. rewrite app_length in *. cbn [length] in *. destruct (O i 0 ltac:(lia)) as (_ & _ & <-). apply B. exact Li. }
  intros i c0 s0 E. destruct (Nat.eq_dec i (length l1)) as [->|N].
  - rewrite nth_error_mid in E. injection E as <- <-. exists y'. split; [|exact X]. rewrite <- Lp. apply nth_error_mid.
  - rewrite <- (nth_error_other l1 (c, s) (c, y) l2 i N) in E. destruct (H _ _ _ E) as (x & E' & X').
    exists x. split; [rewrite <- (nth_error_other p1 (c, s') (c, y') p2 i) by congruence; exact E'|].
    destruct (O i (nc_receivers c0) N) as (O1 & O2 & O3). eapply rel1_change; eauto.
Qed.

(** calls in progress *)
Lemma sum_app {A} (f g : A -> nat) l : list_sum (map (fun x => f x + g x) l) = list_sum (map f l) + list_sum (map g l).
Proof. unfold list_sum in *. induction l as [|x l IH]; cbn; [reflexivity|]. rewrite IH. lia. Qed.
Lemma sum_one (j : nat) (m : nat) k n : list_sum (map (fun i => if i =? j then m else 0) (seq k n)) <= m.
Proof.
  revert k. induction n as [|n IH]; intros k; cbn [seq map list_sum fold_right]; [lia|].
  destruct (Nat.eqb_spec k j) as [->|N]; [|apply IH].
  enough (list_sum (map (fun i => if i =? j then m else 0) (seq (S j) n)) = 0) as X by (unfold list_sum in X; rewrite X; lia).
  assert (Y : forall q, j < q -> list_sum (map (fun i => if i =? j then m else 0) (seq q n)) = 0).
  { clear. induction n as [|n IH]; intros q L; cbn [seq map list_sum fold_right]; [reflexivity|].
    destruct (Nat.eqb_spec q j); [lia|]. apply IH. lia. }
  apply Y. lia.
Qed.
Lemma sum_runnings F k n : list_sum (map (fun i => length (runnings i F)) (seq k n)) <= length (filter calling F).
Proof.
  induction F as [|j F IH].
  - cbn. induction (seq k n); cbn; auto.
  - transitivity (list_sum (map (fun i => length (job_running i j)) (seq k n)) + list_sum (map (fun i => length (runnings i F)) (seq k n))).
    + rewrite <- sum_app. apply Nat.eq_le_incl. f_equal. apply map_ext. intros i. unfold runnings. cbn. apply app_length.
    + cbn [filter]. assert (X : list_sum (map (fun i => length (job_running i j)) (seq k n)) <= if calling j then 1 else 0).
      { destruct j as [b i id p|b id i js a].
        - cbn. clear. generalize (seq k n) as l. induction l as [|x l IHl]; cbn; auto.
        - transitivity (length (act_running a)); [|destruct a; cbn; lia].
          etransitivity; [|apply (sum_one i (length (act_running a)) k n)]. apply Nat.eq_le_incl. f_equal. apply map_ext. intros i0.
          cbn. now destruct (i0 =? i). }
      destruct (calling j); cbn [length]; lia.
Qed.
Lemma busy_sum f k ps : (forall i x, nth_error ps i = Some x -> length (running_of (snd x)) <= f (k + i)) ->
  busy_workers ps <= list_sum (map f (seq k (length ps))).
Proof.
  revert k. induction ps as [|x ps IH]; intros k H; cbn; [lia|].
  pose proof (H 0 x eq_refl) as H0. rewrite Nat.add_0_r in H0.
  assert (busy_workers ps <= list_sum (map f (seq (S k) (length ps)))).
  { apply IH. intros i y E. specialize (H (S i) y E). now replace (S k + i) with (k + S i) by lia. }
  unfold busy_workers in *. cbn in *. unfold list_sum in *. lia.
Qed.
Lemma rel_busy ls ts F pn ps : rel ls ts F pn ps -> busy_workers ps <= length (filter calling F).
Proof.
  intros (L & _ & H). etransitivity; [|apply (sum_runnings F 0 (length ps))]. apply (busy_sum (fun i => length (runnings i F))).
  intros i [c0 s0] E. cbn [snd plus].
  assert (nth_error ls i <> None) as N by (apply nth_error_Some; rewrite <- L; apply nth_error_Some; congruence).
  destruct (nth_error ls i) as [[c s]|] eqn:El; [|congruence]. destruct (H i c s El) as (s' & E' & X).
  rewrite E in E'. injection E' as -> <-. unfold rel1 in X. unfold running_of.
  destruct (ns_pc s) eqn:PC.
  - destruct X as [-> _]. rewrite PC. cbn. lia.
  - destruct X as [-> _]. rewrite PC. cbn. lia.
  - destruct X as (P & R & sk & pan & -> & X & _). cbn [set_pc ns_pc]. apply Permutation_length in X. lia.
  - destruct X as [-> _]. rewrite PC. cbn. lia.
Qed.

(** a listener outside of its scope has nothing pending or running *)
Lemma no_parts_pending ts F i n : (forall id, ~ part ts F id i) -> ~ In (TaskScope i) ts -> pendings i n ts F = [] /\ runnings i F = [].
Proof.
  intros N M. split.
  - unfold pendings. replace (flat_map (task_pending i n) ts) with (@nil nat).
    + cbn. symmetry. assert (X : forall F', incl F' F -> [] = flat_map (job_pending i) F'); [|apply X, incl_refl].
      induction F' as [|j F' IH]; intros I; [reflexivity|]. cbn. rewrite <- IH by (intros z Z; apply I; now right).
      destruct j as [b k id p|b id k js a]; [reflexivity|]. cbn. destruct (Nat.eqb_spec i k) as [->|]; [|reflexivity].
      exfalso. apply (N id). right. exists b, js, a. apply I. now left.
    + assert (X : forall ts', incl ts' ts -> [] = flat_map (task_pending i n) ts'); [|apply X, incl_refl].
      induction ts' as [|t ts' IH]; intros I; [reflexivity|]. cbn. rewrite <- IH by (intros z Z; apply I; now right).
      destruct t as [k|id k rs]; cbn; destruct (Nat.eqb_spec i k) as [->|]; try reflexivity; exfalso.
      * apply M, I. now left.
      * apply (N id). left. exists rs. apply I. now left.
  - unfold runnings. symmetry. assert (X : forall F', incl F' F -> [] = flat_map (job_running i) F'); [|apply X, incl_refl].
    induction F' as [|j F' IH]; intros I; [reflexivity|]. cbn. rewrite <- IH by (intros z Z; apply I; now right).
    destruct j as [b k id p|b id k js a]; [reflexivity|]. cbn. destruct (Nat.eqb_spec i k) as [->|]; [|reflexivity].
    exfalso. apply (N id). right. exists b, js, a. apply I. now left.
Qed.
Lemma outside_nothing ls ts F ck i n : tree ls ts F ck -> in_scope ls i = false -> pendings i n ts F = [] /\ runnings i F = [].
Proof.
  intros T O. apply no_parts_pending.
  - intros id H. rewrite (part_in_scope _ _ _ _ _ _ T H) in O. discriminate.
  - intros H. rewrite (task_scope_in_scope _ _ _ _ _ T H) in O. discriminate.
Qed.
Lemma rearm_pending i st : flat_map (job_pending i) (rearm st) = flat_map (job_pending i) st.
Proof. destruct st as [|[b k id p|b id k js [rs|rs|r rs|p]] st]; reflexivity. Qed.
Lemma rearm_running i st : flat_map (job_running i) (rearm st) = flat_map (job_running i) st.
Proof. destruct st as [|[b k id p|b id k js [rs|rs|r rs|p]] st]; reflexivity. Qed.
Lemma runnings_top i w1 x st w2 : Permutation (runnings i (concat (w1 ++ (x :: st) :: w2))) (job_running i x ++ runnings i (st ++ concat (w1 ++ w2))).
Proof. etransitivity; [apply runnings_perm, flat_top|]. reflexivity. Qed.
Lemma pendings_top i n ts w1 x st w2 :
  Permutation (pendings i n ts (concat (w1 ++ (x :: st) :: w2))) (job_pending i x ++ pendings i n ts (st ++ concat (w1 ++ w2))).
Proof.
  etransitivity; [apply pendings_perm; [reflexivity|apply flat_top]|]. unfold pendings. cbn. rewrite !app_assoc.
  apply Permutation_app_tail, Permutation_app_comm.
Qed.
Lemma runnings_stack i w1 st w2 : Permutation (runnings i (concat (w1 ++ st :: w2))) (runnings i (st ++ concat (w1 ++ w2))).
Proof. apply runnings_perm, flat_stack. Qed.
Lemma pendings_stack i n ts w1 st w2 : Permutation (pendings i n ts (concat (w1 ++ st :: w2))) (pendings i n ts (st ++ concat (w1 ++ w2))).
Proof. apply pendings_perm; [reflexivity|apply flat_stack]. Qed.
Lemma pendings_cons i n t ts F : pendings i n (t :: ts) F = task_pending i n t ++ pendings i n ts F.
Proof. unfold pendings. cbn. now rewrite app_assoc. Qed.
Lemma pendings_task i n t1 t t2 F : Permutation (pendings i n (t1 ++ t :: t2) F) (task_pending i n t ++ pendings i n (t1 ++ t2) F).
Proof. rewrite <- pendings_cons. apply pendings_perm; [symmetry; apply Permutation_middle|reflexivity]. Qed.
Lemma pendings_add i n ts t F : Permutation (pendings i n (ts ++ [t]) F) (task_pending i n t ++ pendings i n ts F).
Proof. rewrite pendings_task, app_nil_r. reflexivity. Qed.
Lemma rearm_pendings i n ts st X : pendings i n ts (rearm st ++ X) = pendings i n ts (st ++ X).
Proof. unfold pendings. now rewrite !flat_map_app, rearm_pending. Qed.
Lemma rearm_runnings i st X : runnings i (rearm st ++ X) = runnings i (st ++ X).
Proof. unfold runnings. now rewrite !flat_map_app, rearm_running. Qed.

(** replacing the job on top of a stack by one that has the same receivers pending and running *)
Lemma rel_same_top ls ts w1 x y st w2 pn ps :
  (forall i, job_pending i x = job_pending i y) -> (forall i, job_running i x = job_running i y) ->
  rel ls ts (concat (w1 ++ (x :: st) :: w2)) pn ps -> rel ls ts (concat (w1 ++ (y :: st) :: w2)) pn ps.
Proof.
  intros HP HR. apply rel_change.
  - intros i. rewrite !runnings_top, HR. reflexivity.
  - intros i c s _. rewrite !pendings_top, HP. reflexivity.
Qed.
Lemma rel_pop ls ts w1 x st w2 pn ps :
  (forall i, job_pending i x = []) -> (forall i, job_running i x = []) ->
  rel ls ts (concat (w1 ++ (x :: st) :: w2)) pn ps -> rel ls ts (concat (w1 ++ st :: w2)) pn ps.
Proof.
  intros HP HR. apply rel_change.
  - intros i. rewrite runnings_top, runnings_stack, HR. reflexivity.
  - intros i c s _. rewrite pendings_top, pendings_stack, HP. reflexivity.
Qed.
Lemma perm_in_split (x : nat) l r : Permutation l (x :: r) -> exists a b, l = a ++ x :: b /\ Permutation (a ++ b) r.
Proof.
  intros P. assert (In x l) as I by (eapply Permutation_in; [symmetry; exact P|now left]).
  apply in_split in I as (a & b & ->). exists a, b. split; [reflexivity|].
  apply Permutation_cons_inv with x. rewrite Permutation_middle. exact P.
Qed.
Lemma existsb_cons_other i j pn : i <> j -> existsb (Nat.eqb i) pn = existsb (Nat.eqb i) (j :: pn).
Proof. intros N. cbn. destruct (Nat.eqb_spec i j); [contradiction|reflexivity]. Qed.
Lemma existsb_filter_other i j pn : i <> j -> existsb (Nat.eqb i) pn = existsb (Nat.eqb i) (filter (fun k => negb (j =? k)) pn).
Proof.
  intros N. induction pn as [|k pn IH]; [reflexivity|]. cbn. rewrite IH. destruct (Nat.eqb_spec j k) as [<-|M]; cbn.
  - destruct (Nat.eqb_spec i j); [contradiction|reflexivity].
  - reflexivity.
Qed.
Lemma existsb_filter_self j pn : existsb (Nat.eqb j) (filter (fun k => negb (j =? k)) pn) = false.
Proof.
  induction pn as [|k pn IH]; [reflexivity|]. cbn. destruct (Nat.eqb_spec j k) as [<-|M]; cbn; [exact IH|].
  destruct (Nat.eqb_spec j k); [contradiction|exact IH].
Qed.
Lemma job_other b id i js a j : j <> i -> job_pending j (InPart b id i js a) = [] /\ job_running j (InPart b id i js a) = [].
Proof. intros N. cbn. destruct (Nat.eqb_spec j i); [contradiction|auto]. Qed.
Lemma job_self b id i js a : job_pending i (InPart b id i js a) = act_pending a /\ job_running i (InPart b id i js a) = act_running a.
Proof. cbn. now rewrite Nat.eqb_refl. Qed.
Lemma set_pc_twice s a b : set_pc (set_pc s a) b = set_pc s b.
Proof. reflexivity. Qed.
Lemma set_pc_same s : set_pc s (ns_pc s) = s.
Proof. now destruct s. Qed.

Lemma in_scope_pc ls i c s : in_scope ls i = true -> nth_error ls i = Some (c, s) ->
  exists k pkt src pe ru pa, ns_pc s = Dispatching k pkt src pe ru pa.
Proof. unfold in_scope. intros H E. rewrite E in H. destruct (ns_pc s); try discriminate. eauto 8. Qed.
Lemma in_scope_exists ls i : in_scope ls i = true -> exists c s k pkt src pe ru pa,
  nth_error ls i = Some (c, s) /\ ns_pc s = Dispatching k pkt src pe ru pa.
Proof. unfold in_scope. intros H. destruct (nth_error ls i) as [[c s]|]; [|discriminate]. destruct (ns_pc s) eqn:E; try discriminate. eauto 12. Qed.

Lemma own_abs ts F pn i c s l s' x : step c s l s' -> listeners_own l = true -> rel1 ts F pn i c s x ->
  exists x', step c x l x' /\ rel1 ts F pn i c s' x'.
Proof.
  intros S O X. destruct (own_step_pc _ _ _ _ S O) as [A B]. unfold rel1 in *.
  destruct (ns_pc s) as [|k|k pkt src pe ru pa|r] eqn:PC.
  - destruct X as [-> X]. exists s'. split; [exact S|]. destruct (ns_pc s'); try discriminate; auto.
  - destruct X as [-> X]. exists s'. split; [exact S|]. destruct (ns_pc s'); try discriminate; auto.
  - destruct X as (P & R & sk & pan & -> & X). rewrite (B _ _ _ _ _ _ eq_refl). clear A B.
    inversion S; subst; try congruence; cbn [listeners_own] in O; try discriminate.
    eexists. split; [apply step_arrive|]. exists P, R, sk, (existsb (Nat.eqb i) pn). destruct X as (X1 & X2 & -> & X3). auto.
  - destruct X as [-> X]. exists s'. split; [exact S|]. destruct (ns_pc s'); try discriminate; auto.
Qed.
Lemma pool_at N p1 c x p2 l x' i : step c x l x' -> length p1 = i ->
  (forall r pkt src, l = LCall r pkt src -> busy_workers (p1 ++ (c, x) :: p2) < N) ->
  pool_run N (p1 ++ (c, x) :: p2) [GStep i l] (p1 ++ (c, x') :: p2).
Proof. intros S <- B. apply pool_run_one. now constructor. Qed.

Lemma simulate s l s' ps : forest s -> calm s -> ry_step s l s' -> rel (ry_listeners s) (ry_tasks s) (flat s) (ry_panicked s) ps ->
  exists ps', pool_run (length (ry_stacks s)) ps (visible [l]) ps' /\
    rel (ry_listeners s') (ry_tasks s') (flat s') (ry_panicked s') ps'.
Proof.
  unfold forest, flat. intros T C S X. destruct S; cbn [ry_listeners ry_tasks ry_stacks ry_clock ry_panicked visible] in *.
  - (* start *)
    eexists. split; [apply pool_run_one, pool_start|]. destruct X as (L & B & H). split; [rewrite !app_length, L; reflexivity|].
    split; [intros i Li; apply B; rewrite app_length in Li; lia|].
    intros i c0 s0 E. destruct (Nat.lt_ge_cases i (length ls)) as [Li|Li].
    + rewrite nth_error_app1 in E by exact Li. destruct (H _ _ _ E) as (s' & E' & Y). exists s'. split; [|exact Y].
      rewrite nth_error_app1 by (rewrite L; exact Li). exact E'.
    + rewrite nth_error_app2 in E by exact Li. rewrite nth_error_app2 by (rewrite L; exact Li). rewrite L.
      destruct (i - length ls) as [|[|x]] eqn:D; cbn in E; try discriminate. injection E as <- <-. exists (net_init c q). split; [reflexivity|].
      unfold rel1. cbn. split; [reflexivity|]. apply B. exact Li.
  - (* listener *)
    destruct (rel_split _ _ _ _ _ _ _ _ X) as (p1 & x & p2 & -> & Lp & Y).
    destruct (own_abs _ _ _ _ _ _ _ _ _ H H0 Y) as (x' & Sx & Y').
    eexists. split; [eapply pool_at; [exact Sx|exact Lp|intros r pkt src ->; discriminate]|].
    eapply rel_update; [exact X|exact Lp|exact Y'|]. intros i n N. repeat split; reflexivity.
  - (* recv *)
    destruct (rel_split _ _ _ _ _ _ _ _ X) as (p1 & x & p2 & -> & Lp & Y).
    destruct (recv_pc _ _ _ H) as (k & pkt & src & E1 & E2). unfold rel1 in Y. rewrite E1 in Y. destruct Y as [-> Y].
    eexists. split; [eapply pool_at; [exact H|exact Lp|discriminate]|].
    assert (O : in_scope (l1 ++ (c, s) :: l2) (length l1) = false) by (rewrite in_scope_at, E1; reflexivity).
    destruct (outside_nothing _ _ _ _ _ (nc_receivers c) T O) as [Z1 Z2].
    eapply rel_update; [exact X|exact Lp| |].
    + unfold rel1. rewrite E2. exists (seq 0 (nc_receivers c)), [], [], false.
      rewrite <- E2, set_pc_same, Z2, Y. split; [reflexivity|]. split; [reflexivity|]. split; [|auto].
      rewrite pendings_add, Z1, !app_nil_r. cbn. now rewrite Nat.eqb_refl.
    + intros i n N. split; [reflexivity|]. split; [|reflexivity]. rewrite pendings_add. cbn.
      destruct (Nat.eqb_spec i (length l1)); [contradiction|reflexivity].
  - (* take scope *)
    exists ps. split; [constructor|]. revert X. apply rel_change.
    + intros j. rewrite runnings_top, runnings_stack, rearm_runnings. reflexivity.
    + intros j c0 s0 E. rewrite pendings_top, pendings_stack, rearm_pendings. cbn [job_pending app].
      rewrite app_assoc, pendings_add, pendings_task. cbn. destruct (Nat.eqb_spec j i) as [->|]; [|reflexivity].
      assert (c0 = c) as -> by congruence. reflexivity.
  - (* take part *)
    exists ps. split; [constructor|]. revert X. apply rel_change.
    + intros j. rewrite runnings_top, runnings_stack, rearm_runnings. cbn. now destruct (j =? i).
    + intros j c0 s0 E. rewrite pendings_top, pendings_stack, rearm_pendings, pendings_task. reflexivity.
  - (* split *)
    exists ps. split; [constructor|]. revert X. apply rel_change.
    + intros j. rewrite !runnings_top. cbn. now destruct (j =? i).
    + intros j c0 s0 E. rewrite !pendings_top, pendings_add. cbn. destruct (j =? i); [|reflexivity].
      rewrite <- app_assoc. reflexivity.
  - exists ps. split; [constructor|]. revert X. apply rel_same_top; reflexivity.
  - (* call *)
    destruct (nth_error_split _ _ H) as (l1 & l2 & -> & <-).
    destruct (rel_split _ _ _ _ _ _ _ _ X) as (p1 & x & p2 & -> & Lp & Y).
    unfold rel1 in Y. rewrite H0 in Y. destruct Y as (P & R & sk & pan & -> & Y1 & Y2 & Y3 & Y4).
    rewrite pendings_top in Y2. rewrite (proj1 (job_self _ _ _ _ _)) in Y2. cbn [act_pending app] in Y2.
    destruct (perm_in_split _ _ _ Y2) as (a & d & -> & Y5).
    eexists. split; [eapply pool_at; [eapply step_call; cbn [set_pc ns_pc]; reflexivity|exact Lp|]|].
    + intros _ _ _ _. eapply Nat.le_lt_trans; [eapply rel_busy; exact X|]. apply callings_free; [exact C|reflexivity].
    + rewrite set_pc_twice. eapply rel_update; [exact X|exact Lp| |].
      * unfold rel1. rewrite H0. exists (a ++ d), (r :: R), sk, pan. split; [reflexivity|].
        rewrite runnings_top, pendings_top, (proj1 (job_self _ _ _ _ _)), (proj2 (job_self _ _ _ _ _)).
        rewrite runnings_top, (proj2 (job_self _ _ _ _ _)) in Y1. cbn [act_pending act_running app] in *.
        split; [now rewrite Y1|]. split; [exact Y5|auto].
      * intros j n N. rewrite !runnings_top, !pendings_top.
        rewrite !(proj1 (job_other _ _ _ _ _ _ N)), !(proj2 (job_other _ _ _ _ _ _ N)). auto.
  - (* return *)
    assert (I : in_scope ls i = true).
    { eapply part_in_scope; [exact T|]. right. exists b, js, (Calling r rs). eapply Permutation_in; [symmetry; apply flat_top|now left]. }
    destruct (in_scope_exists _ _ I) as (c & s & k & pkt & src & pe & ru & pa & H & H0).
    destruct (nth_error_split _ _ H) as (l1 & l2 & -> & <-).
    destruct (rel_split _ _ _ _ _ _ _ _ X) as (p1 & x & p2 & -> & Lp & Y).
    unfold rel1 in Y. rewrite H0 in Y. destruct Y as (P & R & sk & pan & -> & Y1 & Y2 & Y3 & Y4).
    rewrite runnings_top in Y1. rewrite (proj2 (job_self _ _ _ _ _)) in Y1. cbn [act_running app] in Y1.
    destruct (perm_in_split _ _ _ Y1) as (a & d & -> & Y5).
    eexists. split; [eapply pool_at; [eapply step_return; cbn [set_pc ns_pc]; reflexivity|exact Lp|discriminate]|].
    rewrite set_pc_twice. eapply rel_update; [exact X|exact Lp| |].
    + unfold rel1. rewrite H0. exists P, (a ++ d), sk, pan. split; [reflexivity|].
      rewrite runnings_top, pendings_top, (proj1 (job_self _ _ _ _ _)), (proj2 (job_self _ _ _ _ _)).
      rewrite pendings_top, (proj1 (job_self _ _ _ _ _)) in Y2. cbn [act_pending act_running app] in *.
      split; [exact Y5|]. split; [exact Y2|auto].
    + intros j n N. rewrite !runnings_top, !pendings_top.
      rewrite !(proj1 (job_other _ _ _ _ _ _ N)), !(proj2 (job_other _ _ _ _ _ _ N)). auto.
  - (* panic *)
    assert (I : in_scope ls i = true).
    { eapply part_in_scope; [exact T|]. right. exists b, js, (Calling r rs). eapply Permutation_in; [symmetry; apply flat_top|now left]. }
    destruct (in_scope_exists _ _ I) as (c & s & k & pkt & src & pe & ru & pa & H & H0).
    destruct (nth_error_split _ _ H) as (l1 & l2 & -> & <-).
    destruct (rel_split _ _ _ _ _ _ _ _ X) as (p1 & x & p2 & -> & Lp & Y).
    unfold rel1 in Y. rewrite H0 in Y. destruct Y as (P & R & sk & pan & -> & Y1 & Y2 & Y3 & Y4).
    rewrite runnings_top in Y1. rewrite (proj2 (job_self _ _ _ _ _)) in Y1. cbn [act_running app] in Y1.
    destruct (perm_in_split _ _ _ Y1) as (a & d & -> & Y5).
    eexists. split; [eapply pool_at; [eapply step_panic; cbn [set_pc ns_pc]; reflexivity|exact Lp|discriminate]|].
    rewrite set_pc_twice. eapply rel_update; [exact X|exact Lp| |].
    + unfold rel1. rewrite H0. exists P, (a ++ d), (rs ++ sk), true. split; [reflexivity|].
      rewrite runnings_top, pendings_top, (proj1 (job_self _ _ _ _ _)), (proj2 (job_self _ _ _ _ _)).
      rewrite pendings_top, (proj1 (job_self _ _ _ _ _)) in Y2. cbn [act_pending act_running app existsb] in *.
      split; [exact Y5|]. split; [|split; [now rewrite Nat.eqb_refl|discriminate]].
      rewrite Y2, app_assoc, (Permutation_app_comm _ rs). rewrite <- app_assoc. reflexivity.
    + intros j n N. rewrite !runnings_top, !pendings_top.
      rewrite !(proj1 (job_other _ _ _ _ _ _ N)), !(proj2 (job_other _ _ _ _ _ _ N)).
      split; [reflexivity|]. split; [reflexivity|]. now apply existsb_cons_other.
  - exists ps. split; [constructor|]. revert X. apply rel_same_top; reflexivity.
  - exists ps. split; [constructor|]. revert X. apply rel_same_top; reflexivity.
  - exists ps. split; [constructor|]. revert X. apply rel_same_top; reflexivity.
  - exists ps. split; [constructor|]. revert X. apply rel_pop; intros k; cbn; now destruct (k =? i).
  - exists ps. split; [constructor|]. revert X. apply rel_same_top; reflexivity.
  - (* the end of a scope *)
    destruct (rel_split _ _ _ _ _ _ _ _ X) as (p1 & x & p2 & -> & Lp & Y).
    unfold rel1 in Y. rewrite H in Y. destruct Y as (P & R & sk & pan & -> & Y1 & Y2 & Y3 & Y4).
    pose proof (tree_perm _ _ _ _ _ _ (Permutation_refl ts) (flat_top _ _ _ _) T) as T'.
    destruct (scope_last _ _ _ _ _ _ _ _ T') as (U1 & U2 & _).
    { eapply not_unfinished; [exact H0|symmetry; apply flat_top]. }
    destruct (no_parts_pending _ _ _ (nc_receivers c) U1 U2) as [Z1 Z2].
    rewrite (runnings_perm _ _ _ (flat_top _ _ _ _)), Z2 in Y1. apply Permutation_sym, Permutation_nil in Y1. subst R.
    rewrite (pendings_perm _ _ _ _ _ _ (Permutation_refl ts) (flat_top _ _ _ _)), Z1 in Y2. cbn [app] in Y2.
    exists (p1 ++ (c, set_pc s (if existsb (Nat.eqb (length l1)) pn then Stopped StoppedByPanic else Handling k)) :: p2). split.
    + eapply pool_at; [|exact Lp|discriminate]. rewrite <- Y3. destruct pan.
      * eapply (step_scope_panic c (set_pc s _)). reflexivity.
      * rewrite (Y4 eq_refl) in Y2. apply Permutation_sym, Permutation_nil in Y2. subst P. eapply (step_scope_end c (set_pc s _)). reflexivity.
    + eapply rel_update; [exact X|exact Lp| |].
      * unfold rel1. cbn [set_pc ns_pc]. destruct (existsb _ pn); (split; [reflexivity|apply existsb_filter_self]).
      * intros j n N. rewrite runnings_top, runnings_stack, pendings_top, pendings_stack. cbn [job_running job_pending app].
        split; [reflexivity|]. split; [reflexivity|]. now apply existsb_filter_other.
Qed.

Lemma rel_init n : rel [] [] (concat (repeat [] n)) [] [].
Proof. split; [reflexivity|]. split; [reflexivity|]. intros [|i] c s E; discriminate. Qed.
Lemma simulate_run n tr s : ry_run (ry_init n) tr s -> exists ps, pool_run n [] (visible tr) ps /\
  rel (ry_listeners s) (ry_tasks s) (flat s) (ry_panicked s) ps.
Proof.
  intros R. remember (ry_init n) as s0 eqn:E. induction R as [|s0 tr s' l s'' R IH S]; subst.
  - exists []. split; [constructor|apply rel_init].
  - destruct (IH eq_refl) as (ps & P & X).
    destruct (simulate _ _ _ _ (forest_run _ _ _ R) (calm_run _ _ _ R) S X) as (ps' & P' & X').
    exists ps'. split; [|exact X']. rewrite visible_app. rewrite (workers_run _ _ _ R) in P'. eapply pool_run_app; eauto.
Qed.

(** C115. What listeners and receivers do on a work-stealing pool is an execution of the pool of Pool.v, so whatever holds for
    every execution there (C66-C68) holds here; listeners that are not waiting in a scope are in the same state, and those that are
    dispatch the same datagram. *)
Lemma p_C115_work_stealing_refines_pool :
  forall (workers : nat) (tr : list ry_label) (s : ry_state),
    ry_run (ry_init workers) tr s ->
    exists ps, pool_run workers [] (visible tr) ps /\ length ps = length (ry_listeners s) /\
      forall (i : nat) (c : net_config) (x : net_state), nth_error (ry_listeners s) i = Some (c, x) ->
        exists y, nth_error ps i = Some (c, y) /\ (dispatching x <-> dispatching y) /\ (~ dispatching x -> y = x).
Proof.
  intros N tr s R. destruct (simulate_run _ _ _ R) as (ps & P & L & _ & X). exists ps. split; [exact P|]. split; [exact L|].
  intros i c x E. destruct (X _ _ _ E) as (y & Ey & Y). exists y. split; [exact Ey|]. unfold rel1 in Y. unfold dispatching.
  destruct (ns_pc x) as [|k|k pkt src pe ru pa|r] eqn:PC.
  - destruct Y as [-> _]. rewrite PC. tauto.
  - destruct Y as [-> _]. rewrite PC. tauto.
  - destruct Y as (P0 & R0 & sk & pan & -> & _). cbn. tauto.
  - destruct Y as [-> _]. rewrite PC. tauto.
Qed.

(** C115, for instance: exactly-once, in-order delivery for each listener ... *)
Lemma p_C115_delivery_per_listener :
  forall (workers : nat) (tr : list ry_label) (s : ry_state) (i r : nat) (c : net_config) (q : list datagram) (x : net_state),
    ry_run (ry_init workers) tr s -> nth_error (started (visible tr)) i = Some (c, q) ->
    nth_error (ry_listeners s) i = Some (c, x) -> between_datagrams x -> r < nc_receivers c ->
    calls r (trace_of i (visible tr)) = map (packet_of c) (received q (trace_of i (visible tr))).
Proof.
  intros N tr s i r c q x R St E B Hr. destruct (p_C115_work_stealing_refines_pool _ _ _ R) as (ps & P & _ & X).
  destruct (X _ _ _ E) as (y & Ey & _ & Y). rewrite Y in Ey.
  - eapply p_C66_delivery_per_listener; eauto.
  - unfold between_datagrams, dispatching in *. destruct (ns_pc x); tauto.
Qed.
(** ... and at no moment are more receivers being executed than the pool has threads. *)
Lemma p_C115_concurrency_bounded_by_pool :
  forall (workers : nat) (tr : list ry_label) (s : ry_state),
    ry_run (ry_init workers) tr s ->
    came_back (visible tr) <= entered (visible tr) <= came_back (visible tr) + workers.
Proof.
  intros N tr s R. destruct (p_C115_work_stealing_refines_pool _ _ _ R) as (ps & P & _). eapply p_C67_concurrency_bounded_by_pool; eauto.
Qed.

(** ** No deadlock *)
Definition born (j : job) : nat := match j with InScope b _ _ _ | InPart b _ _ _ _ => b end.
Definition awaits (j : job) : list nat := match j with InScope _ _ id _ => [id] | InPart _ _ _ js _ => js end.
(** a job is waited for by one that was taken before it *)
Definition later (F : list job) : Prop :=
  forall x b id i js a, In x F -> In id (awaits x) -> In (InPart b id i js a) F -> born x < b.
(** on a stack the youngest job is on top *)
Fixpoint piled (st : list job) : Prop :=
  match st with [] => True | x :: r => Forall (fun y => born y < born x) r /\ piled r end.

Lemma later_perm F F' : Permutation F F' -> later F -> later F'.
Proof. intros P H x b id i js a X A Y. eapply H; [eapply Permutation_in; [symmetry; exact P|exact X]|exact A|eapply Permutation_in; [symmetry; exact P|exact Y]]. Qed.
(** replacing a job by one that is as old, waits for no more and is the same for those who wait for it *)
Definition as_waiting (x y : job) : Prop :=
  born y = born x /\ incl (awaits y) (awaits x) /\
  (forall b id i js a, y = InPart b id i js a -> exists js' a', x = InPart b id i js' a').
Lemma later_replace x y F : as_waiting x y -> later (x :: F) -> later (y :: F).
Proof.
  intros (B & A & S) H z b id i js a [<-|Z] Az [E|Y].
  - destruct (S _ _ _ _ _ E) as (js' & a' & E'). rewrite B. eapply H; [now left|apply A, Az|left; exact E'].
  - rewrite B. eapply H; [now left|apply A, Az|right; exact Y].
  - destruct (S _ _ _ _ _ E) as (js' & a' & E'). eapply H; [right; exact Z|exact Az|left; exact E'].
  - eapply H; [right; exact Z|exact Az|right; exact Y].
Qed.
Lemma later_drop x F : later (x :: F) -> later F.
Proof. intros H z b id i js a Z A Y. eapply H; [right; exact Z|exact A|right; exact Y]. Qed.
Lemma as_waiting_activity b id i js a a' : as_waiting (InPart b id i js a) (InPart b id i js a').
Proof. split; [reflexivity|]. split; [apply incl_refl|]. intros ? ? ? ? ? E. injection E as <- <- <- <- <-. eauto. Qed.
Lemma as_waiting_join b id i j js a a' : as_waiting (InPart b id i (j :: js) a) (InPart b id i js a').
Proof. split; [reflexivity|]. split; [cbn; apply incl_tl, incl_refl|]. intros ? ? ? ? ? E. injection E as <- <- <- <- <-. eauto. Qed.
Lemma as_waiting_looked b i id p p' : as_waiting (InScope b i id p) (InScope b i id p').
Proof. split; [reflexivity|]. split; [apply incl_refl|]. discriminate. Qed.
Lemma later_rearm st F : later (st ++ F) -> later (rearm st ++ F).
Proof.
  destruct st as [|[b i id p|b id i js [rs|rs|r rs|p]] st]; cbn; auto; apply later_replace;
    [apply as_waiting_looked|apply as_waiting_activity].
Qed.
Lemma piled_rearm st : piled st -> piled (rearm st).
Proof. destruct st as [|[b i id p|b id i js [rs|rs|r rs|p]] st]; cbn; auto. Qed.
Lemma piled_same x y st : born y = born x -> piled (x :: st) -> piled (y :: st).
Proof. cbn. intros ->. auto. Qed.
Lemma born_bound ls ts F ck x : tree ls ts F ck -> In x F -> born x < ck.
Proof.
  intros T H. destruct x as [b i id p|b id i js a]; cbn.
  - now destruct (tr_scope _ _ _ _ T _ _ _ _ H).
  - now destruct (tr_job _ _ _ _ T _ _ _ _ _ H) as (_ & X & _).
Qed.
Lemma rearm_born st F P : Forall (fun x => P (born x)) (st ++ F) -> Forall (fun x => P (born x)) (rearm st ++ F).
Proof. destruct st as [|[b i id p|b id i js [rs|rs|r rs|p]] st]; cbn; auto; intros H; inversion H; subst; constructor; auto. Qed.

Definition ordered (s : ry_state) : Prop := later (flat s) /\ Forall piled (ry_stacks s).
Lemma ordered_step s l s' : forest s -> ordered s -> ry_step s l s' -> ordered s'.
Proof.
  unfold ordered, flat, forest. intros T [La Pi] S. destruct S; cbn [ry_stacks ry_listeners ry_tasks ry_clock] in *; try (split; [exact La|exact Pi]);
    pose proof (Forall_at _ _ _ _ Pi) as Pt.
  - (* take scope *)
    assert (Tb : forall x, In x (rearm st ++ concat (w1 ++ w2)) -> born x < ck).
    { apply Forall_forall. apply (rearm_born st _ (fun b => b < ck)). apply Forall_forall. intros x H1. eapply born_bound; [exact T|].
      eapply Permutation_in; [symmetry; apply flat_stack|exact H1]. }
    assert (Ti : forall b id i' js a, In (InPart b id i' js a) (rearm st ++ concat (w1 ++ w2)) -> id < ck).
    { intros b id i' js a H1. assert (T2 := tree_perm _ _ _ _ _ _ (Permutation_refl _) (flat_stack w1 st w2) T). apply tree_rearm in T2.
      now destruct (tr_job _ _ _ _ T2 _ _ _ _ _ H1). }
    split.
    + eapply later_perm; [symmetry; apply flat_top|]. cbn [app].
      assert (La' : later (rearm st ++ concat (w1 ++ w2))) by (apply later_rearm; eapply later_perm; [apply flat_stack|exact La]).
      intros z b id i' js a [<-|Z] Az [E|Y]; try discriminate.
      * cbn in Az. destruct Az as [<-|[]]. specialize (Ti _ _ _ _ _ Y). lia.
      * eapply La'; eauto.
    + eapply Forall_mid; [exact Pi|]. cbn. split; [|now apply piled_rearm]. apply Forall_forall. intros x H1. apply Tb. apply in_or_app. now left.
  - (* take part *)
    assert (Tb : forall x, In x (rearm st ++ concat (w1 ++ w2)) -> born x < ck).
    { apply Forall_forall. apply (rearm_born st _ (fun b => b < ck)). apply Forall_forall. intros x H1. eapply born_bound; [exact T|].
      eapply Permutation_in; [symmetry; apply flat_stack|exact H1]. }
    split.
    + eapply later_perm; [symmetry; apply flat_top|]. cbn [app].
      assert (La' : later (rearm st ++ concat (w1 ++ w2))) by (apply later_rearm; eapply later_perm; [apply flat_stack|exact La]).
      intros z b id' i' js a [<-|Z] Az [E|Y].
      * destruct Az.
      * destruct Az.
      * injection E as <- <- <- <- <-. apply Tb. exact Z.
      * eapply La'; eauto.
    + eapply Forall_mid; [exact Pi|]. cbn. split; [|now apply piled_rearm]. apply Forall_forall. intros x H1. apply Tb. apply in_or_app. now left.
  - (* split *)
    assert (T2 := tree_perm _ _ _ _ _ _ (Permutation_refl _) (flat_top w1 _ st w2) T).
    split; [|eapply Forall_mid; [exact Pi|]; eapply piled_same; [|exact Pt]; reflexivity].
    eapply later_perm; [symmetry; apply flat_top|]. apply (later_perm _ _ (flat_top _ _ _ _)) in La.
    intros z b0 id0 i0 js0 a0 Z Az Y.
    assert (Y' : exists js' a', In (InPart b0 id0 i0 js' a') (InPart b id i js (Deciding (left ++ right)) :: st ++ concat (w1 ++ w2))).
    { destruct Y as [Y|Y]; [injection Y as <- <- <- <- <-; do 2 eexists; now left|do 2 eexists; right; exact Y]. }
    destruct Y' as (js' & a' & Y').
    destruct Z as [<-|Z].
    + cbn in Az. destruct Az as [<-|Az].
      * destruct (tr_job _ _ _ _ T2 _ _ _ _ _ Y'). lia.
      * eapply (La (InPart b id i js (Deciding (left ++ right)))); [now left|exact Az|exact Y'].
    + eapply La; [right; exact Z|exact Az|exact Y'].
  - split; [|eapply Forall_mid; [exact Pi|]; eapply piled_same; [|exact Pt]; reflexivity].
    eapply later_perm; [symmetry; apply flat_top|]. eapply later_replace; [apply as_waiting_activity|]. eapply later_perm; [apply flat_top|exact La].
  - split; [|eapply Forall_mid; [exact Pi|]; eapply piled_same; [|exact Pt]; reflexivity].
    eapply later_perm; [symmetry; apply flat_top|]. eapply later_replace; [apply as_waiting_activity|]. eapply later_perm; [apply flat_top|exact La].
  - split; [|eapply Forall_mid; [exact Pi|]; eapply piled_same; [|exact Pt]; reflexivity].
    eapply later_perm; [symmetry; apply flat_top|]. eapply later_replace; [apply as_waiting_activity|]. eapply later_perm; [apply flat_top|exact La].
  - split; [|eapply Forall_mid; [exact Pi|]; eapply piled_same; [|exact Pt]; reflexivity].
    eapply later_perm; [symmetry; apply flat_top|]. eapply later_replace; [apply as_waiting_activity|]. eapply later_perm; [apply flat_top|exact La].
  - split; [|eapply Forall_mid; [exact Pi|]; eapply piled_same; [|exact Pt]; reflexivity].
    eapply later_perm; [symmetry; apply flat_top|]. eapply later_replace; [apply as_waiting_activity|]. eapply later_perm; [apply flat_top|exact La].
  - split; [|eapply Forall_mid; [exact Pi|]; eapply piled_same; [|exact Pt]; reflexivity].
    eapply later_perm; [symmetry; apply flat_top|]. eapply later_replace; [apply as_waiting_activity|]. eapply later_perm; [apply flat_top|exact La].
  - split; [|eapply Forall_mid; [exact Pi|]; eapply piled_same; [|exact Pt]; reflexivity].
    eapply later_perm; [symmetry; apply flat_top|]. eapply later_replace; [apply as_waiting_join|]. eapply later_perm; [apply flat_top|exact La].
  - split; [|eapply Forall_mid; [exact Pi|]; apply Pt].
    eapply later_perm; [symmetry; apply flat_stack|]. eapply later_drop. eapply later_perm; [apply flat_top|exact La].
  - split; [|eapply Forall_mid; [exact Pi|]; eapply piled_same; [|exact Pt]; reflexivity].
    eapply later_perm; [symmetry; apply flat_top|]. eapply later_replace; [apply as_waiting_looked|]. eapply later_perm; [apply flat_top|exact La].
  - split; [|eapply Forall_mid; [exact Pi|]; apply Pt].
    eapply later_perm; [symmetry; apply flat_stack|]. eapply later_drop. eapply later_perm; [apply flat_top|exact La].
Qed.
Lemma ordered_run n tr s : ry_run (ry_init n) tr s -> ordered s.
Proof.
  intros R. remember (ry_init n) as s0 eqn:E. induction R; subst.
  - split; [|apply Forall_forall; intros st H; apply repeat_spec in H; subst; exact I].
    unfold flat. cbn. replace (concat (repeat [] n)) with (@nil job) by (induction n; auto). intros ? ? ? ? ? ? [].
  - eapply ordered_step; [eapply forest_run; eauto|auto|exact H].
Qed.

Definition is_id (id : nat) (t : task) : bool := match t with TaskPart k _ _ => k =? id | _ => false end.
Definition is_job (id : nat) (j : job) : bool := match j with InPart _ k _ _ _ => k =? id | _ => false end.
Lemma unfinished_dec ts sts id : unfinished ts sts id \/ ~ unfinished ts sts id.
Proof.
  destruct (existsb (is_id id) ts) eqn:A.
  - apply existsb_exists in A as ([|k i rs] & H & E); [discriminate|]. apply Nat.eqb_eq in E. subst. left. left. eauto.
  - destruct (existsb (is_job id) (concat sts)) eqn:B.
    + apply existsb_exists in B as ([|b k i js a] & H & E); [discriminate|]. apply Nat.eqb_eq in E. subst. left. right. eauto 6.
    + right. intros [(i & rs & H)|(b & i & js & a & H)].
      * assert (existsb (is_id id) ts = true); [|congruence]. apply existsb_exists. eexists. split; [exact H|]. cbn. apply Nat.eqb_refl.
      * assert (existsb (is_job id) (concat sts) = true); [|congruence]. apply existsb_exists. eexists. split; [exact H|]. cbn. apply Nat.eqb_refl.
Qed.

(** a worker whose top job does not wait can go on *)
Definition blocked (st : list job) : Prop :=
  match st with
  | [] | InScope _ _ _ true :: _ | InPart _ _ _ (_ :: _) (Joining true) :: _ => True
  | _ => False
  end.
Lemma worker_goes_on ls ts w1 st w2 pn ck : forest (RY ls ts (w1 ++ st :: w2) pn ck) -> ~ blocked st ->
  exists l s', ry_step (RY ls ts (w1 ++ st :: w2) pn ck) l s' /\ ~ is_external_here l /\ ~ is_failure_here l.
Proof.
  unfold forest, flat. cbn [ry_listeners ry_tasks ry_stacks ry_clock]. intros T NB.
  destruct st as [|[b i id p|b id i js a] st]; cbn in NB; [tauto| |].
  - destruct p; [tauto|].
    assert (I : in_scope ls i = true).
    { eapply in_scope_job; [exact T|]. eapply Permutation_in; [symmetry; apply flat_top|now left]. }
    destruct (in_scope_exists _ _ I) as (c & s & k & pkt & src & pe & ru & pa & E & PC).
    destruct (nth_error_split _ _ E) as (l1 & l2 & -> & <-).
    destruct (unfinished_dec ts (w1 ++ (InScope b (length l1) id false :: st) :: w2) id) as [U|U].
    + do 2 eexists. split; [apply ry_look_scope; exact U|cbn; tauto].
    + do 2 eexists. split; [eapply ry_scope_done; eassumption|cbn; tauto].
  - assert (I : in_scope ls i = true).
    { eapply part_in_scope; [exact T|]. right. exists b, js, a. eapply Permutation_in; [symmetry; apply flat_top|now left]. }
    destruct (in_scope_exists _ _ I) as (c & s & k & pkt & src & pe & ru & pa & E & PC).
    destruct a as [rs|[|r rs]|r rs|p].
    + do 2 eexists. split; [apply ry_sequential|cbn; tauto].
    + do 2 eexists. split; [apply ry_loop_done|cbn; tauto].
    + do 2 eexists. split; [eapply ry_call; eassumption|cbn; tauto].
    + do 2 eexists. split; [apply ry_return|cbn; tauto].
    + destruct js as [|j js]; [do 2 eexists; split; [apply ry_part_done|cbn; tauto]|].
      destruct p; [tauto|].
      destruct (unfinished_dec ts (w1 ++ (InPart b id i (j :: js) (Joining false) :: st) :: w2) j) as [U|U].
      * do 2 eexists. split; [apply ry_look_join; exact U|cbn; tauto].
      * do 2 eexists. split; [apply ry_join_done; exact U|cbn; tauto].
Qed.
Lemma blocked_dec st : blocked st \/ ~ blocked st.
Proof. destruct st as [|[b i id [|]|b id i [|j js] [rs|rs|r rs|[|]]] st]; cbn; tauto. Qed.
Lemma blocked_may_take st : blocked st -> may_take st = true.
Proof. destruct st as [|[b i id [|]|b id i [|j js] [rs|rs|r rs|[|]]] st]; cbn; tauto. Qed.
Lemma oldest (F : list job) : F <> [] -> exists m, In m F /\ forall x, In x F -> born x <= born m.
Proof.
  induction F as [|x F IH]; [congruence|]. intros _. destruct F as [|y F]; [exists x; split; [now left|intros z [<-|[]]; lia]|].
  destruct IH as (m & M & H); [discriminate|]. destruct (Nat.le_gt_cases (born x) (born m)) as [L|L].
  - exists m. split; [now right|]. intros z [<-|Z]; [exact L|auto].
  - exists x. split; [now left|]. intros z [<-|Z]; [lia|]. specialize (H z Z). lia.
Qed.
Lemma dispatching_in_scope ls i c s : nth_error ls i = Some (c, s) -> dispatching s -> in_scope ls i = true.
Proof. unfold in_scope, dispatching. intros ->. destruct (ns_pc s); tauto. Qed.

(** C116. With at least one worker a process on a work-stealing pool never deadlocks, although workers that wait pile other jobs on
    top of what they wait for. *)
Lemma p_C116_work_stealing_never_deadlocks :
  forall (workers : nat) (tr : list ry_label) (s : ry_state),
    1 <= workers -> ry_run (ry_init workers) tr s ->
    quiet (ry_listeners s) \/
    exists l s', ry_step s l s' /\ ~ is_external_here l /\ ~ is_failure_here l.
Proof.
  intros N tr s HN R. pose proof (forest_run _ _ _ R) as T. pose proof (workers_run _ _ _ R) as W.
  destruct (ordered_run _ _ _ R) as [La Pi]. destruct s as [ls ts sts pn ck] eqn:Es. cbn [ry_listeners ry_stacks] in *.
  assert (D : (exists w1 st w2, sts = w1 ++ st :: w2 /\ ~ blocked st) \/ Forall blocked sts).
  { clear. induction sts as [|st sts IH]; [right; constructor|]. destruct (blocked_dec st) as [B|B]; [|left; exists [], st, sts; auto].
    destruct IH as [(w1 & st' & w2 & -> & H)|H]; [left; exists (st :: w1), st', w2; auto|right; now constructor]. }
  destruct D as [(w1 & st & w2 & -> & NB)|B]; [right; now apply worker_goes_on|].
  destruct ts as [|t ts].
  2:{ right. destruct sts as [|st sts]; [cbn in W; lia|]. inversion B; subst. pose proof (blocked_may_take _ H1) as M.
      destruct t as [i|id i rs].
      - assert (I : in_scope ls i = true) by (eapply task_scope_in_scope; [exact T|now left]).
        destruct (in_scope_exists _ _ I) as (c & s & k & pkt & src & pe & ru & pa & E & PC).
        do 2 eexists. split; [apply (ry_take_scope ls [] i ts [] st sts pn ck c s); assumption|cbn; tauto].
      - do 2 eexists. split; [apply (ry_take_part ls [] id i rs ts [] st sts pn ck); assumption|cbn; tauto]. }
  destruct (concat sts) as [|x0 F0] eqn:Ef.
  - (* nothing is going on in the pool *)
    destruct (p_C115_work_stealing_refines_pool _ _ _ R) as (ps & P & Lps & X). cbn [ry_listeners] in *.
    assert (ND : forall i c s, nth_error ls i = Some (c, s) -> ~ dispatching s).
    { intros i c s0 E Dd. pose proof (tr_count _ _ _ _ T i) as C. unfold flat in C. cbn [ry_stacks ry_tasks ry_listeners] in C. rewrite Ef in C.
      rewrite (dispatching_in_scope _ _ _ _ E Dd) in C. cbn in C. lia. }
    pose proof (pool_inv _ _ _ P) as (L & _ & Q).
    assert (K : forall a b, ls = a ++ b -> Forall (fun x => stopped (snd x) \/ idle (snd x)) b \/
             exists ps1 c s ps2, ls = ps1 ++ (c, s) :: ps2 /\ exists l s', step c s l s' /\ ~ is_arrival l /\ ~ is_failure l).
    { intros a b. revert a. induction b as [|[c s0] b IH]; intros a E; [left; constructor|].
      assert (En : nth_error ls (length a) = Some (c, s0)) by (rewrite E; apply nth_error_mid).
      destruct (X _ _ _ En) as (y & Ey & _ & Y). rewrite (Y (ND _ _ _ En)) in Ey.
      destruct (nth_error (started (visible tr)) (length a)) as [[c' q]|] eqn:H.
      2:{ apply nth_error_None in H. rewrite <- L, Lps, E, app_length in H. cbn in H. lia. }
      destruct (Q _ _ _ H) as (s' & Hs & Rn). rewrite Ey in Hs. injection Hs as <- <-.
      destruct (p_C61_never_stuck _ _ _ _ Rn) as [St|[Id|V]].
      - destruct (IH (a ++ [(c, s0)])) as [F|V]; [now rewrite <- app_assoc| |right; exact V]. left. constructor; auto.
      - destruct (IH (a ++ [(c, s0)])) as [F|V]; [now rewrite <- app_assoc| |right; exact V]. left. constructor; auto.
      - right. exists a, c, s0, b. auto. }
    destruct (K [] ls eq_refl) as [F|(l1 & c & s0 & l2 & E & l & s' & Sp & NA & NF)]; [now left|right].
    assert (ND' : ~ dispatching s0). { eapply (ND (length l1) c). rewrite E. apply nth_error_mid. }
    destruct (listeners_own l) eqn:O.
    + exists (RListener (GStep (length l1) l)), (RY (l1 ++ (c, s') :: l2) [] sts pn ck). split; [rewrite E; now apply ry_listener|auto].
    + assert (l = LRecv) as ->.
      { unfold dispatching in ND'. destruct Sp; cbn [listeners_own] in O; try discriminate; try reflexivity;
          match goal with H : ns_pc _ = Dispatching _ _ _ _ _ _ |- _ => rewrite H in ND'; now destruct ND' end. }
      eexists (RListener (GStep (length l1) LRecv)), _. split; [rewrite E; apply ry_recv; exact Sp|auto].
  - (* the youngest job *)
    right. destruct (oldest (concat sts)) as (m & M & H); [rewrite Ef; discriminate|].
    apply in_concat in M as (st & Hst & Mst). rewrite Forall_forall in Pi, B. specialize (Pi _ Hst). specialize (B _ Hst).
    destruct st as [|t st]; [destruct Mst|].
    assert (Mt : born m <= born t).
    { destruct Mst as [->|Mst]; [lia|]. destruct Pi as [Pi _]. rewrite Forall_forall in Pi. specialize (Pi _ Mst). lia. }
    destruct (in_split _ _ Hst) as (w1 & w2 & ->).
    assert (It : In t (concat (w1 ++ (t :: st) :: w2))) by (eapply Permutation_in; [symmetry; apply flat_top|now left]).
    assert (NU : forall j, In j (awaits t) -> ~ unfinished [] (w1 ++ (t :: st) :: w2) j).
    { intros j Aj [(i & rs & [])|(b & i & js & a & U)]. pose proof (La t b j i js a It Aj U) as X1. specialize (H _ U). cbn in H. lia. }
    destruct t as [b i id p|b id i js a]; cbn in B.
    + assert (I : in_scope ls i = true) by (eapply in_scope_job; [exact T|exact It]).
      destruct (in_scope_exists _ _ I) as (c & s0 & k & pkt & src & pe & ru & pa & E & PC).
      destruct (nth_error_split _ _ E) as (l1 & l2 & -> & <-).
      do 2 eexists. split; [eapply ry_scope_done; [eassumption|apply NU; now left]|cbn; tauto].
    + destruct js as [|j js], a as [rs|rs|r rs|p]; try contradiction.
      do 2 eexists. split; [apply ry_join_done; apply NU; now left|cbn; tauto].
Qed.

(** ** No livelock *)
Lemma recvs_bound c q0 tr s : run c (net_init c q0) tr s -> recvs tr <= 1 + length (arrivals tr).
Proof.
  intros H. enough (recvs tr + events_left s + edge_count s <= 1 + length (arrivals tr)) by lia.
  remember (net_init c q0) as s0 eqn:E. induction H as [s|s tr s1 l s2 R IH S]; subst.
  - unfold events_left, edge_count. cbn. destruct q0; cbn; lia.
  - specialize (IH eq_refl). rewrite recvs_app, arrivals_app, app_length. unfold events_left, edge_count in *.
    inversion S; subst; clear S; cbn [set_pc ns_pc ns_edge recvs arrivals length] in *;
      repeat match goal with E : ns_pc _ = _ |- _ => rewrite E in * | E : ns_edge _ = _ |- _ => rewrite E in * end;
      try (match goal with |- context [recv_into ?a ?b] => destruct (recv_into a b) end); cbn [ns_pc ns_edge] in *;
      repeat match goal with |- context [if ?b then _ else _] => destruct b end; lia.
Qed.

Definition notyet (p : bool) : nat := if p then 0 else 1.
Definition act_cost (k : nat) (a : activity) : nat :=
  match a with
  | Deciding rs => 2 * k + 4 + 9 * (length rs - 1)
  | Looping _ | Calling _ _ => 2 * k + 3
  | Joining p => 2 * k + notyet p + 1
  end.
Definition job_cost (j : job) : nat :=
  match j with InScope _ _ _ p => notyet p | InPart _ _ _ js a => act_cost (length js) a end.
Definition task_cost (n : nat -> nat) (t : task) : nat :=
  match t with TaskScope i => 9 * (n i + 1) | TaskPart _ _ rs => 6 + 9 * (length rs - 1) end.
Definition cost (n : nat -> nat) (ts : list task) (F : list job) : nat := list_sum (map (task_cost n) ts) + list_sum (map job_cost F).
Lemma sum_perm {A} (f : A -> nat) l l' : Permutation l l' -> list_sum (map f l) = list_sum (map f l').
Proof. unfold list_sum. induction 1; cbn; lia. Qed.
Lemma cost_perm n ts ts' F F' : Permutation ts ts' -> Permutation F F' -> cost n ts F = cost n ts' F'.
Proof. intros P Q. unfold cost. now rewrite (sum_perm _ _ _ P), (sum_perm _ _ _ Q). Qed.
Lemma cost_top n ts w1 x st w2 : cost n ts (concat (w1 ++ (x :: st) :: w2)) = job_cost x + cost n ts (st ++ concat (w1 ++ w2)).
Proof. rewrite (cost_perm n ts ts _ _ (Permutation_refl _) (flat_top w1 x st w2)). unfold cost, list_sum. cbn. lia. Qed.
Lemma cost_stack n ts w1 st w2 : cost n ts (concat (w1 ++ st :: w2)) = cost n ts (st ++ concat (w1 ++ w2)).
Proof. apply cost_perm; [reflexivity|apply flat_stack]. Qed.
Lemma cost_task n t1 t t2 F : cost n (t1 ++ t :: t2) F = task_cost n t + cost n (t1 ++ t2) F.
Proof. rewrite (cost_perm n _ (t :: t1 ++ t2) F F); [|symmetry; apply Permutation_middle|reflexivity]. unfold cost, list_sum. cbn. lia. Qed.
Lemma cost_add n t ts F : cost n (ts ++ [t]) F = task_cost n t + cost n ts F.
Proof. rewrite cost_task. now rewrite app_nil_r. Qed.
Lemma cost_rearm n ts st X : cost n ts (rearm st ++ X) <= 1 + cost n ts (st ++ X).
Proof.
  unfold cost, list_sum. destruct st as [|[b i id p|b id i js [rs|rs|r rs|p]] st]; cbn; try lia; destruct p; cbn; lia.
Qed.

Definition new_work (n : nat -> nat) (l : ry_label) : nat :=
  match l with RListener (GStep i LRecv) => 9 * (n i + 1) | _ => 0 end.
Lemma cost_step n s l s' : ry_step s l s' ->
  (forall i c x, nth_error (ry_listeners s) i = Some (c, x) -> n i = nc_receivers c) ->
  cost n (ry_tasks s') (flat s') + silent [l] <= cost n (ry_tasks s) (flat s) + new_work n l.
Proof.
  unfold flat. intros S Hn. destruct S; cbn [ry_tasks ry_stacks ry_listeners silent new_work] in *; try lia.
  - rewrite cost_add. cbn [task_cost]. lia.
  - rewrite cost_top, cost_stack. rewrite cost_task. rewrite app_assoc, cost_add.
    pose proof (cost_rearm n (t1 ++ t2) st (concat (w1 ++ w2))). cbn [job_cost task_cost notyet]. rewrite seq_length.
    rewrite (Hn _ _ _ H0). lia.
  - rewrite cost_top, cost_stack, cost_task. pose proof (cost_rearm n (t1 ++ t2) st (concat (w1 ++ w2))).
    cbn [job_cost task_cost act_cost length]. lia.
  - rewrite !cost_top, cost_add. cbn [job_cost act_cost task_cost length]. rewrite app_length.
    destruct left; [congruence|]. destruct right; [congruence|]. cbn [length]. lia.
  - rewrite !cost_top. cbn [job_cost act_cost]. lia.
  - rewrite !cost_top. cbn [job_cost act_cost]. lia.
  - rewrite !cost_top. cbn [job_cost act_cost]. lia.
  - rewrite !cost_top. cbn [job_cost act_cost]. lia.
  - rewrite !cost_top. cbn [job_cost act_cost notyet]. lia.
  - rewrite !cost_top. cbn [job_cost act_cost notyet]. lia.
  - rewrite !cost_top. cbn [job_cost act_cost notyet length]. destruct looked; cbn [notyet]; lia.
  - rewrite cost_top, cost_stack. cbn [job_cost act_cost notyet length]. lia.
  - rewrite !cost_top. cbn [job_cost act_cost notyet]. lia.
  - rewrite cost_top, cost_stack. lia.
Qed.
Lemma configs_step s l s' i c x : ry_step s l s' -> nth_error (ry_listeners s) i = Some (c, x) ->
  exists x', nth_error (ry_listeners s') i = Some (c, x').
Proof.
  assert (K : forall l1 (c0 : net_config) (s0 s1 : net_state) l2, nth_error (l1 ++ (c0, s0) :: l2) i = Some (c, x) ->
    exists x', nth_error (l1 ++ (c0, s1) :: l2) i = Some (c, x')).
  { intros l1 c0 s0 s1 l2 E. destruct (Nat.eq_dec i (length l1)) as [->|N].
    - rewrite nth_error_mid in *. injection E as -> ->. eauto.
    - rewrite (nth_error_other l1 _ (c0, s1) l2 i N) in E. eauto. }
  intros S E. destruct S; cbn [ry_listeners] in *; eauto.
  exists x. rewrite nth_error_app1; [exact E|]. apply nth_error_Some. congruence.
Qed.
Lemma silent_app a b : silent (a ++ b) = silent a + silent b.
Proof. induction a as [|[l|w [l|]] a IH]; cbn; rewrite ?IH; reflexivity. Qed.
Lemma length_visible_silent tr : length tr = length (visible tr) + silent tr.
Proof. induction tr as [|[l|w [l|]] a IH]; cbn; lia. Qed.
Definition all_work (n : nat -> nat) (M : nat) (tr : list ry_label) : nat :=
  total (fun i => 9 * (n i + 1) * recvs (trace_of i (visible tr))) (seq 0 M).
Lemma total_le {A} (f g : A -> nat) l : (forall x, In x l -> f x <= g x) -> total f l <= total g l.
Proof. induction l as [|x l IH]; intros H; cbn; [lia|]. pose proof (H x (or_introl eq_refl)). unfold total in IH. specialize (IH (fun y Y => H y (or_intror Y))). lia. Qed.
Lemma all_work_snoc n M tr l : (forall i, new_work n l <> 0 -> l = RListener (GStep i LRecv) -> i < M) ->
  all_work n M tr + new_work n l <= all_work n M (tr ++ [l]).
Proof.
  intros H. unfold all_work.
  assert (Mono : forall i, recvs (trace_of i (visible tr)) <= recvs (trace_of i (visible (tr ++ [l])))).
  { intros i. rewrite visible_app, trace_of_app, recvs_app. lia. }
  assert (Z : new_work n l = 0 -> total (fun i => 9 * (n i + 1) * recvs (trace_of i (visible tr))) (seq 0 M) + new_work n l <=
    total (fun i => 9 * (n i + 1) * recvs (trace_of i (visible (tr ++ [l])))) (seq 0 M)).
  { intros ->. rewrite Nat.add_0_r. apply total_le. intros i _. apply Nat.mul_le_mono_l, Mono. }
  destruct l as [[c q|j [d|k|e| | |e|r pkt src|r|r|]]|w l]; try (apply Z; reflexivity). clear Z.
  cbn [new_work] in *. assert (L : j < M) by (apply H; [lia|reflexivity]).
  assert (E : forall i, recvs (trace_of i (visible (tr ++ [RListener (GStep j LRecv)]))) =
    recvs (trace_of i (visible tr)) + if i =? j then 1 else 0).
  { intros i. rewrite visible_app, trace_of_app, recvs_app. cbn. destruct (i =? j); reflexivity. }
  assert (G : forall l0, In j l0 -> total (fun i => 9 * (n i + 1) * recvs (trace_of i (visible tr))) l0 + 9 * (n j + 1) <=
     total (fun i => 9 * (n i + 1) * recvs (trace_of i (visible (tr ++ [RListener (GStep j LRecv)])))) l0).
  { induction l0 as [|x l0 IH]; [intros []|]. intros [->|I]; cbn [total fold_right].
    - rewrite E, Nat.eqb_refl. pose proof (total_le (fun i => 9 * (n i + 1) * recvs (trace_of i (visible tr)))
        (fun i => 9 * (n i + 1) * recvs (trace_of i (visible (tr ++ [RListener (GStep j LRecv)])))) l0
        ltac:(intros i _; apply Nat.mul_le_mono_l, Mono)) as Q. unfold total in Q. lia.
    - specialize (IH I). unfold total in IH. pose proof (Nat.mul_le_mono_l _ _ (9 * (n x + 1)) (Mono x)). lia. }
  apply G, in_seq. lia.
Qed.
Lemma silent_bound n M workers tr s : ry_run (ry_init workers) tr s -> length (ry_listeners s) <= M ->
  (forall i c x, nth_error (ry_listeners s) i = Some (c, x) -> n i = nc_receivers c) ->
  cost n (ry_tasks s) (flat s) + silent tr <= all_work n M tr.
Proof.
  intros R. remember (ry_init workers) as s0 eqn:E. induction R as [s0|s0 tr s1 l s2 R IH S]; subst; intros L H.
  - unfold cost, flat. cbn. replace (concat (repeat [] workers)) with (@nil job) by (induction workers; auto). cbn. lia.
  - assert (L1 : length (ry_listeners s1) <= length (ry_listeners s2)) by (destruct S; cbn [ry_listeners]; rewrite ?app_length; cbn; lia).
    assert (H1 : forall i c x, nth_error (ry_listeners s1) i = Some (c, x) -> n i = nc_receivers c).
    { intros i c x E. destruct (configs_step _ _ _ _ _ _ S E) as (x' & E'). eauto. }
    specialize (IH eq_refl ltac:(lia) H1). pose proof (cost_step n _ _ _ S H1) as C. rewrite silent_app.
    enough (all_work n M tr + new_work n l <= all_work n M (tr ++ [l])) by lia.
    apply all_work_snoc. intros i _ ->. inversion S; subst; [discriminate|]. cbn [ry_listeners] in L. rewrite app_length in L. cbn in L. lia.
Qed.

(** C116. Nor does it livelock: looking for work, taking, splitting and waiting included, the number of steps of any execution is bounded
    linearly in what the outside world does. *)
Lemma p_C116_work_stealing_never_livelocks :
  forall (workers : nat) (tr : list ry_label) (s : ry_state),
    ry_run (ry_init workers) tr s ->
    length tr <= length (started (visible tr)) +
      total (fun x => let '(i, (c, _)) := x in
               (11 * nc_receivers c + 14) * (1 + length (arrivals (trace_of i (visible tr)))) + 2 * timeouts (trace_of i (visible tr)))
            (combine (seq 0 (length (started (visible tr)))) (started (visible tr))).
Proof.
  intros workers tr s R. destruct (p_C115_work_stealing_refines_pool _ _ _ R) as (ps & P & Lps & X).
  pose proof (pool_inv _ _ _ P) as (L & T & Q). pose proof (p_C68_pool_never_livelocks _ _ _ P) as V.
  rewrite (length_visible_silent tr).
  set (n := fun i => match nth_error (started (visible tr)) i with Some (c, _) => nc_receivers c | None => 0 end).
  assert (B : silent tr <= all_work n (length ps) tr).
  { pose proof (silent_bound n (length ps) workers tr s R) as B. specialize (B ltac:(lia)).
    enough (cost n (ry_tasks s) (flat s) + silent tr <= all_work n (length ps) tr) by lia. apply B.
    intros i c x E. unfold n. destruct (X _ _ _ E) as (y & Ey & _).
    destruct (nth_error (started (visible tr)) i) as [[c' q]|] eqn:Es.
    - destruct (Q _ _ _ Es) as (s' & Es' & _). congruence.
    - apply nth_error_None in Es. assert (i < length ps) by (apply nth_error_Some; congruence). lia. }
  enough (K : forall l k, (forall i c q, nth_error l i = Some (c, q) -> nth_error (started (visible tr)) (k + i) = Some (c, q)) ->
    total (fun i => 9 * (n i + 1) * recvs (trace_of i (visible tr))) (seq k (length l)) +
    total (fun x => let '(i, (c, _)) := x in
               (2 * nc_receivers c + 5) * (1 + length (arrivals (trace_of i (visible tr)))) + 2 * timeouts (trace_of i (visible tr)))
            (combine (seq k (length l)) l) <=
    total (fun x => let '(i, (c, _)) := x in
               (11 * nc_receivers c + 14) * (1 + length (arrivals (trace_of i (visible tr)))) + 2 * timeouts (trace_of i (visible tr)))
            (combine (seq k (length l)) l)).
  { specialize (K (started (visible tr)) 0 ltac:(auto)). unfold all_work in B. rewrite L in B. lia. }
  induction l as [|[c q] l IH]; intros k H; [cbn; lia|]. cbn [seq length combine total fold_right].
  pose proof (H 0 c q eq_refl) as H0. rewrite Nat.add_0_r in H0. destruct (Q _ _ _ H0) as (x & _ & Rn).
  pose proof (recvs_bound _ _ _ _ Rn) as Rb. unfold n at 1. rewrite H0.
  assert (IH' := IH (S k)). unfold total in IH'. 
  assert (IH2 : forall i c q, nth_error l i = Some (c, q) -> nth_error (started (visible tr)) (S k + i) = Some (c, q)).
  { intros i c' q' Hi. specialize (H (S i) c' q' Hi). now rewrite Nat.add_succ_r in H. }
  specialize (IH' IH2). nia.
Qed.

(** ** A receiver that does not come back freezes a listener whose own receivers have returned *)
Definition task_listener (t : task) : nat := match t with TaskScope i | TaskPart _ i _ => i end.
Definition job_listener (j : job) : nat := match j with InScope _ i _ _ | InPart _ _ i _ _ => i end.
Definition buried (b0 b1 id0 id1 ck0 : nat) : list job :=
  [InPart ck0 id1 1 [] (Calling 0 []); InScope b1 1 id1 false; InScope b0 0 id0 false].
Definition frozen (b0 b1 id0 id1 ck0 : nat) (s : ry_state) : Prop :=
  in_scope (ry_listeners s) 0 = true /\
  Forall (fun t => task_listener t <> 0) (ry_tasks s) /\
  exists rest, ry_stacks s = buried b0 b1 id0 id1 ck0 :: rest /\ Forall (Forall (fun j => job_listener j <> 0)) rest.
Lemma rearm_listeners st : Forall (fun j => job_listener j <> 0) st -> Forall (fun j => job_listener j <> 0) (rearm st).
Proof. destruct st as [|[b i id p|b id i js [rs|rs|r rs|p]] st]; cbn; auto; intros H; inversion H; subst; constructor; auto. Qed.
Lemma in_scope_zero l1 c s s' l2 : in_scope (l1 ++ (c, s) :: l2) 0 = true ->
  (length l1 = 0 -> match ns_pc s' with Dispatching _ _ _ _ _ _ => true | _ => false end = true) ->
  in_scope (l1 ++ (c, s') :: l2) 0 = true.
Proof. destruct l1 as [|x l1]; intros H K; [unfold in_scope; cbn; auto|exact H]. Qed.
Ltac worker0 := match goal with
  | E : ?w1 ++ _ :: _ = buried _ _ _ _ _ :: ?rest |- _ =>
      destruct w1 as [|x w1]; cbn [app] in E;
      [first [discriminate | injection E as -> ->; try discriminate] | injection E as -> <-]
  end.
Lemma frozen_step b0 b1 id0 id1 ck0 s l s' : frozen b0 b1 id0 id1 ck0 s -> ry_step s l s' ->
  (forall r, l <> RWorker 0 (Some (GStep 1 (LReturn r))) /\ l <> RWorker 0 (Some (GStep 1 (LPanic r)))) ->
  frozen b0 b1 id0 id1 ck0 s' /\ (forall x, In x (trace_of 0 (visible [l])) -> is_arrival x).
Proof.
  unfold frozen. intros (I & Ts & rest & Es & Re) S NR. destruct S; cbn [ry_listeners ry_tasks ry_stacks] in *.
  - split; [|intros x []]. split; [|eauto]. unfold in_scope in *. destruct ls; [discriminate|exact I].
  - split.
    + split; [|eauto]. eapply in_scope_zero; [exact I|]. intros L. destruct l1; [|discriminate].
      destruct (own_step_pc _ _ _ _ H H0) as [<- _]. exact I.
    + destruct l1 as [|y l1]; [|intros x []]. unfold in_scope in I. cbn in I. destruct (ns_pc s) eqn:E; try discriminate.
      inversion H; subst; try congruence; try discriminate. cbn. intros x [<-|[]]. exact Logic.I.
  - destruct (recv_pc _ _ _ H) as (k & pkt & src & E1 & E2).
    destruct l1 as [|y l1]; [unfold in_scope in I; cbn in I; rewrite E1 in I; discriminate|].
    split; [|intros x []]. split; [exact I|]. split; [|eauto]. apply Forall_app. split; [exact Ts|]. repeat constructor; cbn; discriminate.
  - worker0. split; [|intros x0 []]. split; [exact I|].
    assert (Ti : i <> 0) by (apply (Forall_at _ _ _ _ Ts)).
    split.
    + rewrite Forall_app in *. destruct Ts as [T1 T2]. inversion T2; subst. split; [exact T1|]. apply Forall_app. split; [assumption|].
      repeat constructor; exact Ti.
    + eexists. split; [reflexivity|]. eapply Forall_mid; [exact Re|]. constructor; [exact Ti|]. apply rearm_listeners. apply (Forall_at _ _ _ _ Re).
  - worker0. split; [|intros x0 []]. split; [exact I|].
    assert (Ti : i <> 0) by (apply (Forall_at _ _ _ _ Ts)).
    split.
    + rewrite Forall_app in *. destruct Ts as [T1 T2]. inversion T2; subst. auto.
    + eexists. split; [reflexivity|]. eapply Forall_mid; [exact Re|]. constructor; [exact Ti|]. apply rearm_listeners. apply (Forall_at _ _ _ _ Re).
  - worker0. split; [|intros x0 []]. split; [exact I|]. pose proof (Forall_at _ _ _ _ Re) as Rt. inversion Rt; subst.
    split; [apply Forall_app; split; [exact Ts|repeat constructor; assumption]|].
    eexists. split; [reflexivity|]. eapply Forall_mid; [exact Re|]. constructor; assumption.
  - worker0. split; [|intros x0 []]. split; [exact I|]. pose proof (Forall_at _ _ _ _ Re) as Rt. inversion Rt; subst.
    split; [exact Ts|]. eexists. split; [reflexivity|]. eapply Forall_mid; [exact Re|]. constructor; assumption.
  - worker0. pose proof (Forall_at _ _ _ _ Re) as Rt. inversion Rt; subst. cbn [job_listener] in *.
    split; [|destruct i; [congruence|intros x0 []]]. split; [exact I|].
    split; [exact Ts|]. eexists. split; [reflexivity|]. eapply Forall_mid; [exact Re|]. constructor; assumption.
  - worker0; [exfalso; subst; eapply (proj1 (NR _)); reflexivity|]. pose proof (Forall_at _ _ _ _ Re) as Rt. inversion Rt; subst. cbn [job_listener] in *.
    split; [|destruct i; [congruence|intros x0 []]]. split; [exact I|].
    split; [exact Ts|]. eexists. split; [reflexivity|]. eapply Forall_mid; [exact Re|]. constructor; assumption.
  - worker0; [exfalso; subst; eapply (proj2 (NR _)); reflexivity|]. pose proof (Forall_at _ _ _ _ Re) as Rt. inversion Rt; subst. cbn [job_listener] in *.
    split; [|destruct i; [congruence|intros x0 []]]. split; [exact I|].
    split; [exact Ts|]. eexists. split; [reflexivity|]. eapply Forall_mid; [exact Re|]. constructor; assumption.
  - worker0. split; [|intros x0 []]. split; [exact I|]. pose proof (Forall_at _ _ _ _ Re) as Rt. inversion Rt; subst.
    split; [exact Ts|]. eexists. split; [reflexivity|]. eapply Forall_mid; [exact Re|]. constructor; assumption.
  - worker0. split; [|intros x0 []]. split; [exact I|]. pose proof (Forall_at _ _ _ _ Re) as Rt. inversion Rt; subst.
    split; [exact Ts|]. eexists. split; [reflexivity|]. eapply Forall_mid; [exact Re|]. constructor; assumption.
  - worker0. split; [|intros x0 []]. split; [exact I|]. pose proof (Forall_at _ _ _ _ Re) as Rt. inversion Rt; subst.
    split; [exact Ts|]. eexists. split; [reflexivity|]. eapply Forall_mid; [exact Re|]. constructor; assumption.
  - worker0. split; [|intros x0 []]. split; [exact I|]. pose proof (Forall_at _ _ _ _ Re) as Rt. inversion Rt; subst.
    split; [exact Ts|]. eexists. split; [reflexivity|]. eapply Forall_mid; [exact Re|]. assumption.
  - worker0. split; [|intros x0 []]. split; [exact I|]. pose proof (Forall_at _ _ _ _ Re) as Rt. inversion Rt; subst.
    split; [exact Ts|]. eexists. split; [reflexivity|]. eapply Forall_mid; [exact Re|]. constructor; assumption.
  - worker0. pose proof (Forall_at _ _ _ _ Re) as Rt. inversion Rt; subst. cbn [job_listener] in *.
    destruct l1 as [|y l1]; [now destruct H3|].
    split; [|intros x0 []]. split; [exact I|].
    split; [exact Ts|]. eexists. split; [reflexivity|]. eapply Forall_mid; [exact Re|]. assumption.
Qed.
Lemma frozen_run b0 b1 id0 id1 ck0 s tr s' : ry_run s tr s' -> frozen b0 b1 id0 id1 ck0 s ->
  (forall r, returns r (trace_of 1 (visible tr)) = 0 /\ panics r (trace_of 1 (visible tr)) = 0) ->
  frozen b0 b1 id0 id1 ck0 s' /\ (forall x, In x (trace_of 0 (visible tr)) -> is_arrival x).
Proof.
  intros R. induction R as [s|s tr s' l s'' R IH S]; intros F H; [split; [exact F|intros x []]|].
  assert (H1 : forall r, returns r (trace_of 1 (visible tr)) = 0 /\ panics r (trace_of 1 (visible tr)) = 0).
  { intros r. destruct (H r) as [A B]. rewrite visible_app, trace_of_app in A, B. rewrite returns_app in A. rewrite panics_app in B. lia. }
  destruct (IH F H1) as (F1 & A1). destruct (frozen_step _ _ _ _ _ _ _ _ F1 S) as [F2 A2].
  { intros r. destruct (H r) as [A B]. rewrite visible_app, trace_of_app in A, B. rewrite returns_app in A. rewrite panics_app in B.
    split; intros ->; cbn in A, B; rewrite Nat.eqb_refl in *; lia. }
  split; [exact F2|]. intros x. rewrite visible_app, trace_of_app. intros X. apply in_app_or in X as [X|X]; auto.
Qed.

Lemma poll_step c d : step c (net_init c [d]) (LPoll 1)
  {| ns_queue := [d]; ns_edge := false; ns_buffer := repeat x00 (nc_buffersize c); ns_pc := Handling 1 |}.
Proof. apply (step_poll_ready c (net_init c [d])); reflexivity. Qed.
Definition got (c : net_config) (d : datagram) : net_state :=
  {| ns_queue := []; ns_edge := false; ns_buffer := fst (recv_into (fst d) (repeat x00 (nc_buffersize c)));
     ns_pc := Dispatching 0 (firstn (snd (recv_into (fst d) (repeat x00 (nc_buffersize c)))) (fst (recv_into (fst d) (repeat x00 (nc_buffersize c)))))
                (snd d) (seq 0 (nc_receivers c)) [] false |}.
Lemma recv_step c d : step c {| ns_queue := [d]; ns_edge := false; ns_buffer := repeat x00 (nc_buffersize c); ns_pc := Handling 1 |} LRecv (got c d).
Proof.
  destruct d as [b a]. unfold got. cbn [fst snd].
  pose proof (step_recv c {| ns_queue := [(b, a)]; ns_edge := false; ns_buffer := repeat x00 (nc_buffersize c); ns_pc := Handling 1 |} 0 b a [] eq_refl eq_refl) as S.
  cbn [ns_buffer ns_edge] in S. destruct (recv_into b (repeat x00 (nc_buffersize c))) as [x y]. exact S.
Qed.
Lemma received_bytes (c : net_config) (d : datagram) :
  firstn (snd (recv_into (fst d) (repeat x00 (nc_buffersize c)))) (fst (recv_into (fst d) (repeat x00 (nc_buffersize c)))) =
  firstn (nc_buffersize c) (fst d).
Proof.
  pose proof (recv_into_ok (fst d) (repeat x00 (nc_buffersize c))) as H. destruct (recv_into _ _) as [b n]. destruct H as [H1 H2].
  cbn [fst snd]. rewrite repeat_length in *. assumption.
Qed.

(** Two threads, one listener with two receivers: the datagram's job is split, the second half is stolen, and both receivers are executed at
    the same time. *)
Example ex_C115_stealing :
  forall (d : datagram), let c := {| nc_buffersize := 2048; nc_has_timeout := false; nc_receivers := 2 |} in
  let (pkt, src) := packet_of c d in
  exists (tr : list ry_label) (s : ry_state) (x : net_state),
    ry_run (ry_init 2) tr s /\
    visible tr = [GStart c [d]; GStep 0 (LPoll 1); GStep 0 LRecv; GStep 0 (LCall 0 pkt src); GStep 0 (LCall 1 pkt src);
                  GStep 0 (LReturn 0); GStep 0 (LReturn 1); GStep 0 LScopeEnd] /\
    nth_error (ry_listeners s) 0 = Some (c, x) /\ between_datagrams x.
Proof.
  intros d c. unfold packet_of. set (pkt := firstn (nc_buffersize c) (fst d)).
  assert (E : ns_pc (got c d) = Dispatching 0 pkt (snd d) [0; 1] [] false).
  { unfold got, pkt. cbn [ns_pc]. rewrite received_bytes. reflexivity. }
  set (ls := [(c, got c d)]).
  do 3 eexists. split; [|split; [|split]].
  { unfold ry_init. cbn [repeat].
    eapply ry_run_cons; [apply ry_start|].
    eapply ry_run_cons; [apply (ry_listener [] c _ [] [] _ [] 0 (LPoll 1) _ (poll_step c d) eq_refl)|].
    eapply ry_run_cons; [apply (ry_recv [] c _ [] [] _ [] 0 _ (recv_step c d))|].
    eapply ry_run_cons; [apply (ry_take_scope ls [] 0 [] [] [] [[]] [] 0 c (got c d)); reflexivity|]. cbn [app rearm seq nc_receivers c].
    eapply ry_run_cons; [apply (ry_look_scope ls [TaskPart 0 0 [0; 1]] [] 0 0 0 [] [[]] [] 1); left; exists 0, [0; 1]; now left|].
    eapply ry_run_cons; [apply (ry_take_part ls [] 0 0 [0; 1] [] [] [InScope 0 0 0 true] [[]] [] 1); reflexivity|]. cbn [app rearm].
    eapply ry_run_cons; [apply (ry_split ls [] [] 1 0 0 [] [0] [1] [InScope 0 0 0 false] [[]] [] 2); discriminate|].
    eapply ry_run_cons; [apply (ry_take_part ls [] 2 0 [1] [] [[InPart 1 0 0 [2] (Deciding [0]); InScope 0 0 0 false]] [] [] [] 3); reflexivity|]. cbn [app rearm].
    eapply ry_run_cons; [apply (ry_sequential ls [] [] 1 0 0 [2] [0] [InScope 0 0 0 false] [[InPart 3 2 0 [] (Deciding [1])]] [] 4)|].
    eapply ry_run_cons; [apply (ry_sequential ls [] [[InPart 1 0 0 [2] (Looping [0]); InScope 0 0 0 false]] 3 2 0 [] [1] [] [] [] 4)|].
    eapply ry_run_cons; [apply (ry_call ls [] [] 1 0 0 [2] 0 [] [InScope 0 0 0 false] [[InPart 3 2 0 [] (Looping [1])]] [] 4 c (got c d) 0 pkt (snd d) [0; 1] [] false); [reflexivity|exact E]|].
    eapply ry_run_cons; [apply (ry_call ls [] [[InPart 1 0 0 [2] (Calling 0 []); InScope 0 0 0 false]] 3 2 0 [] 1 [] [] [] [] 4 c (got c d) 0 pkt (snd d) [0; 1] [] false); [reflexivity|exact E]|].
    eapply ry_run_cons; [apply (ry_return ls [] [] 1 0 0 [2] 0 [] [InScope 0 0 0 false] [[InPart 3 2 0 [] (Calling 1 [])]] [] 4)|].
    eapply ry_run_cons; [apply (ry_return ls [] [[InPart 1 0 0 [2] (Looping []); InScope 0 0 0 false]] 3 2 0 [] 1 [] [] [] [] 4)|].
    eapply ry_run_cons; [apply (ry_loop_done ls [] [] 1 0 0 [2] [InScope 0 0 0 false] [[InPart 3 2 0 [] (Looping [])]] [] 4)|].
    eapply ry_run_cons; [apply (ry_look_join ls [] [] 1 0 0 2 [] [InScope 0 0 0 false] [[InPart 3 2 0 [] (Looping [])]] [] 4); right; exists 3, 0, [], (Looping []); right; right; now left|].
    eapply ry_run_cons; [apply (ry_loop_done ls [] [[InPart 1 0 0 [2] (Joining true); InScope 0 0 0 false]] 3 2 0 [] [] [] [] 4)|].
    eapply ry_run_cons; [apply (ry_part_done ls [] [[InPart 1 0 0 [2] (Joining true); InScope 0 0 0 false]] 3 2 0 false [] [] [] 4)|].
    eapply ry_run_cons; [apply (ry_join_done ls [] [] 1 0 0 2 [] true [InScope 0 0 0 false] [[]] [] 4)|].
    { intros [(i & rs & [])|(b & i & js & a & [H|[H|[]]])]; discriminate. }
    eapply ry_run_cons; [apply (ry_part_done ls [] [] 1 0 0 false [InScope 0 0 0 false] [[]] [] 4)|].
    apply ry_run_one. apply (ry_scope_done [] c (got c d) [] [] [] 0 0 false [] [[]] [] 4 0 pkt (snd d) [0; 1] [] false); [exact E|].
    intros [(i & rs & [])|(b & i & js & a & [H|[]])]; discriminate. }
  - reflexivity.
  - reflexivity.
  - exact I.
Qed.
