(** * PyThreadsProofs: the Python functions called from several threads (C132) *)
From Coq Require Import Strings.String Permutation.
From Verif Require Import Base Serde Codec Universe Spec Packet Client PacketFacts CryptoProofs PyBinding PyProofs PyThreads PyThreadsSpec.
Open Scope nat_scope.

Definition in_phase (C : ed25519) (t : pythread) : Prop :=
  match p_phase t with
  | Waiting | Running => True
  | Verifying de => exists a d r, p_calls t = Verify a d :: r /\ skip_header (start_deserialize (Packet d)) = Ok de
  | Verified b de' | Returning b de' => exists a d r de, p_calls t = Verify a d :: r /\ skip_header (start_deserialize (Packet d)) = Ok de /\ verify_embedded C de = (de', Ok b)
  | Signing => exists s k d r, p_calls t = Sign s k d :: r
  end.
Definition progress_of (C : ed25519) (program : list pycall) (t : pythread) : Prop :=
  exists done, program = done ++ p_calls t /\ p_answers t = map (answer C) done /\ forall c, In c done -> ~ panics C c.
Definition tinv (C : ed25519) (program : list pycall) (t : pythread) : Prop := progress_of C program t /\ in_phase C t.

Lemma progress_call C prog c cs a ph ph' : progress_of C prog (PyThread ph (c :: cs) a) -> ~ panics C c -> progress_of C prog (PyThread ph' cs (a ++ [answer C c])).
Proof.
  intros (done & E & A & N) P. cbn [p_calls p_answers] in *. exists (done ++ [c]). cbn [p_calls p_answers]. split; [|split].
  - rewrite E, <- app_assoc. reflexivity.
  - now rewrite A, map_app.
  - intros x H. apply in_app_iff in H as [H|[<-|[]]]; auto.
Qed.
Lemma progress_same C prog cs a ph ph' : progress_of C prog (PyThread ph cs a) -> progress_of C prog (PyThread ph' cs a).
Proof. intros H. exact H. Qed.

Lemma no_panic_verify C a d r : borrowed_verify_signature C a d = r -> (forall p, r <> PyPanic p) -> ~ panics C (Verify a d).
Proof. intros E N (p & [H|H]); cbn in H; [|discriminate H]. injection H as H. apply (N p). congruence. Qed.

Lemma tinv_moves C prog t x t' : tinv C prog t -> moves C t x (Some t') -> tinv C prog t'.
Proof.
  intros [P I] M. inversion M; subst; clear M.
  - split; [exact P|exact Logic.I].
  - split; [exact P|exact Logic.I].
  - split; [|exact Logic.I]. apply (progress_call C prog Python) with (ph := Running); [exact P|]. intros (p & [H|H]); discriminate H.
  - destruct (skip_header (start_deserialize (Packet data))) as [de|e|q] eqn:E; [| |discriminate].
    + match goal with H : Some _ = Some _ |- _ => injection H as <- end. split; [exact P|]. cbn. eauto.
    + match goal with H : Some _ = Some _ |- _ => injection H as <- end. split; [|exact Logic.I].
      assert (V : borrowed_verify_signature C auth data = PyValueError "Could not ignore the header").
      { unfold borrowed_verify_signature. now rewrite E. }
      rewrite <- V. apply (progress_call C prog (Verify auth data)) with (ph := Running); [exact P|]. eapply no_panic_verify; [exact V|discriminate].
  - destruct (verify_embedded C de) as [de' [b|e|q]] eqn:E; try discriminate.
    match goal with H : Some _ = Some _ |- _ => injection H as <- end. split; [exact P|].
    destruct I as (a' & d' & r' & I1 & I2). cbn in I1 |- *. eauto 10.
  - split; [exact P|]. exact I.
  - destruct (slice_from (packet_bytes (pntr de)) (index de)) as [rest|] eqn:E; [|discriminate].
    match goal with H : Some _ = Some _ |- _ => injection H as <- end. split; [|exact Logic.I].
    destruct I as (a' & d' & r' & de0 & I1 & I2 & I3). cbn in I1. injection I1 as -> ->.
    assert (V : borrowed_verify_signature C a' d' = PyOk (result, rest)).
    { unfold borrowed_verify_signature. rewrite I2. cbn [or_else]. now rewrite I3, E. }
    rewrite <- V. apply (progress_call C prog (Verify a' d')) with (ph := Running); [exact P|]. eapply no_panic_verify; [exact V|discriminate].
  - split; [exact P|]. cbn. eauto.
  - destruct (borrowed_create_signature C seed key data) as [s|m|m|q] eqn:E; try discriminate;
      match goal with H : Some _ = Some _ |- _ => injection H as <- end; (split; [|exact Logic.I]); rewrite <- E;
      (apply (progress_call C prog (Sign seed key data)) with (ph := Running); [exact P|]); intros (p & [H|H]); cbn in H; try discriminate H; injection H as H; congruence.
Qed.

Lemma tinv_dies C prog t x : tinv C prog t -> moves C t x None -> exists c, In c prog /\ panics C c.
Proof.
  intros [(done & E & _) I] M. inversion M; subst; clear M; cbn [p_calls p_phase in_phase] in *.
  - exists (Verify auth data). split; [apply in_app_iff; right; now left|].
    destruct (skip_header (start_deserialize (Packet data))) as [de|e|q] eqn:S; try discriminate. exists q. left. cbn.
    unfold borrowed_verify_signature. now rewrite S.
  - destruct I as (a' & d' & r' & -> & I2). exists (Verify a' d'). split; [apply in_app_iff; right; now left|].
    destruct (verify_embedded C de) as [de' [b|e|q]] eqn:V; try discriminate.
    + exfalso. apply (verify_embedded_not_err C de e). now rewrite V.
    + exists q. left. cbn. unfold borrowed_verify_signature. rewrite I2. cbn [or_else]. now rewrite V.
  - destruct I as (a' & d' & r' & de0 & I1 & I2 & I3). injection I1 as -> ->. exists (Verify a' d'). split; [apply in_app_iff; right; now left|].
    destruct (slice_from (packet_bytes (pntr de)) (index de)) as [rest|] eqn:S; try discriminate. exists PSliceIndex. left. cbn.
    unfold borrowed_verify_signature. rewrite I2. cbn [or_else]. now rewrite I3, S.
  - exists (Sign seed key data). split; [apply in_app_iff; right; now left|].
    destruct (borrowed_create_signature C seed key data) as [s|m|m|q] eqn:S; try discriminate. exists q. right. cbn. now rewrite S.
Qed.

Lemma lock_moves C t x t' : moves C t x (Some t') -> x <> Acquire -> has_lock t' = true -> has_lock t = true.
Proof.
  intros M N. inversion M; subst; clear M; try congruence; try reflexivity.
  - destruct (verify_embedded C de) as [de' [b|e|q]]; try discriminate. match goal with H : Some _ = Some _ |- _ => injection H as <- end. discriminate.
Qed.

Definition one_lock (ts : list pythread) : Prop := forall t1 t t2, ts = t1 ++ t :: t2 -> has_lock t = true -> Forall (fun u => has_lock u = false) (t1 ++ t2).

(** the list with one place changed, seen from another place *)
Lemma split_two {A} (a b c d : list A) x y : a ++ x :: b = c ++ y :: d ->
  (a = c /\ x = y /\ b = d) \/ (exists m, c = a ++ x :: m /\ b = m ++ y :: d) \/ (exists m, a = c ++ y :: m /\ d = m ++ x :: b).
Proof.
  revert c. induction a as [|z a IH]; intros [|w c] E; cbn in *; injection E as E1 E2; subst.
  - auto.
  - right. left. exists c. auto.
  - right. right. exists a. auto.
  - destruct (IH c E2) as [(-> & -> & ->)|[(m & -> & ->)|(m & -> & ->)]]; [auto|right; left; exists m; auto|right; right; exists m; auto].
Qed.

Lemma one_lock_step t1 t t' t2 x C : one_lock (t1 ++ t :: t2) -> moves C t x (Some t') -> (x = Acquire -> Forall (fun u => has_lock u = false) (t1 ++ t2)) -> one_lock (t1 ++ t' :: t2).
Proof.
  intros O M A u1 u u2 E H.
  assert (X : has_lock t' = true -> Forall (fun u => has_lock u = false) (t1 ++ t2)).
  { intros T. destruct x; [auto| |]; apply (O t1 t t2 eq_refl); eapply lock_moves; try exact M; (discriminate || assumption). }
  assert (Y : has_lock t' = false -> has_lock t = false \/ x <> Acquire) by (intros _; destruct x; [left; now inversion M; subst|right; discriminate|right; discriminate]).
  apply split_two in E as [(-> & <- & ->)|[(m & -> & ->)|(m & -> & ->)]]; [auto| |].
  - assert (F : has_lock t' = false).
    { destruct (has_lock t') eqn:T; [|reflexivity]. specialize (X eq_refl). apply Forall_app in X as [_ X]. apply Forall_app in X as [_ X]. inversion X; congruence. }
    assert (O' : Forall (fun u => has_lock u = false) ((t1 ++ t :: m) ++ u2)) by (apply (O _ u); [now rewrite <- app_assoc|assumption]).
    rewrite <- app_assoc in *. apply Forall_app in O' as [O1 O2]. apply Forall_app. split; [assumption|]. inversion O2; subst. cbn. constructor; assumption.
  - assert (F : has_lock t' = false).
    { destruct (has_lock t') eqn:T; [|reflexivity]. specialize (X eq_refl). rewrite <- app_assoc in X. apply Forall_app in X as [_ X]. inversion X; congruence. }
    assert (O' : Forall (fun u => has_lock u = false) (u1 ++ m ++ t :: t2)) by (apply (O u1 u); [now rewrite <- app_assoc|assumption]).
    apply Forall_app in O' as [O1 O2]. apply Forall_app in O2 as [O2 O3]. apply Forall_app. split; [assumption|]. apply Forall_app. split; [assumption|].
    inversion O3; subst. constructor; assumption.
Qed.

Definition pinv (C : ed25519) (progs : list (list pycall)) (p : process) : Prop :=
  match p with
  | Some ts => Forall2 (tinv C) progs ts /\ one_lock ts
  | None => exists prog c, In prog progs /\ In c prog /\ panics C c
  end.
Lemma pinv_step C progs p x p' : pinv C progs p -> step C p x p' -> pinv C progs p'.
Proof.
  intros IH S. inversion S; subst; destruct IH as [F O]; apply Forall2_app_inv_r in F as (p1 & p2 & F1 & F2 & ->); inversion F2; subst.
  - split; [|eapply one_lock_step; eassumption]. apply Forall2_app; [assumption|]. constructor; [|assumption]. eapply tinv_moves; eassumption.
  - match goal with H : tinv _ ?pr _ |- _ => destruct (tinv_dies _ _ _ _ H ltac:(eassumption)) as (c & H1 & H2); exists pr, c end. split; [apply in_app_iff; right; now left|auto].
Qed.
Lemma pinv_runs C progs p tr p' : pinv C progs p -> run C p tr p' -> pinv C progs p'.
Proof. intros I R. induction R as [|? ? ? ? ? R IH S]; [assumption|]. exact (pinv_step _ _ _ _ _ (IH I) S). Qed.
Lemma inv_run C progs tr p : run C (start progs) tr p -> pinv C progs p.
Proof.
  intros R. eapply pinv_runs; [|exact R]. cbn. split.
  - clear R. induction progs as [|prog progs IH]; [constructor|]. cbn. constructor; [|exact IH]. split; [|exact I]. exists []. repeat split. intros c [].
  - intros t1 t t2 E H. assert (X : In t (t1 ++ t :: t2)) by (apply in_app_iff; right; now left). rewrite <- E in X.
    apply in_map_iff in X as (cs & <- & _). discriminate H.
Qed.

(** C132: Whatever the other threads do and however the interpreter switches between them, every thread gets for its calls, in their order, what the functions return when nobody else is there. *)
Lemma p_C132_answers :
  forall (C : ed25519) (programs : list (list pycall)) (tr : list action) (ts : list pythread),
  run C (start programs) tr (Some ts) ->
  Forall2 (fun program t => exists done, program = done ++ p_calls t /\ p_answers t = map (answer C) done /\ forall c, In c done -> ~ panics C c) programs ts.
Proof.
  intros C progs tr ts R. destruct (inv_run _ _ _ _ R) as [F _]. clear R. induction F as [|x y l l' [H _] F IH]; constructor; assumption.
Qed.

(** C132: At any moment at most one thread touches Python objects or runs Python code. *)
Lemma p_C132_one_at_a_time :
  forall (C : ed25519) (programs : list (list pycall)) (tr : list action) (t1 : list pythread) (t : pythread) (t2 : list pythread),
  run C (start programs) tr (Some (t1 ++ t :: t2)) -> has_lock t = true -> Forall (fun u => has_lock u = false) (t1 ++ t2).
Proof. intros C progs tr t1 t t2 R H. destruct (inv_run _ _ _ _ R) as [_ O]. now apply (O t1 t t2). Qed.

(** C132: The process dies only of a call that would panic on its own; which these are C40 says ([borrowed_create_signature] never is one, C39). *)
Lemma p_C132_dies_of_a_panic :
  forall (C : ed25519) (programs : list (list pycall)) (tr : list action),
  run C (start programs) tr None -> exists program c, In program programs /\ In c program /\ panics C c.
Proof. intros C progs tr R. exact (inv_run _ _ _ _ R). Qed.

(** C132: If any thread makes such a call, not all threads can come to their ends. *)
Lemma p_C132_one_panic_is_fatal :
  forall (C : ed25519) (programs : list (list pycall)) (tr : list action) (ts : list pythread),
  run C (start programs) tr (Some ts) -> Forall finished ts -> forall program c, In program programs -> In c program -> ~ panics C c.
Proof.
  intros C progs tr ts R F prog c P I. pose proof (p_C132_answers C progs tr ts R) as A. clear R.
  induction A as [|x y l l' (done & E & _ & N) A IH]; [destruct P|]. inversion F as [|? ? F1 F2]; subst. destruct P as [<-|P]; [|auto].
  destruct F1 as [F1 _]. rewrite F1, app_nil_r in I. auto.
Qed.

(** ** Progress *)
Definition t_work (t : pythread) : nat :=
  match p_phase t with
  | Waiting | Running => 3 * length (p_calls t)
  | Verifying _ => 3 * length (p_calls t) - 1
  | Verified _ _ | Returning _ _ => 3 * length (p_calls t) - 2
  | Signing => 3 * length (p_calls t) - 1
  end.
Definition work (ts : list pythread) : nat := list_sum (map t_work ts).
Lemma list_sum_cons n l : list_sum (n :: l) = n + list_sum l.
Proof. reflexivity. Qed.
Lemma work_at t1 t t2 : work (t1 ++ t :: t2) = t_work t + work (t1 ++ t2).
Proof. unfold work. rewrite !map_app, !list_sum_app. change (list_sum (map t_work (t :: t2))) with (t_work t + list_sum (map t_work t2)). lia. Qed.

Lemma work_moves C prog t x t' : tinv C prog t -> moves C t x (Some t') -> match x with Act => t_work t' < t_work t | _ => t_work t' = t_work t end.
Proof.
  intros [_ I] M. inversion M; subst; clear M; try reflexivity.
  - unfold t_work. cbn. lia.
  - destruct (skip_header (start_deserialize (Packet data))); [| |discriminate]; match goal with H : Some _ = Some _ |- _ => injection H as <- end; unfold t_work; cbn [p_phase p_calls length]; lia.
  - destruct (verify_embedded C de) as [de' [b|e|q]]; try discriminate. match goal with H : Some _ = Some _ |- _ => injection H as <- end.
    destruct I as (a' & d' & r' & I1 & _). cbn in I1. subst cs. unfold t_work; cbn [p_phase p_calls length]; lia.
  - destruct (slice_from (packet_bytes (pntr de)) (index de)); [|discriminate]. match goal with H : Some _ = Some _ |- _ => injection H as <- end. unfold t_work; cbn [p_phase p_calls length]; lia.
  - unfold t_work; cbn [p_phase p_calls length]; lia.
  - destruct (borrowed_create_signature C seed key data); try discriminate; match goal with H : Some _ = Some _ |- _ => injection H as <- end; unfold t_work; cbn [p_phase p_calls length]; lia.
Qed.

Lemma acts_app a b : acts (a ++ b) = acts a + acts b.
Proof. induction a as [|[] a IH]; cbn; lia. Qed.
Lemma acts_one x : acts [x] <= 1.
Proof. destruct x; cbn; lia. Qed.

(** C132: However the interpreter switches, the threads together take at most three steps per call. *)
Lemma p_C132_no_livelock :
  forall (C : ed25519) (programs : list (list pycall)) (tr : list action) (p : process),
  run C (start programs) tr p -> acts tr <= 3 * list_sum (map (@length pycall) programs).
Proof.
  intros C progs tr p R.
  assert (K : acts tr + match p with Some ts => work ts | None => 0 end <= 3 * list_sum (map (@length pycall) progs)); [|lia].
  remember (start progs) as s eqn:E. induction R as [p|p tr p' x p'' R IH S]; subst.
  - unfold start, work. cbn [acts]. induction progs as [|prog progs IH]; [cbn; lia|]. cbn [map].
    rewrite !list_sum_cons. unfold t_work at 1. cbn [p_phase p_calls]. lia.
  - specialize (IH eq_refl). pose proof (inv_run _ _ _ _ R) as V. rewrite acts_app.
    inversion S; subst; destruct V as [F _]; apply Forall2_app_inv_r in F as (p1 & p2 & F1 & F2 & ->); inversion F2; subst; rewrite !work_at in *.
    + match goal with H : tinv _ _ _ |- _ => pose proof (work_moves _ _ _ _ _ H ltac:(eassumption)) as W end. destruct x; cbn [acts]; lia.
    + pose proof (acts_one x). enough (1 <= t_work t) by lia.
      match goal with H : tinv _ _ _, M : moves _ _ _ None |- _ => destruct H as [_ I]; inversion M; subst; clear M end; unfold t_work, in_phase in *; cbn [p_phase p_calls length] in *; try lia.
      destruct I as (? & ? & ? & -> & _). cbn. lia.
Qed.

Lemma run_trans C p tr q tr' r : run C p tr q -> run C q tr' r -> run C p (tr ++ tr') r.
Proof. intros A B. induction B; [now rewrite app_nil_r|]. rewrite app_assoc. econstructor; eauto. Qed.
Lemma run_one C p x q : step C p x q -> run C p [x] q.
Proof. intros S. apply (run_more C p [] p x q); [constructor|assumption]. Qed.

(** from here to the end of the process, or to fewer steps to go *)
Definition gets_on (C : ed25519) (n : nat) (p : process) : Prop :=
  exists tr q, run C p tr q /\ match q with None => True | Some ts => Forall (fun t => has_lock t = false) ts /\ work ts <= n end.

Lemma find_lock ts : Forall (fun t => has_lock t = false) ts \/ exists t1 t t2, ts = t1 ++ t :: t2 /\ has_lock t = true.
Proof.
  induction ts as [|t ts [IH|(t1 & u & t2 & -> & H)]]; [left; constructor| |].
  - destruct (has_lock t) eqn:L; [right; exists [], t, ts; auto|left; constructor; assumption].
  - right. exists (t :: t1), u, t2. auto.
Qed.
Lemma find_work ts : 0 < work ts -> exists t1 t t2, ts = t1 ++ t :: t2 /\ 0 < t_work t.
Proof.
  induction ts as [|t ts IH]; [cbn; lia|]. change (work (t :: ts)) with (t_work t + work ts). intros H. destruct (t_work t) eqn:E.
  - destruct IH as (t1 & u & t2 & -> & W); [lia|]. exists (t :: t1), u, t2. auto.
  - exists [], t, ts. split; [reflexivity|lia].
Qed.

Lemma lockless t1 t t2 : Forall (fun u => has_lock u = false) (t1 ++ t2) -> has_lock t = false -> Forall (fun u => has_lock u = false) (t1 ++ t :: t2).
Proof. intros F H. apply Forall_app in F as [F1 F2]. apply Forall_app. split; [assumption|]. constructor; assumption. Qed.

(** a thread in Python code with the lock gives it away *)
Lemma drop_it C t1 cs a t2 n : Forall (fun u => has_lock u = false) (t1 ++ t2) -> 3 * length cs + work (t1 ++ t2) <= n -> gets_on C n (Some (t1 ++ PyThread Running cs a :: t2)).
Proof.
  intros F W. exists [Drop], (Some (t1 ++ PyThread Waiting cs a :: t2)). split.
  - apply run_one. apply step_moves; [constructor|discriminate].
  - split; [now apply lockless|]. rewrite work_at. unfold t_work. cbn [p_phase p_calls]. lia.
Qed.
Lemma first_step C n p x q : step C p x q -> gets_on C n q -> gets_on C n p.
Proof. intros S (tr & r & R & H). exists ([x] ++ tr), r. split; [|exact H]. eapply run_trans; [apply run_one; exact S|exact R]. Qed.
Lemma dead C n : gets_on C n None.
Proof. exists [], None. split; [constructor|exact I]. Qed.

(** one step of the thread, with the lock, which it then gives away *)
Lemma act_with_lock C prog t1 t t2 : tinv C prog t -> has_lock t = true -> 0 < t_work t -> Forall (fun u => has_lock u = false) (t1 ++ t2) ->
  gets_on C (t_work t - 1 + work (t1 ++ t2)) (Some (t1 ++ t :: t2)).
Proof.
  intros [P I] L W F. destruct t as [ph cs a]. destruct ph; try discriminate L; cbn [in_phase p_phase p_calls] in I.
  - destruct cs as [|c cs]; [cbn in W; lia|]. destruct c.
    + pose proof (moves_verify C auth data cs a) as M. destruct (skip_header (start_deserialize (Packet data))).
      * exists [Act], (Some (t1 ++ PyThread (Verifying a0) (Verify auth data :: cs) a :: t2)). split; [apply run_one; apply step_moves; [exact M|discriminate]|].
        split; [now apply lockless|]. rewrite work_at. unfold t_work. cbn [p_phase p_calls length]. lia.
      * eapply first_step; [apply step_moves; [exact M|discriminate]|]. apply drop_it; [assumption|]. unfold t_work. cbn [p_phase p_calls length]. lia.
      * eapply first_step; [apply step_dies; exact M|]. apply dead.
    + eapply first_step; [apply step_moves; [apply moves_sign|discriminate]|].
      pose proof (moves_signed C seed key data cs a) as M. destruct (borrowed_create_signature C seed key data);
        try (eapply first_step; [apply step_moves; [exact M|discriminate]|]; apply drop_it; [assumption|]; unfold t_work; cbn [p_phase p_calls length]; lia).
      eapply first_step; [apply step_dies; exact M|]. apply dead.
    + eapply first_step; [apply step_moves; [apply moves_python|discriminate]|]. apply drop_it; [assumption|]. unfold t_work. cbn [p_phase p_calls length]. lia.
  - destruct I as (a' & d' & r' & de0 & -> & _). pose proof (moves_return C result de (Verify a' d') r' a) as M.
    destruct (slice_from (packet_bytes (pntr de)) (index de)).
    + eapply first_step; [apply step_moves; [exact M|discriminate]|]. apply drop_it; [assumption|]. unfold t_work. cbn [p_phase p_calls length]. lia.
    + eapply first_step; [apply step_dies; exact M|]. apply dead.
  - destruct I as (s' & k' & d' & r' & ->). pose proof (moves_signed C s' k' d' r' a) as M. destruct (borrowed_create_signature C s' k' d');
        try (eapply first_step; [apply step_moves; [exact M|discriminate]|]; apply drop_it; [assumption|]; unfold t_work; cbn [p_phase p_calls length]; lia).
      eapply first_step; [apply step_dies; exact M|]. apply dead.
Qed.

Lemma tinv_at C progs t1 t t2 : Forall2 (tinv C) progs (t1 ++ t :: t2) -> exists prog, tinv C prog t.
Proof. intros F. apply Forall2_app_inv_r in F as (p1 & p2 & F1 & F2 & ->). inversion F2; subst. eauto. Qed.

Lemma release C progs ts : pinv C progs (Some ts) -> gets_on C (work ts) (Some ts).
Proof.
  intros [F O]. destruct (find_lock ts) as [H|(t1 & t & t2 & -> & H)].
  - exists [], (Some ts). split; [constructor|]. split; [assumption|lia].
  - pose proof (O t1 t t2 eq_refl H) as L. destruct (tinv_at _ _ _ _ _ F) as (prog & T). destruct (t_work t) eqn:W.
    + destruct t as [ph cs a]. destruct T as [_ I]. destruct ph; try discriminate H; cbn [in_phase p_phase p_calls] in I.
      * apply drop_it; [assumption|]. rewrite work_at. unfold t_work. cbn [p_phase p_calls]. lia.
      * destruct I as (a' & d' & r' & de0 & -> & _). unfold t_work in W. cbn [p_phase p_calls length] in W. lia.
      * destruct I as (s' & k' & d' & r' & ->). unfold t_work in W. cbn [p_phase p_calls length] in W. lia.
    + assert (G : gets_on C (t_work t - 1 + work (t1 ++ t2)) (Some (t1 ++ t :: t2))) by (eapply act_with_lock; eauto; lia).
      destruct G as (tr & q & R & G). exists tr, q. split; [exact R|]. destruct q; [|exact I]. rewrite work_at. destruct G as [G1 G2]. split; [exact G1|lia].
Qed.

Lemma advance C progs ts : pinv C progs (Some ts) -> Forall (fun t => has_lock t = false) ts -> 0 < work ts -> gets_on C (work ts - 1) (Some ts).
Proof.
  intros [F O] L W. destruct (find_work ts W) as (t1 & t & t2 & -> & K). destruct (tinv_at _ _ _ _ _ F) as (prog & T). rewrite work_at.
  assert (L2 : Forall (fun u => has_lock u = false) (t1 ++ t2)).
  { apply Forall_app in L as [L1 L2]. inversion L2; subst. apply Forall_app. auto. }
  assert (L1 : has_lock t = false) by (apply Forall_app in L as [_ L]; now inversion L).
  destruct t as [ph cs a]. destruct ph; try discriminate L1.
  - eapply first_step; [apply step_moves; [apply moves_acquire|auto]|]. 
    change (t_work (PyThread Waiting cs a)) with (t_work (PyThread Running cs a)) in *.
    replace (t_work (PyThread Running cs a) + work (t1 ++ t2) - 1) with (t_work (PyThread Running cs a) - 1 + work (t1 ++ t2)) by lia.
    eapply act_with_lock with (prog := prog); [|reflexivity|exact K|assumption]. eapply tinv_moves; [exact T|constructor].
  - pose proof (moves_verifying C de cs a) as M. pose proof T as [_ I]. destruct I as (a' & d' & r' & I1 & _). cbn in I1. subst cs.
    destruct (verify_embedded C de) as [de' [b|e|q]].
    + exists [Act], (Some (t1 ++ PyThread (Verified b de') (Verify a' d' :: r') a :: t2)). split; [apply run_one; apply step_moves; [exact M|discriminate]|].
      split; [now apply lockless|]. rewrite work_at. unfold t_work. cbn [p_phase p_calls length]. lia.
    + eapply first_step; [apply step_dies; exact M|]. apply dead.
    + eapply first_step; [apply step_dies; exact M|]. apply dead.
  - eapply first_step; [apply step_moves; [apply moves_back|auto]|].
    change (t_work (PyThread (Verified result de) cs a)) with (t_work (PyThread (Returning result de) cs a)) in *.
    replace (t_work (PyThread (Returning result de) cs a) + work (t1 ++ t2) - 1) with (t_work (PyThread (Returning result de) cs a) - 1 + work (t1 ++ t2)) by lia.
    eapply act_with_lock with (prog := prog); [|reflexivity|exact K|assumption]. eapply tinv_moves; [exact T|constructor].
Qed.

Lemma no_work C progs ts : Forall2 (tinv C) progs ts -> work ts = 0 -> Forall (fun t => has_lock t = false) ts -> Forall finished ts.
Proof.
  intros F. induction F as [|prog t progs ts [_ I] F IH]; [constructor|]. change (work (t :: ts)) with (t_work t + work ts). intros W L. inversion L; subst.
  constructor; [|apply IH; [lia|assumption]]. destruct t as [ph cs a]. destruct ph; cbn [in_phase p_phase p_calls] in I; try discriminate.
  - split; [|auto]. unfold t_work in W. cbn [p_phase p_calls] in *. destruct cs; [reflexivity|cbn in W; lia].
  - destruct I as (a' & d' & r' & -> & _). unfold t_work in W. cbn [p_phase p_calls length] in W. lia.
  - destruct I as (a' & d' & r' & de0 & -> & _). unfold t_work in W. cbn [p_phase p_calls length] in W. lia.
Qed.

Lemma all_finish C progs ts : pinv C progs (Some ts) -> exists tr q, run C (Some ts) tr q /\ match q with None => True | Some ts' => Forall finished ts' end.
Proof.
  intros I. destruct (release _ _ _ I) as (tr & [ts1|] & R & G); [|exists tr, None; split; [exact R|exact Logic.I]].
  destruct G as [L _]. pose proof (pinv_runs _ _ _ _ _ I R) as I1.
  assert (K : exists tr q, run C (Some ts1) tr q /\ match q with None => True | Some ts' => Forall finished ts' end).
  { clear I R tr ts. remember (work ts1) as n eqn:W. assert (Wn : work ts1 <= n) by lia. clear W. revert ts1 Wn L I1. induction n as [n IH] using lt_wf_ind. intros ts1 Wn L I1.
    destruct (work ts1) eqn:W.
    - exists [], (Some ts1). split; [constructor|]. eapply no_work; [exact (proj1 I1)|exact W|exact L].
    - assert (Q : 0 < work ts1) by lia. destruct (advance _ _ _ I1 L Q) as (tr & [ts2|] & R & G); [|exists tr, None; split; [exact R|exact I]].
      destruct G as [L2 W2]. destruct (IH (work ts2) ltac:(lia) ts2 ltac:(lia) L2 (pinv_runs _ _ _ _ _ I1 R)) as (tr' & q & R' & H).
      exists (tr ++ tr'), q. split; [eapply run_trans; eassumption|exact H]. }
  destruct K as (tr' & q & R' & H). exists (tr ++ tr'), q. split; [eapply run_trans; eassumption|exact H].
Qed.

(** C132: However far the threads have come, they can all come to their ends (or the process dies): no deadlock. *)
Lemma p_C132_no_deadlock :
  forall (C : ed25519) (programs : list (list pycall)) (tr : list action) (ts : list pythread),
  run C (start programs) tr (Some ts) ->
  exists tr' q, run C (Some ts) tr' q /\ match q with None => True | Some ts' => Forall finished ts' end.
Proof. intros C progs tr ts R. eapply all_finish. exact (inv_run _ _ _ _ R). Qed.

(** ** A verification in the background *)
Lemma add_thread_step C l x q t1 t t2 : l = t1 ++ t2 -> has_lock t = false -> step C (Some l) x q ->
  match q with
  | None => step C (Some (t1 ++ t :: t2)) x None
  | Some l' => exists t1' t2', l' = t1' ++ t2' /\ length t1' = length t1 /\ step C (Some (t1 ++ t :: t2)) x (Some (t1' ++ t :: t2'))
  end.
Proof.
  intros E L S. inversion S as [u1 u ? u' u2 M A|u1 u ? u2 M]; subst.
  - match goal with H : _ = t1 ++ t2 |- _ => revert H end. intros E.
    assert (D : (exists m, t1 = u1 ++ u :: m /\ u2 = m ++ t2) \/ (exists m, u1 = t1 ++ m /\ t2 = m ++ u :: u2)).
    { clear -E. revert u1 E. induction t1 as [|z t1 IH]; intros u1 E; [right; exists u1; auto|]. destruct u1 as [|w u1]; cbn in E; injection E as E1 E2; subst.
      - left. exists t1. auto.
      - destruct (IH _ E2) as [(m & -> & ->)|(m & -> & ->)]; [left; exists m; auto|right; exists m; auto]. }
    destruct D as [(m & -> & ->)|(m & -> & ->)].
    + exists (u1 ++ u' :: m), t2. split; [now rewrite <- app_assoc|]. split; [now rewrite !app_length|]. rewrite <- !app_assoc. cbn. apply step_moves; [assumption|].
      intros X. specialize (A X). rewrite app_assoc in *. now apply lockless.
    + exists t1, (m ++ u' :: u2). split; [now rewrite <- app_assoc|]. split; [reflexivity|].
      change (t1 ++ t :: m ++ u :: u2) with (t1 ++ (t :: m) ++ u :: u2). change (t1 ++ t :: m ++ u' :: u2) with (t1 ++ (t :: m) ++ u' :: u2). rewrite !app_assoc. apply step_moves; [assumption|].
      intros X. specialize (A X). rewrite <- app_assoc in *. now apply lockless.
  - match goal with H : _ = t1 ++ t2 |- _ => revert H end. intros E.
    assert (D : (exists m, t1 = u1 ++ u :: m /\ u2 = m ++ t2) \/ (exists m, u1 = t1 ++ m /\ t2 = m ++ u :: u2)).
    { clear -E. revert u1 E. induction t1 as [|z t1 IH]; intros u1 E; [right; exists u1; auto|]. destruct u1 as [|w u1]; cbn in E; injection E as E1 E2; subst.
      - left. exists t1. auto.
      - destruct (IH _ E2) as [(m & -> & ->)|(m & -> & ->)]; [left; exists m; auto|right; exists m; auto]. }
    destruct D as [(m & -> & ->)|(m & -> & ->)].
    + rewrite <- !app_assoc. cbn. now apply step_dies.
    + change (t1 ++ t :: m ++ u :: u2) with (t1 ++ (t :: m) ++ u :: u2). rewrite app_assoc. now apply step_dies.
Qed.
Lemma add_thread C tr q t1 t t2 : has_lock t = false -> run C (Some (t1 ++ t2)) tr q ->
  match q with
  | None => run C (Some (t1 ++ t :: t2)) tr None
  | Some l' => exists t1' t2', l' = t1' ++ t2' /\ length t1' = length t1 /\ run C (Some (t1 ++ t :: t2)) tr (Some (t1' ++ t :: t2'))
  end.
Proof.
  intros L R. remember (Some (t1 ++ t2)) as p eqn:E. induction R as [p|p tr p' x p'' R IH S]; subst.
  - exists t1, t2. repeat split. constructor.
  - specialize (IH eq_refl). destruct p' as [l|]; [|inversion S]. destruct IH as (a & b & -> & N & R').
    pose proof (add_thread_step C _ x p'' a t b eq_refl L S) as K. destruct p'' as [l'|].
    + destruct K as (a' & b' & -> & N' & S'). exists a', b'. split; [reflexivity|]. split; [congruence|]. econstructor; eassumption.
    + econstructor; eassumption.
Qed.
Lemma remove_thread C progs t1 t t2 : pinv C progs (Some (t1 ++ t :: t2)) -> exists progs', pinv C progs' (Some (t1 ++ t2)).
Proof.
  intros [F O]. apply Forall2_app_inv_r in F as (p1 & p2 & F1 & F2 & ->). inversion F2; subst. eexists. split; [apply Forall2_app; eassumption|].
  intros u1 u u2 E H.
  assert (D : (exists m, t1 = u1 ++ u :: m /\ u2 = m ++ t2) \/ (exists m, u1 = t1 ++ m /\ t2 = m ++ u :: u2)).
  { clear -E. symmetry in E. revert u1 E. induction t1 as [|z t1 IH]; intros u1 E; [right; exists u1; auto|]. destruct u1 as [|w u1]; cbn in E; injection E as E1 E2; subst.
    - left. exists t1. auto.
    - destruct (IH _ E2) as [(m & -> & ->)|(m & -> & ->)]; [left; exists m; auto|right; exists m; auto]. }
  destruct D as [(m & -> & ->)|(m & -> & ->)].
  - assert (K := O u1 u (m ++ t :: t2)). rewrite <- app_assoc in K. specialize (K eq_refl H). apply Forall_app in K as [K1 K2]. apply Forall_app in K2 as [K2 K3]. inversion K3; subst.
    apply Forall_app. split; [assumption|]. apply Forall_app. auto.
  - assert (K := O (t1 ++ t :: m) u u2). rewrite <- app_assoc in K. specialize (K eq_refl H). rewrite <- app_assoc in K. apply Forall_app in K as [K1 K2]. inversion K2; subst.
    rewrite <- app_assoc. apply Forall_app. auto.
Qed.

(** C132: While one thread's signature is being verified, however long that takes, all others can go on to their ends. *)
Lemma p_C132_verifying_blocks_nobody :
  forall (C : ed25519) (programs : list (list pycall)) (tr : list action) (t1 : list pythread) (t : pythread) (t2 : list pythread),
  run C (start programs) tr (Some (t1 ++ t :: t2)) -> in_verification t ->
  exists tr' q, run C (Some (t1 ++ t :: t2)) tr' q /\
    match q with
    | None => True
    | Some ts => exists t1' t2', ts = t1' ++ t :: t2' /\ length t1' = length t1 /\ Forall finished (t1' ++ t2')
    end.
Proof.
  intros C progs tr t1 t t2 R (de & V). assert (L : has_lock t = false) by (unfold has_lock; now rewrite V).
  destruct (remove_thread _ _ _ _ _ (inv_run _ _ _ _ R)) as (progs' & I). destruct (all_finish _ _ _ I) as (tr' & q & R' & H).
  pose proof (add_thread C tr' q t1 t t2 L R') as K. destruct q as [l|].
  - destruct K as (a & b & -> & N & K). exists tr', (Some (a ++ t :: b)). split; [exact K|]. exists a, b. auto.
  - exists tr', None. split; [exact K|exact Logic.I].
Qed.

Lemma same_all {A} (P : A -> A -> Prop) (l : list A) : (forall x, P x x) -> Forall2 P l l.
Proof. intros H. induction l; constructor; auto. Qed.

(** C132: But while a signature is being made, nobody gets the lock: only that thread, and verifications in the background, go on. *)
Lemma p_C132_signing_blocks_all :
  forall (C : ed25519) (programs : list (list pycall)) (tr : list action) (ts : list pythread) (t : pythread) (x : action) (q : process),
  run C (start programs) tr (Some ts) -> In t ts -> p_phase t = Signing -> step C (Some ts) x q ->
  x = Act /\
  match q with
  | None => True
  | Some ts' => Forall2 (fun u u' => u' = u \/ in_verification u \/ p_phase u = Signing) ts ts'
  end.
Proof.
  intros C progs tr ts t x q R IN PH S. destruct (inv_run _ _ _ _ R) as [_ O]. apply in_split in IN as (t1 & t2 & ->).
  assert (L : has_lock t = true) by (unfold has_lock; now rewrite PH). pose proof (O t1 t t2 eq_refl L) as F.
  inversion S as [u1 u ? u' u2 M A E|u1 u ? u2 M E]; subst.
  - symmetry in E. apply split_two in E as [(-> & -> & ->)|[(m & -> & ->)|(m & -> & ->)]].
    + destruct u as [ph cs a]. cbn in PH. subst ph. inversion M; subst. split; [reflexivity|]. apply Forall2_app; [apply same_all; auto|]. constructor; [auto|apply same_all; auto].
    + assert (H : has_lock u = false) by (apply Forall_app in F as [_ F]; apply Forall_app in F as [_ F]; now inversion F).
      assert (X : x <> Acquire). { intros X. specialize (A X). rewrite <- app_assoc in A. apply Forall_app in A as [_ A]. inversion A; congruence. }
      assert (V : in_verification u) by (destruct u as [ph cs a]; destruct ph; try discriminate H; inversion M; subst; try congruence; eexists; reflexivity).
      split; [inversion M; subst; try congruence; discriminate H|]. rewrite <- !app_assoc. apply Forall2_app; [apply same_all; auto|]. cbn. constructor; [auto|]. apply Forall2_app; [apply same_all; auto|].
      constructor; [auto|apply same_all; auto].
    + assert (H : has_lock u = false) by (apply Forall_app in F as [F _]; apply Forall_app in F as [_ F]; now inversion F).
      assert (X : x <> Acquire). { intros X. specialize (A X). apply Forall_app in A as [_ A]. apply Forall_app in A as [_ A]. inversion A; congruence. }
      assert (V : in_verification u) by (destruct u as [ph cs a]; destruct ph; try discriminate H; inversion M; subst; try congruence; eexists; reflexivity).
      split; [inversion M; subst; try congruence; discriminate H|]. apply Forall2_app; [apply same_all; auto|]. constructor; [auto|]. apply same_all; auto.
  - split; [|exact I]. destruct x; [inversion M|inversion M|reflexivity].
Qed.

(** ** Examples *)
Definition ex_packet : list byte :=
  match borrowed_create_signature toy (repeat x05 32) (repeat x05 32) (header_layout (repeat x2a 20) x01 ++ auth_layout (BinMember (repeat x05 32) (repeat x06 32)) ++ [x09; x08]) with
  | PyOk signed => signed
  | _ => []
  end.
Definition ex_deadly : list byte := [x00; x02] ++ repeat x00 23.

(** Two threads: while the first is in a verification, the second signs. *)
Example ex_C132_meanwhile : exists tr ts t de,
  run toy (start [[Verify [] ex_packet]; [Sign (repeat x05 32) (repeat x05 32) [x01]; Python]]) tr (Some ts) /\
  ts = [t; PyThread Waiting [] (map (answer toy) [Sign (repeat x05 32) (repeat x05 32) [x01]; Python])] /\
  t = PyThread (Verifying de) [Verify [] ex_packet] [].
Proof.
  exists ([] ++ [Acquire] ++ [Act] ++ [Acquire] ++ [Act] ++ [Act] ++ [Act] ++ [Drop]). do 3 eexists. split; [|split; reflexivity].
  rewrite !app_assoc. unfold start. cbn [map].
  apply run_more with (p' := Some [PyThread (Verifying {| pntr := Packet ex_packet; index := 23 |}) [Verify [] ex_packet] []; PyThread Running [] (map (answer toy) [Sign (repeat x05 32) (repeat x05 32) [x01]; Python])]).
  2:{ match goal with |- step _ (Some [?a; ?b]) _ (Some [?c; ?d]) => eapply (step_moves toy [a] b Drop d []) end; [constructor|discriminate]. }
  eapply run_more; [eapply run_more; [eapply run_more; [eapply run_more; [eapply run_more; [eapply run_more; [apply run_none|]|]|]|]|]|].
  - cbn [app]. match goal with |- step _ (Some [?a; ?b]) _ _ => eapply (step_moves toy [] a Acquire _ [b]) end; [constructor|intros _; repeat constructor].
  - cbn [app]. match goal with |- step _ (Some [?a; ?b]) _ _ => eapply (step_moves toy [] a Act _ [b]) end; [|discriminate].
    match goal with |- moves _ (PyThread Running (Verify ?x ?y :: ?cs) ?z) _ _ => pose proof (moves_verify toy x y cs z) as M end. vm_compute in M. exact M.
  - cbn [app]. match goal with |- step _ (Some [?a; ?b]) _ _ => eapply (step_moves toy [a] b Acquire _ []) end; [constructor|intros _; repeat constructor].
  - cbn [app]. match goal with |- step _ (Some [?a; ?b]) _ _ => eapply (step_moves toy [a] b Act _ []) end; [constructor|discriminate].
  - cbn [app]. match goal with |- step _ (Some [?a; ?b]) _ _ => eapply (step_moves toy [a] b Act _ []) end; [|discriminate].
    match goal with |- moves _ (PyThread Signing (Sign ?x ?y ?d :: ?cs) ?z) _ _ => pose proof (moves_signed toy x y d cs z) as M end. vm_compute in M. exact M.
  - cbn [app]. match goal with |- step _ (Some [?a; ?b]) _ _ => eapply (step_moves toy [a] b Act _ []) end; [constructor|discriminate].
Qed.
(** The verification then returns what it would have returned alone: [True] and the payload. *)
Example ex_C132_answer : answer toy (Verify [] ex_packet) = VerifyAnswer (PyOk (true, [x09; x08])) /\ ~ panics toy (Verify [] ex_packet).
Proof. assert (E : answer toy (Verify [] ex_packet) = VerifyAnswer (PyOk (true, [x09; x08]))) by now vm_compute. split; [exact E|]. intros (p & [H|H]); rewrite E in H; discriminate H. Qed.
(** 25 bytes that one thread verifies end the process, whatever the other threads are doing. *)
Example ex_C132_deadly : panics toy (Verify [] ex_deadly) /\ exists tr, run toy (start [[Python; Python]; [Verify [] ex_deadly]]) tr None.
Proof.
  split; [exists PSliceIndex; left; now vm_compute|]. exists ([] ++ [Acquire] ++ [Act] ++ [Act]). rewrite !app_assoc. unfold start. cbn [map].
  eapply run_more; [eapply run_more; [eapply run_more; [apply run_none|]|]|].
  - cbn [app]. match goal with |- step _ (Some [?a; ?b]) _ _ => eapply (step_moves toy [a] b Acquire _ []) end; [constructor|intros _; repeat constructor].
  - cbn [app]. match goal with |- step _ (Some [?a; ?b]) _ _ => eapply (step_moves toy [a] b Act _ []) end; [|discriminate].
    match goal with |- moves _ (PyThread Running (Verify ?x ?y :: ?cs) ?z) _ _ => pose proof (moves_verify toy x y cs z) as M end. vm_compute in M. exact M.
  - cbn [app]. match goal with |- step _ (Some [?a; ?b]) _ _ => eapply (step_dies toy [a] b Act []) end.
    match goal with |- moves _ (PyThread (Verifying ?d) ?cs ?z) _ _ => pose proof (moves_verifying toy d cs z) as M end. vm_compute in M. exact M.
Qed.
