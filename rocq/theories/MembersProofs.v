(** * MembersProofs: C129 *)
From Coq Require Import Strings.String Permutation.
From Verif Require Import Base Serde Codec Universe Spec SerdeFacts CodecFacts UniverseFacts Packet Client PacketFacts HeaderProofs Community CommunitySpec CommunityProofs Members MembersSpec.
Open Scope nat_scope.

Section State.
Context {S : Type}.
Implicit Types (r : @roster S) (s : S) (h : list (happening S)) (l : list (op S)) (m : member S).

Lemma beq_refl k : bytes_eqb k k = true.
Proof. now apply bytes_eqb_eq. Qed.

Lemma lookup_insert k k' v : forall r r' old, insert k v r = (r', old) -> lookup k' r' = if bytes_eqb k' k then Some v else lookup k' r.
Proof.
  induction r as [|[k1 v1] r IH]; intros r' old I; cbn [insert] in I.
  - apply pair_equal_spec in I as [<- _]. reflexivity.
  - destruct (bytes_eqb k k1) eqn:E.
    + apply pair_equal_spec in I as [<- _]. apply bytes_eqb_eq in E. subst k1. cbn [lookup]. now destruct (bytes_eqb k' k).
    + destruct (insert k v r) as [r1 o]. apply pair_equal_spec in I as [<- _]. cbn [lookup]. rewrite (IH r1 o eq_refl).
      destruct (bytes_eqb k' k1) eqn:E1; [|reflexivity]. destruct (bytes_eqb k' k) eqn:E2; [|reflexivity].
      apply bytes_eqb_eq in E1, E2. subst. now rewrite beq_refl in E.
Qed.
Definition opt (o : option (member S)) : list (member S) := match o with Some m => [m] | None => [] end.
Lemma insert_permutation k v : forall r r' old, insert k v r = (r', old) -> Permutation (v :: map snd r) (opt old ++ map snd r').
Proof.
  induction r as [|[k1 v1] r IH]; intros r' old I; cbn [insert] in I.
  - apply pair_equal_spec in I as [<- <-]. reflexivity.
  - destruct (bytes_eqb k k1).
    + apply pair_equal_spec in I as [<- <-]. cbn [map snd opt app]. apply perm_swap.
    + destruct (insert k v r) as [r1 o]. apply pair_equal_spec in I as [<- <-]. cbn [map snd]. specialize (IH r1 o eq_refl).
      rewrite perm_swap, IH. apply Permutation_middle.
Qed.

(** the member registered last under [k] *)
Fixpoint current (k : list byte) h : option (member S) :=
  match h with
  | [] => None
  | e :: h =>
      match current k h with
      | Some m => Some m
      | None => match e with AskedMid m (Some k') => if bytes_eqb k k' then Some m else None | _ => None end
      end
  end.
Lemma current_app k a b : current k (a ++ b) = match current k b with Some m => Some m | None => current k a end.
Proof. induction a as [|e a IH]; cbn [app current]; [now destruct (current k b)|]. rewrite IH. now destruct (current k b). Qed.

Lemma forward_cases r p a s : let '(h, s', o) := forward_to_member r p a s in
  (h = [] /\ s' = s /\ exists e, o = Err e) \/
  (exists w, h = [WarnedOf w a] /\ s' = s /\ o = Ok tt) \/
  (exists m hd, In m (map snd r) /\
     ((m_receive m = None /\ h = [Called m hd (start_deserialize p) a] /\ (s', o) = m_on_receive m hd (start_deserialize p) a s) \/
      (exists f, m_receive m = Some f /\ h = [Overridden m hd (start_deserialize p) a] /\ (s', o) = f hd (start_deserialize p) a s))).
Proof.
  unfold forward_to_member. cbv zeta. destruct (peek_header (start_deserialize p)) as [hd|e|q] eqn:P; [|left; eauto|].
  2: { exfalso. destruct p as [b]. revert P. unfold start_deserialize. destruct (header_prefix_ok (skipn 0 b)) eqn:E.
       - rewrite peek_header_ok by (lia || exact E). discriminate.
       - destruct (peek_header_err b 0 ltac:(lia) E) as [e ->]. discriminate. }
  destruct (h_mid_hash hd) as [mid|]; [|left; eauto]. destruct (lookup mid r) as [m|] eqn:L; [|left; eauto].
  assert (In m (map snd r)) as I.
  { clear P. revert L. induction r as [|[k v] r IH]; cbn [lookup]; [discriminate|]. destruct (bytes_eqb mid k); [intros [= <-]; now left|]. intros X. right. now apply IH. }
  unfold member_receive. destruct (m_receive m) as [f|] eqn:F.
  - destruct (f hd (start_deserialize p) a s) as [s' o] eqn:E. right. right. exists m, hd. split; [exact I|]. right. exists f. now rewrite E.
  - destruct (h_message_type hd) as [t|] eqn:T.
    + rewrite (receive_spec _ hd _ a t T). destruct (deprecated t) eqn:D.
      * destruct (receive_warned (frozen m s) hd (start_deserialize p) a t T D) as [w ->]. right. left. exists w. now cbn.
      * right. right. exists m, hd. split; [exact I|]. left. cbn [frozen c_on_receive]. repeat split; auto. now destruct (m_on_receive m hd (start_deserialize p) a s).
    + unfold receive. rewrite T. left. eauto.
Qed.

Lemma forward_current k r p a s : current k (fst (fst (forward_to_member r p a s))) = None.
Proof.
  pose proof (forward_cases r p a s) as C. destruct (forward_to_member r p a s) as [[h s'] o]. cbn [fst].
  destruct C as [(-> & _)|[(w & -> & _)|(m & hd & _ & [(_ & -> & _)|(f & _ & -> & _)])]]; reflexivity.
Qed.
Lemma one_op_current k o r s : let '(h, s', r') := one_op o r s in
  lookup k r' = match current k h with Some m => Some m | None => lookup k r end.
Proof.
  destruct o as [m|p a|f]; cbn [one_op]; [|now rewrite forward_current|reflexivity].
  unfold add_member. destruct (m_get_mid m s) as [s1 [mid|]]; [|reflexivity].
  destruct (insert mid m r) as [r1 [old|]] eqn:I; cbn [fst current]; rewrite (lookup_insert _ k _ _ _ _ I); now destruct (bytes_eqb k mid).
Qed.
Lemma ops_current k : forall l r s h s' r', ops l r s = (h, s', r') -> lookup k r' = match current k h with Some m => Some m | None => lookup k r end.
Proof.
  induction l as [|o l IH]; intros r s h s' r' E; cbn [ops] in E.
  - apply pair_equal_spec in E as [E <-]. apply pair_equal_spec in E as [<- _]. reflexivity.
  - pose proof (one_op_current k o r s) as C. destruct (one_op o r s) as [[h1 s1] r1]. destruct (ops l r1 s1) as [[h2 s2] r2] eqn:E2.
    apply pair_equal_spec in E as [E <-]. apply pair_equal_spec in E as [<- _]. rewrite (IH _ _ _ _ _ E2), current_app, C.
    now destruct (current k h2), (current k h1).
Qed.

Definition names (x : list (member S)) : list nat := map m_name x.
Lemma given_cons o l : given (o :: l) = given [o] ++ given l.
Proof. unfold given. cbn [flat_map]. now rewrite app_nil_r. Qed.
Lemma dropped_app (a b : list (happening S)) : dropped (a ++ b) = dropped a ++ dropped b.
Proof. apply flat_map_app. Qed.
Lemma asked_app (a b : list (happening S)) : asked (a ++ b) = asked a ++ asked b.
Proof. apply flat_map_app. Qed.

Lemma one_op_facts o r s : let '(h, s', r') := one_op o r s in
  Permutation (given [o] ++ map snd r) (dropped h ++ map snd r') /\ asked h = given [o] /\
  Forall (fun e => match who e with Some n => In n (names (given [o] ++ map snd r)) | None => True end) h /\
  (forall t1 m t2, h = t1 ++ Dropped m :: t2 -> t2 = []).
Proof.
  destruct o as [m|p a|f]; cbn [one_op given flat_map app].
  - unfold add_member. destruct (m_get_mid m s) as [s1 [mid|]].
    + destruct (insert mid m r) as [r1 [old|]] eqn:I; cbn [fst]; pose proof (insert_permutation _ _ _ _ _ I) as P; cbn [opt app] in P.
      * split; [exact P|]. split; [reflexivity|]. split.
        { assert (In old (m :: map snd r)) as Q by (apply (Permutation_in _ (Permutation_sym P)); now left).
          constructor; [now left|]. constructor; [|constructor]. cbn [who]. now apply (in_map m_name) in Q. }
        intros t1 x t2 E. destruct t1 as [|? [|? [|]]]; cbn in E; try discriminate; now injection E.
      * split; [exact P|]. split; [reflexivity|]. split; [constructor; [now left|constructor]|].
        intros t1 x t2 E. destruct t1 as [|? [|]]; cbn in E; discriminate.
    + cbn [fst]. split; [reflexivity|]. split; [reflexivity|]. split; [repeat constructor; now left|].
      intros t1 x t2 E. destruct t1 as [|? [|? [|]]]; cbn in E; try discriminate; now injection E.
  - pose proof (forward_cases r p a s) as C. destruct (forward_to_member r p a s) as [[h s'] o]. cbn [fst snd].
    destruct C as [(-> & _)|[(w & -> & _)|(m & hd & I & [(_ & -> & _)|(f & _ & -> & _)])]]; cbn [dropped asked flat_map app];
      (split; [reflexivity|]; split; [reflexivity|]; split; [repeat constructor; cbn [who]; now apply in_map|]);
      intros t1 x t2 E; destruct t1 as [|? [|]]; cbn in E; discriminate.
  - split; [reflexivity|]. split; [reflexivity|]. split; [constructor|]. intros [|] ? ? E; discriminate.
Qed.

Lemma ops_facts : forall l r s h s' r', ops l r s = (h, s', r') ->
  Permutation (given l ++ map snd r) (dropped h ++ map snd r') /\ asked h = given l /\
  Forall (fun e => match who e with Some n => In n (names (given l ++ map snd r)) | None => True end) h.
Proof.
  induction l as [|o l IH]; intros r s h s' r' E; cbn [ops] in E.
  - apply pair_equal_spec in E as [E <-]. apply pair_equal_spec in E as [<- _]. repeat split; [reflexivity|constructor].
  - pose proof (one_op_facts o r s) as C. destruct (one_op o r s) as [[h1 s1] r1]. destruct (ops l r1 s1) as [[h2 s2] r2] eqn:E2.
    apply pair_equal_spec in E as [E <-]. apply pair_equal_spec in E as [<- _]. destruct C as (C1 & C2 & C3 & _). destruct (IH _ _ _ _ _ E2) as (I1 & I2 & I3).
    rewrite given_cons, dropped_app, asked_app, C2, I2.
    assert (Permutation ((given [o] ++ given l) ++ map snd r) (dropped h1 ++ given l ++ map snd r1)) as P.
    { rewrite (Permutation_app_comm (given [o])), <- app_assoc, C1. apply Permutation_app_swap_app. }
    split; [rewrite P, I1, app_assoc; reflexivity|]. split; [reflexivity|]. apply Forall_app. split.
    + eapply Forall_impl; [|exact C3]. intros e. cbv beta. destruct (who e) as [n|]; [|trivial]. unfold names. rewrite !map_app. intros X. apply in_app_iff in X. apply in_app_iff. rewrite in_app_iff. destruct X; auto.
    + eapply Forall_impl; [|exact I3]. intros e. cbv beta. destruct (who e) as [n|]; [|trivial]. intros X. apply (Permutation_in _ (Permutation_sym (Permutation_map m_name P))).
      rewrite map_app. apply in_or_app. right. exact X.
Qed.

Lemma ops_gone : forall l r s h s' r', ops l r s = (h, s', r') -> NoDup (names (given l ++ map snd r)) ->
  forall t1 m t2, h = t1 ++ Dropped m :: t2 -> Forall (fun e => who e <> Some (m_name m)) t2 /\ ~ In (m_name m) (names (map snd r')).
Proof.
  induction l as [|o l IH]; intros r s h s' r' E D t1 m t2 T; cbn [ops] in E.
  - apply pair_equal_spec in E as [E <-]. apply pair_equal_spec in E as [<- _]. now destruct t1.
  - pose proof (one_op_facts o r s) as C. destruct (one_op o r s) as [[h1 s1] r1]. destruct (ops l r1 s1) as [[h2 s2] r2] eqn:E2.
    apply pair_equal_spec in E as [E <-]. apply pair_equal_spec in E as [<- _]. destruct C as (C1 & _ & _ & C4).
    assert (Permutation (given (o :: l) ++ map snd r) (dropped h1 ++ given l ++ map snd r1)) as P.
    { rewrite given_cons, (Permutation_app_comm (given [o])), <- app_assoc, C1. apply Permutation_app_swap_app. }
    apply (Permutation_NoDup (Permutation_map m_name P)) in D. rewrite map_app in D.
    destruct (ops_facts _ _ _ _ _ _ E2) as (I1 & _ & I3).
    assert (H : (exists u, t1 = h1 ++ u /\ h2 = u ++ Dropped m :: t2) \/ (exists u, h1 = t1 ++ Dropped m :: u /\ t2 = u ++ h2)).
    { clear - T. revert t1 T. induction h1 as [|x h1 IH]; intros t1 T; cbn [app] in T; [left; exists t1; auto|].
      destruct t1 as [|y t1]; cbn [app] in T.
      - injection T as -> <-. right. exists h1. auto.
      - injection T as -> T. destruct (IH _ T) as [(u & -> & ->)|(u & -> & ->)]; [left|right]; exists u; auto. }
    destruct H as [(u & -> & ->)|(u & -> & ->)].
    + apply (IH _ _ _ _ _ E2) with (t1 := u); [|reflexivity]. clear - D. induction (map m_name (dropped h1)) as [|x y IH]; cbn [app] in D; [exact D|]. inversion D. auto.
    + rewrite (C4 _ _ _ eq_refl) in *. clear C4. rewrite dropped_app in D. cbn [dropped flat_map app] in D. fold (dropped (S := S)) in D. rewrite map_app, <- app_assoc in D. cbn [map app] in D.
      assert (~ In (m_name m) (names (given l ++ map snd r1))) as N.
      { clear - D. intros X. induction (map m_name (dropped t1)) as [|x y IH]; cbn [app] in D; inversion D; auto. }
      cbn [app]. split.
      * eapply Forall_impl; [|exact I3]. intros e. cbv beta. destruct (who e) as [n|]; [|discriminate]. intros X [= ->]. contradiction.
      * intros X. apply N. apply (Permutation_in _ (Permutation_sym (Permutation_map m_name I1))). rewrite map_app. apply in_or_app. auto.
Qed.

Lemma drop_all_spec : forall x s h s', drop_all x s = (h, s') -> h = map Dropped x.
Proof.
  induction x as [|m x IH]; intros s h s' E; cbn [drop_all] in E; [now injection E as <- _|].
  destruct (drop_all x (m_drop m s)) as [h1 s1] eqn:Q. apply pair_equal_spec in E as [<- _]. cbn [map]. f_equal. eapply IH; eassumption.
Qed.
Lemma dropped_map x : dropped (map (@Dropped S) x) = x.
Proof. induction x as [|m x IH]; [reflexivity|]. cbn [map dropped flat_map app]. f_equal. exact IH. Qed.
Lemma asked_map x : asked (map (@Dropped S) x) = [].
Proof. induction x as [|m x IH]; [reflexivity|exact IH]. Qed.
End State.

(** C129: Whatever communities do and however the state changes: a packet goes to the community that was registered last under the id in it, that is, whose [get_mid] returned this id when it was
    added, whatever it would return now; if there is none, nobody is called and nothing changes. *)
Lemma p_C129_routing :
  forall (S : Type) (l : list (op S)) (s0 : S) h s r (k : list byte) (mt : byte) (rest : list byte) (from : address),
  ops l [] s0 = (h, s, r) -> length k = 20 ->
  let p := Packet (header_layout k mt ++ rest) in
  (forall h1 m h2, h = h1 ++ AskedMid m (Some k) :: h2 -> Forall (fun e => ~ registers k e) h2 ->
     forward_to_member r p from s = member_receive m (spec_header k mt) (start_deserialize p) from s) /\
  (Forall (fun e => ~ registers k e) h -> forward_to_member r p from s = ([], s, Err EUnknownCommunityError)).
Proof.
  intros S l s0 h s r k mt rest from E K p.
  assert (G : forall h : list (happening S), Forall (fun e => ~ registers k e) h -> current k h = None).
  { induction 1 as [|e y N _ IH]; [reflexivity|]. cbn [current]. rewrite IH. destruct e as [m [k'|]| | | |]; try reflexivity.
    destruct (bytes_eqb k k') eqn:Q; [|reflexivity]. apply bytes_eqb_eq in Q. subst k'. contradiction N. now exists m. }
  pose proof (ops_current k l [] s0 h s r E) as L. cbn [lookup] in L.
  assert (F : forward_to_member r p from s = match lookup k r with None => ([], s, Err EUnknownCommunityError) | Some m => member_receive m (spec_header k mt) (start_deserialize p) from s end).
  { unfold forward_to_member, p, start_deserialize. rewrite peek_header_ok by (lia || now apply header_prefix_layout). cbn [Nat.add].
    destruct (header_layout_fields k mt rest K) as [-> ->]. reflexivity. }
  rewrite F, L. split.
  - intros h1 m h2 -> N. rewrite current_app. cbn [current]. now rewrite (G _ N), (beq_refl k).
  - intros N. now rewrite (G _ N).
Qed.

(** C129: The default [receive], for every header: a type of the old protocol is warned of and the state stays as it is; without a type there is an error; otherwise [on_receive] is called with
    the header, packet and sender unchanged, in the state as it is, and what it returns is returned. An impl that overrides [receive] gets everything. *)
Lemma p_C129_receive :
  forall (S : Type) (m : member S) (h : header) (d : deserializer) (from : address) (s : S),
  (m_receive m = None ->
    (h_message_type h = None -> member_receive m h d from s = ([], s, Err EHeaderUnwrapError)) /\
    (forall t name, h_message_type h = Some t -> In (t, name) old_protocol_messages -> member_receive m h d from s = ([WarnedOf name from], s, Ok tt)) /\
    (forall t, h_message_type h = Some t -> ~ In t (map fst old_protocol_messages) ->
       member_receive m h d from s = ([Called m h d from], fst (m_on_receive m h d from s), snd (m_on_receive m h d from s)))) /\
  (forall f, m_receive m = Some f -> member_receive m h d from s = ([Overridden m h d from], fst (f h d from s), snd (f h d from s))).
Proof.
  intros S m h d from s. split.
  - intros N. destruct (p_C44_every_header (frozen m s) h d from) as (A & B & C). unfold member_receive. rewrite N. split; [|split].
    + intros T. now rewrite (A T).
    + intros t name T I. now rewrite (B t name T I).
    + intros t T I. now rewrite (C t T I).
  - intros f F. unfold member_receive. rewrite F. now destruct (f h d from s).
Qed.

(** C129: Forwarding a packet, whatever its bytes: user code runs at most once, namely that of one registered community, in the state as it is, and the caller gets what it returned; if none
    runs, nothing changes; no panic comes from the registry itself. *)
Lemma p_C129_one_call :
  forall (S : Type) (r : @roster S) (p : packet) (from : address) (s : S),
  let '(h, s', o) := forward_to_member r p from s in
  (h = [] /\ s' = s /\ exists e, o = Err e) \/
  (exists w, h = [WarnedOf w from] /\ s' = s /\ o = Ok tt) \/
  (exists m hd, In m (map snd r) /\
     ((m_receive m = None /\ h = [Called m hd (start_deserialize p) from] /\ (s', o) = m_on_receive m hd (start_deserialize p) from s) \/
      (exists f, m_receive m = Some f /\ h = [Overridden m hd (start_deserialize p) from] /\ (s', o) = f hd (start_deserialize p) from s))).
Proof.
  intros S r p from s. apply forward_cases. Qed.

(** C129: [add_community] succeeds unless [get_mid] panics; then the panic is passed on, the registry stays as it was and the community is dropped. *)
Lemma p_C129_add :
  forall (S : Type) (r : @roster S) (item : member S) (s : S),
  (snd (m_get_mid item s) <> None -> snd (add_member r item s) = Ok tt) /\
  (snd (m_get_mid item s) = None ->
     exists p, add_member r item s = ([AskedMid item None; Dropped item], m_drop item (fst (m_get_mid item s)), r, Panic p)).
Proof.
  intros S r item s. unfold add_member. destruct (m_get_mid item s) as [s1 [mid|]]; cbn [fst snd].
  - split; [|discriminate]. intros _. now destruct (insert mid item r) as [r1 [old|]].
  - split; [congruence|]. eauto.
Qed.

(** C129: [get_mid] is called once for every community given to the registry, in that order, and never again. *)
Lemma p_C129_asked_once :
  forall (S : Type) (l : list (op S)) (s0 : S) h s, lifetime l s0 h s -> asked h = given l.
Proof.
  intros S l s0 h s [l' s0' h1 s1 r order h2 s2 E P D]. rewrite asked_app. apply drop_all_spec in D. subst h2. rewrite asked_map, app_nil_r.
  exact (proj1 (proj2 (ops_facts _ _ _ _ _ _ E))).
Qed.

(** C129: Every community given to the registry is dropped exactly once by the end of the registry (when it is replaced, when its own [get_mid] panics, or then), and no other. Before the end,
    those not dropped are exactly the registered ones. *)
Lemma p_C129_dropped_once :
  forall (S : Type) (l : list (op S)) (s0 : S),
  (forall h s, lifetime l s0 h s -> Permutation (dropped h) (given l)) /\
  (forall h s r, ops l [] s0 = (h, s, r) -> Permutation (given l) (dropped h ++ map snd r)).
Proof.
  intros S l s0.
  assert (X : forall h s r, ops l [] s0 = (h, s, r) -> Permutation (given l) (dropped h ++ map snd r)).
  { intros h s r E. pose proof (proj1 (ops_facts _ _ _ _ _ _ E)) as P. cbn [map] in P. now rewrite app_nil_r in P. }
  split; [|exact X]. intros h s L. destruct L as [l' s0' h1 s1 r order h2 s2 E P D]. apply drop_all_spec in D. subst h2.
  rewrite dropped_app, dropped_map, P. symmetry. now apply (X _ _ _ E).
Qed.

(** C129: No code of a community runs after it has been dropped. *)
Lemma p_C129_silent_after_drop :
  forall (S : Type) (l : list (op S)) (s0 : S) h s,
  NoDup (map m_name (given l)) -> lifetime l s0 h s ->
  forall before m after, h = before ++ Dropped m :: after -> Forall (fun e => who e <> Some (m_name m)) after.
Proof.
  intros S l s0 h s N L before m after. destruct L as [l' s0' h1 s1 r order h2 s2 E P D]. apply drop_all_spec in D. subst h2. intros T.
  assert (N' : NoDup (names (given l' ++ map snd ([] : @roster S)))) by (cbn [map]; now rewrite app_nil_r).
  pose proof (ops_gone _ _ _ _ _ _ E N') as G. pose proof (ops_facts _ _ _ _ _ _ E) as (F1 & _ & _). cbn [map] in F1. rewrite app_nil_r in F1.
  assert (H : (exists u, before = h1 ++ u /\ map Dropped order = u ++ Dropped m :: after) \/ (exists u, h1 = before ++ Dropped m :: u /\ after = u ++ map Dropped order)).
  { clear - T. revert before T. induction h1 as [|x h1 IH]; intros t1 T; cbn [app] in T; [left; exists t1; auto|].
    destruct t1 as [|y t1]; cbn [app] in T.
    - injection T as -> <-. right. exists h1. auto.
    - injection T as -> T. destruct (IH _ T) as [(u & -> & ->)|(u & -> & ->)]; [left|right]; exists u; auto. }
  destruct H as [(u & -> & O)|(u & -> & ->)].
  - assert (NoDup (map m_name order)) as NO.
    { apply (Permutation_NoDup (Permutation_map m_name F1)) in N. rewrite map_app in N.
      apply (Permutation_NoDup (Permutation_map m_name (Permutation_sym P))). clear - N. induction (map m_name (dropped h1)); cbn [app] in N; [exact N|]. inversion N; auto. }
    clear - O NO. revert u O NO. induction order as [|x order IH]; intros u O NO; cbn [map] in O; [now destruct u|].
    inversion NO as [|? ? X1 X2]; subst. destruct u as [|y u]; cbn [app] in O.
    + injection O as -> <-. clear - X1. apply Forall_forall. intros e I. apply in_map_iff in I as (x & <- & I). cbn [who]. intros [= Q]. apply X1. rewrite <- Q. now apply in_map.
    + injection O as _ O. eapply IH; eassumption.
  - destruct (G _ _ _ eq_refl) as [G1 G2]. apply Forall_app. split; [exact G1|].
    apply Forall_forall. intros e I. apply in_map_iff in I as (x & <- & I). cbn [who]. intros [= Q]. apply G2. rewrite <- Q. unfold names. apply in_map.
    apply (Permutation_in _ P). exact I.
Qed.

Lemma stateless_roster cs : forall s, exists h s', ops (map (fun c => Add (stateless c)) cs) [] s = (h, s', map (fun x => (fst x, stateless (snd x))) (registered cs)).
Proof.
  assert (I : forall k c r, fst (insert k (stateless c) (map (fun x => (fst x, stateless (snd x))) r)) = map (fun x => (fst x, stateless (snd x))) (map_insert k c r)).
  { intros k c. induction r as [|[k' c'] r IH]; [reflexivity|]. cbn [map insert map_insert fst snd]. destruct (bytes_eqb k k'); [reflexivity|].
    destruct (insert k (stateless c) (map (fun x => (fst x, stateless (snd x))) r)) as [r1 o]. cbn [fst] in IH |- *. cbn [map fst snd]. now rewrite IH. }
  assert (G : forall cs r s, exists h s', ops (map (fun c => Add (stateless c)) cs) (map (fun x => (fst x, stateless (snd x))) r) s =
     (h, s', map (fun x => (fst x, stateless (snd x))) (fold_left (fun r c => fst (add_community r c)) cs r))).
  { clear cs. induction cs as [|c cs IH]; intros r s; cbn [map ops fold_left]; [eauto|].
    cbn [one_op]. unfold add_member. change (m_get_mid (stateless c) s) with (s, Some (c_mid c)). cbv iota. specialize (I (c_mid c) c r).
    destruct (insert (c_mid c) (stateless c) (map (fun x => (fst x, stateless (snd x))) r)) as [r1 [old|]]; cbn [fst] in I |- *; subst r1.
    - destruct (IH (map_insert (c_mid c) c r) (m_drop old s)) as (h & s' & ->). unfold add_community. cbn [fst]. eauto.
    - destruct (IH (map_insert (c_mid c) c r) s) as (h & s' & ->). unfold add_community. cbn [fst]. eauto. }
  intros s. exact (G cs [] s).
Qed.

(** C129: Communities without state that do not override [receive] behave as in C41 to C47. *)
Lemma p_C129_stateless :
  forall (cs : list community) (p : packet) (from : address) h s r,
  ops (map (fun c => Add (stateless c)) cs) [] tt = (h, s, r) ->
  let '(h', s', o) := forward_to_member r p from s in
  (flat_map as_effect h', o) = forward_message (registered cs) p from.
Proof.
  intros cs p from h s r E. destruct (stateless_roster cs tt) as (h0 & s0 & E0). rewrite E in E0. apply pair_equal_spec in E0 as [_ ->].
  unfold forward_to_member, forward_message. cbv zeta. destruct (peek_header (start_deserialize p)) as [hd|e|q]; try reflexivity.
  destruct (h_mid_hash hd) as [k|]; [|reflexivity].
  assert (L : lookup k (map (fun x => (fst x, stateless (snd x))) (registered cs)) = option_map stateless (map_get k (registered cs))).
  { clear E. induction (registered cs) as [|[k' c'] r' IH]; [reflexivity|]. cbn [map lookup map_get fst snd]. destruct (bytes_eqb k k'); [reflexivity|exact IH]. }
  rewrite L. destruct (map_get k (registered cs)) as [c|]; [|reflexivity]. cbn [option_map].
  unfold member_receive. cbn [stateless m_receive]. change (receive (frozen (stateless c) s) hd (start_deserialize p) from) with
    (receive {| c_tag := c_tag c; c_mid := []; c_on_receive := c_on_receive c |} hd (start_deserialize p) from).
  replace (receive c hd (start_deserialize p) from) with (receive {| c_tag := c_tag c; c_mid := []; c_on_receive := c_on_receive c |} hd (start_deserialize p) from).
  2: { destruct (h_message_type hd) as [t|] eqn:T; [|unfold receive; now rewrite T]. unfold receive, on_receive. reflexivity. }
  destruct (h_message_type hd) as [t|] eqn:T; [|unfold receive; now rewrite T].
  rewrite (receive_spec _ hd _ from t T). destruct (deprecated t) eqn:D; [|reflexivity].
  destruct (receive_warned {| c_tag := c_tag c; c_mid := []; c_on_receive := c_on_receive c |} hd (start_deserialize p) from t T D) as [w ->]. reflexivity.
Qed.

(** Examples: the state counts messages. The first community changes its id with the state, the second counts every message and fails from the second message on, the third overrides [receive]. *)
Definition id_of (x : byte) : list byte := repeat x 20.
Definition ex_first : member nat :=
  {| m_name := 1; m_get_mid := fun s => (s, Some (id_of (if s =? 0 then x01 else x02))); m_on_receive := fun _ _ _ s => (s, Ok tt); m_receive := None; m_drop := fun s => s + 100 |}.
Definition ex_second : member nat :=
  {| m_name := 2; m_get_mid := fun s => (s, Some (id_of x02)); m_on_receive := fun _ _ _ s => (s + 1, if s =? 0 then Ok tt else Err EUnknownCommunityError); m_receive := None; m_drop := fun s => s |}.
Definition ex_third : member nat :=
  {| m_name := 3; m_get_mid := fun s => (s, Some (id_of x01)); m_on_receive := fun _ _ _ s => (s, Ok tt); m_receive := Some (fun _ _ _ s => (s + 10, Ok tt)); m_drop := fun s => s |}.
Definition ex_broken : member nat :=
  {| m_name := 4; m_get_mid := fun s => (s, None); m_on_receive := fun _ _ _ s => (s, Ok tt); m_receive := None; m_drop := fun s => s |}.
Definition ex_to (x mt : byte) : packet := Packet (header_layout (id_of x) mt).
Definition ex_from : address := V4 x7f x00 x00 x01 80%N.
Definition ex_program : list (op nat) :=
  [Add ex_first; Add ex_second; Forward (ex_to x02 x2a) ex_from; Forward (ex_to x01 x2a) ex_from; Add ex_broken; Forward (ex_to x02 xff) ex_from; Add ex_third; Forward (ex_to x01 xff) ex_from].
(** The message for the id 02 02 .. goes to the second, although the first would now say that this is its id; one of the old protocol is warned of for the second, but gets to the third, which
    overrides [receive]; the first is dropped when it is replaced, the one with the panic when it panics. *)
Example ex_C129_program :
  exists h s, lifetime ex_program 0 h s /\ NoDup (map m_name (given ex_program)) /\
    map who h = [Some 1; Some 2; Some 2; Some 1; Some 4; Some 4; None; Some 3; Some 1; Some 3; Some 3; Some 2] /\
    map m_name (dropped h) = [4; 1; 3; 2] /\ s = 111.
Proof.
  eexists _, _. split; [eapply life with (order := [ex_third; ex_second]); [vm_compute; reflexivity|vm_compute; apply Permutation_refl|vm_compute; reflexivity]|].
  split; [repeat constructor; cbn; intuition discriminate|]. vm_compute. repeat split.
Qed.
