(** * NetworkProofs: C48-C53, C60-C63 *)
From Verif Require Import Base Codec Network NetSpec.
Open Scope nat_scope.

Lemma arrivals_app a b : arrivals (a ++ b) = arrivals a ++ arrivals b.
Proof. induction a as [|l a IH]; [reflexivity|]. destruct l; cbn; try exact IH; now rewrite IH. Qed.
Lemma recvs_app a b : recvs (a ++ b) = recvs a + recvs b.
Proof. induction a as [|l a IH]; [reflexivity|]. destruct l; cbn; try exact IH; now rewrite IH. Qed.
Lemma calls_app r a b : calls r (a ++ b) = calls r a ++ calls r b.
Proof. induction a as [|l a IH]; [reflexivity|]. destruct l; cbn; try exact IH; destruct (_ =? _); cbn; now rewrite IH. Qed.
Lemma returns_app r a b : returns r (a ++ b) = returns r a + returns r b.
Proof. induction a as [|l a IH]; [reflexivity|]. destruct l; cbn; try exact IH; rewrite IH; lia. Qed.
Lemma panics_app r a b : panics r (a ++ b) = panics r a + panics r b.
Proof. induction a as [|l a IH]; [reflexivity|]. destruct l; cbn; try exact IH; rewrite IH; lia. Qed.

(** ** The invariant *)
Definition countn (r : nat) (l : list nat) : nat := count_occ Nat.eq_dec l r.

Lemma countn_app r a b : countn r (a ++ b) = countn r a + countn r b.
Proof. apply count_occ_app. Qed.
Lemma countn_seq r n : countn r (seq 0 n) = if r <? n then 1 else 0.
Proof.
  unfold countn. destruct (Nat.ltb_spec r n) as [H|H].
  - apply NoDup_count_occ'; [apply seq_NoDup|]. apply in_seq. lia.
  - apply count_occ_not_In. rewrite in_seq. lia.
Qed.
Lemma countn_cons r x l : countn r (x :: l) = (if Nat.eqb r x then 1 else 0) + countn r l.
Proof.
  unfold countn. cbn [count_occ]. destruct (Nat.eq_dec x r) as [->|N].
  - now rewrite Nat.eqb_refl.
  - replace (r =? x) with false by (symmetry; apply Nat.eqb_neq; congruence). reflexivity.
Qed.

(** What each receiver has seen, [done] being the packets completely dealt with. *)
Definition delivered (c : net_config) (tr : list label) (done : list (list byte * address)) : Prop :=
  forall r, (r < nc_receivers c -> calls r tr = done /\ returns r tr = length done /\ panics r tr = 0) /\
            (nc_receivers c <= r -> calls r tr = [] /\ returns r tr = 0 /\ panics r tr = 0).

Definition inv_pc (c : net_config) (q0 : list datagram) (tr : list label) (s : net_state) : Prop :=
  let got := map (packet_of c) (received q0 tr) in
  match ns_pc s with
  | Polling => delivered c tr got
  | Handling k => delivered c tr got
  | Stopped (StoppedByError _) => delivered c tr got
  | Dispatching k pkt src pending running pan =>
      exists done, got = done ++ [(pkt, src)] /\
        (forall r, nc_receivers c <= r -> calls r tr = [] /\ returns r tr = 0 /\ panics r tr = 0) /\
        (forall r, countn r (pending ++ running) <= (if r <? nc_receivers c then 1 else 0)) /\
        (forall r, r < nc_receivers c ->
           calls r tr = done ++ (if countn r pending =? 0 then [(pkt, src)] else []) /\
           returns r tr + panics r tr + countn r (pending ++ running) = S (length done) /\
           length done <= returns r tr <= length (calls r tr)) /\
        (pan = false -> forall r, panics r tr = 0)
  | Stopped StoppedByPanic =>
      exists done x, got = done ++ [x] /\
        (forall r, nc_receivers c <= r -> calls r tr = [] /\ returns r tr = 0 /\ panics r tr = 0) /\
        forall r, r < nc_receivers c ->
          (calls r tr = done \/ calls r tr = done ++ [x]) /\ length done <= returns r tr <= length (calls r tr) /\
          returns r tr + panics r tr = length (calls r tr)
  end.

Record inv (c : net_config) (q0 : list datagram) (tr : list label) (s : net_state) : Prop := {
  i_queue : q0 ++ arrivals tr = received q0 tr ++ ns_queue s;
  i_count : length (received q0 tr) = recvs tr;
  i_buffer : length (ns_buffer s) = nc_buffersize c;
  i_pc : inv_pc c q0 tr s }.

Lemma recv_into_ok data buffer :
  let '(b, n) := recv_into data buffer in
  length b = length buffer /\ firstn n b = firstn (length buffer) data.
Proof.
  unfold recv_into. split.
  - rewrite app_length, firstn_length, skipn_length. lia.
  - rewrite firstn_app, firstn_firstn, firstn_length.
    replace (Nat.min (length data) (length buffer) - _) with 0 by lia. rewrite firstn_O, app_nil_r.
    destruct (Nat.le_ge_cases (length data) (length buffer)).
    + rewrite !firstn_all2 by lia. reflexivity.
    + f_equal. lia.
Qed.

(** labels that are neither arrivals nor receptions leave those observations alone *)
Lemma received_other q0 tr l :
  arrivals [l] = [] -> recvs [l] = 0 -> received q0 (tr ++ [l]) = received q0 tr.
Proof.
  intros A R. unfold received. now rewrite arrivals_app, recvs_app, A, R, app_nil_r, Nat.add_0_r.
Qed.
Lemma delivered_other c tr l done :
  (forall r, calls r [l] = []) -> (forall r, returns r [l] = 0) -> (forall r, panics r [l] = 0) ->
  delivered c tr done -> delivered c (tr ++ [l]) done.
Proof.
  intros C R P H r. rewrite calls_app, returns_app, panics_app, C, R, P, app_nil_r, !Nat.add_0_r. apply H.
Qed.

Ltac other_label tr l :=
  rewrite ?(received_other _ tr l) in * by reflexivity.

Lemma inv_step c q0 tr s l s' : inv c q0 tr s -> step c s l s' -> inv c q0 (tr ++ [l]) s'.
Proof.
  intros [Q N B P] S. inversion S; subst; clear S.
  - (* arrive *)
    assert (RA : received q0 (tr ++ [LArrive d]) = received q0 tr).
    { unfold received. rewrite arrivals_app, recvs_app, app_assoc. cbn [recvs arrivals]. rewrite Nat.add_0_r.
      rewrite firstn_app. replace (recvs tr - length (q0 ++ arrivals tr)) with 0; [now rewrite firstn_O, app_nil_r|].
      rewrite Q, app_length, N. lia. }
    constructor; cbn [ns_queue ns_edge ns_buffer ns_pc].
    + rewrite RA, arrivals_app, app_assoc, Q, app_assoc. reflexivity.
    + rewrite RA, N, recvs_app. cbn. lia.
    + exact B.
    + unfold inv_pc in *. rewrite RA. cbn [ns_pc].
      assert (EC : forall r, calls r (tr ++ [LArrive d]) = calls r tr) by (intros; rewrite calls_app; apply app_nil_r).
      assert (ER : forall r, returns r (tr ++ [LArrive d]) = returns r tr) by (intros; rewrite returns_app; apply Nat.add_0_r).
      assert (EP : forall r, panics r (tr ++ [LArrive d]) = panics r tr) by (intros; rewrite panics_app; apply Nat.add_0_r).
      destruct (ns_pc s) as [|k|k pkt src pe ru pan|[e|]].
      1,2,4: apply delivered_other; auto.
      * destruct P as (done & G & Hbig & H1 & H2 & H3). exists done. repeat split; auto.
        all: try (intros; rewrite EC, ER, EP; now apply Hbig).
        all: try (rewrite ?EC, ?ER, ?EP; now apply Hbig).
        all: try (rewrite ?EC, ?ER, ?EP; now apply H2).
        intros E r. rewrite EP. now apply H3.
      * destruct P as (done & x & G & Hbig & H2). exists done, x. repeat split; auto.
        all: rewrite ?EC, ?ER, ?EP; try (now apply Hbig); now apply H2.
  - (* poll ready *)
    constructor; other_label tr (LPoll 1); cbn [ns_queue ns_buffer ns_pc]; auto.
    + rewrite arrivals_app. cbn. rewrite app_nil_r. exact Q.
    + rewrite recvs_app. cbn. lia.
    + unfold inv_pc in *. other_label tr (LPoll 1). cbn [ns_pc]. rewrite H in P. apply delivered_other; auto.
  - (* poll timeout *)
    constructor; other_label tr (LPoll 0); cbn [set_pc ns_queue ns_buffer ns_pc]; auto.
    + rewrite arrivals_app. cbn. rewrite app_nil_r. exact Q.
    + rewrite recvs_app. cbn. lia.
    + unfold inv_pc in *. other_label tr (LPoll 0). cbn [set_pc ns_pc]. rewrite H in P. apply delivered_other; auto.
  - (* poll error *)
    constructor; other_label tr (LPollError e); cbn [set_pc ns_queue ns_buffer ns_pc]; auto.
    + rewrite arrivals_app. cbn. rewrite app_nil_r. exact Q.
    + rewrite recvs_app. cbn. lia.
    + unfold inv_pc in *. other_label tr (LPollError e). cbn [set_pc ns_pc]. rewrite H in P. apply delivered_other; auto.
  - (* next *)
    constructor; other_label tr LNext; cbn [set_pc ns_queue ns_buffer ns_pc]; auto.
    + rewrite arrivals_app. cbn. rewrite app_nil_r. exact Q.
    + rewrite recvs_app. cbn. lia.
    + unfold inv_pc in *. other_label tr LNext. cbn [set_pc ns_pc]. rewrite H in P. apply delivered_other; auto.
  - (* recv *)
    destruct (recv_into data (ns_buffer s)) as [buffer n] eqn:RI.
    pose proof (recv_into_ok data (ns_buffer s)) as RO. rewrite RI in RO. destruct RO as [RO1 RO2].
    assert (RA : received q0 (tr ++ [LRecv]) = received q0 tr ++ [(data, src)]).
    { remember (received q0 tr) as g eqn:Eg. unfold received.
      rewrite arrivals_app, recvs_app. cbn [recvs arrivals]. rewrite app_nil_r.
      rewrite Q, H0, <- N.
      replace (length g + 1) with (length (g ++ [(data, src)])) by (rewrite app_length; reflexivity).
      change ((data, src) :: q) with ([(data, src)] ++ q). rewrite app_assoc.
      now rewrite firstn_app, Nat.sub_diag, firstn_all, firstn_O, app_nil_r. }
    constructor; cbn [ns_queue ns_buffer ns_pc].
    + rewrite RA, arrivals_app. cbn [arrivals]. rewrite app_nil_r, Q, H0, <- app_assoc. reflexivity.
    + rewrite RA, app_length, N, recvs_app. reflexivity.
    + congruence.
    + unfold inv_pc in *. rewrite RA. cbn [ns_pc]. rewrite H in P.
      exists (map (packet_of c) (received q0 tr)). rewrite map_app. cbn [map].
      split.
      { unfold packet_of at 2. cbn [fst snd]. now rewrite RO2, B. }
      assert (EC : forall r, calls r (tr ++ [LRecv]) = calls r tr) by (intros; rewrite calls_app; apply app_nil_r).
      assert (ER : forall r, returns r (tr ++ [LRecv]) = returns r tr) by (intros; rewrite returns_app; apply Nat.add_0_r).
      assert (EP : forall r, panics r (tr ++ [LRecv]) = panics r tr) by (intros; rewrite panics_app; apply Nat.add_0_r).
      split; [|split; [|split]].
      * intros r Hr. rewrite EC, ER, EP. exact (proj2 (P r) Hr).
      * intros r. rewrite app_nil_r, countn_seq. lia.
      * intros r Hr. destruct (proj1 (P r) Hr) as (D1 & D2 & D3). rewrite EC, ER, EP, app_nil_r, countn_seq.
        apply Nat.ltb_lt in Hr. rewrite Hr. cbn [Nat.eqb]. rewrite D1, D2, D3, app_nil_r. repeat split; lia.
      * intros _ r. rewrite EP. destruct (Nat.lt_ge_cases r (nc_receivers c)) as [Hr|Hr].
        -- now destruct (proj1 (P r) Hr) as (_ & _ & ?).
        -- now destruct (proj2 (P r) Hr) as (_ & _ & ?).
  - (* would block *)
    constructor; other_label tr (LRecvError EWouldBlock); cbn [set_pc ns_queue ns_buffer ns_pc]; auto.
    + rewrite arrivals_app. cbn. rewrite app_nil_r. exact Q.
    + rewrite recvs_app. cbn. lia.
    + unfold inv_pc in *. other_label tr (LRecvError EWouldBlock). cbn [set_pc ns_pc]. rewrite H in P. apply delivered_other; auto.
  - (* recv error *)
    constructor; other_label tr (LRecvError EIo); cbn [set_pc ns_queue ns_buffer ns_pc]; auto.
    + rewrite arrivals_app. cbn. rewrite app_nil_r. exact Q.
    + rewrite recvs_app. cbn. lia.
    + unfold inv_pc in *. other_label tr (LRecvError EIo). cbn [set_pc ns_pc]. rewrite H in P. apply delivered_other; auto.
  - (* call *)
    constructor; other_label tr (LCall r pkt src); cbn [set_pc ns_queue ns_buffer ns_pc]; auto.
    + rewrite arrivals_app. cbn. rewrite app_nil_r. exact Q.
    + rewrite recvs_app. cbn. lia.
    + unfold inv_pc in *. other_label tr (LCall r pkt src). cbn [set_pc ns_pc]. rewrite H in P.
      destruct P as (done & G & Hbig & H1 & H2 & H3). exists done. split; [exact G|].
      assert (Hr : r < nc_receivers c).
      { specialize (H1 r). rewrite !countn_app, countn_cons, Nat.eqb_refl in H1.
        destruct (Nat.ltb_spec r (nc_receivers c)); [assumption|lia]. }
      split; [|split; [|split]].
      * intros r' Hr'. rewrite calls_app, returns_app, panics_app. cbn [calls returns panics].
        replace (r' =? r) with false by (symmetry; apply Nat.eqb_neq; lia).
        rewrite app_nil_r, !Nat.add_0_r. now apply Hbig.
      * intros r'. specialize (H1 r'). rewrite !countn_app in *. rewrite !countn_cons in *. lia.
      * intros r' Hr'. specialize (H1 r'). specialize (H2 r' Hr').
        apply Nat.ltb_lt in Hr'. rewrite Hr' in H1.
        rewrite calls_app, returns_app, panics_app. cbn [calls returns panics].
        rewrite !countn_app in *. rewrite !countn_cons in *. rewrite !Nat.add_0_r.
        destruct (Nat.eqb_spec r' r) as [Er|Ne]; [rewrite Er in *; clear Er|].
        -- replace (countn r before + (1 + countn r after)) with 1 in H2 by lia.
           replace (countn r before + countn r after) with 0 in * by lia.
           cbn [Nat.eqb] in *. destruct H2 as (-> & X & Y). rewrite app_nil_r in *.
           rewrite app_length in *. cbn [length]. repeat split; lia.
        -- rewrite app_nil_r. cbn [Nat.add] in *. destruct H2 as (X & Y & Z). repeat split; try lia. exact X.
      * intros E r'. rewrite panics_app. cbn [panics]. rewrite Nat.add_0_r. now apply H3.
  - (* return *)
    constructor; other_label tr (LReturn r); cbn [set_pc ns_queue ns_buffer ns_pc]; auto.
    + rewrite arrivals_app. cbn. rewrite app_nil_r. exact Q.
    + rewrite recvs_app. cbn. lia.
    + unfold inv_pc in *. other_label tr (LReturn r). cbn [set_pc ns_pc]. rewrite H in P.
      destruct P as (done & G & Hbig & H1 & H2 & H3). exists done. split; [exact G|].
      assert (Hr : r < nc_receivers c).
      { specialize (H1 r). rewrite !countn_app, countn_cons, Nat.eqb_refl in H1.
        destruct (Nat.ltb_spec r (nc_receivers c)); [assumption|lia]. }
      split; [|split; [|split]].
      * intros r' Hr'. rewrite calls_app, returns_app, panics_app. cbn [calls returns panics].
        replace (r' =? r) with false by (symmetry; apply Nat.eqb_neq; lia).
        rewrite app_nil_r, !Nat.add_0_r. now apply Hbig.
      * intros r'. specialize (H1 r'). rewrite !countn_app in *. rewrite !countn_cons in *. lia.
      * intros r' Hr'. specialize (H1 r'). specialize (H2 r' Hr').
        apply Nat.ltb_lt in Hr'. rewrite Hr' in H1.
        rewrite calls_app, returns_app, panics_app. cbn [calls returns panics].
        rewrite !countn_app in *. rewrite !countn_cons in *. rewrite app_nil_r, !Nat.add_0_r.
        destruct (Nat.eqb_spec r' r) as [Er|Ne]; [rewrite Er in *; clear Er|].
        -- destruct H2 as (X & Y & Z). replace (countn r pending) with 0 in * by lia. cbn [Nat.eqb] in *.
           rewrite X in *. rewrite app_length in *. cbn [length] in *. repeat split; try lia.
        -- cbn [Nat.add] in *. destruct H2 as (X & Y & Z). repeat split; try lia. exact X.
      * intros E r'. rewrite panics_app. cbn [panics]. rewrite Nat.add_0_r. now apply H3.
  - (* panic *)
    constructor; other_label tr (LPanic r); cbn [set_pc ns_queue ns_buffer ns_pc]; auto.
    + rewrite arrivals_app. cbn. rewrite app_nil_r. exact Q.
    + rewrite recvs_app. cbn. lia.
    + unfold inv_pc in *. other_label tr (LPanic r). cbn [set_pc ns_pc]. rewrite H in P.
      destruct P as (done & G & Hbig & H1 & H2 & H3). exists done. split; [exact G|].
      assert (Hr : r < nc_receivers c).
      { specialize (H1 r). rewrite !countn_app, countn_cons, Nat.eqb_refl in H1.
        destruct (Nat.ltb_spec r (nc_receivers c)); [assumption|lia]. }
      split; [|split; [|split]].
      * intros r' Hr'. rewrite calls_app, returns_app, panics_app. cbn [calls returns panics].
        replace (r' =? r) with false by (symmetry; apply Nat.eqb_neq; lia).
        rewrite app_nil_r, !Nat.add_0_r. now apply Hbig.
      * intros r'. specialize (H1 r'). rewrite !countn_app in *. rewrite !countn_cons in *. lia.
      * intros r' Hr'. specialize (H1 r'). specialize (H2 r' Hr').
        apply Nat.ltb_lt in Hr'. rewrite Hr' in H1.
        rewrite calls_app, returns_app, panics_app. cbn [calls returns panics].
        rewrite !countn_app in *. rewrite !countn_cons in *. rewrite app_nil_r, !Nat.add_0_r.
        destruct H2 as (X & Y & Z). split; [exact X|]. destruct (r' =? r); lia.
      * discriminate.
  - (* scope end *)
    constructor; other_label tr LScopeEnd; cbn [set_pc ns_queue ns_buffer ns_pc]; auto.
    + rewrite arrivals_app. cbn. rewrite app_nil_r. exact Q.
    + rewrite recvs_app. cbn. lia.
    + unfold inv_pc in *. other_label tr LScopeEnd. cbn [set_pc ns_pc]. rewrite H in P.
      destruct P as (done & G & Hbig & H1 & H2 & H3).
      apply delivered_other; auto. rewrite G. intros r. split; [|now apply Hbig]. intros Hr.
      specialize (H2 r Hr). specialize (H3 eq_refl r). cbn [app] in H2. unfold countn in H2. cbn [count_occ Nat.eqb] in H2.
      rewrite app_length. cbn [length]. destruct H2 as (X & Y & Z). repeat split; try lia. exact X.
  - (* scope panic *)
    constructor; other_label tr LScopeEnd; cbn [set_pc ns_queue ns_buffer ns_pc]; auto.
    + rewrite arrivals_app. cbn. rewrite app_nil_r. exact Q.
    + rewrite recvs_app. cbn. lia.
    + unfold inv_pc in *. other_label tr LScopeEnd. cbn [set_pc ns_pc]. rewrite H in P.
      destruct P as (done & G & Hbig & H1 & H2 & H3). exists done, (pkt, src). split; [exact G|].
      assert (EC : forall r, calls r (tr ++ [LScopeEnd]) = calls r tr) by (intros; rewrite calls_app; apply app_nil_r).
      assert (ER : forall r, returns r (tr ++ [LScopeEnd]) = returns r tr) by (intros; rewrite returns_app; apply Nat.add_0_r).
      assert (EP : forall r, panics r (tr ++ [LScopeEnd]) = panics r tr) by (intros; rewrite panics_app; apply Nat.add_0_r).
      split.
      { intros r Hr. rewrite EC, ER, EP. now apply Hbig. }
      intros r Hr. rewrite EC, ER, EP. specialize (H2 r Hr). specialize (H1 r).
      rewrite app_nil_r in *. apply Nat.ltb_lt in Hr. rewrite Hr in H1.
      destruct H2 as (X & Y & Z).
      destruct (Nat.eqb_spec (countn r pending) 0) as [E0|E0].
      * rewrite X in *. rewrite app_length in *. cbn [length] in *. split; [now right|lia].
      * rewrite app_nil_r in *. rewrite X in *. split; [now left|lia].
Qed.

Lemma inv_init c q0 : inv c q0 [] (net_init c q0).
Proof.
  constructor.
  - unfold received. cbn. now rewrite app_nil_r.
  - reflexivity.
  - apply repeat_length.
  - unfold inv_pc. cbn. intros r. split; intros _; auto.
Qed.
Lemma inv_run c q0 tr s : run c (net_init c q0) tr s -> inv c q0 tr s.
Proof.
  intros H. remember (net_init c q0) as s0 eqn:E. induction H; subst.
  - apply inv_init.
  - eapply inv_step; [now apply IHrun|eassumption].
Qed.

(** ** Properties *)

(** C48. For every schedule: each receiver is called exactly once per received datagram, in the order of
    reception, with the datagram's bytes (cut to the buffer size) and source. While a datagram is being
    dispatched (or if a receiver panicked on it) that last one may be missing; between
    datagrams nothing is. Nobody else is called. *)
Lemma p_C48_exactly_once_in_order :
  forall (c : net_config) (q0 : list datagram) (tr : list label) (s : net_state) (r : nat),
    run c (net_init c q0) tr s ->
    (r < nc_receivers c ->
       exists missing, map (packet_of c) (received q0 tr) = calls r tr ++ missing /\ length missing <= 1 /\
         (between_datagrams s -> missing = [])) /\
    (nc_receivers c <= r -> calls r tr = []).
Proof.
  intros c q0 tr s r H. apply inv_run in H as [_ _ _ P]. unfold inv_pc in P. unfold between_datagrams.
  destruct (ns_pc s) as [|k|k pkt src pe ru pan|[e|]] eqn:E.
  1,2,4: split; intros Hr; [exists []; rewrite app_nil_r; destruct (proj1 (P r) Hr) as (-> & _); auto
                           |now destruct (proj2 (P r) Hr)].
  - destruct P as (done & G & Hbig & H1 & H2 & H3). split; [|intros Hr; now apply Hbig].
    intros Hr. rewrite G. destruct (H2 r Hr) as (-> & _).
    exists (if countn r pe =? 0 then [] else [(pkt, src)]). rewrite <- app_assoc.
    split; [now destruct (_ =? _)|]. split; [destruct (_ =? _); cbn; lia|]. contradiction.
  - destruct P as (done & x & G & Hbig & H2). split; [|intros Hr; now apply Hbig].
    intros Hr. rewrite G. destruct (H2 r Hr) as ([-> | ->] & _).
    + exists [x]. repeat split; auto. contradiction.
    + exists []. rewrite app_nil_r. repeat split; auto.
Qed.

(** C48, continued: whoever was called comes back: between datagrams each receiver has returned from every
    call, and none has panicked. *)
Lemma p_C48_all_calls_returned :
  forall (c : net_config) (q0 : list datagram) (tr : list label) (s : net_state) (r : nat),
    run c (net_init c q0) tr s -> between_datagrams s ->
    returns r tr = length (calls r tr) /\ panics r tr = 0.
Proof.
  intros c q0 tr s r H. apply inv_run in H as [_ _ _ P]. unfold inv_pc in P. unfold between_datagrams.
  destruct (ns_pc s) as [|k|k pkt src pe ru pan|[e|]] eqn:E; try contradiction.
  all: intros _; destruct (Nat.lt_ge_cases r (nc_receivers c)) as [Hr|Hr];
    [destruct (proj1 (P r) Hr) as (-> & -> & ->)|destruct (proj2 (P r) Hr) as (-> & -> & ->)]; auto.
Qed.

(** C49. Whatever was received into the shared buffer before: the bytes handed to a receiver are those of
    one datagram that arrived, cut to the buffer size, with that datagram's source. *)
Lemma p_C49_no_stale_bytes :
  forall (c : net_config) (q0 : list datagram) (tr : list label) (s : net_state) r pkt src,
    run c (net_init c q0) tr s -> In (LCall r pkt src) tr ->
    exists data, In (data, src) (q0 ++ arrivals tr) /\ pkt = firstn (nc_buffersize c) data /\
      length pkt = Nat.min (length data) (nc_buffersize c).
Proof.
  intros c q0 tr s r pkt src H I.
  assert (C : In (pkt, src) (calls r tr)).
  { apply in_split in I as (a & b & ->). rewrite calls_app. cbn [calls]. rewrite Nat.eqb_refl.
    apply in_or_app. right. now left. }
  pose proof (p_C48_exactly_once_in_order c q0 tr s r H) as [D1 D2].
  destruct (Nat.lt_ge_cases r (nc_receivers c)) as [Hr|Hr]; [|rewrite D2 in C by assumption; contradiction].
  destruct (D1 Hr) as (m & E & _).
  assert (J : In (pkt, src) (map (packet_of c) (received q0 tr))) by (rewrite E; apply in_or_app; now left).
  apply in_map_iff in J as ([data src'] & K & L). unfold packet_of in K. cbn in K.
  assert (src' = src) by congruence. assert (pkt = firstn (nc_buffersize c) data) by congruence. subst.
  exists data. split; [|split; [reflexivity|]].
  - unfold received in L. rewrite <- (firstn_skipn (recvs tr)). apply in_or_app. now left.
  - rewrite firstn_length. apply Nat.min_comm.
Qed.

(** C49, in the common case: a datagram that fits the buffer is delivered unchanged. *)
Lemma p_C49_fitting_datagrams_unchanged :
  forall (c : net_config) (q0 : list datagram) (tr : list label) (s : net_state) r,
    run c (net_init c q0) tr s -> r < nc_receivers c -> between_datagrams s ->
    (forall d, In d (q0 ++ arrivals tr) -> length (fst d) <= nc_buffersize c) ->
    calls r tr = received q0 tr.
Proof.
  intros c q0 tr s r H Hr B F.
  destruct (p_C48_exactly_once_in_order c q0 tr s r H) as [D _]. destruct (D Hr) as (m & E & _ & M).
  rewrite (M B), app_nil_r in E. rewrite <- E. rewrite <- (map_id (received q0 tr)) at 2.
  apply map_ext_in. intros [data src] I. unfold packet_of. cbn.
  rewrite firstn_all2; [reflexivity|].
  apply (F (data, src)). rewrite <- (firstn_skipn (recvs tr)). apply in_or_app. now left.
Qed.

(** Runs: splitting and prefixes. *)
Lemma run_snoc_inv c s tr l s'' : run c s (tr ++ [l]) s'' -> exists s', run c s tr s' /\ step c s' l s''.
Proof.
  intros H. inversion H as [s0 E1 E2|s0 tr' s' l' s3 R S E1 E2].
  - exfalso. destruct tr; discriminate.
  - apply app_inj_tail in E2 as [-> ->]. eauto.
Qed.
Lemma run_app_inv c s a b s'' : run c s (a ++ b) s'' -> exists s', run c s a s' /\ run c s' b s''.
Proof.
  revert s''. induction b as [|l b IH] using rev_ind; intros s''.
  - rewrite app_nil_r. intros H. exists s''. split; [exact H|constructor].
  - rewrite app_assoc. intros H. apply run_snoc_inv in H as (s1 & R & S).
    destruct (IH _ R) as (s2 & R1 & R2). exists s2. split; [exact R1|]. econstructor; eassumption.
Qed.
Lemma run_app c s a s' b s'' : run c s a s' -> run c s' b s'' -> run c s (a ++ b) s''.
Proof.
  intros Ha Hb. induction Hb.
  - now rewrite app_nil_r.
  - rewrite app_assoc. econstructor; eauto.
Qed.
Lemma run_one c s l s' : step c s l s' -> run c s [l] s'.
Proof. intros H. change [l] with ([] ++ [l]). econstructor; [constructor|exact H]. Qed.

(** C50. A barrier between datagrams: when a receiver is called for its datagram number k+1, every
    receiver - itself included - has returned from its calls for the k datagrams before. *)
Lemma p_C50_one_datagram_at_a_time :
  forall (c : net_config) (q0 : list datagram) (tr : list label) (s : net_state) r pkt src,
    run c (net_init c q0) (tr ++ [LCall r pkt src]) s ->
    r < nc_receivers c /\
    returns r tr = length (calls r tr) /\
    forall r', r' < nc_receivers c -> length (calls r tr) <= returns r' tr.
Proof.
  intros c q0 tr s r pkt src H. apply run_snoc_inv in H as (s1 & R & S).
  apply inv_run in R as [_ _ _ P]. inversion S; subst; clear S. unfold inv_pc in P.
  match goal with E : ns_pc _ = _ |- _ => rewrite E in P end.
  destruct P as (done & G & Hbig & H1 & H2 & H3).
  assert (Hr : r < nc_receivers c).
  { specialize (H1 r). rewrite !countn_app, countn_cons, Nat.eqb_refl in H1.
    destruct (Nat.ltb_spec r (nc_receivers c)); [assumption|lia]. }
  destruct (H2 r Hr) as (X & Y & Z).
  assert (C : countn r (before ++ r :: after) =? 0 = false).
  { apply Nat.eqb_neq. rewrite countn_app, countn_cons, Nat.eqb_refl. lia. }
  rewrite C, app_nil_r in X. rewrite X in *. split; [exact Hr|]. split; [lia|].
  intros r' Hr'. now destruct (H2 r' Hr') as (_ & _ & ? & _).
Qed.

(** C50, seen from the socket: the next datagram is not even taken from the socket before all receivers
    have returned from all calls. *)
Lemma p_C50_receive_waits_for_receivers :
  forall (c : net_config) (q0 : list datagram) (tr : list label) (s : net_state),
    run c (net_init c q0) (tr ++ [LRecv]) s ->
    forall r, r < nc_receivers c -> length (calls r tr) = recvs tr /\ returns r tr = recvs tr.
Proof.
  intros c q0 tr s H r Hr. apply run_snoc_inv in H as (s1 & R & S).
  apply inv_run in R as [_ N _ P]. inversion S; subst; clear S. unfold inv_pc in P.
  match goal with E : ns_pc _ = _ |- _ => rewrite E in P end.
  destruct (proj1 (P r) Hr) as (X & Y & _). rewrite X, Y, map_length, N. auto.
Qed.

(** After the listener has stopped only the environment acts. *)
Lemma stopped_run c s tr s' r :
  ns_pc s = Stopped r -> run c s tr s' -> Forall is_arrival tr /\ ns_pc s' = Stopped r.
Proof.
  intros E H. induction H as [s|s tr s1 l s2 R IH S]; [auto|]. destruct (IH E) as [F E1].
  inversion S; subst; try congruence.
  split; [|exact E1]. apply Forall_app. split; [exact F|]. constructor; [exact I|constructor].
Qed.

(** C51. After a failed poll or receive the listener does nothing any more (datagrams pile up in the socket),
    and everything received before the failure has been delivered to every receiver, which has returned. *)
Lemma p_C51_io_error_is_clean :
  forall (c : net_config) (q0 : list datagram) (a b : list label) (l : label) (s : net_state),
    run c (net_init c q0) (a ++ l :: b) s -> is_io_error l ->
    Forall is_arrival b /\
    forall r, r < nc_receivers c ->
      calls r (a ++ l :: b) = map (packet_of c) (received q0 (a ++ l :: b)) /\
      returns r (a ++ l :: b) = length (received q0 (a ++ l :: b)).
Proof.
  intros c q0 a b l s H Hl. pose proof H as H0. change (a ++ l :: b) with (a ++ [l] ++ b) in H. rewrite app_assoc in H.
  apply run_app_inv in H as (s2 & R1 & R2).
  assert (exists e, ns_pc s2 = Stopped (StoppedByError e)) as (e & E).
  { apply run_snoc_inv in R1 as (s1 & _ & S). inversion S; subst; try contradiction; eexists; reflexivity. }
  destruct (stopped_run _ _ _ _ _ E R2) as [F E']. split; [exact F|].
  intros r Hr. apply inv_run in H0 as [_ _ _ P]. unfold inv_pc in P. rewrite E' in P.
  destruct (proj1 (P r) Hr) as (X & Y & _). now rewrite X, Y, map_length.
Qed.

(** While a panic is pending, the dispatch only finishes what it has started. *)
Lemma panicking_run c s tr s' k pkt src pending running :
  ns_pc s = Dispatching k pkt src pending running true -> run c s tr s' ->
  recvs tr = 0 /\ readies tr = 0 /\ timeouts tr = 0 /\ Forall (fun l => ~ is_io_error l) tr /\
  ((exists pending' running', ns_pc s' = Dispatching k pkt src pending' running' true)
   \/ ns_pc s' = Stopped StoppedByPanic) /\
  forall r x y, In (LCall r x y) tr -> (x, y) = (pkt, src).
Proof.
  intros E H. induction H as [s|s tr s1 l s2 R IH S].
  - repeat split; auto. + left. eauto. + contradiction.
  - destruct (IH E) as (A & B & T & C & D & F). clear IH.
    assert (RR : recvs [l] = 0 /\ readies [l] = 0 /\ timeouts [l] = 0 /\ ~ is_io_error l /\
      ((exists pending' running', ns_pc s2 = Dispatching k pkt src pending' running' true)
       \/ ns_pc s2 = Stopped StoppedByPanic) /\ forall r x y, LCall r x y = l -> (x, y) = (pkt, src)).
    { destruct D as [(pe & ru & D)|D].
      - inversion S; subst; try congruence.
        all: try match goal with H1 : ns_pc _ = _ |- _ => tryif constr_eq H1 D then fail else rewrite H1 in D end.
        all: cbn [recvs readies timeouts set_pc ns_pc is_io_error].
        + repeat split; auto. left; eauto. intros; discriminate.
        + injection D; intros; subst; clear D. repeat split; auto. left; eauto. intros. congruence.
        + injection D; intros; subst; clear D. repeat split; auto. left; eauto. intros; discriminate.
        + injection D; intros; subst; clear D. repeat split; auto. left; eauto. intros; discriminate.
        + repeat split; auto. intros; discriminate.
      - inversion S; subst; try congruence.
        cbn [recvs readies timeouts set_pc ns_pc is_io_error]. repeat split; auto. intros; discriminate. }
    destruct RR as (A' & B' & T' & C' & D' & F').
    assert (RE : forall a b, readies (a ++ b) = readies a + readies b).
    { clear. intros a b. induction a as [|l a IH]; [reflexivity|]. destruct l; cbn; try exact IH.
      destruct events; cbn; rewrite ?IH; lia. }
    assert (TE : forall a b, timeouts (a ++ b) = timeouts a + timeouts b).
    { clear. intros a b. induction a as [|l a IH]; [reflexivity|]. destruct l; cbn; try exact IH.
      destruct events; cbn; rewrite ?IH; lia. }
    rewrite recvs_app, RE, TE, A, B, T, A', B', T'. repeat split; auto.
    + apply Forall_app. split; [exact C|]. constructor; [exact C'|constructor].
    + intros r x y I. apply in_app_or in I as [I|[I|[]]]; [now apply F in I|]. eapply F'. symmetry. exact I.
Qed.

(** C51, panics: after a receiver panicked on a datagram, the listener neither polls nor receives again; each
    receiver is called at most once more, for that same datagram; and once the dispatch ends nothing
    happens any more. *)
Lemma p_C51_panic_is_final :
  forall (c : net_config) (q0 : list datagram) (a b : list label) (r : nat) (s : net_state),
    run c (net_init c q0) (a ++ LPanic r :: b) s ->
    recvs b = 0 /\ readies b = 0 /\ timeouts b = 0 /\ Forall (fun l => ~ is_io_error l) b /\
    (forall r', length (calls r' (a ++ LPanic r :: b)) <= recvs a) /\
    (forall b1 b2, b = b1 ++ LScopeEnd :: b2 -> Forall is_arrival b2).
Proof.
  intros c q0 a b r s H. pose proof H as H0. change (a ++ LPanic r :: b) with (a ++ [LPanic r] ++ b) in H.
  rewrite app_assoc in H. apply run_app_inv in H as (s2 & R1 & R2).
  assert (exists k pkt src pe ru, ns_pc s2 = Dispatching k pkt src pe ru true) as (k & pkt & src & pe & ru & E).
  { apply run_snoc_inv in R1 as (s1 & _ & S). inversion S; subst. cbn. eauto 8. }
  destruct (panicking_run _ _ _ _ _ _ _ _ _ E R2) as (A & B & T & C & D & F).
  split; [exact A|]. split; [exact B|]. split; [exact T|]. split; [exact C|]. split.
  - intros r'. destruct (p_C48_exactly_once_in_order c q0 _ s r' H0) as [D1 D2].
    destruct (Nat.lt_ge_cases r' (nc_receivers c)) as [Hr|Hr]; [|rewrite D2 by assumption; cbn; lia].
    destruct (D1 Hr) as (m & E1 & _). apply (f_equal (@length _)) in E1.
    rewrite map_length, app_length in E1.
    assert (L : length (received q0 (a ++ LPanic r :: b)) <= recvs a).
    { unfold received. rewrite firstn_length, recvs_app. cbn [recvs]. rewrite A. lia. }
    lia.
  - intros b1 b2 ->. change (b1 ++ LScopeEnd :: b2) with (b1 ++ [LScopeEnd] ++ b2) in R2.
    rewrite app_assoc in R2. apply run_app_inv in R2 as (s3 & R2 & R3).
    apply run_snoc_inv in R2 as (s4 & R2 & S).
    destruct (panicking_run _ _ _ _ _ _ _ _ _ E R2) as (_ & _ & _ & _ & [(pe' & ru' & D')|D'] & _);
      inversion S; subst; try congruence.
    refine (proj1 (stopped_run _ _ _ _ _ _ R3)). reflexivity.
Qed.

Lemma readies_app a b : readies (a ++ b) = readies a + readies b.
Proof.
  induction a as [|l a IH]; [reflexivity|]. destruct l; cbn; try exact IH.
  destruct events; cbn; rewrite ?IH; lia.
Qed.
Lemma timeouts_app a b : timeouts (a ++ b) = timeouts a + timeouts b.
Proof.
  induction a as [|l a IH]; [reflexivity|]. destruct l; cbn; try exact IH.
  destruct events; cbn; rewrite ?IH; lia.
Qed.

(** ** Events and the queue *)
Definition events_left (s : net_state) : nat :=
  match ns_pc s with Handling k => k | Dispatching k _ _ _ _ _ => k | _ => 0 end.
Definition edge_count (s : net_state) : nat := if ns_edge s then 1 else 0.
(** datagrams in the socket that no reported or pending event accounts for *)
Definition backlog (s : net_state) : nat := length (ns_queue s) - (edge_count s + events_left s).

Lemma backlog_step c s l s' :
  edge_count s + events_left s <= length (ns_queue s) -> step c s l s' ->
  edge_count s' + events_left s' <= length (ns_queue s') /\
  (~ stopped s' -> backlog s <= backlog s') /\ length (ns_queue s) <= length (ns_queue s') + recvs [l].
Proof.
  intros H S. inversion S; subst; clear S; unfold backlog, edge_count, events_left in *;
    cbn [set_pc ns_queue ns_edge ns_pc recvs] in *; rewrite ?app_length; cbn [length];
    repeat match goal with E : ns_pc _ = _ |- _ => rewrite E in *
           | E : ns_edge _ = _ |- _ => rewrite E in *
           | E : ns_queue _ = _ |- _ => rewrite E in * end.
  all: try (match goal with |- context [recv_into ?a ?b] => destruct (recv_into a b) end);
    cbn [set_pc ns_queue ns_edge ns_pc length] in *; destruct (ns_edge s); cbn in *; repeat split; try lia.
Qed.

Lemma events_le_queue c q0 tr s :
  run c (net_init c q0) tr s -> edge_count s + events_left s <= length (ns_queue s).
Proof.
  intros H. remember (net_init c q0) as s0 eqn:E. induction H; subst.
  - unfold edge_count, events_left. cbn. destruct q0; cbn; lia.
  - eapply backlog_step; [now apply IHrun|eassumption].
Qed.

(** C60. A receive never finds the socket empty, so the listener never stops because of [WouldBlock]. *)
Lemma p_C60_receive_never_finds_empty :
  forall (c : net_config) (q0 : list datagram) (tr : list label) (s : net_state),
    run c (net_init c q0) tr s -> ~ In (LRecvError EWouldBlock) tr.
Proof.
  intros c q0 tr s H I. apply in_split in I as (a & b & ->).
  change (a ++ LRecvError EWouldBlock :: b) with (a ++ [LRecvError EWouldBlock] ++ b) in H.
  rewrite app_assoc in H. apply run_app_inv in H as (s2 & R & _). apply run_snoc_inv in R as (s1 & R & S).
  apply events_le_queue in R. inversion S; subst. unfold events_left in R.
  repeat match goal with E : _ = _ |- _ => rewrite E in R; clear E end. cbn in R. lia.
Qed.

(** The receivers of a dispatch can always be run to completion. *)
Lemma run_cons c s l s1 tr s2 : step c s l s1 -> run c s1 tr s2 -> run c s (l :: tr) s2.
Proof. intros H R. change (l :: tr) with ([l] ++ tr). eapply run_app; [apply run_one, H|exact R]. Qed.

Fixpoint serve (pkt : list byte) (src : address) (l : list nat) : list label :=
  match l with [] => [LScopeEnd] | r :: l => LCall r pkt src :: LReturn r :: serve pkt src l end.

Lemma dispatch_run c k pkt src pending : forall s,
  ns_pc s = Dispatching k pkt src pending [] false ->
  run c s (serve pkt src pending) (set_pc s (Handling k)).
Proof.
  induction pending as [|r l IH]; intros s E; cbn [serve].
  - apply run_one. eapply step_scope_end; exact E.
  - eapply run_cons; [eapply (step_call c s k pkt src [] r l); exact E|].
    eapply run_cons; [eapply (step_return c _ k pkt src l [] r []); reflexivity|].
    cbn [app]. apply (IH (set_pc (set_pc s (Dispatching k pkt src l [r] false)) (Dispatching k pkt src l [] false))).
    reflexivity.
Qed.
Lemma serve_plain pkt src l :
  arrivals (serve pkt src l) = [] /\ recvs (serve pkt src l) = 0 /\
  Forall (fun x => ~ is_failure x) (serve pkt src l).
Proof.
  induction l as [|r l (A & B & C)]; cbn; [|rewrite A, B]; repeat split; repeat constructor; cbn; tauto || auto.
Qed.

Lemma idle_run c s tr s' :
  ns_pc s = Polling \/ ns_pc s = Handling 0 -> ns_edge s = false -> run c s tr s' -> arrivals tr = [] ->
  recvs tr = 0 /\ ns_queue s' = ns_queue s /\
  ((ns_pc s' = Polling \/ ns_pc s' = Handling 0) /\ ns_edge s' = false \/ stopped s').
Proof.
  intros P E H. induction H as [s|s tr s1 l s2 R IH S]; intros A; [auto|].
  rewrite arrivals_app in A. apply app_eq_nil in A as [A1 A2].
  destruct (IH P E A1) as (B & Q & D). rewrite recvs_app, B, <- Q. clear IH.
  inversion S; subst; try discriminate; cbn [recvs set_pc ns_queue ns_pc ns_edge]; unfold stopped in *;
    cbn [set_pc ns_pc] in *.
  all: destruct D as [[D D']|[rr D]]; [destruct D as [D|D]|]; try congruence; auto.
  all: repeat split; auto; right; eauto.
Qed.

(** C52 (refuted). Two datagrams that arrive before the listener polls: it receives one of them and goes back to
    poll with the other one in the socket; from then on, as long as no new datagram arrives, it receives
    nothing, whatever happens, for every configuration, timeouts included, and no failure is involved. *)
Lemma p_C52_refuted_stranding :
  forall (c : net_config) (d1 d2 : datagram),
    exists (tr : list label) (s : net_state),
      run c (net_init c []) tr s /\ arrivals tr = [d1; d2] /\ Forall (fun l => ~ is_failure l) tr /\
      recvs tr = 1 /\ ns_queue s = [d2] /\ idle s /\
      forall tr' s', run c s tr' s' -> arrivals tr' = [] -> recvs tr' = 0 /\ ns_queue s' = [d2].
Proof.
  intros c [data src] d2.
  destruct (recv_into data (repeat x00 (nc_buffersize c))) as [buf n] eqn:RI.
  set (pkt := firstn n buf).
  exists ([LArrive (data, src); LArrive d2; LPoll 1; LRecv] ++ serve pkt src (seq 0 (nc_receivers c)) ++ [LNext]).
  exists {| ns_queue := [d2]; ns_edge := false; ns_buffer := buf; ns_pc := Polling |}.
  destruct (serve_plain pkt src (seq 0 (nc_receivers c))) as (A & B & C).
  split; [|split; [|split; [|split; [|split; [|split]]]]].
  - cbn [app]. eapply run_cons; [apply step_arrive|]. eapply run_cons; [apply step_arrive|].
    eapply run_cons; [apply step_poll_ready; reflexivity|].
    eapply run_cons; [eapply (step_recv c _ 0 data src [d2]); reflexivity|].
    cbn [ns_buffer net_init ns_edge]. rewrite RI. eapply run_app; [eapply dispatch_run; reflexivity|].
    apply run_one. apply step_next. reflexivity.
  - cbn [app arrivals]. now rewrite arrivals_app, A.
  - cbn [app]. repeat (constructor; [intros []|]). apply Forall_app. split; [exact C|]. repeat (constructor; [intros []|]). constructor.
  - cbn [app recvs]. now rewrite recvs_app, B.
  - reflexivity.
  - split; reflexivity.
  - intros tr' s' R N. eapply idle_run in R as (X & Y & _); [auto|now left|reflexivity|exact N].
Qed.

(** C52, the exact extent: whenever the listener is blocked with m datagrams waiting, at least m datagrams are waiting
    at every later moment: the backlog never shrinks, however long and however much traffic. *)
Lemma p_C52_backlog_never_shrinks :
  forall (c : net_config) (s : net_state) (tr : list label) (s' : net_state),
    idle s -> run c s tr s' -> length (ns_queue s) <= length (ns_queue s').
Proof.
  intros c s tr s' [P E] H.
  assert (K : edge_count s' + events_left s' + length (ns_queue s) <= length (ns_queue s')).
  { induction H as [s|s tr s1 l s2 R IH S].
    - unfold edge_count, events_left. rewrite E, P. cbn. lia.
    - specialize (IH P E). clear P E R.
      inversion S; subst; clear S; unfold edge_count, events_left in *;
      cbn [set_pc ns_queue ns_edge ns_pc] in *; rewrite ?app_length; cbn [length];
      repeat match goal with E : ns_pc _ = _ |- _ => rewrite E in *
           | E : ns_edge _ = _ |- _ => rewrite E in *
           | E : ns_queue ?a = _ |- _ => rewrite E in IH end.
      all: try (match goal with |- context [recv_into ?a ?b] => destruct (recv_into a b) end);
        cbn [set_pc ns_queue ns_edge ns_pc length] in *; try (destruct (ns_edge s1)); cbn in *; lia. }
  lia.
Qed.

(** Readiness reports are used up one receive at a time. *)
Lemma readies_recvs c q0 tr s : run c (net_init c q0) tr s ->
  ~ stopped s -> readies tr = recvs tr + events_left s.
Proof.
  intros H. remember (net_init c q0) as s0 eqn:E. induction H as [s|s tr s1 l s2 R IH S]; subst; [reflexivity|].
  intros N. assert (N1 : ~ stopped s1).
  { intros [r E]. apply N. inversion S; subst; try congruence. exists r. exact E. }
  specialize (IH eq_refl N1). rewrite readies_app, recvs_app.
  unfold events_left, stopped in *. inversion S; subst; clear S; cbn [set_pc ns_pc readies recvs] in *;
    repeat match goal with E : ns_pc _ = _ |- _ => rewrite E in * end;
    try (match goal with |- context [recv_into ?a ?b] => destruct (recv_into a b) end); cbn [ns_pc]; try lia.
  all: exfalso; apply N; eauto.
Qed.

(** With spaced arrivals, unreported readiness is exactly what has arrived but was not reported. *)
Lemma spaced_edge c q0 tr s : run c (net_init c q0) tr s -> spaced q0 tr -> ~ stopped s ->
  length q0 + length (arrivals tr) = readies tr + edge_count s.
Proof.
  intros H. remember (net_init c q0) as s0 eqn:E. induction H as [s|s tr s1 l s2 R IH S]; subst.
  - intros [L _] _. unfold edge_count. cbn. destruct q0 as [|a [|b q]]; cbn in *; lia.
  - intros [L A] N. assert (N1 : ~ stopped s1).
    { intros [r E]. apply N. inversion S; subst; try congruence. exists r. exact E. }
    assert (SP : spaced q0 tr).
    { split; [exact L|]. intros a d b ->. apply (A a d (b ++ [l])). now rewrite <- app_assoc. }
    specialize (IH eq_refl SP N1). rewrite arrivals_app, readies_app, app_length.
    unfold edge_count in *.
    inversion S; subst; clear S; cbn [set_pc ns_edge arrivals readies length] in *;
      repeat match goal with E : ns_edge _ = _ |- _ => rewrite E in * end;
      try (match goal with |- context [recv_into ?a ?b] => destruct (recv_into a b) end); cbn [ns_edge]; try lia.
    specialize (A tr d [] eq_refl). lia.
Qed.

(** C52, what does hold: if arrivals are spaced (readiness for earlier datagrams has been reported when the next one
    arrives), then whenever the listener blocks, every datagram that arrived has been delivered to every receiver. *)
Lemma p_C52_spaced_arrivals_all_delivered :
  forall (c : net_config) (q0 : list datagram) (tr : list label) (s : net_state) (r : nat),
    run c (net_init c q0) tr s -> spaced q0 tr -> idle s -> r < nc_receivers c ->
    calls r tr = map (packet_of c) (q0 ++ arrivals tr) /\ ns_queue s = [].
Proof.
  intros c q0 tr s r H SP [P E] Hr.
  assert (N : ~ stopped s) by (intros [x X]; congruence).
  pose proof (readies_recvs _ _ _ _ H N) as A. pose proof (spaced_edge _ _ _ _ H SP N) as B.
  unfold events_left in A. rewrite P in A. unfold edge_count in B. rewrite E in B.
  destruct (p_C48_exactly_once_in_order c q0 tr s r H) as [D _]. destruct (D Hr) as (m & F & _ & M).
  assert (Z : between_datagrams s) by (unfold between_datagrams; now rewrite P).
  rewrite (M Z), app_nil_r in F. rewrite <- F.
  pose proof (inv_run _ _ _ _ H) as [Q _ _ _].
  assert (R : received q0 tr = q0 ++ arrivals tr).
  { unfold received. apply firstn_all2. rewrite app_length. lia. }
  rewrite R in *. split; [reflexivity|]. apply (f_equal (@length _)) in Q. rewrite !app_length in Q.
  destruct (ns_queue s); [reflexivity|cbn in Q; lia].
Qed.

(** C53. The packets delivered to a receiver are, cut to the buffer size, the oldest datagrams that arrived, in the
    order of their arrival; the rest of them is still in the socket or (at most one) being dispatched. Nothing is invented,
    duplicated, reordered or lost. *)
Lemma p_C53_fifo :
  forall (c : net_config) (q0 : list datagram) (tr : list label) (s : net_state) (r : nat),
    run c (net_init c q0) tr s -> r < nc_receivers c ->
    exists in_flight, length in_flight <= 1 /\
      map (packet_of c) (q0 ++ arrivals tr) = calls r tr ++ in_flight ++ map (packet_of c) (ns_queue s).
Proof.
  intros c q0 tr s r H Hr.
  destruct (p_C48_exactly_once_in_order c q0 tr s r H) as [D _]. destruct (D Hr) as (m & F & L & _).
  apply inv_run in H as [Q _ _ _]. exists m. split; [exact L|]. now rewrite Q, map_app, F, <- app_assoc.
Qed.

(** C61. The listener never gets stuck by itself: in every reachable state it is stopped, or blocked with nothing
    reported, or it or one of the receivers can take a step that is no failure. *)
Lemma p_C61_never_stuck :
  forall (c : net_config) (q0 : list datagram) (tr : list label) (s : net_state),
    run c (net_init c q0) tr s ->
    stopped s \/ idle s \/ exists l s', step c s l s' /\ ~ is_arrival l /\ ~ is_failure l.
Proof.
  intros c q0 tr s H. apply events_le_queue in H. unfold events_left, idle in *.
  destruct (ns_pc s) as [|[|k]|k pkt src [|p pe] [|r ru] pan|x] eqn:P.
  - destruct (ns_edge s) eqn:E; [|now right; left].
    right; right. do 2 eexists. split; [eapply step_poll_ready; eassumption|]. cbn. tauto.
  - right; right. do 2 eexists. split; [eapply step_next; eassumption|]. cbn. tauto.
  - destruct (ns_queue s) as [|[data src] q] eqn:Q; [cbn in H; lia|].
    right; right. do 2 eexists. split; [eapply step_recv; eassumption|]. cbn. tauto.
  - right; right. destruct pan; do 2 eexists; (split; [|split; [|]]).
    1: now eapply step_scope_panic; eassumption.
    3: now eapply step_scope_end; eassumption.
    all: cbn; tauto.
  - right; right. do 2 eexists. split; [apply (step_return c s k pkt src [] [] r ru pan P)|]. cbn. tauto.
  - right; right. do 2 eexists. split; [apply (step_call c s k pkt src [] p pe [] pan P)|]. cbn. tauto.
  - right; right. do 2 eexists. split; [apply (step_call c s k pkt src [] p pe (r :: ru) pan P)|]. cbn. tauto.
  - left. exists x. exact P.
Qed.

(** C62. It never livelocks: the number of steps of any execution is bounded by the number of datagrams, receivers and
    poll timeouts. Between events it blocks. *)
Definition work (c : net_config) (s : net_state) : nat :=
  (2 * nc_receivers c + 4) * edge_count s +
  match ns_pc s with
  | Polling => 0
  | Handling k => 1 + k * (2 * nc_receivers c + 2)
  | Dispatching k _ _ pe ru _ => 2 + k * (2 * nc_receivers c + 2) + 2 * length pe + length ru
  | Stopped _ => 0
  end.
Lemma work_step c s l s' : step c s l s' ->
  S (work c s') <= work c s + 2 * timeouts [l] + (2 * nc_receivers c + 5) * length (arrivals [l]) \/
  is_io_error l /\ stopped s'.
Proof.
  intros S. unfold work, edge_count, stopped. inversion S; subst; clear S; cbn [set_pc ns_pc ns_edge timeouts arrivals length is_io_error];
    repeat match goal with E : ns_pc _ = _ |- _ => rewrite E in * | E : ns_edge _ = _ |- _ => rewrite E in * end.
  all: try (match goal with |- context [recv_into ?a ?b] => destruct (recv_into a b) end); cbn [ns_pc ns_edge];
    rewrite ?app_length, ?seq_length; cbn [length].
  all: try (right; split; [exact I|eauto]; fail). all: left.
  all: try (destruct (ns_edge s)); try nia.
Qed.

(** C62. No livelock: an execution has at most a fixed number of steps per datagram that arrived, plus two per poll that
    timed out; without datagrams and timeouts the listener does nothing. *)
Lemma p_C62_no_livelock :
  forall (c : net_config) (q0 : list datagram) (tr : list label) (s : net_state),
    run c (net_init c q0) tr s ->
    length tr <= (2 * nc_receivers c + 5) * (1 + length (arrivals tr)) + 2 * timeouts tr.
Proof.
  intros c q0 tr s H.
  assert (K : length tr + work c s <= (2 * nc_receivers c + 4) + (2 * nc_receivers c + 5) * length (arrivals tr) + 2 * timeouts tr
              \/ (exists e, ns_pc s = Stopped (StoppedByError e)) /\
                 length tr <= 1 + (2 * nc_receivers c + 4) + (2 * nc_receivers c + 5) * length (arrivals tr) + 2 * timeouts tr).
  { remember (net_init c q0) as s0 eqn:E. induction H as [s|s tr s1 l s2 R IH S]; subst.
    - left. unfold work, edge_count. cbn. destruct q0; cbn; lia.
    - specialize (IH eq_refl). rewrite arrivals_app, timeouts_app, !app_length. cbn [length].
      destruct IH as [IH|[(e & E) IH]].
      + pose proof (work_step c s1 l s2 S) as [W|[W1 W2]].
        * left. nia.
        * right. split; [inversion S; subst; try contradiction; eexists; reflexivity|]. nia.
      + right. inversion S; subst; try congruence. split; [exists e; exact E|]. cbn [arrivals timeouts length]. nia. }
  destruct K as [K|[_ K]]; nia.
Qed.

(** C62, eventual delivery: from every reachable state in which no receiver has panicked, without any new arrival or
    failure, the listener can reach the blocked state, and there all it ever received is delivered. With C61 and
    the bound above, every execution that keeps taking possible steps gets there. *)
Lemma to_idle c s : edge_count s + events_left s <= length (ns_queue s) -> ~ stopped s ->
  (forall k p x pe ru pan, ns_pc s = Dispatching k p x pe ru pan -> pan = false) ->
  exists tr s', run c s tr s' /\ idle s' /\ arrivals tr = [] /\ Forall (fun l => ~ is_failure l) tr.
Proof.
  remember (work c s) as w eqn:W. revert s W. induction w as [w IH] using lt_wf_ind. intros s W I N PN.
  assert (one : forall l s1, step c s l s1 -> arrivals [l] = [] -> timeouts [l] = 0 -> ~ is_failure l -> ~ stopped s1 ->
    (forall k p x pe ru pan, ns_pc s1 = Dispatching k p x pe ru pan -> pan = false) ->
    exists tr s', run c s tr s' /\ idle s' /\ arrivals tr = [] /\ Forall (fun l => ~ is_failure l) tr).
  { intros l s1 S A T F N1 P1.
    pose proof (work_step c s l s1 S) as [D|[D _]]; [|exfalso; apply F; now destruct l].
    rewrite A, T in D. cbn [length] in D.
    destruct (backlog_step c s l s1 I S) as (I1 & _).
    destruct (IH (work c s1) ltac:(lia) s1 eq_refl I1 N1 P1) as (tr & s' & R & J & A' & F').
    exists (l :: tr), s'. split; [eapply run_cons; eassumption|]. split; [exact J|]. split; [|now constructor].
    change (l :: tr) with ([l] ++ tr). now rewrite arrivals_app, A, A'. }
  unfold events_left, stopped in *.
  destruct (ns_pc s) as [|[|k]|k pkt src [|p pe] [|r ru] pan|x] eqn:P; rewrite ?P in *.
  - destruct (ns_edge s) eqn:E.
    + eapply one; [eapply step_poll_ready; eassumption|..]; cbn; auto; try (intros [? ?]; discriminate); intros; discriminate.
    + exists [], s. repeat split; auto. constructor.
  - eapply one; [eapply step_next; eassumption|..]; cbn; auto; try (intros [? ?]; discriminate); intros; discriminate.
  - destruct (ns_queue s) as [|[data src] q] eqn:Q; [cbn in I; lia|].
    eapply one; [eapply step_recv; eassumption|..]; cbn; auto; try (intros [? ?]; discriminate).
    intros. congruence.
  - assert (pan = false) by (eapply PN; reflexivity). subst.
    eapply one; [eapply step_scope_end; eassumption|..]; cbn; auto; try (intros [? ?]; discriminate); intros; discriminate.
  - assert (pan = false) by (eapply PN; reflexivity). subst.
    eapply one; [apply (step_return c s k pkt src [] [] r ru false P)|..]; cbn; auto; try (intros [? ?]; discriminate); intros; congruence.
  - assert (pan = false) by (eapply PN; reflexivity). subst.
    eapply one; [apply (step_call c s k pkt src [] p pe [] false P)|..]; cbn; auto; try (intros [? ?]; discriminate); intros; congruence.
  - assert (pan = false) by (eapply PN; reflexivity). subst.
    eapply one; [apply (step_call c s k pkt src [] p pe (r :: ru) false P)|..]; cbn; auto; try (intros [? ?]; discriminate); intros; congruence.
  - exfalso. apply N. eauto.
Qed.

Lemma no_panic_flag c q0 tr s : run c (net_init c q0) tr s -> (forall r, panics r tr = 0) ->
  ns_pc s <> Stopped StoppedByPanic /\
  forall k p x pe ru pan, ns_pc s = Dispatching k p x pe ru pan -> pan = false.
Proof.
  intros H. remember (net_init c q0) as s0 eqn:E. induction H as [s|s tr s1 l s2 R IH S]; subst; intros N.
  - split; [discriminate|]. intros. discriminate.
  - assert (N1 : forall r, panics r tr = 0).
    { intros r. specialize (N r). rewrite panics_app in N. lia. }
    destruct (IH eq_refl N1) as [I1 I2]. clear IH.
    inversion S; subst; clear S; cbn [set_pc ns_pc];
      try (match goal with |- context [recv_into ?a ?b] => destruct (recv_into a b) end); cbn [ns_pc];
      (split; [try discriminate; try exact I1|try (intros; discriminate); try exact I2]).
    + intros. congruence.
    + intros kk p x pe ru pa X. injection X as <- <- <- <- <- <-. eapply I2. eassumption.
    + intros kk p x pe ru pa X. injection X as <- <- <- <- <- <-. eapply I2. eassumption.
    + exfalso. specialize (N r). rewrite panics_app in N. cbn [panics] in N. rewrite Nat.eqb_refl in N. lia.
    + exfalso. match goal with E : ns_pc _ = _ |- _ => specialize (I2 _ _ _ _ _ _ E) end. discriminate.
Qed.

(** C62. From every state without failures the listener can get back to poll without any further datagram, and if the
    arrivals were spaced, every datagram has then been delivered to every receiver. *)
Lemma p_C62_always_back_to_poll :
  forall (c : net_config) (q0 : list datagram) (tr : list label) (s : net_state),
    run c (net_init c q0) tr s -> Forall (fun l => ~ is_failure l) tr ->
    exists tr' s', run c (net_init c q0) (tr ++ tr') s' /\ idle s' /\
      arrivals tr' = [] /\ Forall (fun l => ~ is_failure l) tr' /\
      (spaced q0 tr -> forall r, r < nc_receivers c ->
         calls r (tr ++ tr') = map (packet_of c) (q0 ++ arrivals tr)).
Proof.
  intros c q0 tr s H F.
  assert (P0 : forall r, panics r tr = 0).
  { intros r. clear H. induction tr as [|l tr IH]; [reflexivity|]. inversion F; subst.
    destruct l; cbn; auto. exfalso. apply H1. exact I. }
  destruct (no_panic_flag _ _ _ _ H P0) as [NP NF].
  assert (NS : ~ stopped s).
  { intros [r E]. destruct r as [e|]; [|contradiction]. clear NP NF P0.
    remember (net_init c q0) as s0 eqn:E0. induction H as [s|s tr s1 l s2 R IH S]; subst; [discriminate|].
    apply Forall_app in F as [F1 F2]. inversion F2 as [|? ? F3 _]; subst.
    inversion S; subst; cbn in *; try discriminate; try (now apply F3); now apply IH. }
  pose proof (events_le_queue _ _ _ _ H) as I.
  destruct (to_idle c s I NS NF) as (tr' & s' & R & J & A & F').
  exists tr', s'. split; [eapply run_app; eassumption|]. split; [exact J|]. split; [exact A|]. split; [exact F'|].
  intros SP r Hr.
  assert (SP' : spaced q0 (tr ++ tr')).
  { destruct SP as [L SP]. split; [exact L|]. intros a d b E.
    assert (Pre : exists b', tr = a ++ LArrive d :: b').
    { clear -A E. revert tr E. induction a as [|x a IH]; intros tr E; cbn in E.
      - destruct tr as [|y tr]; cbn in E.
        + subst tr'. discriminate.
        + injection E as -> _. now exists tr.
      - destruct tr as [|y tr]; cbn in E.
        + exfalso. subst tr'. change (x :: a ++ LArrive d :: b) with ((x :: a) ++ LArrive d :: b) in A.
          rewrite arrivals_app in A. cbn [arrivals] in A. apply app_eq_nil in A as [_ A]. discriminate.
        + injection E as -> E. destruct (IH tr E) as (b' & ->). now exists b'. }
    destruct Pre as (b' & Pre). exact (SP a d b' Pre). }
  destruct (p_C52_spaced_arrivals_all_delivered c q0 (tr ++ tr') s' r) as [X _]; auto.
  - eapply run_app; eassumption.
  - rewrite X, arrivals_app, A, app_nil_r. reflexivity.
Qed.

(** C63. One send is one hand-over to the operating system, of exactly the packet's bytes to exactly the given
    address, and its result is the caller's; and if the network then brings these bytes to a listener whose buffer
    is large enough, every receiver gets exactly that packet. *)
Lemma p_C63_send_is_exact :
  forall (os : list byte -> address -> outcome nat) (dst : address) (p : packet),
    network_send os dst p = ([(packet_bytes p, dst)], os (packet_bytes p) dst).
Proof. intros os dst p. unfold network_send. destruct (os _ _); reflexivity. Qed.

(** C63. If exactly what [send] handed over arrives at a listener whose buffer is large enough, every receiver is called
    exactly once, with exactly the bytes of the packet. *)
Lemma p_C63_sent_bytes_arrive :
  forall (os : list byte -> address -> outcome nat) (dst src : address) (p : packet)
         (c : net_config) (tr : list label) (s : net_state) (r : nat),
    length (packet_bytes p) <= nc_buffersize c ->
    arrivals tr = map (fun sent => (fst sent, src)) (fst (network_send os dst p)) ->
    run c (net_init c []) tr s -> idle s -> r < nc_receivers c ->
    calls r tr = [(packet_bytes p, src)].
Proof.
  intros os dst src p c tr s r L A H [P E] Hr. cbn in A.
  destruct (p_C48_exactly_once_in_order c [] tr s r H) as [D _]. destruct (D Hr) as (m & F & _ & M).
  rewrite M, app_nil_r in F by (unfold between_datagrams; now rewrite P). rewrite <- F.
  assert (R : recvs tr = 1).
  { assert (SP : spaced [] tr).
    { split; [cbn; lia|]. intros a d b ->. rewrite arrivals_app in A. cbn [arrivals] in A.
      apply (f_equal (@length _)) in A. rewrite app_length in A. cbn in A.
      assert (La : length (arrivals a) = 0) by lia.
      assert (RA : readies a = 0).
      { change (a ++ LArrive d :: b) with (a ++ [LArrive d] ++ b) in H. apply run_app_inv in H as (s1 & R1 & _).
        clear -R1 La. remember (net_init c []) as s0 eqn:E0.
        assert (K : readies a = 0 /\ ns_edge s1 = false); [|tauto].
        induction R1 as [s|s tr s1 l s2 R IH S]; subst; [auto|].
        rewrite arrivals_app, app_length in La.
        destruct IH as [K1 K2]; [reflexivity || lia | reflexivity || lia |]. rewrite readies_app, K1.
        inversion S; subst; cbn in *; try lia; try congruence; auto. }
      rewrite La, RA. reflexivity. }
    pose proof (readies_recvs _ _ _ _ H) as X. pose proof (spaced_edge _ _ _ _ H SP) as Y.
    assert (N : ~ stopped s) by (intros [x Z]; congruence). specialize (X N). specialize (Y N).
    unfold events_left in X. rewrite P in X. unfold edge_count in Y. rewrite E in Y. rewrite A in Y. cbn in Y. lia. }
  unfold received. rewrite R, A. cbn. unfold packet_of. cbn [fst snd]. now rewrite firstn_all2.
Qed.

(** ** Concrete executions *)
Definition ex_cfg : net_config := {| nc_buffersize := 4; nc_has_timeout := false; nc_receivers := 2 |}.
Definition ex_src : address := V4 x01 x02 x03 x04 5%N.
Definition ex_d1 : datagram := ([x01; x02; x03; x04; x05; x06], ex_src).
Definition ex_d2 : datagram := ([x09; x08], ex_src).
Definition ex_p1 : list byte := [x01; x02; x03; x04].
Definition ex_p2 : list byte := [x09; x08].
(** two datagrams, the second arriving during the dispatch of the first; the receivers run concurrently *)
Definition ex_trace : list label :=
  [LArrive ex_d1; LPoll 1; LRecv; LCall 1 ex_p1 ex_src; LArrive ex_d2; LCall 0 ex_p1 ex_src; LReturn 1; LReturn 0;
   LScopeEnd; LNext; LPoll 1; LRecv; LCall 0 ex_p2 ex_src; LReturn 0; LCall 1 ex_p2 ex_src; LReturn 1; LScopeEnd; LNext].
Definition ex_final : net_state :=
  {| ns_queue := []; ns_edge := false; ns_buffer := [x09; x08; x03; x04]; ns_pc := Polling |}.

Lemma ex_run : run ex_cfg (net_init ex_cfg []) ex_trace ex_final.
Proof.
  unfold ex_trace.
  eapply run_cons; [apply step_arrive|]. eapply run_cons; [apply step_poll_ready; reflexivity|].
  eapply run_cons; [eapply (step_recv _ _ 0 _ _ []); reflexivity|]. cbn.
  eapply run_cons; [eapply (step_call ex_cfg _ _ _ _ [0] 1 []); reflexivity|]. cbn.
  eapply run_cons; [apply step_arrive|].
  eapply run_cons; [eapply (step_call ex_cfg _ _ _ _ [] 0 []); reflexivity|]. cbn.
  eapply run_cons; [eapply (step_return ex_cfg _ _ _ _ _ [0] 1 []); reflexivity|]. cbn.
  eapply run_cons; [eapply (step_return ex_cfg _ _ _ _ _ [] 0 []); reflexivity|]. cbn.
  eapply run_cons; [eapply step_scope_end; reflexivity|]. cbn.
  eapply run_cons; [eapply step_next; reflexivity|]. cbn.
  eapply run_cons; [apply step_poll_ready; reflexivity|].
  eapply run_cons; [eapply (step_recv _ _ 0 _ _ []); reflexivity|]. cbn.
  eapply run_cons; [eapply (step_call ex_cfg _ _ _ _ [] 0 [1]); reflexivity|]. cbn.
  eapply run_cons; [eapply (step_return ex_cfg _ _ _ _ _ [] 0 []); reflexivity|]. cbn.
  eapply run_cons; [eapply (step_call ex_cfg _ _ _ _ [] 1 []); reflexivity|]. cbn.
  eapply run_cons; [eapply (step_return ex_cfg _ _ _ _ _ [] 1 []); reflexivity|]. cbn.
  eapply run_cons; [eapply step_scope_end; reflexivity|]. cbn.
  apply run_one. eapply step_next. reflexivity.
Qed.
Lemma ex_spaced : spaced [] ex_trace.
Proof.
  split; [cbn; lia|]. intros a d b E. unfold ex_trace in E.
  do 18 (destruct a as [|x a]; [try discriminate E; reflexivity|];
    injection E as <- E; try (destruct a; cbn in E; discriminate E)).
Qed.

(** the hypotheses of C48-C53 and C62 are met by an execution with two datagrams, one of them truncated, the second one
    shorter than the first *)
Example ex_C48_run :
  run ex_cfg (net_init ex_cfg []) ex_trace ex_final /\ spaced [] ex_trace /\ idle ex_final /\
  between_datagrams ex_final /\ Forall (fun l => ~ is_failure l) ex_trace /\
  calls 0 ex_trace = [(ex_p1, ex_src); (ex_p2, ex_src)] /\ calls 1 ex_trace = calls 0 ex_trace.
Proof.
  split; [exact ex_run|]. split; [exact ex_spaced|]. repeat split; repeat constructor; cbn; tauto.
Qed.

(** C51: an execution in which receiver 1 panics while receiver 0 is still running, and one in which the
    second poll fails *)
Example ex_C51_panic :
  exists s, run ex_cfg (net_init ex_cfg [])
    ([LArrive ex_d1; LPoll 1; LRecv; LCall 1 ex_p1 ex_src] ++ LPanic 1 :: [LCall 0 ex_p1 ex_src; LReturn 0; LScopeEnd; LArrive ex_d2]) s
    /\ stopped s.
Proof.
  eexists. split.
  - cbn [app].
    eapply run_cons; [apply step_arrive|]. eapply run_cons; [apply step_poll_ready; reflexivity|].
    eapply run_cons; [eapply (step_recv _ _ 0 _ _ []); reflexivity|]. cbn.
    eapply run_cons; [eapply (step_call ex_cfg _ _ _ _ [0] 1 []); reflexivity|]. cbn.
    eapply run_cons; [eapply (step_panic ex_cfg _ _ _ _ _ [] 1 []); reflexivity|]. cbn.
    eapply run_cons; [eapply (step_call ex_cfg _ _ _ _ [] 0 []); reflexivity|]. cbn.
    eapply run_cons; [eapply (step_return ex_cfg _ _ _ _ _ [] 0 []); reflexivity|]. cbn.
    eapply run_cons; [eapply step_scope_panic; reflexivity|]. cbn.
    apply run_one. apply step_arrive.
  - eexists. reflexivity.
Qed.
Example ex_C51_error :
  exists s, run ex_cfg (net_init ex_cfg []) (ex_trace ++ LPollError EIo :: [LArrive ex_d1]) s /\ is_io_error (LPollError EIo).
Proof.
  eexists. split; [|exact I]. eapply run_app; [exact ex_run|].
  eapply run_cons; [apply step_poll_error; reflexivity|]. apply run_one. apply step_arrive.
Qed.

(** C52: a blocked listener with a waiting datagram is reachable (hypothesis of the backlog theorem with m > 0) *)
Example ex_C52_backlog :
  exists tr s, run ex_cfg (net_init ex_cfg []) tr s /\ idle s /\ length (ns_queue s) = 1.
Proof.
  destruct (p_C52_refuted_stranding ex_cfg ex_d1 ex_d2) as (tr & s & R & _ & _ & _ & Q & J & _).
  exists tr, s. rewrite Q. auto.
Qed.
