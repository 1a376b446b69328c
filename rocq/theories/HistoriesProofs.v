(** * HistoriesProofs: C143 *)
From Coq Require Import Strings.String.
From Verif Require Import Base Serde Codec Universe Spec SerdeFacts CodecFacts UniverseFacts Packet Client PacketFacts CodecProofs CursorProofs CryptoProofs HistoriesSpec.
Open Scope nat_scope.

Lemma fst_cons C d o l : fst (do_ops C d (o :: l)) = fst (do_ops C (fst (do_op C d o)) l).
Proof. cbn. destruct (do_op C d o) as [d1 x]. cbn. now destruct (do_ops C d1 l). Qed.
Lemma snd_cons C d o l : snd (do_ops C d (o :: l)) = snd (do_op C d o) :: snd (do_ops C (fst (do_op C d o)) l).
Proof. cbn. destruct (do_op C d o) as [d1 x]. cbn. now destruct (do_ops C d1 l). Qed.
Lemma forget_panics {A} (r : outcome A) : panicked (forget r) <-> exists x, r = Panic x.
Proof. split; intros [x H]; [destruct r; try discriminate; eauto|subst; now exists x]. Qed.

(** *** beyond the end *)
Lemma beyond_looks C d o : size d < index d -> looks o -> fst (do_op C d o) = d /\ snd (do_op C d o) = Panic PSliceIndex.
Proof.
  destruct d as [[p] i]. unfold size. cbn [packet_raw packet_bytes pntr index]. intros B L. destruct o as [| |t|k|]; cbn [do_op looks] in *; try contradiction.
  - destruct (p_C22_cursor_beyond_end_panics TU8 p i B) as [_ ->]. auto.
  - unfold pop_header. destruct (p_C22_cursor_beyond_end_panics TU8 p i B) as [_ ->]. auto.
  - destruct (p_C22_cursor_beyond_end_panics t p i B) as [H _]. destruct (next_payload t _) as [d' r] eqn:E. cbn in H. subst r.
    apply p_C24_failed_read_no_effect in E; [subst; auto|reflexivity].
  - unfold verify_embedded. destruct (p_C22_cursor_beyond_end_panics TBinMember p i B) as [H _]. destruct (next_payload TBinMember _) as [d' r] eqn:E. cbn in H. subst r.
    apply p_C24_failed_read_no_effect in E; [subst; auto|reflexivity].
Qed.
Lemma with_key C d k : (size d < 64 -> fst (do_op C d (OVerifyWith k)) = d /\ panicked (snd (do_op C d (OVerifyWith k)))) /\
  (64 <= size d -> size (fst (do_op C d (OVerifyWith k))) = size d - 64 /\ index (fst (do_op C d (OVerifyWith k))) = index d /\
     ~ panicked (snd (do_op C d (OVerifyWith k)))).
Proof.
  destruct d as [[p] i]. unfold size. cbn [packet_raw packet_bytes pntr index do_op]. split; intros L.
  - rewrite verify_with_short by assumption. split; [reflexivity|]. now exists PSubOverflow.
  - rewrite verify_with_eq by assumption. cbn. split; [rewrite firstn_length; lia|]. split; [reflexivity|]. intros [x H]. discriminate.
Qed.
Lemma beyond_step C d o : size d < index d -> size (fst (do_op C d o)) < index (fst (do_op C d o)).
Proof.
  intros B. destruct o as [| |t|k|]; try (match goal with |- context [do_op C d ?o] => rewrite (proj1 (beyond_looks C d o B I)) end; exact B).
  destruct (with_key C d k) as [A1 A2]. destruct (Nat.lt_ge_cases (size d) 64) as [L|L]; [destruct (A1 L) as [-> _]; exact B|]. destruct (A2 L) as (E1 & E2 & _). lia.
Qed.
Lemma beyond_run C l : forall d, size d < index d -> size (fst (do_ops C d l)) < index (fst (do_ops C d l)).
Proof. induction l as [|o l IH]; intros d B; [exact B|]. rewrite fst_cons. apply IH, beyond_step, B. Qed.

(** *** one call inside the packet *)
Lemma one_call C d o : index d <= size d -> ordinary o ->
  (hopeless d o /\ fst (do_op C d o) = d /\ panicked (snd (do_op C d o))) \/
  (cuts_into_read d o /\ ~ hopeless d o /\ ~ panicked (snd (do_op C d o)) /\ size (fst (do_op C d o)) < index (fst (do_op C d o))) \/
  (~ hopeless d o /\ ~ cuts_into_read d o /\ ~ panicked (snd (do_op C d o)) /\ index (fst (do_op C d o)) <= size (fst (do_op C d o))).
Proof.
  intros B O. assert (RD : is_read o = true -> reads_auth o = false -> ~ hopeless d o -> ~ cuts_into_read d o -> 
     (~ hopeless d o /\ ~ cuts_into_read d o /\ ~ panicked (snd (do_op C d o)) /\ index (fst (do_op C d o)) <= size (fst (do_op C d o)))).
  { destruct d as [[p] i]. unfold size in *. cbn [packet_raw packet_bytes pntr index] in *. intros R A H1 H2.
    destruct (read_step C p i o R B) as (j & Hj & E & P). split; [exact H1|]. split; [exact H2|]. split; [intros [x X]; exact (P A x X)|]. rewrite E. exact (proj2 Hj). }
  destruct o as [| |t|k|].
  - right. right. apply RD; auto.
  - right. right. apply RD; auto.
  - right. right. apply RD; auto.
  - clear RD. destruct (with_key C d k) as [A1 A2]. destruct (Nat.lt_ge_cases (size d) 64) as [L|L].
    + left. destruct (A1 L). split; [exact L|auto].
    + right. destruct (A2 L) as (E1 & E2 & E3). cbn [hopeless cuts_into_read]. destruct (Nat.lt_ge_cases (size d) (index d + 64)) as [M|M].
      * left. split; [lia|]. split; [lia|]. split; [exact E3|lia].
      * right. split; [lia|]. split; [lia|]. split; [exact E3|lia].
  - clear RD. destruct d as [[p] i]. unfold size in *. cbn [packet_raw packet_bytes pntr index do_op hopeless cuts_into_read] in *.
    unfold broken_blob, key_blob. cbv zeta. set (n := N.to_nat (u16_at p i)).
    destruct (p_C23_auth_exact p i B) as [E1 E2]. cbv zeta in E1, E2. fold n in E1, E2.
    assert (D : (i + 2 <= length p /\ i + 2 + n <= length p) \/ ~ (i + 2 <= length p /\ i + 2 + n <= length p)) by lia.
    destruct D as [D|D].
    + destruct (E2 D) as (A1 & A2 & A3 & A4). destruct (Nat.lt_ge_cases n 10) as [N1|N1].
      { left. unfold verify_embedded. rewrite (A1 N1). split; [tauto|]. split; [reflexivity|]. now exists PSliceIndex. }
      destruct (list_eq_dec byte_eq_dec (firstn 10 (skipn (i + 2) p)) (ascii "LibNaCLPK:")) as [Q|Q].
      * destruct (Nat.lt_ge_cases n 74) as [N2|N2].
        { left. unfold verify_embedded. rewrite (A3 (conj N1 N2) Q). split; [tauto|]. split; [reflexivity|]. now exists PSliceIndex. }
        right. destruct (verify_embedded_auth C p i _ B (A4 N2 Q)) as [_ ->]. cbn. rewrite firstn_length.
        assert (S : ~ panicked (Ok tt)) by (intros [x X]; discriminate). destruct (Nat.lt_ge_cases (length p) (i + 76 + 64)) as [M|M].
        -- left. split; [split; [intuition|exact M]|]. split; [intros (_ & _ & [X|[X _]]); lia|]. split; [exact S|lia].
        -- right. split; [intros (_ & _ & [X|[X _]]); lia|]. split; [intros [_ X]; lia|]. split; [exact S|lia].
      * right. right. destruct (A2 N1 Q) as [m F]. unfold verify_embedded. rewrite F. cbn. split; [intros (_ & _ & [X|[_ X]]); [lia|contradiction]|].
        split; [intros [(_ & _ & _ & X) _]; contradiction|]. split; [intros [x X]; discriminate|exact B].
    + right. right. unfold verify_embedded. rewrite (E1 D). cbn. split; [tauto|]. split; [tauto|]. split; [intros [x X]; discriminate|exact B].
Qed.
Lemma hopeless_panics C d o : hopeless d o -> panicked (snd (do_op C d o)).
Proof.
  intros H. destruct (Nat.le_gt_cases (index d) (size d)) as [B|B].
  - destruct o as [| |t|k|]; try contradiction.
    + exact (proj2 (proj1 (with_key C d k) H)).
    + destruct (one_call C d OVerify B I) as [(_ & _ & P)|[(_ & N & _)|(N & _)]]; [exact P|contradiction|contradiction].
  - destruct o as [| |t|k|]; try contradiction.
    + exact (proj2 (proj1 (with_key C d k) H)).
    + destruct (beyond_looks C d OVerify B I) as [_ ->]. now exists PSliceIndex.
Qed.

(** ** C143 *)
(** C143. Exactly when a call panics, in terms of the public fields: one that looks at the packet, when the cursor is behind its end; [verify_with], when the packet has no room for a
    signature; [verify], also when there is a broken blob at the cursor. *)
Lemma p_C143_panics_iff :
  forall (C : ed25519) (d : deserializer) (o : op),
    ordinary o -> (panicked (snd (do_op C d o)) <-> (looks o /\ size d < index d) \/ hopeless d o).
Proof.
  intros C d o O. split.
  - intros P. destruct (Nat.le_gt_cases (index d) (size d)) as [B|B].
    + destruct (one_call C d o B O) as [(H & _)|[(_ & _ & N & _)|(_ & _ & N & _)]]; [now right|contradiction|contradiction].
    + destruct o as [| |t|k|]; try (left; split; [exact I|exact B]). right. cbn. destruct (with_key C d k) as [_ A].
      destruct (Nat.lt_ge_cases (size d) 64) as [L|L]; [exact L|]. now destruct (A L) as (_ & _ & N).
  - intros [[L B]|H]; [|now apply hopeless_panics]. destruct (beyond_looks C d o B L) as [_ ->]. now exists PSliceIndex.
Qed.

(** C143. It is for good: once the cursor is behind the end no history of calls - of payloads of any type, with any results - brings it back, and every call that looks at the
    packet panics. *)
Lemma p_C143_beyond_is_permanent :
  forall (C : ed25519) (l : list op) (d : deserializer) (o : op),
    size d < index d ->
    size (fst (do_ops C d l)) < index (fst (do_ops C d l)) /\
    (looks o -> do_op C (fst (do_ops C d l)) o = (fst (do_ops C d l), Panic PSliceIndex)).
Proof.
  intros C l d o B. pose proof (beyond_run C l d B) as E. split; [exact E|]. intros L. destruct (beyond_looks C _ o E L) as [A1 A2].
  destruct (do_op C _ o) as [x y]. cbn in *. now subst.
Qed.

(** C143. How it comes to that: only by verifying. In a history that starts inside the packet, the cursor is behind the end afterwards exactly when some verification took
    bytes for the signature that had been read. *)
Lemma p_C143_only_verifying_gets_there :
  forall (C : ed25519) (l : list op) (d : deserializer),
    index d <= size d -> Forall ordinary l ->
    (size (fst (do_ops C d l)) < index (fst (do_ops C d l)) <->
     exists l1 o l2, l = l1 ++ o :: l2 /\ cuts_into_read (fst (do_ops C d l1)) o /\ index (fst (do_ops C d l1)) <= size (fst (do_ops C d l1))).
Proof.
  intros C l. induction l as [|o l IH]; intros d B F.
  - cbn. split; [lia|]. intros (l1 & o & l2 & E & _). destruct l1; discriminate.
  - inversion F as [|? ? O F']; subst. rewrite fst_cons. destruct (one_call C d o B O) as [(_ & E & _)|[(K & _ & _ & E)|(N1 & N2 & _ & E)]].
    + rewrite E, (IH d B F'). split; intros (l1 & o' & l2 & X & Y).
      * exists (o :: l1), o', l2. rewrite fst_cons, E. subst. auto.
      * destruct l1 as [|o1 l1]; cbn [app] in X; injection X as -> ->.
        -- exfalso. cbn in Y. destruct (one_call C d o' B O) as [(H & _)|[(_ & _ & _ & Q)|(_ & N & _)]]; [|rewrite E in Q; lia|tauto].
           destruct Y as [Y _]. destruct o'; cbn in H, Y; try contradiction; [lia|]. destruct Y as [Y _]. unfold broken_blob, key_blob in *. cbv zeta in *. intuition lia.
        -- exists l1, o', l2. rewrite fst_cons, E in Y. auto.
    + split; [|intros _; now apply beyond_run]. intros _. exists [], o, l. cbn. auto.
    + rewrite (IH _ E F'). split; intros (l1 & o' & l2 & X & Y).
      * exists (o :: l1), o', l2. rewrite fst_cons. subst. auto.
      * destruct l1 as [|o1 l1]; cbn [app] in X; injection X as -> ->; [cbn in Y; tauto|]. exists l1, o', l2. rewrite fst_cons in Y. auto.
Qed.

Lemma beyond_panics C : forall l d r, size d < index d -> In r (snd (do_ops C d l)) -> panicked r ->
  (exists o, In o l /\ looks o) \/ (exists l1 o l2, l = l1 ++ o :: l2 /\ hopeless (fst (do_ops C d l1)) o).
Proof.
  induction l as [|o l IH]; intros d r B I P; [destruct I|]. rewrite snd_cons in I. destruct I as [<-|I].
  - destruct o as [| |t|k|]; try (left; eexists; split; [now left|exact Logic.I]). right. exists [], (OVerifyWith k), l. split; [reflexivity|].
    cbn [do_ops fst hopeless]. destruct (with_key C d k) as [_ A]. destruct (Nat.lt_ge_cases (size d) 64) as [L|L]; [exact L|]. now destruct (A L) as (_ & _ & N).
  - destruct (IH _ _ (beyond_step C d o B) I P) as [(o' & J & L)|(l1 & o' & l2 & -> & H)].
    + left. exists o'. split; [now right|exact L].
    + right. exists (o :: l1), o', l2. split; [reflexivity|]. now rewrite fst_cons.
Qed.
Lemma in_results C : forall l1 d o l2, In (snd (do_op C (fst (do_ops C d l1)) o)) (snd (do_ops C d (l1 ++ o :: l2))).
Proof.
  induction l1 as [|o1 l1 IH]; intros d o l2; cbn [app]; rewrite snd_cons; [now left|]. right. rewrite fst_cons. apply IH.
Qed.
Lemma in_results_after C : forall l1 d o l2 o', In o' l2 -> exists l3, In (snd (do_op C (fst (do_ops C (fst (do_op C (fst (do_ops C d l1)) o)) l3)) o')) (snd (do_ops C d (l1 ++ o :: l2))).
Proof.
  intros l1 d o l2 o' I. apply in_split in I as (l3 & l4 & ->). exists l3. revert d. induction l1 as [|o1 l1 IH]; intros d.
  - cbn [app]. rewrite snd_cons. right. cbn [do_ops fst]. apply in_results.
  - cbn [app]. rewrite snd_cons. right. rewrite fst_cons. apply IH.
Qed.

(** C143. Whole histories: starting inside the packet, some call of a history panics exactly when it contains a hopeless verification, or one that cuts into what was read
    and later a call that looks at the packet. (A program that makes sure that neither happens, before each verification, never panics.) *)
Lemma p_C143_histories :
  forall (C : ed25519) (l : list op) (d : deserializer),
    index d <= size d -> Forall ordinary l ->
    ((exists r, In r (snd (do_ops C d l)) /\ panicked r) <->
     exists l1 o l2, l = l1 ++ o :: l2 /\
       (hopeless (fst (do_ops C d l1)) o \/
        (cuts_into_read (fst (do_ops C d l1)) o /\ index (fst (do_ops C d l1)) <= size (fst (do_ops C d l1)) /\ exists o', In o' l2 /\ looks o'))).
Proof.
  intros C l d B F. split.
  - revert d B. induction l as [|o l IH]; intros d B (r & I & P); [destruct I|]. inversion F as [|? ? O F']; subst. specialize (IH F').
    assert (RE : forall d', fst (do_op C d o) = d' -> (exists l1 o' l2, l = l1 ++ o' :: l2 /\ (hopeless (fst (do_ops C d' l1)) o' \/
        (cuts_into_read (fst (do_ops C d' l1)) o' /\ index (fst (do_ops C d' l1)) <= size (fst (do_ops C d' l1)) /\ exists x, In x l2 /\ looks x))) ->
      exists l1 o' l2, o :: l = l1 ++ o' :: l2 /\ (hopeless (fst (do_ops C d l1)) o' \/
        (cuts_into_read (fst (do_ops C d l1)) o' /\ index (fst (do_ops C d l1)) <= size (fst (do_ops C d l1)) /\ exists x, In x l2 /\ looks x))).
    { intros d' E (l1 & o' & l2 & -> & Q). exists (o :: l1), o', l2. split; [reflexivity|]. rewrite fst_cons, E. exact Q. }
    rewrite snd_cons in I. destruct (one_call C d o B O) as [(H & _)|[(K & _ & N & E)|(_ & _ & N & E)]].
    + exists [], o, l. split; [reflexivity|]. now left.
    + destruct I as [<-|I]; [contradiction|]. destruct (beyond_panics C l _ _ E I P) as [L|(l1 & o' & l2 & -> & H)].
      * exists [], o, l. split; [reflexivity|]. right. cbn. auto.
      * eapply RE; [reflexivity|]. exists l1, o', l2. auto.
    + destruct I as [<-|I]; [contradiction|]. eapply RE; [reflexivity|]. apply IH; eauto.
  - intros (l1 & o & l2 & -> & [H|(K & B1 & o' & I & L)]).
    + eexists. split; [apply in_results|now apply hopeless_panics].
    + destruct (in_results_after C l1 d o l2 o' I) as (l3 & J). eexists. split; [exact J|].
      assert (O : ordinary o) by (apply Forall_app in F as [_ F]; now inversion F).
      assert (E : size (fst (do_op C (fst (do_ops C d l1)) o)) < index (fst (do_op C (fst (do_ops C d l1)) o))).
      { destruct (one_call C _ o B1 O) as [(H & _)|[(_ & _ & _ & E)|(_ & N & _)]]; [|exact E|contradiction]. exfalso.
        destruct o; cbn in H, K; try contradiction; [lia|]. destruct K as [K _]. unfold broken_blob, key_blob in *. cbv zeta in *. intuition lia. }
      destruct (beyond_looks C _ o' (beyond_run C l3 _ E) L) as [_ ->]. now exists PSliceIndex.
Qed.

(** C143. What a program can do about it: the fields are public. After any history, setting [index] to any position in what is left of the packet makes reading safe again; what is
    left is the packet without some signatures at its end. *)
Lemma p_C143_moving_the_cursor_repairs :
  forall (C : ed25519) (l l' : list op) (p : list byte) (i n : nat),
    let left := pntr (fst (do_ops C {| pntr := Packet p; index := i |} l)) in
    (exists k, packet_raw left = firstn (length p - 64 * k) p /\ 64 * k <= length p) /\
    (n <= length (packet_raw left) -> Forall (fun o => is_read o = true) l' -> Forall ordinary l' ->
     let d := {| pntr := left; index := n |} in
     Forall (fun r => ~ panicked r) (snd (do_ops C d l')) /\ pntr (fst (do_ops C d l')) = left /\
     n <= index (fst (do_ops C d l')) <= length (packet_raw left)).
Proof.
  intros C l l' p i n left. destruct (do_ops C {| pntr := Packet p; index := i |} l) as [d0 rs] eqn:E. subst left. cbn [fst]. split.
  - destruct (p_C36_histories C l p i d0 rs E) as (k & A & B & _). eauto.
  - cbn zeta. intros L R O. set (d := {| pntr := pntr d0; index := n |}). destruct (do_ops C d l') as [d1 rs1] eqn:E1. destruct (p_C26_read_histories C l' (pntr d0) n d1 rs1 R L E1) as (A & B & _ & D).
    cbn [fst snd]. split; [|split; [exact A|exact B]].
    assert (F : Forall (fun o => reads_auth o = false) l').
    { clear - R O. induction R as [|o l' X R IH]; [constructor|]. inversion O; subst. constructor; [|auto]. destruct o; try discriminate; cbn in *; auto. }
    specialize (D F). eapply Forall_impl; [|exact D]. intros r H [x X]. exact (H x X).
Qed.

(** *** Examples *)
(** A packet of 87 bytes that was read up to its header: one verification is fine, then a read, then everything is over; moving the cursor back helps. *)
Definition ex_packet : list byte := x00 :: x02 :: repeat x2a 85.
Example ex_C143_history :
  let d := start_deserialize (Packet ex_packet) in
  index d <= size d /\ Forall ordinary [OPop; OVerifyWith []; OPeek; OVerifyWith []] /\
  snd (do_ops toy d [OPop; OVerifyWith []; OPeek; OVerifyWith []]) = [Ok tt; Ok tt; Err EEof; Panic PSubOverflow] /\
  hopeless (fst (do_ops toy d [OPop; OVerifyWith []; OPeek])) (OVerifyWith []).
Proof. cbn zeta. split; [cbn; lia|]. split; [repeat constructor|]. split; [vm_compute; reflexivity|]. vm_compute. lia. Qed.
Example ex_C143_overlap :
  let d := start_deserialize (Packet ex_packet) in
  cuts_into_read (fst (do_ops toy d [OPop; ONext TU8])) (OVerifyWith []) /\
  snd (do_ops toy d [OPop; ONext TU8; OVerifyWith []; ONext TU8; OPop; OVerify]) = [Ok tt; Ok tt; Ok tt; Panic PSliceIndex; Panic PSliceIndex; Panic PSliceIndex] /\
  snd (do_ops toy {| pntr := pntr (fst (do_ops toy d [OPop; ONext TU8; OVerifyWith []])); index := 22 |} [ONext TU8; ONext TU8]) = [Ok tt; Err EEof].
Proof. cbn zeta. split; [vm_compute; lia|]. split; vm_compute; reflexivity. Qed.
