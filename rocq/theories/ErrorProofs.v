(** * ErrorProofs: the error of a failed read *)
From Coq Require Import Strings.String.
From Verif Require Import Base Serde Codec Universe Spec SerdeFacts CodecFacts Utf8Facts UniverseFacts Packet Client PacketFacts Community CommunitySpec ErrorSpec CodecProofs.
Open Scope nat_scope.

Definition decoder (A : Type) := list byte -> dres A.
Definition andthen {A B} (d : decoder A) (k : A -> decoder B) : decoder B := fun b => let* (v, r) := d b in k v r.

Definition kinds {A} (w : error -> Prop) (d : decoder A) : Prop := forall b e, d b = Err e -> e = EEof \/ w e.
Definition ok_stable {A} (d : decoder A) : Prop := forall b y v r, d b = Ok (v, r) -> d (b ++ y) = Ok (v, r ++ y).
Definition ko_stable {A} (d : decoder A) : Prop :=
  forall b y, (forall e, d b = Err e -> e <> EEof -> d (b ++ y) = Err e) /\ (forall p, d b = Panic p -> d (b ++ y) = Panic p).
Definition curable {A} (d : decoder A) : Prop := forall b, exists y, d (b ++ y) <> Err EEof.

(** ** Composition *)
Lemma kinds_andthen {A B} w (d : decoder A) (k : A -> decoder B) : kinds w d -> (forall v, kinds w (k v)) -> kinds w (andthen d k).
Proof.
  intros D K b e. unfold andthen. destruct (d b) as [[v r]|e'|] eqn:E; cbn [bind]; [apply K| |discriminate].
  intros [= <-]. eapply D, E.
Qed.
Lemma ok_stable_andthen {A B} (d : decoder A) (k : A -> decoder B) : ok_stable d -> (forall v, ok_stable (k v)) -> ok_stable (andthen d k).
Proof.
  intros D K b y v r. unfold andthen. destruct (d b) as [[x r']| |] eqn:E; cbn [bind]; try discriminate.
  intros H. rewrite (D _ y _ _ E). cbn [bind]. now apply K.
Qed.
Lemma ko_stable_andthen {A B} (d : decoder A) (k : A -> decoder B) : ok_stable d -> ko_stable d -> (forall v, ko_stable (k v)) -> ko_stable (andthen d k).
Proof.
  intros O D K b y. unfold andthen. destruct (d b) as [[x r']|e'|p'] eqn:E; cbn [bind].
  - rewrite (O _ y _ _ E). cbn [bind]. apply K.
  - split; [|discriminate]. intros e [= <-] N. now rewrite (proj1 (D b y) _ E N).
  - split; [discriminate|]. intros p [= <-]. now rewrite (proj2 (D b y) _ E).
Qed.
Lemma curable_andthen {A B} (d : decoder A) (k : A -> decoder B) :
  ok_stable d -> curable d -> (forall v, curable (k v)) -> curable (andthen d k).
Proof.
  intros O C K b. destruct (C b) as (y & Y). unfold andthen. destruct (d (b ++ y)) as [[x r']|e'|p'] eqn:E.
  - destruct (K x r') as (z & Z). exists (y ++ z). rewrite app_assoc, (O _ z _ _ E). exact Z.
  - exists y. rewrite E. cbn [bind]. congruence.
  - exists y. rewrite E. discriminate.
Qed.
Lemma kinds_mono {A} (w w' : error -> Prop) (d : decoder A) : (forall e, w e -> w' e) -> kinds w d -> kinds w' d.
Proof. intros H K b e E. destruct (K b e E); auto. Qed.
Lemma kinds_ext {A} w (d d' : decoder A) : (forall b, d b = d' b) -> kinds w d' -> kinds w d.
Proof. intros X H b. rewrite X. apply H. Qed.
Lemma ok_stable_ext {A} (d d' : decoder A) : (forall b, d b = d' b) -> ok_stable d' -> ok_stable d.
Proof. intros X H b y v r. rewrite !X. apply H. Qed.
Lemma ko_stable_ext {A} (d d' : decoder A) : (forall b, d b = d' b) -> ko_stable d' -> ko_stable d.
Proof. intros X H b y. rewrite !X. apply H. Qed.
Lemma curable_ext {A} (d d' : decoder A) : (forall b, d b = d' b) -> curable d' -> curable d.
Proof. intros X H b. destruct (H b) as (y & Y). exists y. now rewrite X. Qed.

(** a decoder that does not read *)
Definition const {A} (o : outcome A) : decoder A := fun b => let* v := o in Ok (v, b).
Lemma ok_stable_const {A} (o : outcome A) : ok_stable (const o).
Proof. intros b y v r. unfold const. destruct o; cbn [bind]; try discriminate. now intros [= <- <-]. Qed.
Lemma ko_stable_const {A} (o : outcome A) : ko_stable (const o).
Proof. intros b y. unfold const. destruct o; cbn [bind]; split; intros; congruence. Qed.
Lemma curable_const {A} (o : outcome A) : o <> Err EEof -> curable (const o).
Proof. intros N b. exists []. unfold const. destruct o; cbn [bind]; congruence. Qed.
Lemma kinds_const {A} w (o : outcome A) : (forall e, o = Err e -> e = EEof \/ w e) -> kinds w (const o).
Proof. intros H b e. unfold const. destruct o; cbn [bind]; try discriminate. intros [= <-]. now apply H. Qed.

(** ** Leaves *)
Lemma kinds_fixed {A} (d : decoder A) n f w : (forall b, d b = if length b <? n then Err EEof else Ok (f b)) -> kinds w d.
Proof. intros H b e. rewrite H. destruct (length b <? n); [|discriminate]. intros [= <-]. now left. Qed.
Lemma ko_stable_fixed {A} (d : decoder A) n f : (forall b, d b = if length b <? n then Err EEof else Ok (f b)) -> ko_stable d.
Proof. intros H b y. rewrite H. destruct (length b <? n); split; intros; congruence. Qed.
Lemma curable_fixed {A} (d : decoder A) n f : (forall b, d b = if length b <? n then Err EEof else Ok (f b)) -> curable d.
Proof.
  intros H b. exists (repeat x00 n). rewrite H. destruct (Nat.ltb_spec (length (b ++ repeat x00 n)) n) as [L|L]; [|discriminate].
  rewrite app_length, repeat_length in L. lia.
Qed.
Lemma de_blob_err k b e : de_blob k b = Err e -> e = EEof.
Proof. unfold de_blob. destruct (_ <? _); [congruence|]. destruct (_ <? _)%N; congruence. Qed.
Lemma de_blob_no_panic k b p : de_blob k b <> Panic p.
Proof. unfold de_blob. destruct (_ <? _); [congruence|]. destruct (_ <? _)%N; congruence. Qed.
Lemma ok_stable_blob k : ok_stable (de_blob k).
Proof.
  intros b y v r. unfold de_blob. destruct (Nat.ltb_spec (length b) k) as [L|L]; [discriminate|].
  destruct (N.ltb_spec (N.of_nat (length (skipn k b))) (be_value (firstn k b))) as [M|M]; [discriminate|]. intros [= <- <-].
  rewrite app_length. destruct (Nat.ltb_spec (length b + length y) k); [lia|].
  rewrite be_value_firstn_app by exact L. rewrite skipn_app. replace (k - length b) with 0 by lia. rewrite skipn_O.
  set (n := be_value (firstn k b)) in *. rewrite app_length.
  destruct (N.ltb_spec (N.of_nat (length (skipn k b) + length y)) n); [lia|].
  rewrite firstn_app, skipn_app. replace (N.to_nat n - length (skipn k b)) with 0 by lia. now rewrite firstn_O, skipn_O, app_nil_r.
Qed.
Lemma ko_stable_blob k : ko_stable (de_blob k).
Proof. intros b y. split; [intros e E N; now apply de_blob_err in E|intros p E; now apply de_blob_no_panic in E]. Qed.
Lemma curable_blob k : curable (de_blob k).
Proof.
  intros b. set (n := be_value (firstn k (b ++ repeat x00 k))). exists (repeat x00 k ++ repeat x00 (N.to_nat n)).
  unfold de_blob. rewrite app_assoc. set (b' := b ++ repeat x00 k) in *.
  assert (L : k <= length b') by (unfold b'; rewrite app_length, repeat_length; lia).
  rewrite app_length, repeat_length. destruct (Nat.ltb_spec (length b' + N.to_nat n) k); [lia|].
  rewrite be_value_firstn_app by exact L. fold n. rewrite skipn_length, app_length, repeat_length.
  destruct (N.ltb_spec (N.of_nat (length b' + N.to_nat n - k)) n); [lia|discriminate].
Qed.
Lemma kinds_blob w k : kinds w (de_blob k).
Proof. intros b e E. left. eapply de_blob_err, E. Qed.

(** ** All types *)
Lemma ok_stable_of t : self_delimiting t = true -> ok_stable (de t).
Proof.
  intros S b y v r E. destruct (f_ok t (facts_of t) _ _ _ E) as (c & -> & _ & _ & _ & _ & _ & _ & X).
  rewrite <- app_assoc. now apply X.
Qed.
Lemma ok_stable_plain fs : all_self_delimiting fs = true -> ok_stable (des_plain fs).
Proof.
  intros S b y v r E. rewrite <- de_struct in *. exact (ok_stable_of (TStruct fs) S b y v r E).
Qed.

Definition blobbed {A} (k : nat) (f : list byte -> outcome A) : decoder A := andthen (de_blob k) (fun s => const (f s)).
Lemma blobbed_ok {A} k (f : list byte -> A) b : (let* (v, r) := de_blob k b in Ok (f v, r)) = blobbed k (fun v => Ok (f v)) b.
Proof. reflexivity. Qed.
Lemma ko_stable_blobbed {A} k (f : list byte -> outcome A) : ko_stable (blobbed k f).
Proof. apply ko_stable_andthen; [apply ok_stable_blob|apply ko_stable_blob|intros; apply ko_stable_const]. Qed.
Lemma curable_blobbed {A} k (f : list byte -> outcome A) : (forall v, f v <> Err EEof) -> curable (blobbed k f).
Proof. intros H. apply curable_andthen; [apply ok_stable_blob|apply curable_blob|intros; now apply curable_const]. Qed.
Lemma kinds_blobbed {A} w k (f : list byte -> outcome A) : (forall v e, f v = Err e -> e = EEof \/ w e) -> kinds w (blobbed k f).
Proof. intros H. apply kinds_andthen; [apply kinds_blob|intros v; apply kinds_const, H]. Qed.

Definition auth_blob := blobbed 2 auth_of_contents.
Lemma bin_member_blobbed b : de_bin_member b = auth_blob b.
Proof. rewrite de_bin_member_blob. reflexivity. Qed.
Definition utf8_of (s : list byte) : outcome (list byte) := if utf8_valid s then Ok s else Err EInvalidUtf8.
Lemma string_blobbed b : de_string b = blobbed 8 utf8_of b.
Proof. rewrite de_string_blob. unfold blobbed, andthen, const, utf8_of. destruct (de_blob 8 b) as [[s r]| |]; cbn [bind]; [|reflexivity|reflexivity]. now destruct (utf8_valid s). Qed.
Definition bool_of (x : byte) : outcome bool := match x with x00 => Ok false | x01 => Ok true | _ => Err EInvalidBool end.
Lemma bool_andthen b : de_bool b = andthen de_u8 (fun x => const (bool_of x)) b.
Proof. unfold de_bool, andthen, const. destruct (de_u8 b) as [[x r]| |]; cbn [bind]; [|reflexivity|reflexivity]. now destruct x. Qed.
Lemma bool_of_err x e : bool_of x = Err e -> e = EInvalidBool.
Proof. destruct x; cbn; congruence. Qed.

Definition uint_f k (b : list byte) := (be_value (firstn k b), skipn k b).
Lemma uint_fixed k b : de_uint k b = if length b <? k then Err EEof else Ok (uint_f k b).
Proof. reflexivity. Qed.
Lemma int_fixed k b : de_int k b = if length b <? k then Err EEof else Ok (signed k (be_value (firstn k b)), skipn k b).
Proof. unfold de_int. rewrite uint_fixed. now destruct (length b <? k). Qed.
Lemma ok_stable_u8 : ok_stable de_u8.
Proof. intros [|x b] y v r; [discriminate|]. now intros [= <- <-]. Qed.
Lemma ok_stable_uint k : ok_stable (de_uint k).
Proof.
  intros b y v r. rewrite !uint_fixed, app_length. destruct (Nat.ltb_spec (length b) k); [discriminate|]. intros [= <- <-].
  destruct (Nat.ltb_spec (length b + length y) k); [lia|]. unfold uint_f. rewrite be_value_firstn_app by lia.
  rewrite skipn_app. replace (k - length b) with 0 by lia. now rewrite skipn_O.
Qed.

Lemma kinds_elements {A} w (d : decoder A) : kinds w d -> forall n, kinds w (seq_elements d n).
Proof.
  intros D n. induction n as [|n IH]; intros b e; cbn [seq_elements]; [discriminate|].
  destruct (d b) as [[x r]|e'|] eqn:E; cbn [bind]; try discriminate.
  - destruct (seq_elements d n r) as [[xs r']|e'|] eqn:E'; cbn [bind]; try discriminate. intros [= <-]. eapply IH, E'.
  - intros [= <-]. eapply D, E.
Qed.
Definition consing {A} (d : decoder A) (n : nat) (x : A) : decoder (list A) := andthen (seq_elements d n) (fun xs => const (Ok (x :: xs))).
Lemma elements_andthen {A} (d : decoder A) n b : seq_elements d (S n) b = andthen d (consing d n) b.
Proof. reflexivity. Qed.
Lemma ok_stable_elements {A} (d : decoder A) : ok_stable d -> forall n, ok_stable (seq_elements d n).
Proof.
  intros D n. induction n as [|n IH]; [apply (ok_stable_const (Ok []))|]. eapply ok_stable_ext; [apply elements_andthen|].
  apply ok_stable_andthen; [exact D|]. intros x. apply ok_stable_andthen; [exact IH|]. intros; apply ok_stable_const.
Qed.
Lemma ko_stable_elements {A} (d : decoder A) : ok_stable d -> ko_stable d -> forall n, ko_stable (seq_elements d n).
Proof.
  intros O D n. induction n as [|n IH]; [apply (ko_stable_const (Ok []))|]. eapply ko_stable_ext; [apply elements_andthen|].
  apply ko_stable_andthen; [exact O|exact D|]. intros x. apply ko_stable_andthen; [apply ok_stable_elements, O|exact IH|]. intros; apply ko_stable_const.
Qed.
Lemma curable_elements {A} (d : decoder A) : ok_stable d -> curable d -> forall n, curable (seq_elements d n).
Proof.
  intros O C n. induction n as [|n IH]; [now apply (curable_const (Ok []))|]. eapply curable_ext; [apply elements_andthen|].
  apply curable_andthen; [exact O|exact C|]. intros x.
  apply curable_andthen; [apply ok_stable_elements, O|exact IH|]. intros; now apply curable_const.
Qed.

Definition option_of {A} (d : decoder A) (x : byte) : decoder (option A) :=
  match x with x00 => const (Ok None) | x01 => andthen d (fun v => const (Ok (Some v))) | _ => const (Err EInvalidTag) end.
Lemma option_andthen {A} (d : decoder A) b : de_option d b = andthen de_u8 (option_of d) b.
Proof. unfold de_option, andthen. destruct (de_u8 b) as [[x r]| |]; cbn [bind]; [|reflexivity|reflexivity]. now destruct x. Qed.
Definition first_field t fs : tval t -> decoder (tvals (FCons t fs)) := fun x => andthen (des_plain fs) (fun xs => const (Ok (x, xs))).
Lemma plain_andthen t fs b : des_plain (FCons t fs) b = andthen (de t) (first_field t fs) b.
Proof. reflexivity. Qed.

Ltac leaf_fixed := first
  [ eapply (fun n f => kinds_fixed _ n f); first [exact de_u8_at|exact (uint_fixed _)|exact (int_fixed _)|exact de_bits_at|exact de_address_at|exact de_time_at
      |exact de_puncture_at|exact de_puncture_request_at|exact de_introduction_request_any|exact de_introduction_response_any]
  | eapply (fun n f => ko_stable_fixed _ n f); first [exact de_u8_at|exact (uint_fixed _)|exact (int_fixed _)|exact de_bits_at|exact de_address_at|exact de_time_at
      |exact de_puncture_at|exact de_puncture_request_at|exact de_introduction_request_any|exact de_introduction_response_any]
  | eapply (fun n f => curable_fixed _ n f); first [exact de_u8_at|exact (uint_fixed _)|exact (int_fixed _)|exact de_bits_at|exact de_address_at|exact de_time_at
      |exact de_puncture_at|exact de_puncture_request_at|exact de_introduction_request_any|exact de_introduction_response_any] ].

Lemma auth_err v e : auth_of_contents v = Err e -> e = ECustom "Received BinMemberAuthenticationPayload without LibNaclPK: prefix".
Proof. unfold auth_of_contents. destruct (_ <? _); [discriminate|]. destruct (negb _); [congruence|]. destruct (_ <? _); discriminate. Qed.
Lemma char_err b e : de_char b = Err e -> e = EEof \/ e = EInvalidChar.
Proof.
  unfold de_char. destruct b as [|x b]; cbn [de_u8 bind]; [intros [= <-]; auto|].
  destruct (utf8_char_width x) as [|[|k]]; [intros [= <-]; auto|discriminate|]. destruct (_ <? _); [intros [= <-]; auto|].
  destruct (utf8_valid _); [discriminate|]. intros [= <-]. auto.
Qed.

Lemma kinds_all : (forall t, kinds (wrong_content t) (de t)) /\
  (forall fs, kinds (wrong_contents fs) (des_plain fs) /\ forall i, kinds (wrong_contents (FCons (TEnum FNil) fs)) (dealts fs i)).
Proof.
  apply ty_tys_ind; try (leaf_fixed; fail).
  - eapply kinds_ext; [exact de_vec_u8_blob|apply kinds_blob].
  - apply (kinds_ext _ _ (blobbed 2 (fun v => Ok (VarLen16 v))) de_varlen16_blob). apply kinds_blobbed; discriminate.
  - apply (kinds_ext _ _ (blobbed 4 (fun v => Ok (VarLen32 v))) de_varlen32_blob). apply kinds_blobbed; discriminate.
  - apply (kinds_ext _ _ (blobbed 8 (fun v => Ok (VarLen64 v))) de_varlen64_blob). apply kinds_blobbed; discriminate.
  - intros b e. cbn [de]. rewrite de_rawend_any. discriminate.
  - apply (kinds_ext _ _ (blobbed 2 (fun v => Ok (NestedPacket (Packet v)))) de_nested_blob). apply kinds_blobbed; discriminate.
  - eapply kinds_ext; [exact bin_member_blobbed|]. apply kinds_blobbed. intros v e E. right. exact (auth_err v e E).
  - intros fs [H _]. eapply kinds_ext; [apply de_struct|exact H].
  - eapply kinds_ext; [exact bool_andthen|]. apply kinds_andthen; [leaf_fixed|]. intros v. apply kinds_const. intros e E. right. exact (bool_of_err v e E).
  - intros b e E. exact (char_err b e E).
  - eapply kinds_ext; [exact string_blobbed|]. apply kinds_blobbed. intros v e. unfold utf8_of. destruct (utf8_valid v); [discriminate|]. intros [= <-]. right. reflexivity.
  - intros t IH. eapply kinds_ext; [apply option_andthen|]. apply kinds_andthen; [leaf_fixed|]. intros x.
    destruct x; try (apply kinds_const; first [discriminate|intros e [= <-]; right; left; reflexivity]).
    apply kinds_andthen; [eapply kinds_mono; [|exact IH]; intros e; now right|]. intros v. apply kinds_const. discriminate.
  - intros t IH. apply (kinds_andthen (wrong_content (TVec t)) de_u64 (fun n => seq_elements (de t) (N.to_nat n))); [leaf_fixed|]. intros n. now apply kinds_elements.
  - intros vs [_ IH]. apply (kinds_andthen (wrong_content (TEnum vs)) de_u32 (fun n => dealts vs n)); [leaf_fixed|]. intros n.
    eapply kinds_mono; [|apply IH]. cbn. tauto.
  - split; [apply (kinds_const _ (Ok tt)); discriminate|]. intros i b e [= <-]. right. left. now left.
  - intros t IHt fs [IHf IHv]. split.
    + eapply kinds_ext; [apply plain_andthen|]. apply kinds_andthen; [eapply kinds_mono; [|exact IHt]; intros e; now left|]. intros x.
      apply kinds_andthen; [eapply kinds_mono; [|exact IHf]; intros e; now right|]. intros; apply kinds_const; discriminate.
    + intros i b e. cbn [dealts]. destruct (i =? 0)%N.
      * destruct (de t b) as [[x r]|e'|] eqn:E; cbn [bind]; try discriminate. intros [= <-]. destruct (IHt _ _ E) as [H|H]; [now left|]. right. right. now left.
      * destruct (dealts fs (N.pred i) b) as [[x r]|e'|] eqn:E; cbn [bind]; try discriminate. intros [= <-].
        destruct (IHv _ _ _ E) as [H|[H|H]]; [now left|right; now left|right; right; now right].
Qed.

(** ** Stability and cure *)
(** the option of a type that need not be self-delimiting: nothing is read after it *)
Lemma ko_option_end {A} (d : decoder A) : ko_stable d -> ko_stable (de_option d).
Proof.
  intros D. eapply ko_stable_ext; [apply option_andthen|]. apply ko_stable_andthen; [apply ok_stable_u8|leaf_fixed|]. intros x.
  assert (K : ko_stable (andthen d (fun v => const (Ok (Some v))))).
  { intros b y. unfold andthen, const. cbn [bind]. split.
    - intros e. destruct (d b) as [[v r]|e'|] eqn:E; cbn [bind]; try discriminate. intros [= <-] N. now rewrite (proj1 (D b y) _ E N).
    - intros p. destruct (d b) as [[v r]| |p'] eqn:E; cbn [bind]; try discriminate. intros [= <-]. now rewrite (proj2 (D b y) _ E). }
  destruct x; try apply ko_stable_const. exact K.
Qed.

Lemma raw_end_cons t fs : raw_at_end_onlys (FCons t fs) = true ->
  (fs = FNil /\ raw_at_end_only t = true) \/ (self_delimiting t = true /\ raw_at_end_onlys fs = true).
Proof.
  destruct fs as [|t' fs]; [now left|]. intros H. right. change (self_delimiting t && raw_at_end_onlys (FCons t' fs) = true) in H.
  now apply andb_true_iff in H.
Qed.
Lemma self_raw : (forall t, self_delimiting t = true -> raw_at_end_only t = true) /\
  (forall fs, all_self_delimiting fs = true -> raw_at_end_onlys fs = true /\ all_raw_at_end_only fs = true).
Proof.
  apply ty_tys_ind; try reflexivity; try discriminate; cbn [self_delimiting raw_at_end_only all_self_delimiting all_raw_at_end_only]; auto.
  - intros fs H S. now apply H.
  - intros fs H S. now apply H.
  - intros t IH fs IHf S. apply andb_true_iff in S as [S1 S2]. destruct (IHf S2) as [A B]. split.
    + cbn [raw_at_end_onlys]. destruct fs; [now apply IH|]. now rewrite S1, A.
    + now rewrite (IH S1), B.
Qed.

Lemma ko_stable_all : (forall t, has_char t = false -> raw_at_end_only t = true -> ko_stable (de t)) /\
  (forall fs, have_char fs = false ->
     (raw_at_end_onlys fs = true -> ko_stable (des_plain fs)) /\ (all_raw_at_end_only fs = true -> forall i, ko_stable (dealts fs i))).
Proof.
  apply ty_tys_ind; try (intros; leaf_fixed; fail).
  - intros _ _. eapply ko_stable_ext; [exact de_vec_u8_blob|apply ko_stable_blob].
  - intros _ _. apply (ko_stable_ext _ (blobbed 2 (fun v => Ok (VarLen16 v))) de_varlen16_blob). apply ko_stable_blobbed.
  - intros _ _. apply (ko_stable_ext _ (blobbed 4 (fun v => Ok (VarLen32 v))) de_varlen32_blob). apply ko_stable_blobbed.
  - intros _ _. apply (ko_stable_ext _ (blobbed 8 (fun v => Ok (VarLen64 v))) de_varlen64_blob). apply ko_stable_blobbed.
  - intros _ _ b y. cbn [de]. rewrite de_rawend_any. split; discriminate.
  - intros _ _. apply (ko_stable_ext _ (blobbed 2 (fun v => Ok (NestedPacket (Packet v)))) de_nested_blob). apply ko_stable_blobbed.
  - intros _ _. eapply ko_stable_ext; [exact bin_member_blobbed|]. apply ko_stable_blobbed.
  - intros fs H C R. eapply ko_stable_ext; [apply de_struct|]. now apply H.
  - intros _ _. eapply ko_stable_ext; [exact bool_andthen|]. apply ko_stable_andthen; [apply ok_stable_u8|leaf_fixed|]. intros; apply ko_stable_const.
  - discriminate.
  - intros _ _. eapply ko_stable_ext; [exact string_blobbed|]. apply ko_stable_blobbed.
  - intros t IH C R. apply ko_option_end. now apply IH.
  - intros t IH C R. apply (ko_stable_andthen de_u64 (fun n => seq_elements (de t) (N.to_nat n))); [apply ok_stable_uint|leaf_fixed|]. intros n.
    cbn [raw_at_end_only] in R. apply ko_stable_elements; [now apply ok_stable_of|]. apply IH; [exact C|]. now apply (proj1 self_raw).
  - intros vs IH C R. apply (ko_stable_andthen de_u32 (fun n => dealts vs n)); [apply ok_stable_uint|leaf_fixed|]. intros n. now apply IH.
  - intros _. split; [intros _; apply (ko_stable_const (Ok tt))|]. intros _ i b y. split; [auto|discriminate].
  - intros t IHt fs IHf C. cbn [have_char] in C. apply orb_false_iff in C as [C1 C2]. destruct (IHf C2) as [IH1 IH2]. split.
    + intros R. destruct (raw_end_cons _ _ R) as [[-> R']|[S R']].
      * specialize (IHt C1 R'). intros b y. cbn [des_plain]. split.
        -- intros e. destruct (de t b) as [[v r]|e'|] eqn:E; cbn [bind]; try discriminate. intros [= <-] N. now rewrite (proj1 (IHt b y) _ E N).
        -- intros p. destruct (de t b) as [[v r]| |p'] eqn:E; cbn [bind]; try discriminate. intros [= <-]. now rewrite (proj2 (IHt b y) _ E).
      * eapply ko_stable_ext; [apply plain_andthen|]. apply ko_stable_andthen; [now apply ok_stable_of|apply IHt; [exact C1|now apply (proj1 self_raw)]|].
        intros x b y. unfold first_field, andthen, const. cbn [bind]. specialize (IH1 R'). split.
        -- intros e. destruct (des_plain fs b) as [[v r]|e'|] eqn:E; cbn [bind]; try discriminate. intros [= <-] N. now rewrite (proj1 (IH1 b y) _ E N).
        -- intros p. destruct (des_plain fs b) as [[v r]| |p'] eqn:E; cbn [bind]; try discriminate. intros [= <-]. now rewrite (proj2 (IH1 b y) _ E).
    + intros R i b y. cbn [all_raw_at_end_only] in R. apply andb_true_iff in R as [R1 R2]. cbn [dealts]. destruct (i =? 0)%N.
      * specialize (IHt C1 R1). split.
        -- intros e. destruct (de t b) as [[v r]|e'|] eqn:E; cbn [bind]; try discriminate. intros [= <-] N. now rewrite (proj1 (IHt b y) _ E N).
        -- intros p. destruct (de t b) as [[v r]| |p'] eqn:E; cbn [bind]; try discriminate. intros [= <-]. now rewrite (proj2 (IHt b y) _ E).
      * specialize (IH2 R2 (N.pred i)). split.
        -- intros e. destruct (dealts fs (N.pred i) b) as [[v r]|e'|] eqn:E; cbn [bind]; try discriminate. intros [= <-] N. now rewrite (proj1 (IH2 b y) _ E N).
        -- intros p. destruct (dealts fs (N.pred i) b) as [[v r]| |p'] eqn:E; cbn [bind]; try discriminate. intros [= <-]. now rewrite (proj2 (IH2 b y) _ E).
Qed.

Lemma curable_map {A B} (d : decoder A) (f : A -> B) : curable d -> curable (andthen d (fun v => const (Ok (f v)))).
Proof.
  intros C b. destruct (C b) as (y & Y). exists y. unfold andthen, const. cbn [bind].
  destruct (d (b ++ y)) as [[v r]|e|p]; cbn [bind]; congruence.
Qed.
Lemma curable_char : curable de_char.
Proof.
  intros [|x b].
  - exists [x00]. cbn. discriminate.
  - exists []. rewrite app_nil_r. unfold de_char. cbn [de_u8 bind]. destruct (utf8_char_width x) as [|[|k]]; try discriminate.
    destruct (_ <? _); [discriminate|]. destruct (utf8_valid _); discriminate.
Qed.
Lemma curable_all : (forall t, raw_at_end_only t = true -> curable (de t)) /\
  (forall fs, (raw_at_end_onlys fs = true -> curable (des_plain fs)) /\ (all_raw_at_end_only fs = true -> forall i, curable (dealts fs i))).
Proof.
  apply ty_tys_ind; try (intros; leaf_fixed; fail).
  - intros _. eapply curable_ext; [exact de_vec_u8_blob|apply curable_blob].
  - intros _. apply (curable_ext _ (blobbed 2 (fun v => Ok (VarLen16 v))) de_varlen16_blob). apply curable_blobbed; discriminate.
  - intros _. apply (curable_ext _ (blobbed 4 (fun v => Ok (VarLen32 v))) de_varlen32_blob). apply curable_blobbed; discriminate.
  - intros _. apply (curable_ext _ (blobbed 8 (fun v => Ok (VarLen64 v))) de_varlen64_blob). apply curable_blobbed; discriminate.
  - intros _ b. exists []. cbn [de]. rewrite de_rawend_any. discriminate.
  - intros _. apply (curable_ext _ (blobbed 2 (fun v => Ok (NestedPacket (Packet v)))) de_nested_blob). apply curable_blobbed; discriminate.
  - intros _. eapply curable_ext; [exact bin_member_blobbed|]. apply curable_blobbed. intros v E. apply auth_err in E. discriminate.
  - intros fs H R. eapply curable_ext; [apply de_struct|]. now apply H.
  - intros _. eapply curable_ext; [exact bool_andthen|]. apply curable_andthen; [apply ok_stable_u8|leaf_fixed|]. intros x. apply curable_const.
    intros E. apply bool_of_err in E. discriminate.
  - intros _. exact curable_char.
  - intros _. eapply curable_ext; [exact string_blobbed|]. apply curable_blobbed. intros v. unfold utf8_of. destruct (utf8_valid v); discriminate.
  - intros t IH R. eapply curable_ext; [apply option_andthen|]. apply curable_andthen; [apply ok_stable_u8|leaf_fixed|]. intros x.
    destruct x; try (apply curable_const; discriminate). apply curable_map. now apply IH.
  - intros t IH R. apply (curable_andthen de_u64 (fun n => seq_elements (de t) (N.to_nat n))); [apply ok_stable_uint|leaf_fixed|]. intros n.
    cbn [raw_at_end_only] in R. apply curable_elements; [now apply ok_stable_of|]. apply IH. now apply (proj1 self_raw).
  - intros vs IH R. apply (curable_andthen de_u32 (fun n => dealts vs n)); [apply ok_stable_uint|leaf_fixed|]. intros n. now apply IH.
  - split; [intros _; apply (curable_const (Ok tt)); discriminate|]. intros _ i b. exists []. discriminate.
  - intros t IHt fs [IH1 IH2]. split.
    + intros R. destruct (raw_end_cons _ _ R) as [[-> R']|[S R']].
      * eapply curable_ext; [apply plain_andthen|]. apply (curable_map (de t) (fun x : tval t => (x, tt) : tvals (FCons t FNil))). now apply IHt.
      * eapply curable_ext; [apply plain_andthen|]. apply curable_andthen; [now apply ok_stable_of|apply IHt; now apply (proj1 self_raw)|].
        intros x. apply curable_map. now apply IH1.
    + intros R i. cbn [all_raw_at_end_only] in R. apply andb_true_iff in R as [R1 R2]. destruct (N.eqb_spec i 0) as [->|Hi].
      * apply (curable_ext _ (andthen (de t) (fun x => const (Ok (inl x : talts (FCons t fs)))))); [reflexivity|]. apply curable_map. now apply IHt.
      * apply (curable_ext _ (andthen (dealts fs (N.pred i)) (fun y => const (Ok (inr y : talts (FCons t fs)))))).
        -- intros b. cbn [dealts]. destruct (N.eqb_spec i 0); [contradiction|reflexivity].
        -- apply curable_map. now apply IH2.
Qed.

(** ** Errors of writing *)
Definition msg16 := ECustom "Data too large to fit in a VarLen16. Must be less than 65536 bytes.".
Definition msg32 := ECustom "Data too large to fit in a VarLen32. Must be less than 4294967295 bytes.".
Definition msg6 := ECustom "ip-v8 does not (yet) support ipv6".
Definition why (ipv6 big : Prop) (e : error) : Prop := (e = msg6 /\ ipv6) \/ ((e = msg16 \/ e = msg32) /\ big).
Lemma why_mono (a b a' b' : Prop) e : (a -> a') -> (b -> b') -> why a b e -> why a' b' e.
Proof. unfold why. tauto. Qed.
Lemma ser_address_why a e : ser_address a = Err e -> e = msg6 /\ ipv6 a.
Proof. destruct a; [discriminate|]. intros [= <-]. split; [reflexivity|]. intros []. Qed.
Lemma ser_seq_err l e : ser_seq l = Err e -> exists x, In x l /\ x = Err e.
Proof.
  induction l as [|x l IH]; cbn [ser_seq]; [discriminate|]. destruct x as [a|e'|]; cbn [bind]; try discriminate.
  - destruct (ser_seq l) as [b|e'|]; cbn [bind]; try discriminate. intros [= <-]. destruct (IH eq_refl) as (x & I & E). exists x. split; [now right|exact E].
  - intros [= <-]. eexists. split; [now left|reflexivity].
Qed.
Lemma ser_why : (forall t v e, ser t v = Err e -> why (mentions_ipv6 t v) (oversized t v) e) /\
  (forall fs, (forall v e, sers fs v = Err e -> why (mentions_ipv6s fs v) (oversizeds fs v) e) /\
              (forall i v e, seralts fs i v = Err e -> why (variant_mentions_ipv6 fs v) (variant_oversized fs v) e)).
Proof.
  apply ty_tys_ind; try (intros; discriminate).
  - intros v e H. left. exact (ser_address_why v e H).
  - intros v e H. right. cbn [ser] in H. unfold ser_varlen16 in H. fold (len (vl16 v)) in H. destruct (N.ltb_spec 0xffff (len (vl16 v))); [|discriminate].
    injection H as <-. split; [now left|assumption].
  - intros v e H. right. cbn [ser] in H. unfold ser_varlen32 in H. fold (len (vl32 v)) in H. destruct (N.ltb_spec 0xffffffff (len (vl32 v))); [|discriminate].
    injection H as <-. split; [now right|assumption].
  - intros v e H. right. cbn [ser] in H. unfold ser_nested in H. apply ser_seq_err in H as (x & [<-|[<-|[]]] & E); [discriminate|].
    unfold ser_varlen16 in E. cbn [vl16] in E. fold (len (packet_bytes (nested_inner v))) in E. destruct (N.ltb_spec 0xffff (len (packet_bytes (nested_inner v)))); [|discriminate].
    injection E as <-. split; [now left|assumption].
  - intros v e H. left. apply ser_seq_err in H as (x & I & ->). cbn [In] in I.
    repeat (destruct I as [I|I]; [first [discriminate|apply ser_address_why in I as [-> I]; split; [reflexivity|cbn; tauto]]|]). destruct I.
  - intros v e H. left. apply ser_seq_err in H as (x & I & ->). cbn [In] in I.
    repeat (destruct I as [I|I]; [first [discriminate|apply ser_address_why in I as [-> I]; split; [reflexivity|cbn; tauto]]|]). destruct I.
  - intros v e H. left. apply ser_seq_err in H as (x & I & ->). cbn [In] in I.
    repeat (destruct I as [I|I]; [first [discriminate|apply ser_address_why in I as [-> I]; split; [reflexivity|cbn; tauto]]|]). destruct I.
  - intros v e H. left. apply ser_seq_err in H as (x & I & ->). cbn [In] in I.
    repeat (destruct I as [I|I]; [first [discriminate|apply ser_address_why in I as [-> I]; split; [reflexivity|cbn; tauto]]|]). destruct I.
  - intros fs [IH _] v e. cbn [ser]. destruct (sers fs v) as [r|e'|] eqn:E; cbn [bind]; try discriminate. intros [= <-]. exact (IH v _ E).
  - intros t IH [v|] e; cbn [ser]; [|discriminate]. destruct (ser t v) as [r|e'|] eqn:E; cbn [bind]; try discriminate. intros [= <-]. exact (IH v _ E).
  - intros t IH v e. cbn [ser]. destruct (ser_seq (map (ser t) v)) as [r|e'|] eqn:E; cbn [bind]; try discriminate. intros [= <-].
    apply ser_seq_err in E as (x & I & ->). apply in_map_iff in I as (y & Y & I). eapply why_mono; [| |exact (IH y _ Y)]; intros H; apply Exists_exists; eauto.
  - intros vs [_ IH] v e H. exact (IH 0%N v e H).
  - split; [discriminate|]. intros i [].
  - intros t IHt fs [IHf IHv]. split.
    + intros [x xs] e. cbn [sers fst snd]. destruct (ser t x) as [a|e'|] eqn:E; cbn [bind]; try discriminate.
      * destruct (sers fs xs) as [b|e'|] eqn:E'; cbn [bind]; try discriminate. intros [= <-]. eapply why_mono; [| |exact (IHf xs _ E')]; cbn; tauto.
      * intros [= <-]. eapply why_mono; [| |exact (IHt x _ E)]; cbn; tauto.
    + intros i [x|y] e; cbn [seralts].
      * destruct (ser t x) as [a|e'|] eqn:E; cbn [bind]; try discriminate. intros [= <-]. exact (IHt x _ E).
      * intros H. exact (IHv _ y e H).
Qed.

(** ** The properties *)

(** C121. If a read fails, then because bytes are missing, or because of a content the type does not allow, and the error says which: no payload of
    the library but the authentication payload knows wrong content, and errors that the readers prepare for a wrong number of elements never occur. *)
Lemma p_C121_error_kinds :
  forall (t : ty) (p : list byte) (i : nat) (d : deserializer) (e : error),
    i <= length p -> next_payload t (Deserializer (Packet p) i) = (d, Err e) ->
    e = EEof \/ wrong_content t e.
Proof.
  intros t p i d e Hi. rewrite next_payload_eq by exact Hi. destruct (de t (skipn i p)) as [[v r]|e'|] eqn:E; try discriminate.
  intros [= <- <-]. exact (proj1 kinds_all t _ _ E).
Qed.

(** C121. "Unexpected end" is said exactly when more bytes at the end of the packet could change the outcome of the failed read; every other failure (also a panic)
    is final. (Types with raw bytes at the end included. Not for raw bytes before the end, where nothing helps, and not for chars, see below.) *)
Lemma p_C121_unexpected_end_iff_curable :
  forall (t : ty) (p : list byte) (i : nat),
    raw_at_end_only t = true -> has_char t = false -> i <= length p ->
    let read p := snd (next_payload t (Deserializer (Packet p) i)) in
    is_ok (read p) = false ->
    (read p = Err EEof <-> exists more, read (p ++ more) <> read p).
Proof.
  intros t p i R C Hi read F.
  assert (X : forall q, read (p ++ q) = let* (v, _) := de t (skipn i p ++ q) in Ok v).
  { intros q. unfold read. rewrite next_payload_eq by (rewrite app_length; lia). rewrite skipn_app. replace (i - length p) with 0 by lia. rewrite skipn_O.
    now destruct (de t (skipn i p ++ q)) as [[v r]| |]. }
  assert (X0 : read p = let* (v, _) := de t (skipn i p) in Ok v) by (rewrite <- (app_nil_r p) at 1; now rewrite X, app_nil_r).
  pose proof (proj1 ko_stable_all t C R) as K. pose proof (proj1 curable_all t R) as Cu. split.
  - intros E. destruct (Cu (skipn i p)) as (y & Y). exists y. rewrite X, E. destruct (de t (skipn i p ++ y)) as [[v r]|e|q]; cbn [bind]; congruence.
  - intros (y & N). rewrite X, X0 in *. destruct (de t (skipn i p)) as [[v r]|e|q] eqn:E; cbn [bind] in *.
    + discriminate F.
    + assert (Ee : {e = EEof} + {e <> EEof}) by (destruct e; ((left; reflexivity) || (right; discriminate))).
      destruct Ee as [->|Ne]; [reflexivity|]. rewrite (proj1 (K _ y) _ E Ne) in N. now contradiction N.
    + rewrite (proj2 (K _ y) _ E) in N. now contradiction N.
Qed.

(** C121. A packet cut anywhere inside a value it contained is answered with "unexpected end". *)
Lemma p_C121_cut_is_unexpected_end :
  forall (t : ty) (p : list byte) (i j : nat) (v : tval t),
    self_delimiting t = true -> has_char t = false -> i <= length p ->
    next_payload t (Deserializer (Packet p) i) = (Deserializer (Packet p) j, Ok v) ->
    forall k, i <= k < j ->
      next_payload t (Deserializer (Packet (firstn k p)) i) = (Deserializer (Packet (firstn k p)) i, Err EEof).
Proof.
  intros t p i j v S C Hi E k Hk. rewrite next_payload_eq in E by exact Hi.
  destruct (de t (skipn i p)) as [[v' r]| |] eqn:D; try discriminate. injection E as <- <-.
  destruct (f_ok t (facts_of t) _ _ _ D) as (c & Ec & _ & _ & _ & L & _ & _ & X). specialize (X S).
  assert (Lp : length p = i + length c + length r).
  { apply (f_equal (@length byte)) in Ec. rewrite skipn_length, app_length in Ec. lia. }
  rewrite next_payload_eq by (rewrite firstn_length; lia).
  assert (Es : skipn i (firstn k p) = firstn (k - i) c).
  { rewrite skipn_firstn_comm, Ec, firstn_app. replace (k - i - length c) with 0 by lia. now rewrite firstn_O, app_nil_r. }
  rewrite Es. set (a := firstn (k - i) c). set (z := skipn (k - i) c). assert (Ea : c = a ++ z) by (symmetry; apply firstn_skipn).
  assert (Lz : length z > 0) by (unfold z; rewrite skipn_length; lia).
  pose proof (X []) as X0. rewrite app_nil_r, Ea in X0.
  pose proof (proj1 ko_stable_all t C (proj1 self_raw t S)) as K.
  destruct (de t a) as [[v2 r2]|e|q] eqn:Da.
  - rewrite (ok_stable_of t S _ z _ _ Da) in X0. injection X0 as _ Z. destruct r2, z; cbn in *; try discriminate; lia.
  - assert (Ee : {e = EEof} + {e <> EEof}) by (destruct e; ((left; reflexivity) || (right; discriminate))).
    destruct Ee as [->|Ne]; [reflexivity|]. rewrite (proj1 (K _ z) _ Da Ne) in X0. discriminate.
  - rewrite (proj2 (K _ z) _ Da) in X0. discriminate.
Qed.

(** C121. The header: too few bytes are "unexpected end" only as far as the two bytes that are there are those of the protocol's version. *)
Lemma p_C121_header_errors :
  forall (p : list byte) (i : nat),
    i <= length p ->
    let d := Deserializer (Packet p) i in
    (length p < i + 2 \/ byte_at p i = x00 /\ byte_at p (i + 1) = x02 /\ length p < i + 23 ->
       peek_header d = Err EEof /\ pop_header d = (d, Err EEof)) /\
    (i + 2 <= length p -> ~ (byte_at p i = x00 /\ byte_at p (i + 1) = x02) ->
       let e := ECustom "No valid header type could be determined" in
       peek_header d = Err e /\ pop_header d = (d, Err e)).
Proof.
  intros p i Hi d.
  assert (P : peek_header d = let* (h, _) := de_header (skipn i p) in Ok h).
  { unfold peek_header, d. cbn [pntr packet_bytes index]. rewrite slice_from_ok by exact Hi. reflexivity. }
  assert (Q : forall e, peek_header d = Err e -> pop_header d = (d, Err e)) by (intros e E; unfold pop_header; now rewrite E).
  assert (B : forall k, byte_at p (i + k) = byte_at (skipn i p) k) by (intros k; now rewrite byte_at_skipn).
  assert (B0 : byte_at p i = byte_at (skipn i p) 0) by (rewrite <- B; now rewrite Nat.add_0_r).
  assert (Lq : length p = i + length (skipn i p)) by (rewrite skipn_length; lia).
  rewrite B, B0. remember (skipn i p) as q eqn:Eq. clear B B0 Eq.
  split.
  - intros H. enough (E : peek_header d = Err EEof) by (split; [exact E|now apply Q]). rewrite P.
    destruct q as [|q0 [|q1 q]]; [reflexivity|reflexivity|].
    destruct H as [H|(E0 & E1 & H)]; [cbn in Lq; lia|]. cbn in E0, E1. subst q0 q1. cbn [length] in Lq.
    assert (Lt : length q < 21) by lia. clear - Lt.
    do 21 (destruct q as [|? q]; [reflexivity|]). cbn in Lt. lia.
  - intros H N e. enough (E : peek_header d = Err e) by (split; [exact E|now apply Q]). rewrite P.
    destruct q as [|q0 [|q1 q]]; [cbn in Lq; lia|cbn in Lq; lia|]. cbn [byte_at nth] in N.
    unfold de_header, deserialize_tuple, next_required, next_element. cbn [acc_len acc_rest].
    change (USIZE_MAX =? 0)%N with false. cbn [bind de_u8 acc_len acc_rest]. change (N.pred USIZE_MAX =? 0)%N with false. cbn [bind de_u8 acc_len acc_rest].
    destruct (bytes_eqb [q0; q1] (bs [0; 2]%N)) eqn:Eb; [|reflexivity].
    exfalso. apply N. cbn in Eb. apply andb_true_iff in Eb as [E0 E1]. rewrite andb_true_r in E1. split; now apply Byte.byte_dec_bl.
Qed.

(** C121. Writing fails for three reasons, and the error says which: an IPv6 address, or a vector too long for its length prefix. *)
Lemma p_C121_write_errors :
  forall (t : ty) (p q : packet) (v : tval t) (e : error),
    packet_add t p v = (q, Err e) ->
    q = p /\
    ((e = ECustom "ip-v8 does not (yet) support ipv6" /\ mentions_ipv6 t v) \/
     ((e = ECustom "Data too large to fit in a VarLen16. Must be less than 65536 bytes." \/
       e = ECustom "Data too large to fit in a VarLen32. Must be less than 4294967295 bytes.") /\ oversized t v)).
Proof.
  intros t p q v e. unfold packet_add, packet_extend, bincode_serialize. destruct (ser t v) as [r|e'|] eqn:E; cbn [bind]; try discriminate.
  intros [= <- <-]. split; [reflexivity|]. exact (proj1 ser_why t v _ E).
Qed.

(** C18. The error of a payload with an IPv6 address (and no vector too long) names that reason. *)
Lemma p_C18_ipv6_error :
  forall (t : ty) (p : packet) (v : tval t),
    in_range t v -> mentions_ipv6 t v -> ~ oversized t v ->
    packet_add t p v = (p, Err (ECustom "ip-v8 does not (yet) support ipv6")).
Proof.
  intros t p v R M O. destruct (p_C18_ipv6_refused t p v R M) as (m & E).
  destruct (p_C121_write_errors _ _ _ _ _ E) as [_ [[H _]|[_ H]]]; [now rewrite E, H|contradiction].
Qed.

(** C42. A message with a malformed header calls nobody, and the error says whether bytes are missing or it is another protocol. *)
Lemma p_C42_malformed_header_errors :
  forall (cs : list community) (p : list byte) (from : address),
    (length p < 2 \/ byte_at p 0 = x00 /\ byte_at p 1 = x02 /\ length p < 23 ->
       forward_message (registered cs) (Packet p) from = ([], Err EEof)) /\
    (2 <= length p -> ~ (byte_at p 0 = x00 /\ byte_at p 1 = x02) ->
       forward_message (registered cs) (Packet p) from = ([], Err (ECustom "No valid header type could be determined"))).
Proof.
  intros cs p from. destruct (p_C121_header_errors p 0 ltac:(lia)) as [A B]. split.
  - intros H. unfold forward_message, start_deserialize. now rewrite (proj1 (A H)).
  - intros H N. unfold forward_message, start_deserialize. now rewrite (proj1 (B H N)).
Qed.
Example ex_C42_malformed_header_errors : 2 <= length [x00; x01] /\ ~ (byte_at [x00; x01] 0 = x00 /\ byte_at [x00; x01] 1 = x02).
Proof. split; [cbn; lia|]. intros [_ H]. discriminate H. Qed.

(** a struct with a u16, a string, an option and raw bytes; a bool that is neither 0 nor 1; a cut inside the string *)
Definition ex_C121_ty : ty := TStruct (FCons TU16 (FCons TString (FCons (TOption TBool) (FCons TRawEnd FNil)))).
Example ex_C121 :
  raw_at_end_only ex_C121_ty = true /\ has_char ex_C121_ty = false /\
  let read p := snd (next_payload ex_C121_ty (Deserializer (Packet p) 0)) in
  let start := [x01; x02] ++ u64_bytes 2 ++ [x68; x69] in
  read (start ++ [x01; x01; xaa]) = Ok (258%N, ([x68; x69], (Some true, (RawEnd [xaa], tt)))) /\
  read (start ++ [x01; x02; xaa]) = Err EInvalidBool /\ read (start ++ [x05]) = Err EInvalidTag /\
  read (firstn 11 start) = Err EEof /\ read ([x01; x02] ++ u64_bytes 1 ++ [xff]) = Err EInvalidUtf8.
Proof. repeat split; reflexivity. Qed.
(** a char cut short is the exception: the error is that of a wrong content, and more bytes cure it *)
Example ex_C121_char :
  snd (next_payload TChar (Deserializer (Packet [xc3]) 0)) = Err EInvalidChar /\
  snd (next_payload TChar (Deserializer (Packet ([xc3] ++ [xa9])) 0)) = Ok 233%N.
Proof. split; reflexivity. Qed.
