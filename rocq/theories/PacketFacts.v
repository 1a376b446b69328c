(** * PacketFacts: lemmas about packets and deserializers *)
From Coq Require Import Strings.String.
From Verif Require Import Base Serde Codec Universe Spec SerdeFacts CodecFacts UniverseFacts Packet Client.
Open Scope nat_scope.

(** ** Header *)
Lemma fill_u8_spec e n : forall len b,
  (N.of_nat n <= len)%N ->
  fill_u8 e n (Access len b) =
    if length b <? n then Err EEof else Ok (firstn n b, Access (len - N.of_nat n) (skipn n b)).
Proof.
  induction n as [|n IH]; intros len b H.
  - cbn. now rewrite N.sub_0_r.
  - cbn [fill_u8]. rewrite next_required_ok by lia.
    destruct b as [|x b]; [reflexivity|]. cbn [de_u8 bind].
    rewrite IH by lia. cbn [length].
    destruct (Nat.ltb_spec (length b) n), (Nat.ltb_spec (S (length b)) (S n)); try lia; [reflexivity|].
    cbn [bind firstn skipn]. do 3 f_equal. lia.
Qed.

Definition header_prefix_ok (b : list byte) : bool :=
  (23 <=? length b) && Byte.eqb (byte_at b 0) x00 && Byte.eqb (byte_at b 1) x02.

Lemma de_header_ok b :
  header_prefix_ok b = true ->
  de_header b = Ok (spec_header (firstn 20 (skipn 2 b)) (byte_at b 22), skipn 23 b).
Proof.
  unfold header_prefix_ok. rewrite !andb_true_iff, Nat.leb_le, !byte_eqb_eq.
  intros [[H H0] H1].
  destruct b as [|x0 [|x1 b]]; cbn [length] in H; try lia.
  cbn [byte_at nth] in H0, H1. subst x0 x1.
  unfold de_header, deserialize_tuple.
  rewrite next_required_ok by (unfold USIZE_MAX; lia). cbn [de_u8 bind].
  rewrite next_required_ok by (unfold USIZE_MAX; lia). cbn [de_u8 bind].
  change (bytes_eqb [x00; x02] (bs [0%N; 2%N])) with true. cbn iota.
  rewrite fill_u8_spec by (unfold USIZE_MAX; lia).
  destruct (Nat.ltb_spec (length b) 20); [lia|]. cbn [bind].
  rewrite next_required_ok by (unfold USIZE_MAX; cbn; lia).
  change (skipn 2 (x00 :: x02 :: b)) with b.
  change (skipn 23 (x00 :: x02 :: b)) with (skipn 21 b).
  change (byte_at (x00 :: x02 :: b) 22) with (byte_at b 20).
  rewrite de_u8_at, skipn_length.
  destruct (Nat.ltb_spec (length b - 20) 1); [lia|]. cbn [bind acc_rest].
  rewrite skipn_skipn', byte_at_skipn. reflexivity.
Qed.

Lemma de_header_err b : header_prefix_ok b = false -> exists e, de_header b = Err e.
Proof.
  intros H. unfold de_header, deserialize_tuple.
  rewrite next_required_ok by (unfold USIZE_MAX; lia).
  destruct b as [|x0 b]; cbn [de_u8 bind]; [eexists; reflexivity|].
  rewrite next_required_ok by (unfold USIZE_MAX; lia).
  destruct b as [|x1 b]; cbn [de_u8 bind]; [eexists; reflexivity|].
  destruct (bytes_eqb [x0; x1] (bs [0%N; 2%N])) eqn:E; cbn iota; [|eexists; reflexivity].
  apply bytes_eqb_eq in E. change (bs [0%N; 2%N]) with [x00; x02] in E. injection E as -> ->.
  unfold header_prefix_ok in H. cbn [byte_at nth length] in H.
  rewrite !byte_eqb_refl, !andb_true_r, Nat.leb_gt in H.
  rewrite fill_u8_spec by (unfold USIZE_MAX; lia).
  destruct (Nat.ltb_spec (length b) 20); [eexists; reflexivity|]. cbn [bind].
  rewrite next_required_ok by (unfold USIZE_MAX; cbn; lia).
  rewrite de_u8_at, skipn_length.
  destruct (Nat.ltb_spec (length b - 20) 1); [eexists; reflexivity|lia].
Qed.

Lemma slice_from_ok {A} (v : list A) i : i <= length v -> slice_from v i = Some (skipn i v).
Proof. intros H. unfold slice_from. now apply Nat.leb_le in H as ->. Qed.
Lemma slice_from_none {A} (v : list A) i : length v < i -> slice_from v i = None.
Proof. intros H. unfold slice_from. now apply Nat.leb_gt in H as ->. Qed.

Lemma peek_header_ok p i :
  i <= length p -> header_prefix_ok (skipn i p) = true ->
  peek_header (Deserializer (Packet p) i) =
    Ok (spec_header (firstn 20 (skipn (i + 2) p)) (byte_at p (i + 22))).
Proof.
  intros Hi H. unfold peek_header. cbn [pntr packet_bytes index].
  rewrite slice_from_ok by assumption. cbn [or_panic bind].
  rewrite de_header_ok by assumption. cbn [bind].
  now rewrite skipn_skipn', byte_at_skipn.
Qed.
Lemma peek_header_err p i :
  i <= length p -> header_prefix_ok (skipn i p) = false ->
  exists e, peek_header (Deserializer (Packet p) i) = Err e.
Proof.
  intros Hi H. unfold peek_header. cbn [pntr packet_bytes index].
  rewrite slice_from_ok by assumption. cbn [or_panic bind].
  destruct (de_header_err _ H) as [e ->]. now exists e.
Qed.
Lemma peek_header_panic p i :
  length p < i -> peek_header (Deserializer (Packet p) i) = Panic PSliceIndex.
Proof.
  intros Hi. unfold peek_header. cbn [pntr packet_bytes index].
  now rewrite slice_from_none.
Qed.
Lemma header_prefix_ok_iff p i :
  header_prefix_ok (skipn i p) = true <->
  i + 23 <= length p /\ byte_at p i = x00 /\ byte_at p (i + 1) = x02.
Proof.
  unfold header_prefix_ok. rewrite !andb_true_iff, Nat.leb_le, !byte_eqb_eq, skipn_length, !byte_at_skipn.
  rewrite Nat.add_0_r. lia || (split; intros; intuition lia).
Qed.

Lemma packet_new_complete size mid t :
  packet_new {| h_size := size; h_version := PyIPV8Header; h_mid_hash := Some mid; h_message_type := Some t |}
  = Ok (Packet (header_layout mid (byte_of_N t))).
Proof.
  unfold packet_new, ser_header. cbn [h_version h_mid_hash h_message_type ok_or bind bincode_serialize app].
  do 2 f_equal. cbn [bincode_write flat_map write_ev app].
  fold (bincode_write (map EvU8 mid ++ [EvU8 (byte_of_N t)])).
  rewrite bincode_write_app, bincode_write_u8s. reflexivity.
Qed.

(** ** add *)
Lemma packet_add_ok t p v :
  in_range t v -> encodable t v ->
  packet_add t p v = (Packet (packet_bytes p ++ layout t v), Ok tt).
Proof.
  intros Hr He. unfold packet_add, packet_extend.
  destruct (f_ser t (facts_of t) v Hr) as [(_ & evs & -> & W)|(N & _)]; [|contradiction].
  cbn [bincode_serialize bind]. now rewrite W.
Qed.
Lemma packet_add_err t p v :
  in_range t v -> ~ encodable t v -> exists m, packet_add t p v = (p, Err (ECustom m)).
Proof.
  intros Hr He. unfold packet_add, packet_extend.
  destruct (f_ser t (facts_of t) v Hr) as [(N & _)|(_ & m & ->)]; [contradiction|].
  now exists m.
Qed.
Lemma encodable_dec t v : in_range t v -> encodable t v \/ ~ encodable t v.
Proof.
  intros Hr. destruct (f_ser t (facts_of t) v Hr) as [(N & _)|(N & _)]; auto.
Qed.

Lemma packet_add_ok_inv t p v q r :
  in_range t v -> packet_add t p v = (q, Ok r) ->
  encodable t v /\ q = Packet (packet_bytes p ++ layout t v).
Proof.
  intros Hr H. destruct (encodable_dec t v Hr) as [He|He].
  - rewrite packet_add_ok in H by assumption. injection H as <- <-. auto.
  - destruct (packet_add_err t p v Hr He) as [m E]. rewrite E in H. discriminate.
Qed.

(** ** next_payload *)
Lemma next_payload_eq t p i :
  i <= length p ->
  next_payload t (Deserializer (Packet p) i) =
    match de t (skipn i p) with
    | Ok (v, r) => (Deserializer (Packet p) (i + length (layout t v)), Ok v)
    | Err e => (Deserializer (Packet p) i, Err e)
    | Panic q => (Deserializer (Packet p) i, Panic q)
    end.
Proof.
  intros Hi. unfold next_payload. cbn [pntr packet_bytes index].
  rewrite slice_from_ok by assumption. cbn [or_panic bind].
  destruct (de t (skipn i p)) as [[v r]| |] eqn:E; cbn [bind]; try reflexivity.
  destruct (f_ok t (facts_of t) _ _ _ E) as (c & _ & Hr & He & _).
  destruct (f_ser t (facts_of t) v Hr) as [(_ & evs & -> & W)|(N & _)]; [|contradiction].
  cbn [bincode_serialized_size bind]. now rewrite bincode_size_write, W.
Qed.
Lemma next_payload_panic t p i :
  length p < i -> next_payload t (Deserializer (Packet p) i) = (Deserializer (Packet p) i, Panic PSliceIndex).
Proof.
  intros Hi. unfold next_payload. cbn [pntr packet_bytes index].
  now rewrite slice_from_none.
Qed.

(** Written values are read back. *)
Lemma next_payload_round t pre v post :
  in_range t v -> encodable t v -> self_delimiting t = true ->
  next_payload t (Deserializer (Packet (pre ++ layout t v ++ post)) (length pre)) =
    (Deserializer (Packet (pre ++ layout t v ++ post)) (length pre + length (layout t v)),
     Ok (transmitted t v)).
Proof.
  intros Hr He Hs. rewrite next_payload_eq by (rewrite app_length; lia).
  rewrite skipn_app_exact by reflexivity.
  rewrite (f_round t (facts_of t)) by assumption.
  now rewrite (f_transmitted t (facts_of t)).
Qed.
Lemma next_payload_round_end t pre v :
  in_range t v -> encodable t v -> raw_at_end_only t = true ->
  next_payload t (Deserializer (Packet (pre ++ layout t v)) (length pre)) =
    (Deserializer (Packet (pre ++ layout t v)) (length pre + length (layout t v)),
     Ok (transmitted t v)).
Proof.
  intros Hr He Hs. rewrite next_payload_eq by (rewrite app_length; lia).
  rewrite skipn_app_exact by reflexivity.
  rewrite (f_round_end t (facts_of t)) by assumption.
  now rewrite (f_transmitted t (facts_of t)).
Qed.

(** ** Types *)

Lemma self_delimiting_raw_at_end :
  (forall t, self_delimiting t = true -> raw_at_end_only t = true) /\
  (forall fs, all_self_delimiting fs = true -> raw_at_end_onlys fs = true /\ all_raw_at_end_only fs = true).
Proof.
  apply ty_tys_ind; try reflexivity.
  - intros fs IH H. now apply IH.
  - intros t IH. exact IH.
  - intros t IH H. exact H.
  - intros fs IH H. now apply IH.
  - now split.
  - intros t IHt fs IHfs H. cbn [all_self_delimiting] in H. apply andb_true_iff in H as [H1 H2].
    destruct (IHfs H2) as [I1 I2].
    cbn [raw_at_end_onlys all_raw_at_end_only]. rewrite (IHt H1), I2. split; [|reflexivity].
    destruct fs; [auto|]. now rewrite H1, I1.
Qed.

Lemma encodable_iff_all :
  (forall t (v : tval t), encodable t v <-> ~ mentions_ipv6 t v /\ ~ oversized t v) /\
  (forall fs,
    (forall v : tvals fs, encodables fs v <-> ~ mentions_ipv6s fs v /\ ~ oversizeds fs v) /\
    (forall v : talts fs, variant_encodable fs v <-> ~ variant_mentions_ipv6 fs v /\ ~ variant_oversized fs v)).
Proof.
  assert (D : forall a, ipv4 a <-> ~ ipv6 a).
  { intros a. unfold ipv6. destruct (ipv4_dec a); tauto. }
  apply ty_tys_ind; try (intros v; cbn; tauto).
  - intros a. cbn. rewrite D. tauto.
  - intros v. cbn. rewrite N.nlt_ge. tauto.
  - intros v. cbn. rewrite N.nlt_ge. tauto.
  - intros v. cbn. rewrite N.nlt_ge. tauto.
  - intros v. cbn. rewrite !D. tauto.
  - intros v. cbn. rewrite !D. tauto.
  - intros v. cbn. rewrite !D. tauto.
  - intros v. cbn. rewrite !D. tauto.
  - intros t IH [v|]; cbn; [apply IH|tauto].
  - intros t IH v. cbn [encodable mentions_ipv6 oversized].
    change (tval (TVec t)) with (list (tval t)) in v.
    rewrite <- !Forall_Exists_neg, !Forall_forall. setoid_rewrite IH.
    split; [intros H; split; intros x Hx; now apply H|intros [H1 H2] x Hx; auto].
  - split; [intros v; cbn; tauto|intros []].
  - intros t IHt fs [IHfs IHvs]. split.
    + intros v. cbn. rewrite IHt, IHfs. tauto.
    + intros [v|v]; cbn; auto.
Qed.

Lemma transmitted_id_all :
  (forall t (v : tval t), has_introduction t = false -> transmitted t v = v) /\
  (forall fs, have_introduction fs = false ->
    (forall v : tvals fs, transmitteds fs v = v) /\ (forall v : talts fs, variant_transmitted fs v = v)).
Proof.
  apply ty_tys_ind; try reflexivity.
  - intros v H. discriminate H.
  - intros fs IH v H. now apply IH.
  - intros t IH [v|] H; cbn; [now rewrite IH|reflexivity].
  - intros t IH v H. cbn [transmitted]. change (tval (TVec t)) with (list (tval t)) in v.
    rewrite <- (map_id v) at 2. apply map_ext. intros x. now apply IH.
  - intros fs IH v H. now apply IH.
  - split; reflexivity.
  - intros t IHt fs IHfs H. cbn [have_introduction] in H. apply orb_false_iff in H as [H1 H2].
    destruct (IHfs H2) as [I1 I2]. split.
    + intros [x xs]. cbn [transmitteds fst snd]. now rewrite IHt, I1.
    + intros [x|y]; cbn [variant_transmitted]; [now rewrite IHt|now rewrite I2].
Qed.

(** Decoding nothing. *)
Lemma de_blob_nil k : 0 < k -> de_blob k [] = Err EEof.
Proof. intros H. unfold de_blob. cbn [length]. now apply Nat.ltb_lt in H as ->. Qed.
Lemma de_nil_all :
  (forall t, (0 < min_size t -> exists e, de t [] = Err e) /\
             (min_size t = 0 -> exists v, de t [] = Ok (v, []))) /\
  (forall fs, (0 < min_sizes fs -> exists e, des_plain fs [] = Err e) /\
              (min_sizes fs = 0 -> exists v, des_plain fs [] = Ok (v, []))).
Proof.
  apply ty_tys_ind; try (split; [intros _; eexists; reflexivity|intros H; discriminate H]);
    try (intros t IH; split; [intros _; eexists; reflexivity|intros H; discriminate H]).
  - split; [cbn; lia|]. intros _. now exists (RawEnd []).
  - intros fs IH. destruct IH as [I1 I2]. split.
    + intros H. destruct (I1 H) as [e E]. exists e. now rewrite de_struct.
    + intros H. destruct (I2 H) as [v E]. exists v. now rewrite de_struct.
  - split; [cbn; lia|]. intros _. now exists tt.
  - intros t [T1 T2] fs [F1 F2]. split; cbn [min_sizes des_plain].
    + intros H. destruct (Nat.eq_dec (min_size t) 0) as [E|E].
      * destruct (T2 E) as [v ->]. cbn [bind]. destruct F1 as [e ->]; [lia|]. now exists e.
      * destruct T1 as [e ->]; [lia|]. now exists e.
    + intros H. destruct T2 as [v ->]; [lia|]. cbn [bind]. destruct F2 as [vs ->]; [lia|].
      now exists (v, vs).
Qed.

(** ** Cursor *)
Lemma next_payload_cursor t p i :
  i <= length p ->
  exists j, i <= j <= length p /\ fst (next_payload t (Deserializer (Packet p) i)) = Deserializer (Packet p) j.
Proof.
  intros Hi. rewrite next_payload_eq by assumption.
  destruct (de t (skipn i p)) as [[v r]| |] eqn:E; try (exists i; split; [lia|reflexivity]).
  destruct (f_ok t (facts_of t) _ _ _ E) as (c & Hc & _ & _ & _ & L & _).
  exists (i + length (layout t v)). split; [|reflexivity].
  apply (f_equal (@length byte)) in Hc. rewrite skipn_length, app_length in Hc. lia.
Qed.

Lemma next_payload_consumes t p i j v :
  i <= length p ->
  next_payload t (Deserializer (Packet p) i) = (Deserializer (Packet p) j, Ok v) ->
  exists c r, skipn i p = c ++ r /\ de t (skipn i p) = Ok (v, r) /\
    j = i + length (layout t v) /\ length (layout t v) <= length c /\
    in_range t v /\ encodable t v /\ transmitted t v = v /\
    (has_auth t = false -> length (layout t v) = length c) /\
    (has_auth t = false -> has_introduction t = false -> layout t v = c) /\
    (self_delimiting t = true -> forall y, de t (c ++ y) = Ok (v, y)).
Proof.
  intros Hi. rewrite next_payload_eq by assumption.
  destruct (de t (skipn i p)) as [[v' r]| |] eqn:E; try discriminate.
  intros [= <- <-].
  destruct (f_ok t (facts_of t) _ _ _ E) as (c & Hc & R & N & T & L & A & X & S).
  exists c, r. repeat split; auto.
Qed.
